(** Editing positions, and the default methods of the position traits for everything that has a position.
    Models src/is_editable_2d.rs, src/is_editable_3d.rs, src/is_buildable_2d.rs, src/is_buildable_3d.rs,
    src/is_buildable_nd.rs and their implementations in src/point_2d.rs, src/point_3d.rs, src/circle.rs, src/sphere.rs,
    src/box_2d.rs, src/box_3d.rs, src/filter_circle.rs, src/filter_sphere.rs, src/filter_box_2d.rs, src/filter_box_3d.rs,
    and the line and segment types. *)
From Verif Require Import Base Num BBoxModel KdModel FilterModel VecModel LineModel MatrixModel WrapModel ShapeModel CloudModel.
Local Open Scope num_scope.

(** ** 3D *)
Section Edit3.
Context {NM : Num}.
(** What a type provides to be edited: Is3D, src/is_3d.rs:30-36, IsND, src/is_nd.rs:28-35,
    IsBuildable3D, src/is_buildable_3d.rs:33-39, IsBuildableND::new_nd, src/is_buildable_nd.rs:31-32, and
    IsEditable3D, src/is_editable_3d.rs:30-36.  The methods of the traits become fields; `&mut self` becomes a result. *)
Record pos3 (A : Type) : Type := mkP3 {
  g3x : A -> T NM; g3y : A -> T NM; g3z : A -> T NM;
  s3x : A -> T NM -> A; s3y : A -> T NM -> A; s3z : A -> T NM -> A;
  new3 : T NM -> T NM -> T NM -> A;
  nd3 : A -> N -> option (T NM)
}.
Arguments g3x {A}. Arguments g3y {A}. Arguments g3z {A}. Arguments s3x {A}. Arguments s3y {A}. Arguments s3z {A}.
Arguments new3 {A}. Arguments nd3 {A}.

(** Models Is3D, IsND, IsEditable3D and IsBuildable3D for Point3D, src/point_3d.rs:235-263, 294-298, 323-338. *)
Definition pos3_point : pos3 (pt3 NM) := mkP3 (pt3 NM) px py pz
  (fun p v => mk3 v (py p) (pz p)) (fun p v => mk3 (px p) v (pz p)) (fun p v => mk3 (px p) (py p) v)
  mk3 pt3_position_nd.
(** A shape with another center (src/sphere.rs:34, src/box_3d.rs:34; the setters of the shapes call those of the center). *)
Definition sphere_at (s : sphere NM) (p : pt3 NM) : sphere NM := mksphere p (sph_radius s).
(** The same for Box3D (src/box_3d.rs:34). *)
Definition box3_at (b : box3d NM) (p : pt3 NM) : box3d NM := mkbox3d p (box_sx b) (box_sy b) (box_sz b).
(** Models the traits for Sphere, src/sphere.rs:53-78, 98-105, 122-137 (z() reads y), and FilterSphere,
    src/filter_sphere.rs:42-67, 84-88, 105-120, which passes everything on. *)
Definition pos3_sphere : pos3 (sphere NM) := mkP3 (sphere NM) sph_x sph_y sph_z
  (fun s v => sphere_at s (s3x pos3_point (sph_center s) v)) (fun s v => sphere_at s (s3y pos3_point (sph_center s) v))
  (fun s v => sphere_at s (s3z pos3_point (sph_center s) v)) sphere_new sphere_position_nd.
(** Models IsBuildable3D::new for Box3D, src/box_3d.rs:135-142. *)
Definition box3_new (x y z : T NM) : box3d NM := mkbox3d (mk3 x y z) pos_one pos_one pos_one.
(** Models the traits for Box3D, src/box_3d.rs:86-111, 133-142, 159-174, and FilterBox3D, src/filter_box_3d.rs:44-69,
    86-90, 107-122, which passes everything on. *)
Definition pos3_box : pos3 (box3d NM) := mkP3 (box3d NM)
  (fun b => px (box_center b)) (fun b => py (box_center b)) (fun b => pz (box_center b))
  (fun b v => box3_at b (s3x pos3_point (box_center b) v)) (fun b v => box3_at b (s3y pos3_point (box_center b) v))
  (fun b v => box3_at b (s3z pos3_point (box_center b) v)) box3_new (fun b d => pt3_position_nd (box_center b) d).

Section Defaults.
Context {A : Type} (E : pos3 A).
(** What every function taking an Is3D sees of the object: Is3D::xyz, src/is_3d.rs:40-42. *)
Definition seen3 (a : A) : pt3 NM := mk3 (g3x E a) (g3y E a) (g3z E a).
(** Models IsEditable3D::set_xyz, src/is_editable_3d.rs:40-44. *)
Definition set_xyz (a : A) (x y z : T NM) : A := s3z E (s3y E (s3x E a x) y) z.
(** Models IsEditable3D::set_xy, set_xz and set_yz, src/is_editable_3d.rs:47-62. *)
Definition set3_xy (a : A) (x y : T NM) : A := s3y E (s3x E a x) y.
(** Models IsEditable3D::set_xz, src/is_editable_3d.rs:47-62. *)
Definition set3_xz (a : A) (x z : T NM) : A := s3z E (s3x E a x) z.
(** Models IsEditable3D::set_yz, src/is_editable_3d.rs:47-62. *)
Definition set3_yz (a : A) (y z : T NM) : A := s3z E (s3y E a y) z.
(** Models IsEditable3D::increase_distance_to_by, src/is_editable_3d.rs:64-73. *)
Definition edit3_increase (a : A) (o : pt3 NM) (factor : T NM) : A :=
  let x := px o + factor * (g3x E a - px o) in
  let y := py o + factor * (g3y E a - py o) in
  let z := pz o + factor * (g3z E a - pz o) in
  set_xyz a x y z.
(** Models IsEditable3D::add, src/is_editable_3d.rs:76-86. *)
Definition edit3_add (a : A) (o : pt3 NM) : A :=
  let x := g3x E a + px o in let y := g3y E a + py o in let z := g3z E a + pz o in
  s3z E (s3y E (s3x E a x) y) z.
(** Models IsEditable3D::subtract, src/is_editable_3d.rs:89-99. *)
Definition edit3_subtract (a : A) (o : pt3 NM) : A :=
  let x := g3x E a - px o in let y := g3y E a - py o in let z := g3z E a - pz o in
  s3z E (s3y E (s3x E a x) y) z.
(** Models IsEditable3D::scale_pos, src/is_editable_3d.rs:102-109. *)
Definition edit3_scale_pos (a : A) (val : T NM) : A :=
  let x := val * g3x E a in let y := val * g3y E a in let z := val * g3z E a in
  s3z E (s3y E (s3x E a x) y) z.
(** Models IsBuildable3D::new_from, src/is_buildable_3d.rs:43-48. *)
Definition build3_new_from (o : pt3 NM) : A := new3 E (px o) (py o) (pz o).
(** Models IsBuildable3D::multiply_m, src/is_buildable_3d.rs:51-65. *)
Definition build3_multiply_m (a : A) (m : mat4 NM) : A :=
  let x := g3x E a * m4_00 m + g3y E a * m4_01 m + g3z E a * m4_02 m + m4_03 m in
  let y := g3x E a * m4_10 m + g3y E a * m4_11 m + g3z E a * m4_12 m + m4_13 m in
  let z := g3x E a * m4_20 m + g3y E a * m4_21 m + g3z E a * m4_22 m + m4_23 m in
  new3 E x y z.
(** Models IsBuildable3D::normalized, src/is_buildable_3d.rs:67-73. *)
Definition build3_normalized (a : A) : res A :=
  obind (abs3 (seen3 a)) (fun l =>
  if l == n0 then Err NormalizeVecWithoutLength else Ok (new3 E (g3x E a / l) (g3y E a / l) (g3z E a / l))).
(** Models IsBuildable3D::zero, src/is_buildable_3d.rs:76-78. *)
Definition build3_zero : A := new3 E n0 n0 n0.
(** Models IsBuildable3D::center, src/is_buildable_3d.rs:94-103. *)
Definition build3_center (a : A) (o : pt3 NM) : A :=
  new3 E (nhalf * (g3x E a + px o)) (nhalf * (g3y E a + py o)) (nhalf * (g3z E a + pz o)).
End Defaults.

(** Models IsBuildable3D::from for Point3D, src/point_3d.rs:301-308, Sphere, src/sphere.rs:108-113, and Box3D,
    src/box_3d.rs:145-150: the center takes x(), y(), z() of the other object. *)
Definition point3_from (p o : pt3 NM) : pt3 NM := mk3 (px o) (py o) (pz o).
(** Models from for Sphere, src/sphere.rs:108-113 (FilterSphere, src/filter_sphere.rs:91-96, passes it on). *)
Definition sphere_from (s : sphere NM) (o : pt3 NM) : sphere NM := sphere_at s (point3_from (sph_center s) o).
(** Models from for Box3D, src/box_3d.rs:145-150 (FilterBox3D, src/filter_box_3d.rs:93-98, passes it on). *)
Definition box3_from (b : box3d NM) (o : pt3 NM) : box3d NM := box3_at b (point3_from (box_center b) o).

(** Models IsBuildableND::new_nd for Point3D, src/point_3d.rs:267-276. *)
Definition point3_new_nd (coords : list (T NM)) : res (pt3 NM) :=
  match coords with [x; y; z] => Ok (mk3 x y z) | _ => Err DimensionsDontMatch end.
(** Models IsBuildableND::new_nd for Sphere, src/sphere.rs:82-87, and Box3D, src/box_3d.rs:115-122. *)
Definition sphere_new_nd (coords : list (T NM)) : res (sphere NM) :=
  obind (point3_new_nd coords) (fun c => Ok (mksphere c pos_one)).
(** Models new_nd for Box3D, src/box_3d.rs:115-122 (FilterBox3D, src/filter_box_3d.rs:73-75, wraps it). *)
Definition box3_new_nd (coords : list (T NM)) : res (box3d NM) :=
  obind (point3_new_nd coords) (fun c => Ok (mkbox3d c pos_one pos_one pos_one)).
(** Models IsBuildableND::from_nd for Point3D, src/point_3d.rs:279-291: the point after the call, and the result.  The other
    object is its number of dimensions and its position_nd. *)
Definition point3_from_nd (p : pt3 NM) (dims : N) (o : N -> option (T NM)) : pt3 NM * res unit :=
  if negb (N.eqb dims 3) then (p, Err DimensionsDontMatch)
  else match o 0%N with None => (p, Err IncorrectDimension) | Some x =>
    let p := mk3 x (py p) (pz p) in
    match o 1%N with None => (p, Err IncorrectDimension) | Some y =>
    let p := mk3 (px p) y (pz p) in
    match o 2%N with None => (p, Err IncorrectDimension) | Some z => (mk3 (px p) (py p) z, Ok tt) end end end.
(** Models IsEditableND::set_position for Point3D, src/point_3d.rs:312-320. *)
Definition point3_set_position (p : pt3 NM) (d : N) (v : T NM) : pt3 NM * res unit :=
  match d with
  | 0%N => (mk3 v (py p) (pz p), Ok tt) | 1%N => (mk3 (px p) v (pz p), Ok tt) | 2%N => (mk3 (px p) (py p) v, Ok tt)
  | _ => (p, Err DimensionsDontMatch)
  end.
(** Models from_nd of Sphere, src/sphere.rs:90-95, and Box3D, src/box_3d.rs:125-130. *)
Definition sphere_from_nd (s : sphere NM) (dims : N) (o : N -> option (T NM)) : sphere NM * res unit :=
  let '(c, r) := point3_from_nd (sph_center s) dims o in (sphere_at s c, r).
(** Models from_nd for Box3D, src/box_3d.rs:125-130 (FilterBox3D, src/filter_box_3d.rs:78-83, passes it on). *)
Definition box3_from_nd (b : box3d NM) (dims : N) (o : N -> option (T NM)) : box3d NM * res unit :=
  let '(c, r) := point3_from_nd (box_center b) dims o in (box3_at b c, r).
(** Models set_position of Sphere, src/sphere.rs:117-119, and Box3D, src/box_3d.rs:154-156. *)
Definition sphere_set_position (s : sphere NM) (d : N) (v : T NM) : sphere NM * res unit :=
  let '(c, r) := point3_set_position (sph_center s) d v in (sphere_at s c, r).
(** Models set_position for Box3D, src/box_3d.rs:154-156 (FilterBox3D, src/filter_box_3d.rs:102-104, passes it on). *)
Definition box3_set_position (b : box3d NM) (d : N) (v : T NM) : box3d NM * res unit :=
  let '(c, r) := point3_set_position (box_center b) d v in (box3_at b c, r).

(** Models IsBuildableND::center_nd, src/is_buildable_nd.rs:45-64, for an object of [n] dimensions; the buffer only saves an
    allocation. *)
Fixpoint center_nd_go (p o : N -> option (T NM)) (k : nat) (i : N) (buffer : list (T NM)) : res (list (T NM)) :=
  match k with
  | O => Ok buffer
  | S k => match p i with None => Err IncorrectDimension | Some a =>
           match o i with None => Err IncorrectDimension | Some b =>
           center_nd_go p o k (i + 1)%N (buffer ++ [nhalf * (a + b)]) end end
  end.
(** Models IsBuildableND::center_nd, src/is_buildable_nd.rs:45-64: dimensions have to agree. *)
Definition center_nd {A} (new_nd : list (T NM) -> res A) (n m : N) (p o : N -> option (T NM)) : res A :=
  if negb (N.eqb n m) then Err IncorrectDimension
  else obind (center_nd_go p o (N.to_nat n) 0 []) new_nd.
(** Models IsBuildableND::zero_nd, src/is_buildable_nd.rs:40-43 (with the unwrap). *)
Definition zero_nd {A} (new_nd : list (T NM) -> res A) (n : N) : res A :=
  unwrap_res (new_nd (repeat n0 (N.to_nat n))).

(** Models IsScalable for Box3D, src/box_3d.rs:198-204 (FilterBox3D passes it on, src/filter_box_3d.rs:150-154). *)
Definition box3_scale (b : box3d NM) (f : T NM) : box3d NM :=
  mkbox3d (box_center b) (pos_mul (box_sx b) f) (pos_mul (box_sy b) f) (pos_mul (box_sz b) f).
(** Models IsMovable3D for Box3D, src/box_3d.rs:206-210. *)
Definition box3_move_by (b : box3d NM) (x y z : T NM) : box3d NM := box3_at b (pt3_move_by (box_center b) x y z).

(** Models the operators of Point3D: Mul<f64>, src/point_3d.rs:155-177, Div<f64>, 179-201, Neg, 203-225.  Add and Sub
    (77-153) are pt3_add and pt3_sub. *)
Definition pt3_div (a : pt3 NM) (k : T NM) : pt3 NM := mk3 (px a / k) (py a / k) (pz a / k).
(** Models Neg for Point3D, src/point_3d.rs:203-225. *)
Definition pt3_neg (a : pt3 NM) : pt3 NM := mk3 (- px a) (- py a) (- pz a).
End Edit3.
Arguments g3x {NM A}. Arguments g3y {NM A}. Arguments g3z {NM A}. Arguments s3x {NM A}. Arguments s3y {NM A}. Arguments s3z {NM A}.
Arguments new3 {NM A}. Arguments nd3 {NM A}. Arguments pos3 : clear implicits.

(** ** 2D *)
Section Edit2.
Context {NM : Num}.
(** The same for the plane: Is2D, src/is_2d.rs:30-34, IsND, IsBuildable2D, src/is_buildable_2d.rs:33-41, IsEditable2D,
    src/is_editable_2d.rs:30-34. *)
Record pos2 (A : Type) : Type := mkP2 {
  g2x : A -> T NM; g2y : A -> T NM; s2x : A -> T NM -> A; s2y : A -> T NM -> A;
  new2 : T NM -> T NM -> A; nd2 : A -> N -> option (T NM)
}.
Arguments g2x {A}. Arguments g2y {A}. Arguments s2x {A}. Arguments s2y {A}. Arguments new2 {A}. Arguments nd2 {A}.

(** Models Point2D::position_nd, src/point_2d.rs:224-230. *)
Definition pt2_position_nd (p : pt2 NM) (d : N) : option (T NM) :=
  match d with 0%N => Some (x2 p) | 1%N => Some (y2 p) | _ => None end.
(** Models the traits for Point2D, src/point_2d.rs:219-243, 272-276, 299-309. *)
Definition pos2_point : pos2 (pt2 NM) :=
  mkP2 (pt2 NM) x2 y2 (fun p v => mk2 v (y2 p)) (fun p v => mk2 (x2 p) v) mk2 pt2_position_nd.
(** A shape with another center (src/circle.rs:34, src/box_2d.rs:34). *)
Definition circle_at (c : circle NM) (p : pt2 NM) : circle NM := mkcircle p (cir_radius c).
(** The same for Box2D (src/box_2d.rs:34). *)
Definition box2_at (b : box2d NM) (p : pt2 NM) : box2d NM := mkbox2d p (box2_sx b) (box2_sy b).
(** Models the traits for Circle, src/circle.rs:53-73, 93-100, 117-127, and FilterCircle, src/filter_circle.rs:43-63,
    80-84, 101-111, which passes everything on. *)
Definition pos2_circle : pos2 (circle NM) := mkP2 (circle NM)
  (fun c => x2 (cir_center c)) (fun c => y2 (cir_center c))
  (fun c v => circle_at c (s2x pos2_point (cir_center c) v)) (fun c v => circle_at c (s2y pos2_point (cir_center c) v))
  (fun x y => mkcircle (mk2 x y) pos_one) (fun c d => pt2_position_nd (cir_center c) d).
(** Models the traits for Box2D, src/box_2d.rs:80-100, 121-129, 146-156, and FilterBox2D, src/filter_box_2d.rs:44-64,
    81-85, 102-112, which passes everything on. *)
Definition pos2_box : pos2 (box2d NM) := mkP2 (box2d NM)
  (fun b => x2 (box2_center b)) (fun b => y2 (box2_center b))
  (fun b v => box2_at b (s2x pos2_point (box2_center b) v)) (fun b v => box2_at b (s2y pos2_point (box2_center b) v))
  (fun x y => mkbox2d (mk2 x y) pos_one pos_one) (fun b d => pt2_position_nd (box2_center b) d).

Section Defaults.
Context {A : Type} (E : pos2 A).
(** What every function taking an Is2D sees of the object: Is2D::xy, src/is_2d.rs:38-40. *)
Definition seen2 (a : A) : pt2 NM := mk2 (g2x E a) (g2y E a).
(** Models IsEditable2D::set_xy, src/is_editable_2d.rs:38-41. *)
Definition set_xy (a : A) (x y : T NM) : A := s2y E (s2x E a x) y.
(** Models IsEditable2D::increase_distance_to_by, src/is_editable_2d.rs:44-52. *)
Definition edit2_increase (a : A) (o : pt2 NM) (factor : T NM) : A :=
  let x := x2 o + factor * (g2x E a - x2 o) in
  let y := y2 o + factor * (g2y E a - y2 o) in
  set_xy a x y.
(** Models IsEditable2D::add, src/is_editable_2d.rs:55-63. *)
Definition edit2_add (a : A) (o : pt2 NM) : A :=
  let x := g2x E a + x2 o in let y := g2y E a + y2 o in s2y E (s2x E a x) y.
(** Models IsEditable2D::subtract, src/is_editable_2d.rs:66-74. *)
Definition edit2_subtract (a : A) (o : pt2 NM) : A :=
  let x := g2x E a - x2 o in let y := g2y E a - y2 o in s2y E (s2x E a x) y.
(** Models IsEditable2D::scale_pos, src/is_editable_2d.rs:77-82. *)
Definition edit2_scale_pos (a : A) (val : T NM) : A :=
  let x := val * g2x E a in let y := val * g2y E a in s2y E (s2x E a x) y.
(** Models IsEditable2D::rotate, src/is_editable_2d.rs:85-97. *)
Definition edit2_rotate (tr : Trig NM) (a : A) (rad : T NM) (center : pt2 NM) : A :=
  let newx := x2 center + ncos tr rad * (g2x E a - x2 center) - nsin tr rad * (g2y E a - y2 center) in
  let newy := y2 center + nsin tr rad * (g2x E a - x2 center) + ncos tr rad * (g2y E a - y2 center) in
  s2y E (s2x E a newx) newy.
(** Models IsBuildable2D::center, src/is_buildable_2d.rs:85-90. *)
Definition build2_center (a : A) (o : pt2 NM) : A := new2 E (nhalf * (g2x E a + x2 o)) (nhalf * (g2y E a + y2 o)).
(** Models IsBuildable2D::multiply_m, src/is_buildable_2d.rs:65-69. *)
Definition build2_multiply_m (a : A) (m : mat3 NM) : A :=
  new2 E (g2x E a * m3_00 m + g2y E a * m3_01 m + m3_02 m) (g2x E a * m3_10 m + g2y E a * m3_11 m + m3_12 m).
End Defaults.

(** Models IsScalable for Circle, src/circle.rs:149-153, and Box2D, src/box_2d.rs:178-183 (the filters pass it on,
    src/filter_circle.rs:134-138, src/filter_box_2d.rs:138-142). *)
Definition circle_scale (c : circle NM) (f : T NM) : circle NM := mkcircle (cir_center c) (pos_mul (cir_radius c) f).
(** Models scale for Box2D, src/box_2d.rs:178-183. *)
Definition box2_scale (b : box2d NM) (f : T NM) : box2d NM :=
  mkbox2d (box2_center b) (pos_mul (box2_sx b) f) (pos_mul (box2_sy b) f).
(** Models IsMovable2D for Box2D, src/box_2d.rs:185-189. *)
Definition box2_move_by (b : box2d NM) (x y : T NM) : box2d NM := box2_at b (pt2_move_by (box2_center b) x y).

(** ** Segments *)
(** Models LineSegment2D, src/line_segment_2d.rs:33-43, and LineSegment3D, src/line_segment_3d.rs:33-43. *)
Record seg (P : Type) : Type := mkseg { seg_start : P; seg_end : P }.
Arguments mkseg {P}. Arguments seg_start {P}. Arguments seg_end {P}.
(** Models center_2d, src/functions.rs:35-43, and center_3d, src/functions.rs:47-56. *)
Definition center_2d (p q : pt2 NM) : pt2 NM := mk2 (x2 p + (x2 q - x2 p) / n2) (y2 p + (y2 q - y2 p) / n2).
(** Models center_3d, src/functions.rs:47-56. *)
Definition center_3d (p q : pt3 NM) : pt3 NM :=
  mk3 (px p + (px q - px p) / n2) (py p + (py q - py p) / n2) (pz p + (pz q - pz p) / n2).
(** Models move_by, src/line_segment_2d.rs:46-49, src/line_segment_3d.rs:46-49. *)
Definition seg2_move_by (s : seg (pt2 NM)) (x y : T NM) : seg (pt2 NM) :=
  mkseg (pt2_move_by (seg_start s) x y) (pt2_move_by (seg_end s) x y).
(** Models move_by, src/line_segment_3d.rs:46-49. *)
Definition seg3_move_by (s : seg (pt3 NM)) (x y z : T NM) : seg (pt3 NM) :=
  mkseg (pt3_move_by (seg_start s) x y z) (pt3_move_by (seg_end s) x y z).
(** Models length, src/line_segment_2d.rs:53-55, src/line_segment_3d.rs:53-55. *)
Definition seg2_length (s : seg (pt2 NM)) : T NM := dist_2d (seg_start s) (seg_end s).
(** Models length, src/line_segment_3d.rs:53-55. *)
Definition seg3_length (s : seg (pt3 NM)) : T NM := dist_3d (seg_start s) (seg_end s).
(** Models bounding_box_maybe, src/line_segment_2d.rs:59-61, src/line_segment_3d.rs:59-61; from_iterator's outcome
    without the .ok(). *)
Definition seg2_bb (dbg : bool) (s : seg (pt2 NM)) : res (bb2 NM) := bb2_from_iterator dbg [seg_start s; seg_end s].
(** Models bounding_box_maybe, src/line_segment_3d.rs:59-61. *)
Definition seg3_bb (dbg : bool) (s : seg (pt3 NM)) : res (bb3 NM) := bb3_from_iterator dbg [seg_start s; seg_end s].
(** Models center_of_gravity, src/line_segment_2d.rs:65-67, src/line_segment_3d.rs:65-67. *)
Definition seg2_cog (s : seg (pt2 NM)) : option (pt2 NM) := Some (center_2d (seg_start s) (seg_end s)).
(** Models center_of_gravity, src/line_segment_3d.rs:65-67. *)
Definition seg3_cog (s : seg (pt3 NM)) : option (pt3 NM) := Some (center_3d (seg_start s) (seg_end s)).
(** Models scale, src/line_segment_2d.rs:71-76, src/line_segment_3d.rs:71-76. *)
Definition seg2_scale (dbg : bool) (s : seg (pt2 NM)) (f : T NM) : res (seg (pt2 NM)) :=
  match seg2_bb dbg s with
  | Ok b => Ok (mkseg (edit2_increase pos2_point (seg_start s) (bb2_center b) f)
                      (edit2_increase pos2_point (seg_end s) (bb2_center b) f))
  | Err _ => Ok s
  | Panic => Panic
  end.
(** Models scale, src/line_segment_3d.rs:71-76. *)
Definition seg3_scale (dbg : bool) (s : seg (pt3 NM)) (f : T NM) : res (seg (pt3 NM)) :=
  match seg3_bb dbg s with
  | Ok b => Ok (mkseg (edit3_increase pos3_point (seg_start s) (bb3_center b) f)
                      (edit3_increase pos3_point (seg_end s) (bb3_center b) f))
  | Err _ => Ok s
  | Panic => Panic
  end.
(** Models transform / transformed, src/line_segment_2d.rs:80-89, src/line_segment_3d.rs:80-89. *)
Definition seg2_transform (s : seg (pt2 NM)) (m : mat3 NM) : seg (pt2 NM) :=
  mkseg (pt2_multiply_m (seg_start s) m) (pt2_multiply_m (seg_end s) m).
(** Models transform / transformed, src/line_segment_3d.rs:80-89. *)
Definition seg3_transform (s : seg (pt3 NM)) (m : mat4 NM) : seg (pt3 NM) :=
  mkseg (pt3_multiply_m (seg_start s) m) (pt3_multiply_m (seg_end s) m).
(** Models move_by of Line3D, src/line_3d.rs:46-48, and Ray3D, src/ray_3d.rs:45-47 (the 2D types have the same body,
    src/line_2d.rs:46-48, src/ray_2d.rs:45-47). *)
Definition line3_move_by (l : line3 NM) (x y z : T NM) : line3 NM := mkline3 (pt3_move_by (anchor l) x y z) (dir l).

(** ** Ordering *)
(** Models Ord for Circle, src/circle.rs:40-51, and Sphere, src/sphere.rs:40-51. *)
Definition circle_cmp (a b : circle NM) : comparison :=
  let origin := mk2 n0 n0 in
  cmp_or_eq (or_else_cmp (ncmp (sqr_dist_2d origin (cir_center a)) (sqr_dist_2d origin (cir_center b)))
                         (ncmp (cir_radius a) (cir_radius b))).
(** Models Ord for Sphere, src/sphere.rs:41-50. *)
Definition sphere_cmp (a b : sphere NM) : comparison :=
  let origin := mk3 n0 n0 n0 in
  cmp_or_eq (or_else_cmp (ncmp (sqr_dist_3d origin (sph_center a)) (sqr_dist_3d origin (sph_center b)))
                         (ncmp (sph_radius a) (sph_radius b))).
(** Models Ord for Box2D, src/box_2d.rs:64-78, and Box3D, src/box_3d.rs:67-84. *)
Definition box2_cmp (a b : box2d NM) : comparison :=
  let origin := mk2 n0 n0 in
  cmp_or_eq (or_else_cmp (ncmp (sqr_dist_2d origin (box2_center a)) (sqr_dist_2d origin (box2_center b)))
            (or_else_cmp (ncmp (box2_sx a) (box2_sx b)) (ncmp (box2_sy a) (box2_sy b)))).
(** Models Ord for Box3D, src/box_3d.rs:68-83. *)
Definition box3_cmp (a b : box3d NM) : comparison :=
  let origin := mk3 n0 n0 n0 in
  cmp_or_eq (or_else_cmp (ncmp (sqr_dist_3d origin (box_center a)) (sqr_dist_3d origin (box_center b)))
            (or_else_cmp (ncmp (box_sx a) (box_sx b)) (or_else_cmp (ncmp (box_sy a) (box_sy b)) (ncmp (box_sz a) (box_sz b))))).
(** Models the derived PartialEq and PartialOrd of Sphere, src/sphere.rs:31, and Circle, src/circle.rs:31. *)
Definition sphere_eq (a b : sphere NM) : bool := pt3_eq (sph_center a) (sph_center b) && (sph_radius a == sph_radius b).
(** Models the derived PartialOrd of Sphere, src/sphere.rs:31. *)
Definition sphere_partial_cmp (a b : sphere NM) : option comparison :=
  lex_cmp (pt3_partial_cmp (sph_center a) (sph_center b)) (ncmp (sph_radius a) (sph_radius b)).
(** Models the derived PartialEq of Circle, src/circle.rs:31. *)
Definition circle_eq (a b : circle NM) : bool := pt2_eq (cir_center a) (cir_center b) && (cir_radius a == cir_radius b).
(** Models the derived PartialOrd of Circle, src/circle.rs:31. *)
Definition circle_partial_cmp (a b : circle NM) : option comparison :=
  lex_cmp (pt2_partial_cmp (cir_center a) (cir_center b)) (ncmp (cir_radius a) (cir_radius b)).
(** Models the derived PartialEq of Box3D, src/box_3d.rs:31, and Box2D, src/box_2d.rs:31. *)
Definition box3_eq (a b : box3d NM) : bool :=
  pt3_eq (box_center a) (box_center b) && (box_sx a == box_sx b) && (box_sy a == box_sy b) && (box_sz a == box_sz b).
(** Models the derived PartialEq of Box2D, src/box_2d.rs:31. *)
Definition box2_eq (a b : box2d NM) : bool :=
  pt2_eq (box2_center a) (box2_center b) && (box2_sx a == box2_sx b) && (box2_sy a == box2_sy b).
End Edit2.
Arguments g2x {NM A}. Arguments g2y {NM A}. Arguments s2x {NM A}. Arguments s2y {NM A}.
Arguments new2 {NM A}. Arguments nd2 {NM A}. Arguments pos2 : clear implicits.
Arguments mkseg {P}. Arguments seg_start {P}. Arguments seg_end {P}.
