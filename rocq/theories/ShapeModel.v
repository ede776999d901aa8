(** Shapes with a position, their bounding boxes, and collisions by separating axes.
    Models src/sphere.rs, src/circle.rs, src/box_2d.rs, src/box_3d.rs, src/box_unaligned_3d.rs,
    src/tri_face_3d.rs, src/sat_collider.rs, src/collider_3d.rs, src/has_colliders_3d.rs.
    The records of Sphere and Box3D are in KdModel.v, those of Circle and Box2D in FilterModel.v. *)
From Verif Require Import Base Num BBoxModel KdModel FilterModel VecModel LineModel MatrixModel WrapModel.
Local Open Scope num_scope.

Section Shape.
Context {NM : Num}.
(** Models Point3D::position_nd, src/point_3d.rs:240-247. *)
Definition pt3_position_nd (p : pt3 NM) (d : N) : option (T NM) :=
  match d with 0%N => Some (px p) | 1%N => Some (py p) | 2%N => Some (pz p) | _ => None end.
(** Models IsBuildable3D::new for Sphere, src/sphere.rs:98-105. *)
Definition sphere_new (x y z : T NM) : sphere NM := mksphere (mk3 x y z) pos_one.
(** Models position_nd of Sphere, src/sphere.rs:58-60. *)
Definition sphere_position_nd (s : sphere NM) (d : N) : option (T NM) := pt3_position_nd (sph_center s) d.
(** What every function taking an Is3D sees of a Sphere: x(), y(), z(), src/sphere.rs:63-78. *)
Definition sphere_pt (s : sphere NM) : pt3 NM := mk3 (sph_x s) (sph_y s) (sph_z s).
(** Models Is3D for FilterSphere, src/filter_sphere.rs:52-67 (z calls y of the sphere). *)
Definition filter_sphere_pt (s : sphere NM) : pt3 NM := mk3 (sph_x s) (sph_y s) (sph_y s).
(** Models scale of Sphere, src/sphere.rs:161-165. *)
Definition sphere_scale (s : sphere NM) (f : T NM) : sphere NM := mksphere (sph_center s) (pos_mul (sph_radius s) f).
(** Models bounding_box of Sphere, src/sphere.rs:139-153. *)
Definition sphere_bounding_box (s : sphere NM) : res (bb3 NM) :=
  let c := sph_center s in let r := sph_radius s in
  unwrap_res (bb3_new (mk3 (px c - r) (py c - r) (pz c - r)) (mk3 (px c + r) (py c + r) (pz c + r))).
(** Models bounding_box of Circle, src/circle.rs:129-141. *)
Definition circle_bounding_box (s : circle NM) : res (bb2 NM) :=
  let c := cir_center s in let r := cir_radius s in
  unwrap_res (bb2_new (mk2 (x2 c - r) (y2 c - r)) (mk2 (x2 c + r) (y2 c + r))).
(** Models bounding_box of Box2D, src/box_2d.rs:158-170. *)
Definition box2_bounding_box (b : box2d NM) : res (bb2 NM) :=
  let c := box2_center b in
  unwrap_res (bb2_new (mk2 (x2 c - box2_sx b / n2) (y2 c - box2_sy b / n2))
                      (mk2 (x2 c + box2_sx b / n2) (y2 c + box2_sy b / n2))).
(** Models bounding_box of Box3D, src/box_3d.rs:176-190. *)
Definition box3_bounding_box (b : box3d NM) : res (bb3 NM) :=
  let c := box_center b in
  unwrap_res (bb3_new (mk3 (px c - box_sx b / n2) (py c - box_sy b / n2) (pz c - box_sz b / n2))
                      (mk3 (px c + box_sx b / n2) (py c + box_sy b / n2) (pz c + box_sz b / n2))).
(** Models Box3D::min_p and max_p, src/box_3d.rs:42-56. *)
Definition box3_min_p (b : box3d NM) : pt3 NM :=
  let c := box_center b in mk3 (px c - nhalf * box_sx b) (py c - nhalf * box_sy b) (pz c - nhalf * box_sz b).
(** Models Box3D::max_p, src/box_3d.rs:50-56. *)
Definition box3_max_p (b : box3d NM) : pt3 NM :=
  let c := box_center b in mk3 (px c + nhalf * box_sx b) (py c + nhalf * box_sy b) (pz c + nhalf * box_sz b).
(** Models Box2D::min_p and max_p, src/box_2d.rs:41-53. *)
Definition box2_min_p (b : box2d NM) : pt2 NM :=
  let c := box2_center b in mk2 (x2 c - nhalf * box2_sx b) (y2 c - nhalf * box2_sy b).
(** Models Box2D::max_p, src/box_2d.rs:48-53. *)
Definition box2_max_p (b : box2d NM) : pt2 NM :=
  let c := box2_center b in mk2 (x2 c + nhalf * box2_sx b) (y2 c + nhalf * box2_sy b).

(** ** Objects for the separating axis test *)
(** Models IsSATObject, src/is_sat_object.rs:30-38: the points and the axes visited, in order.
    Both are computed once; visiting has no other effect. *)
Record sat_object : Type := mksat { sat_points : list (pt3 NM); sat_axes : list (pt3 NM) }.
(** One of the two closures over the points, src/sat_collider.rs:45-63: minimum and maximum of
    the dot products so far. *)
Definition sat_visit (axis : pt3 NM) (s : option (T NM) * option (T NM)) (p : pt3 NM) : option (T NM) * option (T NM) :=
  let x := dot3 p axis in
  (match fst s with None => Some x | Some mn => if x < mn then Some x else Some mn end,
   match snd s with None => Some x | Some mx => if x > mx then Some x else Some mx end).
(** The interval of the projections, src/sat_collider.rs:44-63 (for b: 64-82). *)
Definition sat_range (axis : pt3 NM) (ps : list (pt3 NM)) : option (T NM) * option (T NM) :=
  fold_left (sat_visit axis) ps (None, None).
(** The decision on one axis, src/sat_collider.rs:84-91: true when the projections are apart. *)
Definition sat_apart (a b : sat_object) (axis : pt3 NM) : bool :=
  match sat_range axis (sat_points a), sat_range axis (sat_points b) with
  | (Some mina, Some maxa), (Some minb, Some maxb) => (maxa < minb) || (maxb < mina)
  | _, _ => false
  end.
(** The closure over the axes, src/sat_collider.rs:42-93: once apart it stays so. *)
Definition sat_step (a b : sat_object) (all_overlap : bool) (axis : pt3 NM) : bool :=
  if all_overlap then negb (sat_apart a b axis) else all_overlap.
(** Models SATCollider::collide, src/sat_collider.rs:35-98. *)
Definition sat_collide (a b : sat_object) : bool :=
  fold_left (sat_step a b) (sat_axes b) (fold_left (sat_step a b) (sat_axes a) true).

(** Models IsSATObject for BoundingBox3D, src/bounding_box_3d.rs:484-510. *)
Definition sat_of_bb (b : bb3 NM) : res sat_object :=
  obind norm3_x (fun ax => obind norm3_y (fun ay => obind norm3_z (fun az =>
  Ok (mksat (bb3_corners b) [ax; ay; az])))).

(** `Norm3D::new(v).unwrap_or(Norm3D::norm_z())`, e.g. src/tri_face_3d.rs:79. *)
Definition norm3_or_z (v : pt3 NM) : res (pt3 NM) :=
  match norm3_new v with
  | Ok n => obind norm3_z (fun _ : pt3 NM => Ok n)
  | Err _ => norm3_z
  | Panic => Panic
  end.
(** Models TriFace3D, src/tri_face_3d.rs:30-34. *)
Record tri : Type := mktri { tri_a : pt3 NM; tri_b : pt3 NM; tri_c : pt3 NM }.
(** Models TriFace3D::new, src/tri_face_3d.rs:39-44. *)
Definition tri_new (dbg : bool) (a b c : pt3 NM) : res tri :=
  match bb3_from_iterator dbg [a; b; c] with
  | Ok _ => Ok (mktri a b c)
  | Err _ => Err TriFace3DNotSpanningVolume
  | Panic => Panic
  end.
(** Models bounding_box of TriFace3D, src/tri_face_3d.rs:93-98. *)
Definition tri_bounding_box (dbg : bool) (t : tri) : res (bb3 NM) :=
  unwrap_res (bb3_from_iterator dbg [tri_a t; tri_b t; tri_c t]).
(** Models IsSATObject for TriFace3D, src/tri_face_3d.rs:61-89. *)
Definition sat_of_tri (t : tri) : res sat_object :=
  let vab := conn (tri_a t) (tri_b t) in
  let vbc := conn (tri_b t) (tri_c t) in
  let vca := conn (tri_c t) (tri_a t) in
  obind (norm3_or_z (cross3 vab vbc)) (fun n =>
  obind (norm3_or_z (cross3 n vab)) (fun e1 =>
  obind (norm3_or_z (cross3 n vbc)) (fun e2 =>
  obind (norm3_or_z (cross3 n vca)) (fun e3 =>
  Ok (mksat [tri_a t; tri_b t; tri_c t] [n; e1; e2; e3]))))).

(** Models BoxUnaligned3D, src/box_unaligned_3d.rs:31-37 (the array of three sizes as fields). *)
Record ubox : Type := mkubox { ub_center : pt3 NM; ub_y : pt3 NM; ub_z : pt3 NM; ub_sx : T NM; ub_sy : T NM; ub_sz : T NM }.
(** Models BoxUnaligned3D::new_from_bb, src/box_unaligned_3d.rs:42-54. *)
Definition ubox_from_bb (b : bb3 NM) : res ubox :=
  obind norm3_y (fun y => obind norm3_z (fun z =>
  obind (bb3_size_x b) (fun sx => obind (bb3_size_y b) (fun sy => obind (bb3_size_z b) (fun sz =>
  Ok (mkubox (bb3_center b) y z sx sy sz)))))).
(** Models rot2d, src/box_unaligned_3d.rs:164-172. *)
Definition rot2d (tr : Trig NM) (p : pt3 NM) (phi : T NM) : pt3 NM :=
  let s := nsin tr (- phi) in let c := ncos tr (- phi) in
  mk3 (px p * c - py p * s) (px p * s + py p * c) (pz p).
(** Models BoxUnaligned3D::new_from_z_rotation, src/box_unaligned_3d.rs:55-69. *)
Definition ubox_from_z_rotation (tr : Trig NM) (center : pt3 NM) (sx sy sz rotation : T NM) : res ubox :=
  obind norm3_z (fun z =>
  obind (unwrap_res (norm3_new (rot2d tr (mk3 n0 n1 n0) rotation))) (fun y =>
  Ok (mkubox center y z sx sy sz))).
(** Models BoxUnaligned3D::x_dir, src/box_unaligned_3d.rs:82-84. *)
Definition ubox_x_dir (u : ubox) : res (pt3 NM) := norm3_or_z (cross3 (ub_z u) (ub_y u)).
(** `&Point3D - Point3D`, src/point_3d.rs:113-153. *)
Definition pt3_sub (a b : pt3 NM) : pt3 NM := mk3 (px a - px b) (py a - py b) (pz a - pz b).
(** `Point3D * f64`, src/point_3d.rs:155-165. *)
Definition pt3_mul (a : pt3 NM) (k : T NM) : pt3 NM := mk3 (k * px a) (k * py a) (k * pz a).
(** Models IsSATObject for BoxUnaligned3D, src/box_unaligned_3d.rs:97-126, with d_x, d_y, d_z
    (70-81): the full sizes, not half of them. *)
Definition ubox_points (u : ubox) (x_dir : pt3 NM) : list (pt3 NM) :=
  let c := ub_center u in
  let dx := pt3_mul x_dir (ub_sx u) in
  let dy := pt3_mul (ub_y u) (ub_sy u) in
  let dz := pt3_mul (ub_z u) (ub_sz u) in
  [ pt3_sub (pt3_sub c dx) (pt3_sub dy dz); pt3_sub (pt3_sub c dx) (pt3_add dy dz);
    pt3_add (pt3_sub c dx) (pt3_sub dy dz); pt3_add (pt3_sub c dx) (pt3_add dy dz);
    pt3_sub (pt3_add c dx) (pt3_sub dy dz); pt3_sub (pt3_add c dx) (pt3_add dy dz);
    pt3_add (pt3_add c dx) (pt3_sub dy dz); pt3_add (pt3_add c dx) (pt3_add dy dz) ].
(** The object itself, src/box_unaligned_3d.rs:97-126. *)
Definition sat_of_ubox (u : ubox) : res sat_object :=
  obind (ubox_x_dir u) (fun x => Ok (mksat (ubox_points u x) [x; ub_y u; ub_z u])).
(** Models bounding_box of BoxUnaligned3D, src/box_unaligned_3d.rs:130-154. *)
Definition ubox_bounding_box (u : ubox) : res (bb3 NM) :=
  let m := ub_sx u in
  let m := if ub_sy u > m then ub_sy u else m in
  let m := if ub_sz u > m then ub_sz u else m in
  let c := ub_center u in
  unwrap_res (bb3_new (mk3 (px c - nhalf * m) (py c - nhalf * m) (pz c - nhalf * m))
                      (mk3 (px c + nhalf * m) (py c + nhalf * m) (pz c + nhalf * m))).
(** Models move_by of BoxUnaligned3D, src/box_unaligned_3d.rs:89-93. *)
Definition ubox_move_by (u : ubox) (x y z : T NM) : ubox :=
  mkubox (pt3_move_by (ub_center u) x y z) (ub_y u) (ub_z u) (ub_sx u) (ub_sy u) (ub_sz u).

(** ** Colliders *)
(** Models Collider3D, src/collider_3d.rs:30-35. *)
Inductive collider : Type := CAABB (b : bb3 NM) | CBox (u : ubox) | CFace (t : tri).
(** `SATCollider::collide(a, b)` with the objects built on the way. *)
Definition sat_collide_res (a b : res sat_object) : res bool :=
  obind a (fun a => obind b (fun b => Ok (sat_collide a b))).
(** Models Collider3D::collides_with, src/collider_3d.rs:39-58. *)
Definition collider_collides (a b : collider) : res bool :=
  match a, b with
  | CAABB a, CAABB b => bb3_collides_with a b
  | CAABB a, CBox b | CBox b, CAABB a => sat_collide_res (sat_of_bb a) (sat_of_ubox b)
  | CAABB a, CFace b | CFace b, CAABB a => sat_collide_res (sat_of_bb a) (sat_of_tri b)
  | CBox a, CBox b => sat_collide_res (sat_of_ubox a) (sat_of_ubox b)
  | CBox a, CFace b | CFace b, CBox a => sat_collide_res (sat_of_ubox a) (sat_of_tri b)
  | CFace a, CFace b => sat_collide_res (sat_of_tri a) (sat_of_tri b)
  end.
(** Models bounding_box of Collider3D, src/collider_3d.rs:62-70. *)
Definition collider_bounding_box (dbg : bool) (c : collider) : res (bb3 NM) :=
  match c with
  | CAABB b => Ok b
  | CBox u => ubox_bounding_box u
  | CFace t => tri_bounding_box dbg t
  end.
End Shape.
Arguments sat_object : clear implicits.
Arguments tri : clear implicits.
Arguments ubox : clear implicits.
Arguments collider : clear implicits.
