(** Comparing and hashing of values: what `#[derive(PartialEq, PartialOrd, Ord, Hash)]` makes of the fields of a type.
    Values are hashed by what they feed to the hasher. *)
From Verif Require Import Base Num BBoxModel FilterModel KdModel LineModel NormalModel EditModel CloudModel MeshModel HalfEdgeModel PlyModel.
From Coq Require Import Floats.SpecFloat.

(** A call of the hasher: write_u64 with the bits of a double (src/utils.rs:70-77), represented by the double itself (one to
    one except for the payload of NaN), write_usize, write_isize for the number of a variant, write_u8 / write_i8, and one
    write for all elements of a slice of usize (standard library). *)
Inductive item : Type := HDouble (x : T F64) | HUsize (n : N) | HVariant (n : N) | HByte (n : N) | HSlice (l : list N).
(** What a type offers: PartialEq, PartialOrd and Hash (language level, no line). *)
Record vals (A : Type) : Type := mkvals { v_eq : A -> A -> bool; v_pcmp : A -> A -> option comparison; v_feed : A -> list item }.
Arguments mkvals {A}. Arguments v_eq {A}. Arguments v_pcmp {A}. Arguments v_feed {A}.

(** ** Building blocks of the language and the standard library *)
(** ==, partial_cmp of f64 and hash_f64, src/utils.rs:70-77. *)
Definition double_vals : vals (T F64) := mkvals (fun a b => neqb a b) ncmp (fun a => [HDouble a]).
(** ==, partial_cmp and hash of usize (language level, no line). *)
Definition usize_vals : vals N := mkvals N.eqb (fun a b => Some (N.compare a b)) (fun a => [HUsize a]).
(** The same for u8 and i8 (language level, no line). *)
Definition byte_vals : vals N := mkvals N.eqb (fun a b => Some (N.compare a b)) (fun a => [HByte a]).
(** The first field of a derived struct, derives as of src/line_3d.rs:31: compare the field. *)
Definition field {A C} (c : vals A) (f : C -> A) : vals C :=
  mkvals (fun a b => v_eq c (f a) (f b)) (fun a b => v_pcmp c (f a) (f b)) (fun a => v_feed c (f a)).
(** A further field of a derived struct, derives as of src/line_3d.rs:31: it is compared only if the fields before are equal
    and hashed after them. *)
Definition more {A C} (s : vals C) (c : vals A) (f : C -> A) : vals C :=
  mkvals (fun a b => v_eq s a b && v_eq c (f a) (f b)) (fun a b => lex_cmp (v_pcmp s a b) (v_pcmp c (f a) (f b)))
         (fun a => v_feed s a ++ v_feed c (f a)).
(** == of slices (standard library, no line). *)
Fixpoint list_eq {A} (eq : A -> A -> bool) (l m : list A) : bool :=
  match l, m with [], [] => true | a :: l', b :: m' => eq a b && list_eq eq l' m' | _, _ => false end.
(** partial_cmp of slices (standard library, no line): the first difference, otherwise the shorter one is less. *)
Fixpoint list_pcmp {A} (pcmp : A -> A -> option comparison) (l m : list A) : option comparison :=
  match l, m with
  | [], [] => Some Eq | [], _ => Some Lt | _, [] => Some Gt
  | a :: l', b :: m' => lex_cmp (pcmp a b) (list_pcmp pcmp l' m')
  end.
(** Vec (standard library, no line): the length is hashed first. *)
Definition vec_vals {A} (c : vals A) : vals (list A) :=
  mkvals (list_eq (v_eq c)) (list_pcmp (v_pcmp c)) (fun l => HUsize (lenN l) :: flat_map (v_feed c) l).
(** Vec<usize> (standard library, no line): all elements are hashed by one write. *)
Definition usizes_vals : vals (list N) :=
  mkvals (list_eq N.eqb) (list_pcmp (fun a b => Some (N.compare a b))) (fun l => [HUsize (lenN l); HSlice l]).
(** Option (standard library, no line): None is less; the number of the variant is hashed first. *)
Definition option_vals {A} (c : vals A) : vals (option A) :=
  mkvals (fun a b => match a, b with None, None => true | Some x, Some y => v_eq c x y | _, _ => false end)
         (fun a b => match a, b with None, None => Some Eq | None, Some _ => Some Lt | Some _, None => Some Gt | Some x, Some y => v_pcmp c x y end)
         (fun a => match a with None => [HVariant 0] | Some x => HVariant 1 :: v_feed c x end).
(** `then` of derived Ord: the first field that differs decides (language level, no line). *)
Definition then_cmp (c d : comparison) : comparison := match c with Eq => d | _ => c end.
(** cmp of slices (standard library, no line). *)
Fixpoint list_cmp {A} (cmp : A -> A -> comparison) (l m : list A) : comparison :=
  match l, m with
  | [], [] => Eq | [], _ => Lt | _, [] => Gt
  | a :: l', b :: m' => then_cmp (cmp a b) (list_cmp cmp l' m')
  end.

(** ** Types of the library *)
(** Positive and NonNegative, src/positive.rs:35,63-70, src/non_negative.rs:35,73-80. *)
Definition size_vals : vals (T F64) := field double_vals (fun x => x).
(** Point2D, src/point_2d.rs:36,49,60-66, and Norm2D, src/norm_2d.rs:35,42,53-59. *)
Definition pt2_vals : vals (pt2 F64) := more (field double_vals x2) double_vals y2.
(** Point3D, src/point_3d.rs:37,51,62-69, and Norm3D, src/norm_3d.rs:35,43,54-61. *)
Definition pt3_vals : vals (pt3 F64) := more (more (field double_vals px) double_vals py) double_vals pz.
(** Line2D, src/line_2d.rs:31-36. *)
Record line2 : Type := mkline2 { anchor2 : pt2 F64; dir2 : pt2 F64 }.
(** Derives of Line2D, src/line_2d.rs:31, and Ray2D, src/ray_2d.rs:31-35, a struct of one line. *)
Definition line2_vals : vals line2 := more (field pt2_vals anchor2) pt2_vals dir2.
(** Derives of Line3D, src/line_3d.rs:31-36, and Ray3D, src/ray_3d.rs:31-35, a struct of one line. *)
Definition line3_vals : vals (line3 F64) := more (field pt3_vals (@anchor F64)) pt3_vals (@dir F64).
(** Derives of LineSegment2D, src/line_segment_2d.rs:31-36. *)
Definition seg2_vals : vals (seg (pt2 F64)) := more (field pt2_vals seg_start) pt2_vals seg_end.
(** Derives of LineSegment3D, src/line_segment_3d.rs:31-36. *)
Definition seg3_vals : vals (seg (pt3 F64)) := more (field pt3_vals seg_start) pt3_vals seg_end.
(** Derives of Plane3D, src/plane_3d.rs:30-39, of Point3D and Norm3D. *)
Definition plane_vals : vals (plane F64) := more (more (field pt3_vals (@porigin F64)) pt3_vals (@pu F64)) pt3_vals (@pv F64).
(** Derives of BoundingBox2D, src/bounding_box_2d.rs:29-34. *)
Definition bb2_vals : vals (bb2 F64) := more (field pt2_vals min2) pt2_vals max2.
(** Derives of BoundingBox3D, src/bounding_box_3d.rs:29-34. *)
Definition bb3_vals : vals (bb3 F64) := more (field pt3_vals min3) pt3_vals max3.
(** Derives of Circle, src/circle.rs:31-36, and FilterCircle, src/filter_circle.rs:29-33, a struct of one circle. *)
Definition circle_vals : vals (circle F64) := more (field pt2_vals (@cir_center F64)) size_vals (@cir_radius F64).
(** Derives of Sphere, src/sphere.rs:31-36, and FilterSphere, src/filter_sphere.rs:29-33. *)
Definition sphere_vals : vals (sphere F64) := more (field pt3_vals sph_center) size_vals sph_radius.
(** Derives of Box2D, src/box_2d.rs:31-37, and FilterBox2D, src/filter_box_2d.rs:29-33. *)
Definition box2_vals : vals (box2d F64) := more (more (field pt2_vals (@box2_center F64)) size_vals (@box2_sx F64)) size_vals (@box2_sy F64).
(** Derives of Box3D, src/box_3d.rs:31-38, and FilterBox3D, src/filter_box_3d.rs:29-33. *)
Definition box3_vals : vals (box3d F64) :=
  more (more (more (field pt3_vals box_center) size_vals box_sx) size_vals box_sy) size_vals box_sz.
(** Derives of VId, FId, EId and SId, src/strong_types.rs:31-32. *)
Definition id_vals : vals N := field usize_vals (fun x => x).
(** Derives of Face3, src/face3.rs:31-37. *)
Definition face_vals : vals face3 := more (more (field id_vals (fun '(a, _, _) => a)) id_vals (fun '(_, b, _) => b)) id_vals (fun '(_, _, c) => c).
(** Derives of Rgb, src/rgb.rs:25-31. *)
Definition rgb_vals : vals rgb := more (more (field byte_vals red) byte_vals green) byte_vals blue.
(** Derives of PointCloud2D and PointCloud3D, src/point_cloud_2d.rs:34-41, src/point_cloud_3d.rs:34-41, and of the polygons, a
    struct of one cloud, src/polygon_2d.rs:31-38, src/polygon_3d.rs:31-38. *)
Definition cloud_vals {P} (c : vals P) : vals (list P) := field (vec_vals c) (fun l => l).
(** Derives of Mesh3D, src/mesh_3d.rs:31-42, with a cloud and Vec<usize>; PhantomData is always equal and feeds nothing. *)
Definition mesh_vals {P} (c : vals P) : vals (mesh P) := more (field (cloud_vals c) (@pc P)) usizes_vals (@topology P).
(** Derives of HalfEdge, src/half_edge.rs:29-38, with Vec<usize>. *)
Definition halfedge_vals : vals halfedge :=
  more (more (field usizes_vals tails) (vec_vals (option_vals id_vals)) twins) (vec_vals usizes_vals) vse.
(** Derives of KdTree and KdNode, src/kd_tree.rs:31-51: ==. *)
Fixpoint kd_eq {P} (c : vals P) (s t : kdtree P) : bool :=
  match s, t with
  | KNone, KNone => true
  | KNode l v r d, KNode l' v' r' d' => kd_eq c l l' && kd_eq c r r' && v_eq c v v' && v_eq byte_vals d d'
  | _, _ => false
  end.
(** partial_cmp of KdTree and KdNode, src/kd_tree.rs:31-51. *)
Fixpoint kd_pcmp {P} (c : vals P) (s t : kdtree P) : option comparison :=
  match s, t with
  | KNone, KNone => Some Eq | KNone, _ => Some Lt | _, KNone => Some Gt
  | KNode l v r d, KNode l' v' r' d' =>
      lex_cmp (lex_cmp (lex_cmp (kd_pcmp c l l') (kd_pcmp c r r')) (v_pcmp c v v')) (v_pcmp byte_vals d d')
  end.
(** hash of KdTree and KdNode, src/kd_tree.rs:31-51. *)
Fixpoint kd_feed {P} (c : vals P) (t : kdtree P) : list item :=
  match t with
  | KNone => [HVariant 0]
  | KNode l v r d => HVariant 1 :: kd_feed c l ++ kd_feed c r ++ v_feed c v ++ v_feed byte_vals d
  end.
(** Derives of KdTree, src/kd_tree.rs:31-51. *)
Definition kd_vals {P} (c : vals P) : vals (kdtree P) := mkvals (kd_eq c) (kd_pcmp c) (kd_feed c).

(** ** Ord *)
(** Derived Ord of Line2D and Ray2D, src/line_2d.rs:31, src/ray_2d.rs:31. *)
Definition line2_cmp (a b : line2) : comparison := then_cmp (pt2_cmp (anchor2 a) (anchor2 b)) (pt2_cmp (dir2 a) (dir2 b)).
(** Derived Ord of Line3D and Ray3D, src/line_3d.rs:31, src/ray_3d.rs:31. *)
Definition line3_cmp (a b : line3 F64) : comparison := then_cmp (pt3_cmp (anchor a) (anchor b)) (pt3_cmp (dir a) (dir b)).
(** Derived Ord of Plane3D, src/plane_3d.rs:30. *)
Definition plane_cmp (a b : plane F64) : comparison :=
  then_cmp (pt3_cmp (porigin a) (porigin b)) (then_cmp (pt3_cmp (pu a) (pu b)) (pt3_cmp (pv a) (pv b))).
(** Derived Ord of BoundingBox2D, src/bounding_box_2d.rs:29. *)
Definition bb2_cmp (a b : bb2 F64) : comparison := then_cmp (pt2_cmp (min2 a) (min2 b)) (pt2_cmp (max2 a) (max2 b)).
(** Derived Ord of BoundingBox3D, src/bounding_box_3d.rs:29. *)
Definition bb3_cmp (a b : bb3 F64) : comparison := then_cmp (pt3_cmp (min3 a) (min3 b)) (pt3_cmp (max3 a) (max3 b)).
(** Derived Ord of PointCloud2D, PointCloud3D, Polygon2D and Polygon3D, src/point_cloud_2d.rs:34, src/point_cloud_3d.rs:34,
    src/polygon_2d.rs:31, src/polygon_3d.rs:31. *)
Definition cloud_cmp {P} (cmp : P -> P -> comparison) (a b : list P) : comparison := list_cmp cmp a b.
(** Derived Ord of Mesh3D, src/mesh_3d.rs:31. *)
Definition mesh_cmp {P} (cmp : P -> P -> comparison) (a b : mesh P) : comparison :=
  then_cmp (cloud_cmp cmp (pc a) (pc b)) (list_cmp N.compare (topology a) (topology b)).
(** Derived Ord of KdTree and KdNode, src/kd_tree.rs:31-51. *)
Fixpoint kdtree_cmp {P} (cmp : P -> P -> comparison) (s t : kdtree P) : comparison :=
  match s, t with
  | KNone, KNone => Eq | KNone, _ => Lt | _, KNone => Gt
  | KNode l v r d, KNode l' v' r' d' =>
      then_cmp (then_cmp (then_cmp (kdtree_cmp cmp l l') (kdtree_cmp cmp r r')) (cmp v v')) (N.compare d d')
  end.
