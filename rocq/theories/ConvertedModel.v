(** Data with an optional bounding box turned into data that always has one.
    Models src/has_bounding_box_2d.rs:43-81 and src/has_bounding_box_3d.rs:43-81. *)
From Verif Require Import Base Num BBoxModel.

(** Models HasBoundingBox2DConverted and HasBoundingBox3DConverted, src/has_bounding_box_2d.rs:44-49,
    src/has_bounding_box_3d.rs:44-49. *)
Record converted (A : Type) : Type := mkconverted { conv_data : A }.
Arguments mkconverted {A}. Arguments conv_data {A}.

Section Conv.
(** The data, its boxes, and bounding_box_maybe of the data, which may panic. *)
Context {A BB : Type} (maybe : A -> res (option BB)).
(** Models new, src/has_bounding_box_2d.rs:55-58, src/has_bounding_box_3d.rs:55-58. *)
Definition conv_new (a : A) : res (option (converted A)) :=
  obind (maybe a) (fun o => Ok match o with Some _ => Some (mkconverted a) | None => None end).
(** Models get, src/has_bounding_box_2d.rs:60-62, src/has_bounding_box_3d.rs:60-62. *)
Definition conv_get (c : converted A) : A := conv_data c.
(** Models bounding_box_maybe, src/has_bounding_box_2d.rs:69-71, src/has_bounding_box_3d.rs:69-71. *)
Definition conv_bounding_box_maybe (c : converted A) : res (option BB) := maybe (conv_data c).
(** Models bounding_box, src/has_bounding_box_2d.rs:78-80, src/has_bounding_box_3d.rs:78-80: unwrap. *)
Definition conv_bounding_box (c : converted A) : res BB :=
  obind (maybe (conv_data c)) (fun o => match o with Some b => Ok b | None => Panic end).
End Conv.

(** Models PointCloud2D::bounding_box_maybe, src/point_cloud_2d.rs:207-209, and Polygon2D::bounding_box_maybe,
    src/polygon_2d.rs:100-102 (that of its cloud): `from_iterator(..).ok()`. *)
Definition pts2_bb_maybe {NM : Num} (dbg : bool) (ps : list (pt2 NM)) : res (option (@bb2 NM)) :=
  match bb2_from_iterator dbg ps with Ok b => Ok (Some b) | Err _ => Ok None | Panic => Panic end.
