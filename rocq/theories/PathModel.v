(** Moving clouds and polygons. *)
From Verif Require Import Base Num BBoxModel.

(** Models PointCloud3D::move_by, src/point_cloud_3d.rs:196-200, and Polygon3D::move_by, src/polygon_3d.rs:91-93 (points that
    are Point3D). *)
Definition pc3_move_by {NM : Num} (ps : list (pt3 NM)) (x y z : T NM) : list (pt3 NM) := map (fun p => pt3_move_by p x y z) ps.
(** Models PointCloud2D::move_by, src/point_cloud_2d.rs:196-200, and Polygon2D::move_by, src/polygon_2d.rs:91-93 (points that
    are Point2D). *)
Definition pc2_move_by {NM : Num} (ps : list (pt2 NM)) (x y : T NM) : list (pt2 NM) := map (fun p => pt2_move_by p x y) ps.
