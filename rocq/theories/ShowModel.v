(** The texts objects are displayed with (fmt::Display).  Models the fmt functions of src/point_2d.rs, src/point_3d.rs, src/line_2d.rs,
    src/line_3d.rs, src/ray_2d.rs, src/ray_3d.rs, src/line_segment_2d.rs, src/line_segment_3d.rs, src/point_cloud_2d.rs,
    src/point_cloud_3d.rs, src/polygon_2d.rs, src/polygon_3d.rs, src/face3.rs and src/strong_types.rs for the format {}. *)
From Verif Require Import Base Num IoModel MeshModel LineModel DeriveModel EditModel.

(** The literal between two numbers in the format strings, src/point_3d.rs:361. *)
Definition comma : bytes := str ", ".
(** Two numbers of a format string, src/point_2d.rs:332. *)
Definition list2 (ft : FText) (p : pt2 F64) : bytes := fprint ft (x2 p) ++ comma ++ fprint ft (y2 p).
(** Three numbers of a format string, src/point_3d.rs:361. *)
Definition list3 (ft : FText) (p : pt3 F64) : bytes := fprint ft (px p) ++ comma ++ fprint ft (py p) ++ comma ++ fprint ft (pz p).
(** Models Point2D::fmt, src/point_2d.rs:330-334. *)
Definition show_pt2 (ft : FText) (p : pt2 F64) : bytes := str "(" ++ list2 ft p ++ str ")".
(** Models Point3D::fmt, src/point_3d.rs:359-363. *)
Definition show_pt3 (ft : FText) (p : pt3 F64) : bytes := str "(" ++ list3 ft p ++ str ")".
(** Models Line2D::fmt, src/line_2d.rs:51-62, and Ray2D::fmt, src/ray_2d.rs:50-54. *)
Definition show_line2 (ft : FText) (l : line2) : bytes := str "(" ++ list2 ft (anchor2 l) ++ str " -> " ++ list2 ft (dir2 l) ++ str ")".
(** Models Line3D::fmt, src/line_3d.rs:51-64, and Ray3D::fmt, src/ray_3d.rs:50-54. *)
Definition show_line3 (ft : FText) (l : line3 F64) : bytes := str "(" ++ list3 ft (anchor l) ++ str " -> " ++ list3 ft (dir l) ++ str ")".
(** Models LineSegment2D::fmt, src/line_segment_2d.rs:92-103. *)
Definition show_seg2 (ft : FText) (s : seg (pt2 F64)) : bytes := str "(" ++ list2 ft (seg_start s) ++ str " -> " ++ list2 ft (seg_end s) ++ str ")".
(** Models LineSegment3D::fmt, src/line_segment_3d.rs:92-105. *)
Definition show_seg3 (ft : FText) (s : seg (pt3 F64)) : bytes := str "(" ++ list3 ft (seg_start s) ++ str " -> " ++ list3 ft (seg_end s) ++ str ")".
(** The loop of PointCloud2D::fmt, src/point_cloud_2d.rs:373-379, and PointCloud3D::fmt, src/point_cloud_3d.rs:383-389, for the fmt of
    the points; Polygon2D::fmt, src/polygon_2d.rs:157-159, and Polygon3D::fmt, src/polygon_3d.rs:168-170, show their clouds. *)
Fixpoint show_cloud {P} (show : P -> bytes) (ps : list P) : bytes :=
  match ps with
  | [] => []
  | p :: r => show p ++ [nl] ++ show_cloud show r
  end.
(** Models Face3::fmt, src/face3.rs:61-65. *)
Definition show_face (f : face3) : bytes := let '(a, b, c) := f in str "(" ++ print_usize a ++ comma ++ print_usize b ++ comma ++ print_usize c ++ str ")".
(** Models the fmt of the ids, src/strong_types.rs:52-56. *)
Definition show_id (i : N) : bytes := print_usize i.
