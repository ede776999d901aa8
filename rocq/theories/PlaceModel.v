(** Placing meshes: moving, scaling and transforming Mesh3D and SearchableMesh, their boxes and centers. *)
From Verif Require Import Base Num BBoxModel MatrixModel OcModel PathModel CloudModel MeshModel HalfEdgeModel.

Section Place.
Context {NM : Num}.

(** Models Mesh3D::move_by, src/mesh_3d.rs:197-206 (vertices in a PointCloud3D). *)
Definition mesh_move_by (m : mesh (pt3 NM)) (x y z : T NM) : mesh (pt3 NM) := Mesh (pc3_move_by (pc m) x y z) (topology m).
(** Models Mesh3D::scale, src/mesh_3d.rs:169-178. *)
Definition mesh_scale (dbg : bool) (m : mesh (pt3 NM)) (f : T NM) : res (mesh (pt3 NM)) :=
  obind (pc3_scale dbg (pc m) f) (fun ps => Ok (Mesh ps (topology m))).
(** Models Mesh3D::transform and transformed, src/mesh_3d.rs:180-195. *)
Definition mesh_transform (m : mesh (pt3 NM)) (t : mat4 NM) : mesh (pt3 NM) := Mesh (pts3_transform (pc m) t) (topology m).
(** Models Mesh3D::bounding_box_maybe, src/mesh_3d.rs:147-156. *)
Definition mesh_bounding_box_maybe (dbg : bool) (m : mesh (pt3 NM)) : res (option (@bb3 NM)) := pts3_bb_maybe dbg (pc m).
(** Models Mesh3D::center_of_gravity, src/mesh_3d.rs:158-167. *)
Definition mesh_center_of_gravity (m : mesh (pt3 NM)) : option (pt3 NM) := pc3_cog (pc m).

(** Models SearchableMesh::scale, src/searchable_mesh.rs:205-213: the half edges stay. *)
Definition smesh_scale (dbg : bool) (s : smesh (pt3 NM)) (f : T NM) : res (smesh (pt3 NM)) :=
  obind (mesh_scale dbg (smesh_mesh s) f) (fun m => Ok (SMesh m (smesh_he s))).
(** Models SearchableMesh::bounding_box_maybe, src/searchable_mesh.rs:185-193. *)
Definition smesh_bounding_box_maybe (dbg : bool) (s : smesh (pt3 NM)) : res (option (@bb3 NM)) := mesh_bounding_box_maybe dbg (smesh_mesh s).
(** Models SearchableMesh::center_of_gravity, src/searchable_mesh.rs:195-203. *)
Definition smesh_center_of_gravity (s : smesh (pt3 NM)) : option (pt3 NM) := mesh_center_of_gravity (smesh_mesh s).

(** The calls that place a mesh, src/mesh_3d.rs:169-206. *)
Inductive placement : Type := PMove (x y z : T NM) | PScale (f : T NM) | PTransform (t : mat4 NM).
(** One such call, src/mesh_3d.rs:169-206. *)
Definition place (dbg : bool) (m : mesh (pt3 NM)) (o : placement) : res (mesh (pt3 NM)) :=
  match o with
  | PMove x y z => Ok (mesh_move_by m x y z)
  | PScale f => mesh_scale dbg m f
  | PTransform t => Ok (mesh_transform m t)
  end.
(** A history of such calls, src/mesh_3d.rs:169-206. *)
Fixpoint place_all (dbg : bool) (m : mesh (pt3 NM)) (os : list placement) : res (mesh (pt3 NM)) :=
  match os with
  | [] => Ok m
  | o :: r => obind (place dbg m o) (fun m' => place_all dbg m' r)
  end.
End Place.
Arguments placement : clear implicits.
