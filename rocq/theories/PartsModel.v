(** Meshes, half edges and searchable meshes assembled from parts and taken apart. *)
From Verif Require Import Base MeshModel HalfEdgeModel.
Local Open Scope N_scope.

(** From<(ID, IC)> for Mesh3D, src/mesh_3d.rs:208-221 (containers as lists, see MeshModel). *)
Definition mesh_from {P} (pt : list P * list N) : mesh P := Mesh (fst pt) (snd pt).

(** Into<(ID, IC)> for Mesh3D, src/mesh_3d.rs:223-232. *)
Definition mesh_into {P} (m : mesh P) : list P * list N := (pc m, topology m).

(** From<(IC, Vec<Option<EId>>, Vec<IC>)> for HalfEdge, src/half_edge.rs:222-233. *)
Definition he_from (ev : list N * list (option N) * list (list N)) : halfedge :=
  HalfEdge (fst (fst ev)) (snd (fst ev)) (snd ev).

(** Into<(IC, Vec<Option<EId>>, Vec<IC>)> for HalfEdge, src/half_edge.rs:235-242. *)
Definition he_into (h : halfedge) : list N * list (option N) * list (list N) := (tails h, twins h, vse h).

(** Into<(IC, Vec<Option<EId>>)> for HalfEdge, src/half_edge.rs:244-251. *)
Definition he_into_edges (h : halfedge) : list N * list (option N) := (tails h, twins h).

(** Into<Vec<IC>> for HalfEdge, src/half_edge.rs:253-260. *)
Definition he_into_starts (h : halfedge) : list (list N) := vse h.

(** From<(M, HalfEdge<IC>)> for SearchableMesh, src/searchable_mesh.rs:235-247. *)
Definition smesh_from {P} (me : mesh P * halfedge) : smesh P := SMesh (fst me) (snd me).

(** Into<(M, HalfEdge<IC>)> for SearchableMesh, src/searchable_mesh.rs:225-233. *)
Definition smesh_into {P} (s : smesh P) : mesh P * halfedge := (smesh_mesh s, smesh_he s).

(** mesh, src/searchable_mesh.rs:70-72, and AsRef, :215-223. *)
Definition smesh_as_ref {P} (s : smesh P) : mesh P := smesh_mesh s.
