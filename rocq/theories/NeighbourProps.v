(** Properties C117 - C119 (neighbour queries and vertex edits of a searchable mesh). *)
From Verif Require Import Base MeshModel HalfEdgeModel HalfEdgeSpec NeighbourModel NeighbourSpec NeighbourLemmas.
From Coq Require Import Sorted.
Local Open Scope N_scope.

(** C117: for each of the three sides in order, one face passing it the other way round, if there is one. *)
Theorem C117_edge_neighbours : forall (P : Type) (m : mesh P) (s : smesh P) (f a b c : N) (result : list N),
  fits m -> smesh_new m = Ok s -> f < num_faces m -> face_vertex_ids m f = Ok (Some (a, b, c)) ->
  exists o1 o2 o3, face_edge_neighbours s f result = (result ++ present [o1; o2; o3], Ok tt) /\
    across m a b o1 /\ across m b c o2 /\ across m c a o3.
Proof. exact (fun P m s f a b c r H E => edge_neighbours m s H E f a b c r). Qed.
Print Assumptions C117_edge_neighbours.

(** Where at most one face passes each side the other way round, exactly those faces are appended. *)
Theorem C117_edge_neighbours_of_manifold : forall (P : Type) (m : mesh P) (s : smesh P) (f : N) (result : list N),
  fits m -> smesh_new m = Ok s -> f < num_faces m ->
  (forall v w g g', passes m f v w -> g < num_faces m -> g' < num_faces m ->
     passes m g w v -> passes m g' w v -> g = g') ->
  exists l, face_edge_neighbours s f result = (result ++ l, Ok tt) /\
    forall g, In g l <-> g < num_faces m /\ exists v w, passes m f v w /\ passes m g w v.
Proof. exact (fun P m s f r H E => edge_neighbours_manifold m s H E f r). Qed.
Print Assumptions C117_edge_neighbours_of_manifold.

Theorem C117_unknown_face : forall (P : Type) (m : mesh P) (s : smesh P) (f : N) (result : list N),
  fits m -> smesh_new m = Ok s -> num_faces m <= f ->
  face_edge_neighbours s f result = (result, Err IncorrectFaceID).
Proof. exact (fun P m s f r H E => edge_neighbours_err m s H E f r). Qed.
Print Assumptions C117_unknown_face.

(** A face sharing a side but passing it the same way is not found (first mesh), nor is a third face at a side
    that three faces share (second mesh). *)
Theorem C117_neighbours_missed_refuted :
  (exists (m : mesh N) (s : smesh N), fits m /\ smesh_new m = Ok s /\
     passes m 0 0 1 /\ passes m 1 0 1 /\ face_edge_neighbours s 0 [] = ([], Ok tt)) /\
  (exists (m : mesh N) (s : smesh N), fits m /\ smesh_new m = Ok s /\
     passes m 0 0 1 /\ passes m 1 1 0 /\ passes m 2 1 0 /\ face_edge_neighbours s 0 [] = ([2], Ok tt)).
Proof.
  split.
  - exists (Mesh [0; 0; 0; 0] [0; 1; 2; 0; 1; 3]). eexists. split; [vm_compute; reflexivity|]. split; [vm_compute; reflexivity|].
    split; [exists 0, 1, 2; vm_compute; auto|]. split; [exists 0, 1, 3; vm_compute; auto|]. vm_compute. reflexivity.
  - exists (Mesh [0; 0; 0; 0; 0] [0; 1; 2; 1; 0; 3; 1; 0; 4]). eexists.
    split; [vm_compute; reflexivity|]. split; [vm_compute; reflexivity|].
    split; [exists 0, 1, 2; vm_compute; auto|]. split; [exists 1, 0, 3; vm_compute; auto|].
    split; [exists 1, 0, 4; vm_compute; auto|]. vm_compute. reflexivity.
Qed.
Print Assumptions C117_neighbours_missed_refuted.

(** C118: the whole vector, including what the caller had in it, ends up strictly increasing. *)
Theorem C118_vertex_neighbours : forall (P : Type) (m : mesh P) (s : smesh P) (f : N) (cache result : list N),
  fits m -> smesh_new m = Ok s -> f < num_faces m ->
  exists c l, face_vertex_neighbours s f cache result = ((c, l), Ok tt) /\ StronglySorted N.lt l /\
    forall g, In g l <-> In g result \/ (g < num_faces m /\ exists v, corner m f v /\ corner m g v).
Proof. exact (fun P m s f c r H E => vertex_neighbours m s H E f c r). Qed.
Print Assumptions C118_vertex_neighbours.

(** Against what "neighbour" suggests, the face itself is always listed. *)
Theorem C118_itself_included : forall (P : Type) (m : mesh P) (s : smesh P) (f : N) (cache result : list N),
  fits m -> smesh_new m = Ok s -> f < num_faces m ->
  exists c l, face_vertex_neighbours s f cache result = ((c, l), Ok tt) /\ In f l.
Proof.
  intros P m s f ca r H E L. destruct (vertex_neighbours m s H E f ca r L) as (c & l & Q & _ & I).
  exists c, l. split; [exact Q|]. apply I. right. split; [exact L|].
  destruct (fvi m H f L) as (x & y & z & V).
  exists x. split; (exists x, y, z; split; [exact V|left; reflexivity]).
Qed.
Print Assumptions C118_itself_included.

Theorem C118_faces_of_vertex : forall (P : Type) (m : mesh P) (s : smesh P) (v : N) (cache result : list N),
  fits m -> smesh_new m = Ok s -> covered s v ->
  exists c l, faces_of_vertex s v cache result = ((c, result ++ l), Ok tt) /\
    forall g, In g l <-> g < num_faces m /\ corner m g v.
Proof. exact (fun P m s v c r H E => faces_of_vertex_spec m s H E v c r). Qed.
Print Assumptions C118_faces_of_vertex.

(** Ids for which 3 f does not wrap around. *)
Theorem C118_unknown_face : forall (P : Type) (m : mesh P) (s : smesh P) (f : N) (cache result : list N),
  fits m -> smesh_new m = Ok s -> num_faces m <= f -> 3 * f + 2 < 2 ^ 64 ->
  face_vertex_neighbours s f cache result = (([], result), Err IncorrectFaceID).
Proof. exact (fun P m s f c r H E => vertex_neighbours_err m s H E f c r). Qed.
Print Assumptions C118_unknown_face.

(** C119: after any vertex edits a searchable mesh is what a rebuild from the edited mesh gives. *)
Theorem C119_vertex_edits_keep_edges : forall (P : Type) (m : mesh P) (s : smesh P) (ops : list (vop P)),
  smesh_new m = Ok s ->
  smesh_new (smesh_mesh (fold_left smesh_edit ops s)) = Ok (fold_left smesh_edit ops s).
Proof. exact (fun P m s ops E => edits ops m s E). Qed.
Print Assumptions C119_vertex_edits_keep_edges.

(** Three triangles around vertex 1, the first and second and the second and third sharing a side. *)
Definition fan : mesh N := Mesh [10; 11; 12; 13; 14] [0; 1; 2; 2; 1; 3; 3; 1; 4].
Example C117_C119_case : fits fan /\ exists s, smesh_new fan = Ok s /\
  face_edge_neighbours s 1 [7] = ([7; 0; 2], Ok tt) /\
  face_edge_neighbours s 0 [] = ([1], Ok tt) /\
  face_edge_neighbours s 3 [] = ([], Err IncorrectFaceID) /\
  face_vertex_neighbours s 0 [5] [9; 1] = (([2; 3], [0; 1; 2; 9]), Ok tt) /\
  face_vertex_neighbours s 3 [5] [9; 1] = (([], [9; 1]), Err IncorrectFaceID) /\
  (exists v, corner fan 0 v /\ corner fan 2 v) /\ passes fan 1 2 1 /\ passes fan 0 1 2 /\ covered s 2 /\
  smesh_edit (smesh_edit s (VAdd 15)) (VChange 0 9) = SMesh (Mesh [9; 11; 12; 13; 14; 15] (topology fan)) (smesh_he s).
Proof.
  split; [vm_compute; reflexivity|]. eexists; split; [vm_compute; reflexivity|].
  repeat match goal with |- _ /\ _ => split end; try (vm_compute; reflexivity).
  - exists 1. split; [exists 0, 1, 2|exists 3, 1, 4]; vm_compute; auto.
  - exists 2, 1, 3; vm_compute; auto.
  - exists 0, 1, 2; vm_compute; auto.
  - exists 2, 2; vm_compute; split; [reflexivity|discriminate].
Qed.
