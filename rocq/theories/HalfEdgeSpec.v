(** Vocabulary for the half edge properties (only public queries of the mesh). *)
From Verif Require Import Base MeshModel HalfEdgeModel.
Local Open Scope N_scope.

(** A mesh whose index vector fits into memory (Rust guarantees less than 2^63 elements). *)
Definition fits {P} (m : mesh P) : Prop := lenN (topology m) < 2 ^ 64 - 3.

(** All edge ids of a searchable mesh, in increasing order. *)
Definition edge_ids {P} (s : smesh P) : list N := map N.of_nat (seq 0 (N.to_nat (num_edges s))).

(** [v] is not larger than some vertex id used by a face. *)
Definition covered {P} (s : smesh P) (v : N) : Prop :=
  exists e w, edge_tail s e = Some w /\ v <= w.

(** Edge [o] runs opposite to edge [e]. *)
Definition opposite {P} (s : smesh P) (e o : N) : Prop :=
  exists a b, edge_tail s e = Some a /\ edge_head s e = Some b /\
              edge_tail s o = Some b /\ edge_head s o = Some a.

(** 1 if [o] is the vertex [v], 0 otherwise. *)
Definition is_v (o : option N) (v : N) : nat :=
  match o with Some w => if w =? v then 1%nat else 0%nat | None => 0%nat end.
