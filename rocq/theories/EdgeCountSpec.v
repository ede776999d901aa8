(** Vocabulary for the number of edges of a mesh. *)
From Verif Require Import Base MeshModel MeshSpec ClosedSpec.
Local Open Scope N_scope.

(** The edge below a directed side: its ends in ascending order. *)
Definition edge_of (x : N * N) : N * N := (N.min (fst x) (snd x), N.max (fst x) (snd x)).
(** The edges of the faces, each once. *)
Definition edges_of (fs : list face3) : list (N * N) := nodup side_dec (map edge_of (flat_map sides fs)).
(** The surface of a solid: every edge has exactly one face on each side. *)
Definition surface (fs : list face3) : Prop := closed fs /\ forall a b, (runs fs a b <= 1)%nat.
