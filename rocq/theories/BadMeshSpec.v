(** Vocabulary for meshes assembled from points and indices that do not fit. *)
From Verif Require Import Base MeshModel PartsSpec.
Local Open Scope N_scope.

(** Some face names a vertex that does not exist. *)
Definition lacking {P} (ps : list P) (ids : list N) : Prop := exists a b c, In (a, b, c) (triples ids) /\ three ps a b c = None.
(** Some face names a vertex twice. *)
Definition repeating (ids : list N) : Prop := exists a b c, In (a, b, c) (triples ids) /\ (a = b \/ a = c \/ b = c).
(** An index vector that fits into memory. *)
Definition ids_fit (ids : list N) : Prop := lenN ids < 2 ^ 64.
