(** Vocabulary for closed meshes. *)
From Verif Require Import Base MeshModel MeshSpec.
Local Open Scope N_scope.

(** The directed sides of a face. *)
Definition sides (f : face3) : list (N * N) := let '(a, b, c) := f in [(a, b); (b, c); (c, a)].
(** Equality of directed sides can be decided. *)
Definition side_dec (x y : N * N) : {x = y} + {x <> y} := ltac:(repeat decide equality).
(** How often a face runs from [a] to [b]. *)
Definition runs (fs : list face3) (a b : N) : nat := count_occ side_dec (flat_map sides fs) (a, b).
(** Without border and with sides that agree: along every edge as many faces run in one direction as in the other. *)
Definition closed (fs : list face3) : Prop := forall a b, runs fs a b = runs fs b a.
