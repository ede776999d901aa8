(** Vocabulary for lengths in doubles. *)
From Verif Require Import Base Num BBoxModel GeomSpec FloatSpec DistSpec CloudSpec.
From Coq Require Import Reals.
Local Open Scope R_scope.

(** The pairs of neighbours. *)
Definition steps {P} (ps : list P) : list (P * P) := combine ps (tl ps).
(** The points and the first one again. *)
Definition closed {P} (ps : list P) : list P := ps ++ firstn 1 ps.
(** The double [d] differs from [D] by a relative error of [k] units of 2^-52 at most. *)
Definition within (k : N) (d : T F64) (D : R) : Prop := finite d /\ Rabs (fval d - D) <= D * IZR (Z.of_N k) * powerRZ 2 (-52).
