(** Directions of vectors of doubles. *)
From Verif Require Import Base Num BBoxModel GeomSpec VecSpec FloatSpec DistSpec.
From Coq Require Import Reals.
Local Open Scope R_scope.

(** The length of a vector. *)
Definition length3 (p : pt3 F64) : R := sqrt (rsq3 (real3 p)).
Definition length2 (p : pt2 F64) : R := sqrt (rsq2 (real2 p)).
(** The double [n] is the number [r], up to a few units in the last place (and what is lost next to zero). *)
Definition nearly (n : T F64) (r : R) : Prop := finite n /\ Rabs (fval n - r) <= Rabs r * powerRZ 2 (-50) + powerRZ 2 (-1074).
(** Each coordinate of [n] is that of [p] divided by the length of [p]. *)
Definition direction_of3 (n p : pt3 F64) : Prop := forall ax, axis3 ax -> nearly (ax n) (fval (ax p) / length3 p).
Definition direction_of2 (n p : pt2 F64) : Prop := forall ax, axis2 ax -> nearly (ax n) (fval (ax p) / length2 p).
(** The length is one, up to a few units in the last place. *)
Definition nearly_one (r : R) : Prop := Rabs (r - 1) <= powerRZ 2 (-48).
(** Vectors made of zeros. *)
Definition zeros3 (p : pt3 F64) : Prop := forall ax, axis3 ax -> feq (ax p) n0.
Definition zeros2 (p : pt2 F64) : Prop := forall ax, axis2 ax -> feq (ax p) n0.
