(** Points with finite coordinates and the positions they stand for. *)
From Verif Require Import Base Num BBoxModel GeomSpec FloatSpec.
From Coq Require Import Floats.SpecFloat Reals.

(** All coordinates are finite doubles. *)
Definition finite3 (p : pt3 F64) : Prop := forall ax, axis3 ax -> is_double (ax p) /\ finite (ax p).
Definition finite2 (p : pt2 F64) : Prop := forall ax, axis2 ax -> is_double (ax p) /\ finite (ax p).
(** The position in space (in the plane) a point with finite coordinates stands for. *)
Definition real3 (p : pt3 F64) : pt3 RN := @mk3 RN (fval (px p)) (fval (py p)) (fval (pz p)).
Definition real2 (p : pt2 F64) : pt2 RN := @mk2 RN (fval (x2 p)) (fval (y2 p)).
(** The distance between two positions. *)
Definition true_dist3 (p q : pt3 F64) : R := sqrt (sqd3 (real3 p) (real3 q)).
Definition true_dist2 (p q : pt2 F64) : R := sqrt (sqd2 (real2 p) (real2 q)).
(** The double [d] differs from [D] by a few units in the last place at most. *)
Definition close_to (d : T F64) (D : R) : Prop := finite d /\ (Rabs (fval d - D) <= D * powerRZ 2 (-51))%R.
(** Distances whose squares are far from the ends of the range of doubles. *)
Definition moderate (D : R) : Prop := (D = 0 \/ powerRZ 2 (-480) <= D <= powerRZ 2 511)%R.
