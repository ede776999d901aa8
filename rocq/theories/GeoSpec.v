(** Regions decided with rounding. *)
From Verif Require Import Base Num BBoxModel GeomSpec FloatSpec DistSpec.
From Coq Require Import Reals.
Local Open Scope R_scope.

(** Radii far from the ends of the range of doubles. *)
Definition usual_radius (r : T F64) : Prop := is_double r /\ finite r /\ powerRZ 2 (-478) <= fval r < powerRZ 2 510.
(** The filter accepts everything closer than the radius, and nothing farther away, up to a few units in the last place. *)
Definition decides_radius (accepts : bool) (distance radius : R) : Prop :=
  (accepts = true -> distance <= radius * (1 + powerRZ 2 (-50))) /\ (distance <= radius * (1 - powerRZ 2 (-50)) -> accepts = true).
(** Sizes of boxes that can be halved exactly. *)
Definition usual_size (s : T F64) : Prop := is_double s /\ finite s /\ powerRZ 2 (-1021) <= fval s.
(** No double is closer to [r] than [x]. *)
Definition nearest_double (x : T F64) (r : R) : Prop := forall y, is_double y -> finite y -> Rabs (fval x - r) <= Rabs (fval y - r).
(** Between the borders, or the double nearest to a border. *)
Definition between_borders (x c s : T F64) : Prop :=
  (fval c - fval s / 2 <= fval x \/ nearest_double x (fval c - fval s / 2)) /\ (fval x <= fval c + fval s / 2 \/ nearest_double x (fval c + fval s / 2)).
(** Between the borders. *)
Definition truly_between (x c s : T F64) : Prop := fval c - fval s / 2 <= fval x <= fval c + fval s / 2.
