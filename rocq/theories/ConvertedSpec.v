(** Specification vocabulary: which sets of points have a box, and which are cut by a plane. *)
From Verif Require Import Base Num BBoxModel GeomSpec AabbSpec.
From Coq Require Import Floats.SpecFloat.

(** Finite coordinates, and no more points than a box can be made of. *)
Definition fine3 (ps : list (pt3 F64)) : Prop :=
  (forall p ax, In p ps -> axis3 ax -> finite (ax p)) /\ (Z.of_nat (length ps) < 2 ^ 31)%Z.
Definition fine2 (ps : list (pt2 F64)) : Prop :=
  (forall p ax, In p ps -> axis2 ax -> finite (ax p)) /\ (Z.of_nat (length ps) < 2 ^ 31)%Z.
(** The points do not share a coordinate on any axis. *)
Definition spread3 (ps : list (pt3 F64)) : Prop := forall ax, axis3 ax -> differ (map ax ps).
Definition spread2 (ps : list (pt2 F64)) : Prop := forall ax, axis2 ax -> differ (map ax ps).
(** Points on both sides of the value [v] of a coordinate. *)
Definition both_sides {P : Type} (ax : P -> T F64) (v : T F64) (ps : list P) : Prop :=
  exists p q, In p ps /\ In q ps /\ flt (ax p) v /\ flt v (ax q).
