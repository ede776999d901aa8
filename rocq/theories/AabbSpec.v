(** Specification vocabulary for the box trees. *)
From Verif Require Import Base Num BBoxModel GeomSpec.
From Coq Require Import Floats.SpecFloat Reals.
(** Neither NaN nor infinite. *)
Definition finite (a : T F64) : Prop := a <> S754_nan /\ forall s, a <> S754_infinity s.
(** Finite corners in order. *)
Definition good_box3 (b : bb3 F64) : Prop := forall ax, axis3 ax ->
  finite (ax (min3 b)) /\ finite (ax (max3 b)) /\ fle (ax (min3 b)) (ax (max3 b)).
Definition good_box2 (b : bb2 F64) : Prop := forall ax, axis2 ax ->
  finite (ax (min2 b)) /\ finite (ax (max2 b)) /\ fle (ax (min2 b)) (ax (max2 b)).
(** Two open boxes of real space have a point in common. *)
Definition meet3 (a b : bb3 RN) : Prop := exists p, interior3 a p /\ interior3 b p.
Definition meet2 (a b : bb2 RN) : Prop := exists p, interior2 a p /\ interior2 b p.
(** A ray from [o] in direction [d] reaches the closed box. *)
Definition ray_hits (o d : pt3 RN) (b : bb3 RN) : Prop := exists t : R, (0 <= t)%R /\
  closed3 b (rp3 (px o + t * px d) (py o + t * py d) (pz o + t * pz d)).
