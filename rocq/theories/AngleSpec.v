(** Angles over the reals. *)
From Verif Require Import Base Num VecSpec.
From Coq Require Import Reals.
Local Open Scope R_scope.

(** [t] is the (unsigned) angle between two vectors that are not zero. *)
Definition angle_between (a b : pt3 RN) (t : R) : Prop :=
  0 <= t <= PI /\ sqrt (rsq3 a) * sqrt (rsq3 b) * cos t = rdot3 a b.
(** [t] is the polar angle of the vector (x, y). *)
Definition polar_angle (x y t : R) : Prop :=
  - PI < t <= PI /\ x = sqrt (x * x + y * y) * cos t /\ y = sqrt (x * x + y * y) * sin t.
(** What f64::acos and f64::atan2 compute, without rounding. *)
Definition exact_acos (f : R -> R) : Prop := forall x, -1 <= x <= 1 -> 0 <= f x <= PI /\ cos (f x) = x.
Definition exact_atan2 (f : R -> R -> R) : Prop :=
  f 0 0 = 0 /\ forall x y, x <> 0 \/ y <> 0 -> polar_angle x y (f y x).
(** A multiple of a vector. *)
Definition times3 (k : R) (a : pt3 RN) : pt3 RN := @mk3 RN (k * px a) (k * py a) (k * pz a).
(** An atan2 made of the standard library's arc tangent. *)
Definition atan2_R (y x : R) : R :=
  if Rlt_dec 0 x then atan (y / x)
  else if Rlt_dec x 0 then (if Rle_dec 0 y then atan (y / x) + PI else atan (y / x) - PI)
  else if Rlt_dec 0 y then PI / 2 else if Rlt_dec y 0 then - (PI / 2) else 0.
