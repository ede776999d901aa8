(** Vocabulary for rays along an axis against boxes. *)
From Verif Require Import Base Num BBoxModel GeomSpec FloatSpec DistSpec LineModel.
From Coq Require Import Reals.
Local Open Scope R_scope.

(** One along the axis (or minus one) and zero (of either sign) along the others. *)
Definition along (ax : pt3 F64 -> T F64) (d : pt3 F64) : Prop := finite3 d /\ Rabs (fval (ax d)) = 1 /\
  forall bx, axis3 bx -> bx <> ax -> fval (bx d) = 0.
(** Finite coordinates of absolute value up to 2^k. *)
Definition upto3 (k : Z) (p : pt3 F64) : Prop := finite3 p /\ forall ax, axis3 ax -> Rabs (fval (ax p)) <= powerRZ 2 k.
(** Not in the plane of a face of the box, except of those across the axis. *)
Definition off_faces (ax : pt3 F64 -> T F64) (o : pt3 F64) (b : bb3 F64) : Prop := forall bx, axis3 bx -> bx <> ax ->
  fval (bx o) <> fval (bx (min3 b)) /\ fval (bx o) <> fval (bx (max3 b)).
(** The face of the box where something moving along the axis in the sense of [d] enters. *)
Definition entry (ax : pt3 F64 -> T F64) (d : pt3 F64) (b : bb3 F64) (x : R) : Prop :=
  (fval (ax d) = 1 /\ x = fval (ax (min3 b))) \/ (fval (ax d) = -1 /\ x = fval (ax (max3 b))).
