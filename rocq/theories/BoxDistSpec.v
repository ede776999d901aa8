(** Vocabulary for distances to boxes in doubles. *)
From Verif Require Import Base Num BBoxModel GeomSpec FloatSpec DistSpec CloudSpec.
From Coq Require Import Reals.
Local Open Scope R_scope.

(** A box with finite corners in order. *)
Definition finite_box3 (b : bb3 F64) : Prop := finite3 (min3 b) /\ finite3 (max3 b) /\ fvalid3 b.
Definition finite_box2 (b : bb2 F64) : Prop := finite2 (min2 b) /\ finite2 (max2 b) /\ fvalid2 b.
(** A point between the borders or on them. *)
Definition within3 (b : bb3 F64) (p : pt3 F64) : Prop := finite3 p /\ forall ax, axis3 ax -> fle (ax (min3 b)) (ax p) /\ fle (ax p) (ax (max3 b)).
Definition within2 (b : bb2 F64) (p : pt2 F64) : Prop := finite2 p /\ forall ax, axis2 ax -> fle (ax (min2 b)) (ax p) /\ fle (ax p) (ax (max2 b)).
(** The box in space (in the plane). *)
Definition realbox3 (b : bb3 F64) : bb3 RN := mkbb3 (real3 (min3 b)) (real3 (max3 b)).
Definition realbox2 (b : bb2 F64) : bb2 RN := mkbb2 (real2 (min2 b)) (real2 (max2 b)).
(** [D] is the true distance of a position from a box: to the closest of all its points, not only those with coordinates that
    are doubles. *)
Definition apart3 (b : bb3 F64) (p : pt3 F64) (D : R) : Prop :=
  (exists q, closed3 (realbox3 b) q /\ D = rdist3 (real3 p) q) /\ forall q, closed3 (realbox3 b) q -> D <= rdist3 (real3 p) q.
Definition apart2 (b : bb2 F64) (p : pt2 F64) (D : R) : Prop :=
  (exists q, closed2 (realbox2 b) q /\ D = rdist2 (real2 p) q) /\ forall q, closed2 (realbox2 b) q -> D <= rdist2 (real2 p) q.
(** ... and of two boxes. *)
Definition gap3 (a b : bb3 F64) (D : R) : Prop :=
  (exists p q, closed3 (realbox3 a) p /\ closed3 (realbox3 b) q /\ D = rdist3 p q) /\
  forall p q, closed3 (realbox3 a) p -> closed3 (realbox3 b) q -> D <= rdist3 p q.
Definition gap2 (a b : bb2 F64) (D : R) : Prop :=
  (exists p q, closed2 (realbox2 a) p /\ closed2 (realbox2 b) q /\ D = rdist2 p q) /\
  forall p q, closed2 (realbox2 a) p -> closed2 (realbox2 b) q -> D <= rdist2 p q.
