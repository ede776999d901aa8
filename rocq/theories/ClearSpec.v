(** Vocabulary for boxes anywhere in doubles. *)
From Verif Require Import Base Num BBoxModel GeomSpec FloatSpec DistSpec BoxDistSpec.
From Coq Require Import Reals.
Local Open Scope R_scope.

(** A box with finite corners in order and no coordinate beyond 2^k to either side. *)
Definition box_upto3 (k : Z) (b : bb3 F64) : Prop := finite_box3 b /\
  forall ax, axis3 ax -> Rabs (fval (ax (min3 b))) <= powerRZ 2 k /\ Rabs (fval (ax (max3 b))) <= powerRZ 2 k.
Definition box_upto2 (k : Z) (b : bb2 F64) : Prop := finite_box2 b /\
  forall ax, axis2 ax -> Rabs (fval (ax (min2 b))) <= powerRZ 2 k /\ Rabs (fval (ax (max2 b))) <= powerRZ 2 k.
(** Along every axis one would have to move either box by [d] or more to get it off the other; for negative [d], the boxes are
    nowhere more than [- d] apart. *)
Definition overlap3 (d : R) (a b : bb3 F64) : Prop := forall ax, axis3 ax ->
  d <= fval (ax (max3 a)) - fval (ax (min3 b)) /\ d <= fval (ax (max3 b)) - fval (ax (min3 a)).
Definition overlap2 (d : R) (a b : bb2 F64) : Prop := forall ax, axis2 ax ->
  d <= fval (ax (max2 a)) - fval (ax (min2 b)) /\ d <= fval (ax (max2 b)) - fval (ax (min2 a)).
