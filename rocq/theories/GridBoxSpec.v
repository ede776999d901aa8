(** Vocabulary for boxes on a grid. *)
From Verif Require Import Base Num BBoxModel GeomSpec FloatSpec DistSpec GridSpec BoxDistSpec.
From Coq Require Import Reals.

(** The corners are on the grid of 2^e with up to 2^48 steps to either side, and in order. *)
Definition gridbox3 (e : Z) (b : bb3 F64) : Prop := grid3 e 48 (min3 b) /\ grid3 e 48 (max3 b) /\ fvalid3 b.
Definition gridbox2 (e : Z) (b : bb2 F64) : Prop := grid2 e 48 (min2 b) /\ grid2 e 48 (max2 b) /\ fvalid2 b.
