(** Specification vocabulary for the OcTree. *)
From Verif Require Import Base Num BBoxModel GeomSpec.
From Coq Require Import Reals Permutation.

(** What collecting points in a HashSet guarantees when the equality of the point type
    compares positions: a part of the points survives, in some order, and every point is
    represented by one with the same coordinates. *)
Record dedup_ok {P} (pos : P -> pt3 F64) (uniq : list P -> list P) : Prop := {
  dedup_part : forall pc, exists rest, Permutation pc (uniq pc ++ rest);
  dedup_rep : forall pc p, In p pc -> Forall (fun q => number3 (pos q)) pc ->
    exists q, In q (uniq pc) /\ forall ax, axis3 ax -> feq (ax (pos q)) (ax (pos p))
}.
(** The same for real coordinates, where equal positions are merged. *)
Record dedup_exact {P} (pos : P -> pt3 RN) (uniq : list P -> list P) : Prop := {
  dedup_exact_part : forall pc, exists rest, Permutation pc (uniq pc ++ rest);
  dedup_exact_rep : forall pc p, In p pc -> exists q, In q (uniq pc) /\ pos q = pos p;
  dedup_exact_distinct : forall pc, NoDup (map pos (uniq pc))
}.
(** Strictly inside a box of doubles. *)
Definition finterior3 (b : bb3 F64) (p : pt3 F64) : Prop :=
  forall ax, axis3 ax -> flt (ax (min3 b)) (ax p) /\ flt (ax p) (ax (max3 b)).
(** On no plane that repeated halving of the box can produce: no coordinate is at a
    dyadic fraction of the edge. *)
Definition off_grid (b : bb3 RN) (p : pt3 RN) : Prop := forall ax, axis3 ax ->
  forall (k : Z) (n : nat), (ax p <> ax (min3 b) + (ax (max3 b) - ax (min3 b)) * (IZR k / 2 ^ n))%R.
