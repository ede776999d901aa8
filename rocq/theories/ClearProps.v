(** Theorems about collisions of boxes anywhere in doubles and of trees of them (C186). *)
From Verif Require Import Base Num NumLemmas BBoxModel GeomSpec FloatSpec FloatLemmas FloatBridge RootLemmas DistSpec DistLemmas DistLemmas3 LineModel AabbModel AabbSpec BoxDistSpec BoxDistLemmas ClearSpec ClearLemmas.
From Coq Require Import Floats.SpecFloat Reals Lra Lia.
Local Open Scope R_scope.

(** With coordinates up to 2^k, boxes that overlap by 2^(k-48) are reported as colliding, and boxes reported are not further
    apart than that. *)
Theorem C186_collides_3d : forall k a b, (-960 <= k <= 1000)%Z -> box_upto3 k a -> box_upto3 k b -> exists r, bb3_collides_with a b = Ok r /\
  (overlap3 (powerRZ 2 (k - 48)) a b -> r = true) /\ (r = true -> overlap3 (- powerRZ 2 (k - 48)) a b).
Proof. exact collides3_clear. Qed.
Print Assumptions C186_collides_3d.
Theorem C186_collides_2d : forall k a b, (-960 <= k <= 1000)%Z -> box_upto2 k a -> box_upto2 k b -> exists r, bb2_collides_with a b = Ok r /\
  (overlap2 (powerRZ 2 (k - 48)) a b -> r = true) /\ (r = true -> overlap2 (- powerRZ 2 (k - 48)) a b).
Proof. exact collides2_clear. Qed.
Print Assumptions C186_collides_2d.

(** The same holds of what a tree finds, however deep it is. *)
Theorem C186_tree_3d : forall k (HB : Type) (bbox : HB -> bb3 F64) (data : list HB) maxdepth bucket bb, (-960 <= k <= 1000)%Z ->
  Forall (fun x => box_upto3 k (bbox x)) data -> box_upto3 k bb -> let t := aabb3_new bbox data maxdepth bucket in let d := powerRZ 2 (k - 48) in
  (forall before, exists found, aabb3_bb_colliding bbox bb t before = Ok (before ++ found) /\
     (forall x, In x found -> In x data /\ overlap3 (- d) (bbox x) bb) /\ (forall x, In x data -> overlap3 d (bbox x) bb -> In x found)) /\
  (exists visited, aabb3_collision_candidates bbox bb t = Ok visited /\
     (forall x, In x visited -> In x data /\ overlap3 (- d) (bbox x) bb) /\ (forall x, In x data -> overlap3 d (bbox x) bb -> In x visited)) /\
  (exists r, aabb3_any_collides_with_bounding bbox t bb = Ok r /\
     ((exists x, In x data /\ overlap3 d (bbox x) bb) -> r = true) /\ (r = true -> exists x, In x data /\ overlap3 (- d) (bbox x) bb)).
Proof.
  intros k HB bbox data maxdepth bucket bb K F B t d.
  assert (H : forall before, exists found, aabb3_bb_colliding bbox bb t before = Ok (before ++ found) /\
     (forall x, In x found -> In x data /\ overlap3 (- d) (bbox x) bb) /\ (forall x, In x data -> overlap3 d (bbox x) bb -> In x found)).
  { intros before. apply (tree3_clear k K bbox data maxdepth bucket bb before F B). }
  split; [exact H|]. destruct (H []) as (found & E & H1 & H2). split; [exists found; split; [exact E|split; [exact H1|exact H2]]|].
  unfold aabb3_any_collides_with_bounding. change (aabb3_collision_candidates bbox bb t) with (aabb3_bb_colliding bbox bb t []). rewrite E. cbn [obind app].
  eexists. split; [reflexivity|]. split.
  - intros (x & X & O). destruct found; [destruct (H2 x X O)|reflexivity].
  - intros Q. destruct found as [|x found]; [discriminate|]. exists x. apply H1. left. reflexivity.
Qed.
Print Assumptions C186_tree_3d.
Theorem C186_tree_2d : forall k (HB : Type) (bbox : HB -> bb2 F64) (data : list HB) maxdepth bucket bb, (-960 <= k <= 1000)%Z ->
  Forall (fun x => box_upto2 k (bbox x)) data -> box_upto2 k bb -> let t := aabb2_new bbox data maxdepth bucket in let d := powerRZ 2 (k - 48) in
  (forall before, exists found, aabb2_bb_colliding bbox bb t before = Ok (before ++ found) /\
     (forall x, In x found -> In x data /\ overlap2 (- d) (bbox x) bb) /\ (forall x, In x data -> overlap2 d (bbox x) bb -> In x found)) /\
  (exists visited, aabb2_collision_candidates bbox bb t = Ok visited /\
     (forall x, In x visited -> In x data /\ overlap2 (- d) (bbox x) bb) /\ (forall x, In x data -> overlap2 d (bbox x) bb -> In x visited)).
Proof.
  intros k HB bbox data maxdepth bucket bb K F B t d.
  assert (H : forall before, exists found, aabb2_bb_colliding bbox bb t before = Ok (before ++ found) /\
     (forall x, In x found -> In x data /\ overlap2 (- d) (bbox x) bb) /\ (forall x, In x data -> overlap2 d (bbox x) bb -> In x found)).
  { intros before. apply (tree2_clear k K bbox data maxdepth bucket bb before F B). }
  split; [exact H|]. exact (H []).
Qed.
Print Assumptions C186_tree_2d.

(** Some margin is needed on both sides: boxes that overlap are missed, and boxes that only touch are reported. *)
Definition c186_a : bb2 F64 := mkbb2 (fp2 (-1) 0) (@mk2 F64 (lit 1 (-55)) (fz 1)).
Definition c186_b : bb2 F64 := mkbb2 (fp2 0 0) (fp2 1 1).
Definition c186_c : bb2 F64 := mkbb2 (@mk2 F64 (lit 4503599627370497 (-52)) (fz 0)) (@mk2 F64 (lit 4503599627370498 (-52)) (fz 1)).
Definition c186_d : bb2 F64 := mkbb2 (@mk2 F64 (lit 4503599627370498 (-52)) (fz 0)) (@mk2 F64 (lit 4503599627370499 (-52)) (fz 1)).
Ltac upto := split; [split; [|split]; [intros ? [->| ->]; split; vm_compute; first [reflexivity|exact I]|intros ? [->| ->]; split; vm_compute; first [reflexivity|exact I]|intros ? [->| ->]; vmeq]|].
Lemma c186_val : fval (lit 1 (-55)) = / 36028797018963968 /\ fval (lit 4503599627370497 (-52)) = 1 + / 4503599627370496 /\
  fval (lit 4503599627370498 (-52)) = 1 + 2 / 4503599627370496 /\ fval (lit 4503599627370499 (-52)) = 1 + 3 / 4503599627370496.
Proof.
  split; [|split; [|split]]; vm_compute lit; cbn [fval]; rewrite bp_powerRZ.
  - change (bp (-107)) with (/ 162259276829213363391578010288128). lra.
  - change (bp (-52)) with (/ 4503599627370496). lra.
  - change (bp (-52)) with (/ 4503599627370496). lra.
  - change (bp (-52)) with (/ 4503599627370496). lra.
Qed.
Lemma c186_fz : fval (fz 0) = 0 /\ fval (fz 1) = 1 /\ fval (fz (-1)) = -1.
Proof.
  split; [reflexivity|]. split; vm_compute fz; cbn [fval]; rewrite bp_powerRZ; change (bp (-52)) with (/ 4503599627370496); lra.
Qed.
Ltac vals := destruct c186_val as (V1 & V2 & V3 & V4), c186_fz as (Z0 & Z1 & Zm); cbn [c186_a c186_b c186_c c186_d min2 max2 x2 y2 fp2];
  rewrite ?V1, ?V2, ?V3, ?V4, ?Z0, ?Z1, ?Zm.
Ltac absl := change (powerRZ 2 1) with (2 * 1); first [rewrite Rabs_pos_eq by lra; lra|rewrite Rabs_left by lra; lra].
Lemma c186_upto : box_upto2 1 c186_a /\ box_upto2 1 c186_b /\ box_upto2 1 c186_c /\ box_upto2 1 c186_d.
Proof.
  split; [|split; [|split]]; upto; intros ? [->| ->]; split; vals; absl.
Qed.
Theorem C186_margin_refuted : exists a b c d : bb2 F64, box_upto2 1 a /\ box_upto2 1 b /\ box_upto2 1 c /\ box_upto2 1 d /\
  (exists o, 0 < o /\ overlap2 o a b) /\ bb2_collides_with a b = Ok false /\
  fval (x2 (max2 c)) = fval (x2 (min2 d)) /\ bb2_collides_with c d = Ok true.
Proof.
  exists c186_a, c186_b, c186_c, c186_d. destruct c186_upto as (A & B & C & D). split; [exact A|]. split; [exact B|]. split; [exact C|]. split; [exact D|].
  split; [|split; [vmeq|split; [reflexivity|vmeq]]]. exists (/ 36028797018963968). split; [lra|]. intros ? [->| ->]; vals; lra.
Qed.
Print Assumptions C186_margin_refuted.
(** Boxes with corners at thirds are found by a tree although their coordinates are on no grid. *)
Definition c186_third : T F64 := (n1 / fz 3)%num.
Definition c186_boxes : list (nat * bb3 F64) :=
  [(1%nat, mkbb3 (fp3 0 0 0) (@mk3 F64 c186_third (fz 1) (fz 1))); (2%nat, mkbb3 (@mk3 F64 (nneg c186_third) (fz 0) (fz 0)) (fp3 1 1 1)); (3%nat, mkbb3 (@mk3 F64 c186_third (fz 0) (fz 0)) (fp3 1 1 1))].
Example C186_case : obind (aabb3_bb_colliding snd (mkbb3 (fp3 (-1) (-1) (-1)) (@mk3 F64 (c186_third / n2)%num c186_third c186_third)) (aabb3_new snd c186_boxes 8 1) []) (fun l => Ok (map fst l)) = Ok [1; 2; 1; 2]%nat /\
  box_upto2 1 c186_b /\ overlap2 (powerRZ 2 (1 - 48)) c186_b c186_b.
Proof.
  split; [vmeq|]. split; [apply c186_upto|]. assert (P : powerRZ 2 (1 - 48) <= 1).
  { rewrite bp_powerRZ. change (bp (1 - 48) <= bp 0). apply Raux.bpow_le. lia. }
  intros ? [->| ->]; vals; lra.
Qed.
