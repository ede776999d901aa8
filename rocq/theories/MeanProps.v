(** Centers of gravity in doubles (C180). *)
From Verif Require Import Base Num NumLemmas BBoxModel GeomSpec FloatSpec FloatBridge RootLemmas DistSpec DistLemmas DistLemmas2 DistLemmas3 OcModel CloudModel CloudSpec MeanSpec MeanLemmas.
From Coq Require Import Floats.SpecFloat Reals Lra Lia.
Local Open Scope R_scope.

Lemma coords3 (ps : list (pt3 F64)) ax : axis3 ax -> Forall finite3 ps -> Forall fin1 (map ax ps).
Proof. intros A F. apply Forall_map. eapply Forall_impl; [|exact F]. intros p P. destruct (P ax A) as [D FI]. split; [exact D|apply finite_f, FI]. Qed.
Lemma coords2 (ps : list (pt2 F64)) ax : axis2 ax -> Forall finite2 ps -> Forall fin1 (map ax ps).
Proof. intros A F. apply Forall_map. eapply Forall_impl; [|exact F]. intros p P. destruct (P ax A) as [D FI]. split; [exact D|apply finite_f, FI]. Qed.
Lemma nonempty {A B} (f : A -> B) l : l <> [] -> map f l <> []. Proof. destruct l; [congruence|discriminate]. Qed.

(** ** Accuracy *)
Theorem C180_accurate : forall (ps : list (pt3 F64)) c ax, pc3_cog ps = Some c -> axis3 ax -> Forall finite3 ps ->
  (forall p, In p ps -> Rabs (fval (ax p)) <= powerRZ 2 960) -> INR (length ps) <= 2 ^ 40 ->
  finite (ax c) /\ Rabs (fval (ax c) - mean (map ax ps)) <= mean_abs (map ax ps) * (INR (length ps) + 1) * powerRZ 2 (-52) + powerRZ 2 (-1074).
Proof.
  intros ps c ax H A F B L. destruct (cog3_f ps c ax H A) as [-> NE]. rewrite finite_f, !bp_powerRZ. rewrite <- (map_length ax ps) in *.
  apply mean_acc; [apply nonempty, NE|apply coords3; assumption| |exact L]. apply Forall_map, Forall_forall. intros p I. rewrite <- bp_powerRZ. apply B, I.
Qed.
Print Assumptions C180_accurate.
Theorem C180_accurate_2d : forall (ps : list (pt2 F64)) c ax, pc2_cog ps = Some c -> axis2 ax -> Forall finite2 ps ->
  (forall p, In p ps -> Rabs (fval (ax p)) <= powerRZ 2 960) -> INR (length ps) <= 2 ^ 40 ->
  finite (ax c) /\ Rabs (fval (ax c) - mean (map ax ps)) <= mean_abs (map ax ps) * (INR (length ps) + 1) * powerRZ 2 (-52) + powerRZ 2 (-1074).
Proof.
  intros ps c ax H A F B L. destruct (cog2_f ps c ax H A) as [-> NE]. rewrite finite_f, !bp_powerRZ. rewrite <- (map_length ax ps) in *.
  apply mean_acc; [apply nonempty, NE|apply coords2; assumption| |exact L]. apply Forall_map, Forall_forall. intros p I. rewrite <- bp_powerRZ. apply B, I.
Qed.
Print Assumptions C180_accurate_2d.
(** ** Integers: the closest double *)
Theorem C180_integers : forall (ps : list (pt3 F64)) c ax, pc3_cog ps = Some c -> axis3 ax -> Forall finite3 ps -> Forall whole (map ax ps) -> INR (length ps) <= 2 ^ 40 ->
  mean_abs (map ax ps) * INR (length ps) <= 2 ^ 53 -> nearest (ax c) (mean (map ax ps)).
Proof.
  intros ps c ax H A F W L B. destruct (cog3_f ps c ax H A) as [-> NE]. apply mean_int; [apply nonempty, NE|apply coords3; assumption|exact W|rewrite map_length; exact L|].
  unfold mean_abs in B. rewrite map_length in B. change (bp 53) with (IZR (2 ^ 53)). unfold tota, Rdiv in *. rewrite Rmult_assoc, Rinv_l, Rmult_1_r in B; [change (IZR (2 ^ 53)) with 9007199254740992; lra|].
  apply not_0_INR. destruct ps; [congruence|discriminate].
Qed.
Print Assumptions C180_integers.
Theorem C180_integers_2d : forall (ps : list (pt2 F64)) c ax, pc2_cog ps = Some c -> axis2 ax -> Forall finite2 ps -> Forall whole (map ax ps) -> INR (length ps) <= 2 ^ 40 ->
  mean_abs (map ax ps) * INR (length ps) <= 2 ^ 53 -> nearest (ax c) (mean (map ax ps)).
Proof.
  intros ps c ax H A F W L B. destruct (cog2_f ps c ax H A) as [-> NE]. apply mean_int; [apply nonempty, NE|apply coords2; assumption|exact W|rewrite map_length; exact L|].
  unfold mean_abs in B. rewrite map_length in B. change (bp 53) with (IZR (2 ^ 53)). unfold tota, Rdiv in *. rewrite Rmult_assoc, Rinv_l, Rmult_1_r in B; [change (IZR (2 ^ 53)) with 9007199254740992; lra|].
  apply not_0_INR. destruct ps; [congruence|discriminate].
Qed.
Print Assumptions C180_integers_2d.
Definition the (o : option (pt2 F64)) : pt2 F64 := match o with Some c => c | None => @mk2 F64 n0 n0 end.
(** ** What fails in doubles *)
(** The center leaves the range of the coordinates: ten points, all with the x coordinate 0.1. *)
Theorem C180_range_refuted : exists (ps : list (pt2 F64)) c v, Forall finite2 ps /\ (forall p, In p ps -> x2 p = v) /\ pc2_cog ps = Some c /\ flt (x2 c) v.
Proof.
  exists (repeat (@mk2 F64 (@lit F64 3602879701896397 (-55)) n0) 10), (the (pc2_cog (repeat (@mk2 F64 (@lit F64 3602879701896397 (-55)) n0) 10))). exists (@lit F64 3602879701896397 (-55)). split; [|split; [|split]].
  - apply Forall_forall. intros p I. apply repeat_spec in I. subst p. intros ax [->| ->]; split; vm_compute; first [reflexivity|exact I].
  - intros p I. apply repeat_spec in I. subst p. reflexivity.
  - vmeq.
  - vm_compute. reflexivity.
Qed.
Print Assumptions C180_range_refuted.
(** It depends on the order of the points. *)
Theorem C180_order_refuted : exists (p q r : pt2 F64) c d, finite2 p /\ finite2 q /\ finite2 r /\ pc2_cog [p; q; r] = Some c /\ pc2_cog [p; r; q] = Some d /\ flt (x2 c) (x2 d).
Proof.
  exists (@mk2 F64 (@lit F64 1 60) n0), (@mk2 F64 (fz 1) n0), (@mk2 F64 (@lit F64 (-1) 60) n0).
  exists (the (pc2_cog [@mk2 F64 (@lit F64 1 60) n0; @mk2 F64 (fz 1) n0; @mk2 F64 (@lit F64 (-1) 60) n0])), (the (pc2_cog [@mk2 F64 (@lit F64 1 60) n0; @mk2 F64 (@lit F64 (-1) 60) n0; @mk2 F64 (fz 1) n0])).
  split; [intros ax [->| ->]; split; vm_compute; first [reflexivity|exact I]|]. split; [intros ax [->| ->]; split; vm_compute; first [reflexivity|exact I]|].
  split; [intros ax [->| ->]; split; vm_compute; first [reflexivity|exact I]|]. split; [vmeq|]. split; [vmeq|]. vm_compute; reflexivity.
Qed.
Print Assumptions C180_order_refuted.
(** It can be infinite for two finite points. *)
Theorem C180_infinite_refuted : exists (p q : pt2 F64), finite2 p /\ finite2 q /\ pc2_cog [p; q] = Some (@mk2 F64 (S754_infinity false) n0).
Proof.
  exists (@mk2 F64 (@lit F64 1 1023) n0), (@mk2 F64 (@lit F64 1 1023) n0).
  split; [intros ax [->| ->]; split; vm_compute; first [reflexivity|exact I]|]. split; [intros ax [->| ->]; split; vm_compute; first [reflexivity|exact I]|]. vmeq.
Qed.
Print Assumptions C180_infinite_refuted.
Example C180_case : let ps := [fp2 1 0; fp2 2 0; fp2 2 1] in Forall finite2 ps /\ Forall whole (map x2 ps) /\ mean (map x2 ps) = 5 / 3 /\ mean_abs (map x2 ps) * INR (length ps) <= 2 ^ 53 /\
  exists c, pc2_cog ps = Some c /\ x2 c = (@lit F64 7505999378950827 (-52)).
Proof.
  assert (V1 : fval (fz 1) = 1) by (change (fz 1) with (S754_finite false 4503599627370496 (-52) : T F64); cbn [fval]; rewrite bp_powerRZ; change (bp (-52)) with (/ 4503599627370496); lra).
  assert (V2 : fval (fz 2) = 2) by (change (fz 2) with (S754_finite false 4503599627370496 (-51) : T F64); cbn [fval]; rewrite bp_powerRZ; change (bp (-51)) with (/ 2251799813685248); lra).
  split; [repeat (apply Forall_cons; [intros ax [->| ->]; split; vm_compute; first [reflexivity|exact I]|]); apply Forall_nil|].
  split; [apply Forall_cons; [exists 1%Z; exact V1|apply Forall_cons; [exists 2%Z; exact V2|apply Forall_cons; [exists 2%Z; exact V2|apply Forall_nil]]]|].
  unfold mean, mean_abs. cbn [map length total fold_right x2 fp2 INR]. rewrite V1, V2. split; [field|]. rewrite !Rabs_pos_eq by lra. split; [lra|]. exists (the (pc2_cog [fp2 1 0; fp2 2 0; fp2 2 1])). split; vmeq.
Qed.
