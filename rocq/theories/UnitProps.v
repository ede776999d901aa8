(** Normalised vectors of doubles (C173). *)
From Verif Require Import Base Num NumLemmas BBoxModel GeomSpec VecSpec VecModel FloatSpec FloatLemmas FloatBridge RootLemmas DistSpec DistLemmas DistLemmas2 DistLemmas3 UnitSpec UnitLemmas.
From Coq Require Import Floats.SpecFloat Reals Lra Psatz.
From Flocq Require Import Core.
Local Open Scope R_scope.

(** ** Finite vectors never panic *)
Theorem C173_total : (forall p, finite3 p -> norm3_new p = Err NormalizeVecWithoutLength \/ exists n, norm3_new p = Ok n) /\
  (forall p, finite2 p -> norm2_new p = Err NormalizeVecWithoutLength \/ exists n, norm2_new p = Ok n).
Proof.
  split; intros p F; [unfold norm3_new; rewrite (abs3_dist p F), (nonneg_nn _ (nn_dist3 _ _ F origin3))|unfold norm2_new; rewrite (abs2_dist p F), (nonneg_nn _ (nn_dist2 _ _ F origin2))];
    cbn [unwrap obind]; destruct (neqb _ _); eauto.
Qed.
Print Assumptions C173_total.

(** ** Vectors of moderate length *)
Lemma moderate_nonzero (l : T F64) L : is_double l -> close_to l L -> powerRZ 2 (-480) <= L -> neqb l n0 = false.
Proof.
  intros D [F C] H. apply finite_f in F. destruct (neqb l n0) eqn:E; [|reflexivity]. exfalso.
  assert (Q : feq l n0) by exact E. apply (feq_val l n0 D) in Q; [|reflexivity|exact F|exact I]. rewrite Q in C. change (fval n0) with 0 in C. rewrite <- four_ur in C. apply Rabs_le_inv in C. pose proof ur_small. rewrite bp_powerRZ in H. pose proof (bp_pos (-480)). nra.
Qed.
Theorem C173_direction : forall p : pt3 F64, finite3 p -> powerRZ 2 (-480) <= length3 p <= powerRZ 2 511 ->
  exists n, norm3_new p = Ok n /\ direction_of3 n p /\ nearly_one (length3 n).
Proof.
  intros p F M. pose proof (nn_dist3 _ _ F origin3) as N. assert (C : close_to (dist_3d p (@mk3 F64 n0 n0 n0)) (length3 p)).
  { rewrite length3_dist in *. apply accurate3; [exact F|exact origin3|right; exact M]. }
  unfold norm3_new. rewrite (abs3_dist p F), (nonneg_nn _ N). cbn [unwrap obind]. rewrite (moderate_nonzero _ _ (proj1 N) C (proj1 M)). eexists. split; [reflexivity|].
  assert (S : forall ax, axis3 ax -> nearly (nmul (ndiv n1 (dist_3d p (@mk3 F64 n0 n0 n0))) (ax p)) (fval (ax p) / length3 p)).
  { intros ax A. destruct (F ax A) as [D FF]. apply finite_f in FF. apply scaled; try assumption; [apply N|apply coord3, A]. }
  split; [intros ax A; pose proof (S ax A) as R; destruct A as [->|[->| ->]]; exact R|].
  assert (LP : 0 < length3 p) by (pose proof (bp_pos (-480)); rewrite <- bp_powerRZ in *; lra).
  unfold length3 at 1, rsq3, rdot3, real3. cbn [px py pz]. apply (unit_sum (fval (px p) / length3 p) (fval (py p) / length3 p) (fval (pz p) / length3 p)); try (apply S; unfold axis3; auto).
  assert (Q : length3 p * length3 p = fval (px p) * fval (px p) + fval (py p) * fval (py p) + fval (pz p) * fval (pz p)).
  { unfold length3. rewrite sqrt_sqrt; unfold rsq3, rdot3, real3; cbn; [reflexivity|nra]. }
  apply (Rmult_eq_reg_r (length3 p * length3 p)); [|nra]. rewrite Q at 2. field. lra.
Qed.
Print Assumptions C173_direction.
Theorem C173_direction_2d : forall p : pt2 F64, finite2 p -> powerRZ 2 (-480) <= length2 p <= powerRZ 2 511 ->
  exists n, norm2_new p = Ok n /\ direction_of2 n p /\ nearly_one (length2 n).
Proof.
  intros p F M. pose proof (nn_dist2 _ _ F origin2) as N. assert (C : close_to (dist_2d p (@mk2 F64 n0 n0)) (length2 p)).
  { rewrite length2_dist in *. apply accurate2; [exact F|exact origin2|right; exact M]. }
  unfold norm2_new. rewrite (abs2_dist p F), (nonneg_nn _ N). cbn [unwrap obind]. rewrite (moderate_nonzero _ _ (proj1 N) C (proj1 M)). eexists. split; [reflexivity|].
  assert (S : forall ax, axis2 ax -> nearly (nmul (ndiv n1 (dist_2d p (@mk2 F64 n0 n0))) (ax p)) (fval (ax p) / length2 p)).
  { intros ax A. destruct (F ax A) as [D FF]. apply finite_f in FF. apply scaled; try assumption; [apply N|apply coord2, A]. }
  split; [intros ax A; pose proof (S ax A) as R; destruct A as [->| ->]; exact R|].
  assert (LP : 0 < length2 p) by (pose proof (bp_pos (-480)); rewrite <- bp_powerRZ in *; lra).
  unfold length2 at 1, rsq2, rdot2, real2. cbn [x2 y2].
  match goal with |- nearly_one (sqrt ?s) => replace s with (s + 0 * 0) by (cbn; ring) end. apply (unit_sum (fval (x2 p) / length2 p) (fval (y2 p) / length2 p) 0); try (apply S; unfold axis2; auto).
  - assert (Q : length2 p * length2 p = fval (x2 p) * fval (x2 p) + fval (y2 p) * fval (y2 p)).
    { unfold length2. rewrite sqrt_sqrt; unfold rsq2, rdot2, real2; cbn; [reflexivity|nra]. }
    apply (Rmult_eq_reg_r (length2 p * length2 p)); [|nra]. rewrite Q at 2. field. lra.
  - rewrite Rminus_0_r, Rabs_R0, Rmult_0_l, Rplus_0_l, bp_powerRZ. apply Rlt_le, bp_pos.
Qed.
Print Assumptions C173_direction_2d.

(** ** Vectors with a huge coordinate become zero vectors, tiny vectors have no direction *)
Theorem C173_huge_refuted : (forall p ax, finite3 p -> axis3 ax -> powerRZ 2 512 <= Rabs (fval (ax p)) -> exists n, norm3_new p = Ok n /\ zeros3 n) /\
  (forall p ax, finite2 p -> axis2 ax -> powerRZ 2 512 <= Rabs (fval (ax p)) -> exists n, norm2_new p = Ok n /\ zeros2 n).
Proof.
  split; intros p ax F A H.
  - unfold norm3_new. rewrite (abs3_dist p F), (dist3_huge p ax F A H). cbn -[norm3_new nmul ndiv]. eexists. split; [reflexivity|]. apply fin3 in F. destruct F as ((_ & F1) & (_ & F2) & (_ & F3)). intros bx [->|[->| ->]]; apply over_inf; assumption.
  - unfold norm2_new. rewrite (abs2_dist p F), (dist2_huge p ax F A H). cbn -[norm2_new nmul ndiv]. eexists. split; [reflexivity|]. apply fin2 in F. destruct F as ((_ & F1) & (_ & F2)). intros bx [->| ->]; apply over_inf; assumption.
Qed.
Print Assumptions C173_huge_refuted.
Theorem C173_tiny_refuted : (forall p, finite3 p -> (forall ax, axis3 ax -> Rabs (fval (ax p)) <= powerRZ 2 (-538)) -> norm3_new p = Err NormalizeVecWithoutLength) /\
  (forall p, finite2 p -> (forall ax, axis2 ax -> Rabs (fval (ax p)) <= powerRZ 2 (-538)) -> norm2_new p = Err NormalizeVecWithoutLength).
Proof.
  split; intros p F H.
  - unfold norm3_new. rewrite (abs3_dist p F), (nonneg_nn _ (nn_dist3 _ _ F origin3)). cbn [unwrap obind]. rewrite (dist3_tiny p F H). reflexivity.
  - unfold norm2_new. rewrite (abs2_dist p F), (nonneg_nn _ (nn_dist2 _ _ F origin2)). cbn [unwrap obind]. rewrite (dist2_tiny p F H). reflexivity.
Qed.
Print Assumptions C173_tiny_refuted.
(** Between the two, the result can be far from length one: the direction of (3*2^-539, 0, 0) has length 3/4. *)
Theorem C173_length_refuted : exists p n, finite3 p /\ norm3_new p = Ok n /\ n = mk3 (lit 3 (-2) : T F64) n0 n0.
Proof.
  exists (mk3 (lit 3 (-539) : T F64) n0 n0), (mk3 (lit 3 (-2) : T F64) n0 n0). split; [|split; vmeq].
  intros ax [->|[->| ->]]; split; vm_compute; reflexivity||exact I.
Qed.
Print Assumptions C173_length_refuted.
(** A face in the plane x = 0 whose normal is said to be the z axis, because its corners are close to each other. *)
Theorem C173_face_refuted : exists a b c : pt3 F64, finite3 a /\ finite3 b /\ finite3 c /\ feq (px a) n0 /\ feq (px b) n0 /\ feq (px c) n0 /\
  a = fp3 0 0 0 /\ b = mk3 (n0 : T F64) (lit 1 (-270)) n0 /\ c = mk3 (n0 : T F64) n0 (lit 1 (-270)) /\ normal_of_face a b c = Ok (fp3 0 0 1).
Proof.
  exists (fp3 0 0 0), (mk3 (n0 : T F64) (lit 1 (-270)) n0), (mk3 (n0 : T F64) n0 (lit 1 (-270))).
  do 3 (split; [intros ax [->|[->| ->]]; split; vm_compute; reflexivity||exact I|]). do 3 (split; [vm_compute; reflexivity|]). do 3 (split; [reflexivity|]). vmeq.
Qed.
Print Assumptions C173_face_refuted.

Example C173_case : finite3 (fp3 3 0 4) /\ length3 (fp3 3 0 4) = 5 /\ (powerRZ 2 (-480) <= length3 (fp3 3 0 4) <= powerRZ 2 511) /\
  norm3_new (fp3 3 0 4) = Ok (mk3 (lit 5404319552844596 (-53) : T F64) n0 (lit 3602879701896397 (-52))).
Proof.
  assert (L : length3 (fp3 3 0 4) = 5).
  { unfold length3. replace (rsq3 (real3 (fp3 3 0 4))) with (5 * 5); [apply sqrt_square; lra|]. unfold rsq3, rdot3, real3, fp3. cbn [px py pz].
    change (fz 3) with (S754_finite false 6755399441055744 (-51) : T F64). change (fz 0) with (S754_zero false : T F64). change (fz 4) with (S754_finite false 4503599627370496 (-50) : T F64).
    cbn [fval]. rewrite !bp_powerRZ. change (Raux.bpow Zaux.radix2 (-51)) with (/ 2251799813685248). change (Raux.bpow Zaux.radix2 (-50)) with (/ 1125899906842624). cbn. field. }
  split; [intros ax [->|[->| ->]]; split; vm_compute; reflexivity||exact I|]. split; [exact L|]. split; [|vmeq].
  rewrite L, !bp_powerRZ. split.
  - apply Rle_trans with (Raux.bpow Zaux.radix2 0); [apply Raux.bpow_le; lia|]. cbn. lra.
  - apply Rle_trans with (Raux.bpow Zaux.radix2 3); [cbn; lra|apply Raux.bpow_le; lia].
Qed.
