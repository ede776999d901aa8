(** Lemmas about sums and means of doubles. *)
From Verif Require Import Base BaseLemmas Num NumLemmas BBoxModel GeomSpec FloatSpec FloatBridge RootLemmas DistSpec DistLemmas DistLemmas2 DistLemmas3 ClusterLemmas2 OcModel CloudModel CloudSpec CloudLemmas PathLemmas MeanSpec.
From Coq Require Import Floats.SpecFloat Reals Lra Lia Psatz.
From Flocq Require Import Core.
Local Open Scope R_scope.

Definition sumf (xs : list (T F64)) : T F64 := fold_left (fun s x => nadd s x) xs n0.
Definition fin1 (x : T F64) : Prop := is_double x /\ f_finite x.
Lemma sum3_x {NM} (ps : list (pt3 NM)) : forall s, px (fold_left (fun s p => mk3 (px s + px p) (py s + py p) (pz s + pz p))%num ps s) = fold_left (fun s x => nadd s x) (map px ps) (px s).
Proof. induction ps as [|p r IH]; intros s; [reflexivity|]. cbn [fold_left map]. rewrite IH. reflexivity. Qed.
Lemma sum3_y {NM} (ps : list (pt3 NM)) : forall s, py (fold_left (fun s p => mk3 (px s + px p) (py s + py p) (pz s + pz p))%num ps s) = fold_left (fun s x => nadd s x) (map py ps) (py s).
Proof. induction ps as [|p r IH]; intros s; [reflexivity|]. cbn [fold_left map]. rewrite IH. reflexivity. Qed.
Lemma sum3_z {NM} (ps : list (pt3 NM)) : forall s, pz (fold_left (fun s p => mk3 (px s + px p) (py s + py p) (pz s + pz p))%num ps s) = fold_left (fun s x => nadd s x) (map pz ps) (pz s).
Proof. induction ps as [|p r IH]; intros s; [reflexivity|]. cbn [fold_left map]. rewrite IH. reflexivity. Qed.
Lemma sum2_x {NM} (ps : list (pt2 NM)) : forall s, x2 (fold_left (fun s p => mk2 (x2 s + x2 p) (y2 s + y2 p))%num ps s) = fold_left (fun s x => nadd s x) (map x2 ps) (x2 s).
Proof. induction ps as [|p r IH]; intros s; [reflexivity|]. cbn [fold_left map]. rewrite IH. reflexivity. Qed.
Lemma sum2_y {NM} (ps : list (pt2 NM)) : forall s, y2 (fold_left (fun s p => mk2 (x2 s + x2 p) (y2 s + y2 p))%num ps s) = fold_left (fun s x => nadd s x) (map y2 ps) (y2 s).
Proof. induction ps as [|p r IH]; intros s; [reflexivity|]. cbn [fold_left map]. rewrite IH. reflexivity. Qed.
Definition meanf (xs : list (T F64)) : T F64 := ndiv (sumf xs) (of_usize (lenN xs)).
Lemma cog3_f ps c ax : pc3_cog ps = Some c -> axis3 ax -> ax c = meanf (map ax ps) /\ ps <> [].
Proof.
  intros H A. destruct ps as [|p r]; [discriminate|]. split; [|discriminate]. apply Some_inj in H. subst c. unfold meanf, lenN. rewrite map_length. unfold sumf, sum_3d.
  destruct A as [->|[->| ->]]; cbn [px py pz]; [rewrite sum3_x|rewrite sum3_y|rewrite sum3_z]; reflexivity.
Qed.
Lemma cog2_f ps c ax : pc2_cog ps = Some c -> axis2 ax -> ax c = meanf (map ax ps) /\ ps <> [].
Proof.
  intros H A. destruct ps as [|p r]; [discriminate|]. split; [|discriminate]. apply Some_inj in H. subst c. unfold meanf, lenN. rewrite map_length. unfold sumf.
  destruct A as [->| ->]; cbn [x2 y2]; [rewrite sum2_x|rewrite sum2_y]; reflexivity.
Qed.
Definition tot (xs : list (T F64)) : R := total (map fval xs).
Definition tota (xs : list (T F64)) : R := total (map (fun x => Rabs (fval x)) xs).
Lemma tota_pos xs : 0 <= tota xs.
Proof. unfold tota, total. induction xs as [|x r IH]; cbn [map fold_right]; [lra|]. pose proof (Rabs_pos (fval x)). lra. Qed.
Lemma tot_tota xs : Rabs (tot xs) <= tota xs.
Proof. unfold tot, tota, total. induction xs as [|x r IH]; cbn [map fold_right]; [rewrite Rabs_R0; lra|]. eapply Rle_trans; [apply Rabs_triang|]. lra. Qed.
Lemma tota_bound xs B : Forall (fun x => Rabs (fval x) <= B) xs -> tota xs <= INR (length xs) * B.
Proof. unfold tota, total. induction 1 as [|x r X F IH]; cbn [map fold_right length]; [cbn; lra|]. rewrite S_INR. lra. Qed.
(** A rounded value that does not overflow. *)
Lemma rounds_small r z e : rounds r z -> Rabs r <= bp e -> (-1074 <= e < 1024)%Z -> f_finite z /\ fval z = rnd r.
Proof.
  intros RD B E. assert (U : Rabs (rnd r) <= bp e).
  { apply Rabs_le_inv in B. apply Rabs_le. split.
    - replace (- bp e) with (rnd (- bp e)); [apply rnd_le; lra|]. apply rnd_id. apply generic_format_opp, fmt_bpow. lia.
    - rewrite <- (rnd_id (bp e)) by (apply fmt_bpow; lia). apply rnd_le. lra. }
  assert (T : bp e < top) by (apply bpow_lt; unfold f64_emax; lia). apply Rabs_le_inv in U.
  destruct RD as [(_ & F & V)|[(O & _)|(O & _)]]; [auto|lra|lra].
Qed.
(** The loop. *)
Lemma sum_loop xs : forall acc S A j, fin1 acc -> Forall fin1 xs -> 0 <= A -> Rabs S <= A -> Rabs (fval acc - S) <= A * ((1 + ur) ^ j - 1) ->
  INR (j + length xs) * ur <= / 1000 -> A + tota xs <= bp 1000 ->
  let s := fold_left (fun s x => nadd s x) xs acc in
  fin1 s /\ Rabs (fval s - (S + tot xs)) <= (A + tota xs) * ((1 + ur) ^ (j + length xs) - 1).
Proof.
  pose proof ur_small as U. induction xs as [|x r IH]; intros acc S A j [DA FA] F A0 SA E J B; cbn [fold_left length].
  - unfold tot, tota in *. cbn [map total fold_right] in *. rewrite Nat.add_0_r, !Rplus_0_r. cbv zeta. split; [split; assumption|exact E].
  - apply Forall_cons_iff in F. destruct F as [[DX FX] F]. cbn [length] in J. pose proof (tota_pos r) as TP.
    assert (TX : tota (x :: r) = Rabs (fval x) + tota r) by reflexivity. assert (TT : tot (x :: r) = fval x + tot r) by reflexivity. rewrite TX in B. pose proof (Rabs_pos (fval x)) as XP.
    assert (PH : 1 <= (1 + ur) ^ j <= 1 + 2 * (INR j * ur)).
    { apply pow_hi; [lra|]. assert (INR j * ur <= INR (j + Datatypes.S (length r)) * ur); [|lra]. apply Rmult_le_compat_r; [lra|]. apply le_INR. lia. }
    assert (JU : INR j * ur <= / 1000). { assert (INR j * ur <= INR (j + Datatypes.S (length r)) * ur); [|lra]. apply Rmult_le_compat_r; [lra|]. apply le_INR. lia. }
    assert (EA : Rabs (fval acc - S) <= A * (2 * / 1000)). { eapply Rle_trans; [exact E|]. apply Rmult_le_compat_l; lra. }
    pose proof (Rabs_triang (fval acc - S) (S + fval x)) as T1. pose proof (Rabs_triang S (fval x)) as T2.
    replace (fval acc - S + (S + fval x)) with (fval acc + fval x) in T1 by ring.
    assert (SB : Rabs (fval acc + fval x) <= bp 1001).
    { change (bp 1001) with (bpow radix2 (1 + 1000)). rewrite bpow_plus. change (bpow radix2 1) with 2. assert (A * (2 * / 1000) <= A) by lra. lra. }
    destruct (rounds_small _ _ 1001 (add_val acc x DA DX FA FX) SB ltac:(lia)) as [FS VS].
    destruct (add_rel (fval acc) (fval x) (fval_fmt _ DA) (fval_fmt _ DX)) as (eps & EB & EQ). rewrite EQ in VS.
    specialize (IH (nadd acc x) (S + fval x) (A + Rabs (fval x)) (Datatypes.S j)).
    assert (NE : Rabs (fval (nadd acc x) - (S + fval x)) <= (A + Rabs (fval x)) * ((1 + ur) ^ Datatypes.S j - 1)).
    { rewrite VS. replace ((fval acc + fval x) * (1 + eps) - (S + fval x)) with ((fval acc - S) + eps * (fval acc + fval x)) by ring.
      eapply Rle_trans; [apply Rabs_triang|]. rewrite Rabs_mult.
      assert (M : Rabs eps * Rabs (fval acc + fval x) <= ur * (Rabs (fval acc - S) + (A + Rabs (fval x)))) by (apply Rmult_le_compat; try apply Rabs_pos; lra).
      cbn [pow]. assert (M2 : (1 + ur) * Rabs (fval acc - S) <= (1 + ur) * (A * ((1 + ur) ^ j - 1))) by (apply Rmult_le_compat_l; lra).
      assert (M3 : 0 <= Rabs (fval x) * ((1 + ur) * ((1 + ur) ^ j - 1))) by (apply Rmult_le_pos; [exact XP|]; apply Rmult_le_pos; lra). lra. }
    assert (DS : is_double (nadd acc x)) by (apply double_add; assumption).
    assert (J' : INR (Datatypes.S j + length r) * ur <= / 1000) by (replace (Datatypes.S j + length r)%nat with (j + Datatypes.S (length r))%nat by lia; exact J).
    specialize (IH (conj DS FS) F ltac:(lra) ltac:(lra) NE J' ltac:(lra)). cbv zeta in IH |- *. rewrite TX, TT.
    replace (j + Datatypes.S (length r))%nat with (Datatypes.S j + length r)%nat by lia. replace (S + (fval x + tot r)) with (S + fval x + tot r) by ring. replace (A + (Rabs (fval x) + tota r)) with (A + Rabs (fval x) + tota r) by ring. exact IH.
Qed.
Lemma sum_acc xs : Forall fin1 xs -> INR (length xs) <= 2 ^ 40 -> tota xs <= bp 1000 -> fin1 (sumf xs) /\ Rabs (fval (sumf xs) - tot xs) <= tota xs * (INR (length xs) * (2 * ur)).
Proof.
  intros F L B. pose proof ur_small as U. pose proof (pos_INR (length xs)) as LP.
  assert (UU : ur <= / 1000 * / 2 ^ 40) by (unfold ur; change (bp (-52)) with (/ 4503599627370496); lra).
  assert (JU : INR (length xs) * ur <= / 1000). { assert (INR (length xs) * ur <= 2 ^ 40 * ur) by (apply Rmult_le_compat_r; lra). lra. }
  destruct (sum_loop xs n0 0 0 0) as [FS E].
  - split; [reflexivity|exact I].
  - exact F.
  - lra.
  - rewrite Rabs_R0. lra.
  - change (fval (n0 : T F64)) with 0. rewrite Rminus_0_r, Rabs_R0. cbn [pow]. lra.
  - exact JU.
  - lra.
  - split; [exact FS|]. rewrite !Rplus_0_l in E. eapply Rle_trans; [exact E|]. cbn [plus]. destruct (pow_hi ur (length xs) ltac:(lra) ltac:(lra)) as [_ P]. apply Rmult_le_compat_l; [apply tota_pos|]. lra.
Qed.
Lemma count_val n : (n < 2 ^ 53)%N -> fin1 (of_usize n) /\ fval (of_usize n) = IZR (Z.of_N n).
Proof. intros L. unfold of_usize. destruct (lit_int (Z.of_N n)) as [F V]; [lia|]. split; [split; [apply double_lit|exact F]|exact V]. Qed.
Lemma len_val (xs : list (T F64)) : xs <> [] -> INR (length xs) <= 2 ^ 40 -> fin1 (of_usize (lenN xs)) /\ fval (of_usize (lenN xs)) = INR (length xs) /\ 1 <= INR (length xs).
Proof.
  intros NE L. assert (LZ : (Z.of_nat (length xs) <= 2 ^ 40)%Z).
  { apply le_IZR. rewrite <- INR_IZR_INZ. change (IZR (2 ^ 40)) with 1099511627776. lra. }
  destruct (count_val (lenN xs)) as [F V]; [unfold lenN; lia|]. split; [exact F|]. rewrite V. unfold lenN. rewrite nat_N_Z, <- INR_IZR_INZ. split; [reflexivity|].
  change 1 with (INR 1). apply le_INR. destruct xs; [congruence|cbn; lia].
Qed.
Lemma mean_acc xs : xs <> [] -> Forall fin1 xs -> Forall (fun x => Rabs (fval x) <= bp 960) xs -> INR (length xs) <= 2 ^ 40 ->
  f_finite (meanf xs) /\ Rabs (fval (meanf xs) - mean xs) <= mean_abs xs * (INR (length xs) + 1) * bp (-52) + bp (-1074).
Proof.
  intros NE F B L. pose proof ur_small as U. destruct (len_val xs NE L) as (FL & VL & L1). pose proof (tota_bound xs _ B) as TB. pose proof (tota_pos xs) as TP.
  assert (TB2 : tota xs <= bp 1000).
  { eapply Rle_trans; [exact TB|]. change (bp 1000) with (bpow radix2 (40 + 960)). rewrite bpow_plus. change (bpow radix2 40) with 1099511627776. apply Rmult_le_compat_r; [apply Rlt_le, bp_pos|]. lra. }
  destruct (sum_acc xs F L TB2) as [[DS FS] ES].
  assert (UU : ur <= / 1000 * / 2 ^ 40) by (unfold ur; change (bp (-52)) with (/ 4503599627370496); lra).
  assert (JU : INR (length xs) * (2 * ur) <= / 500). { assert (INR (length xs) * ur <= 2 ^ 40 * ur) by (apply Rmult_le_compat_r; lra). lra. }
  pose proof (tot_tota xs) as TT. set (n := INR (length xs)) in *. set (s := fval (sumf xs)) in *. set (A := tota xs) in *. set (S := tot xs) in *.
  assert (SA : Rabs s <= A * (1 + / 500)).
  { replace s with ((s - S) + S) by ring. eapply Rle_trans; [apply Rabs_triang|]. assert (A * (n * (2 * ur)) <= A * / 500) by (apply Rmult_le_compat_l; lra). lra. }
  assert (NI : 0 < / n <= 1) by (split; [apply Rinv_0_lt_compat; lra|rewrite <- Rinv_1; apply Rinv_le_contravar; lra]).
  assert (DB : Rabs (s / n) <= bp 1001).
  { unfold Rdiv. rewrite Rabs_mult, (Rabs_pos_eq (/ n)) by lra. apply Rle_trans with (Rabs s * 1); [apply Rmult_le_compat_l; [apply Rabs_pos|lra]|].
    change (bp 1001) with (bpow radix2 (1 + 1000)). rewrite bpow_plus. change (bpow radix2 1) with 2. lra. }
  destruct FL as [DL FL]. pose proof (div_val (sumf xs) (of_usize (lenN xs)) DS DL FS FL) as DV. rewrite VL in DV. specialize (DV ltac:(lra)). fold s in DV.
  destruct (rounds_small _ _ 1001 DV DB ltac:(lia)) as [FM VM]. split; [exact FM|]. unfold meanf. rewrite VM.
  destruct (mul_rel (s / n)) as (eps & h & EB & HB & EQ). rewrite EQ.
  assert (MM : mean xs = S / n) by reflexivity. assert (MA : mean_abs xs = A / n) by reflexivity. rewrite MM, MA.
  replace (s / n * (1 + eps) + h - S / n) with ((s - S) * / n + (eps * s * / n + h)) by (unfold Rdiv; ring).
  eapply Rle_trans; [apply Rabs_triang|]. eapply Rle_trans; [apply Rplus_le_compat_l, Rabs_triang|].
  rewrite !Rabs_mult, (Rabs_pos_eq (/ n)) by lra.
  assert (B1 : Rabs (s - S) * / n <= A * (n * (2 * ur)) * / n) by (apply Rmult_le_compat_r; lra).
  assert (B2 : Rabs eps * Rabs s * / n <= ur * (A * (1 + / 500)) * / n) by (apply Rmult_le_compat_r; [lra|]; apply Rmult_le_compat; try apply Rabs_pos; lra).
  assert (AN : 0 <= A * / n) by (apply Rmult_le_pos; lra).
  assert (UE : bp (-52) = 2 * ur) by (unfold ur; field). assert (HE : bp (-1074) = 2 * eta) by (unfold eta; field). pose proof (bp_pos (-1074)) as EP. rewrite UE.
  replace (A / n * (n + 1) * (2 * ur)) with (A * (n * (2 * ur)) * / n + 2 * ur * (A * / n)) by (unfold Rdiv; ring).
  replace (ur * (A * (1 + / 500)) * / n) with ((1 + / 500) * (ur * (A * / n))) in B2 by ring.
  assert (AU : 0 <= ur * (A * / n)) by (apply Rmult_le_pos; lra). lra.
Qed.
(** ** Integers *)
Lemma rnd_int (z : Z) : (Z.abs z <= 2 ^ 53)%Z -> rnd (IZR z) = IZR z.
Proof.
  intros H. apply rnd_id. destruct (Z.eq_dec (Z.abs z) (2 ^ 53)) as [E|E].
  - destruct (Z.abs_spec z) as [[_ Q]|[_ Q]]; rewrite Q in E.
    + rewrite E. change (IZR (2 ^ 53)) with (bpow radix2 53). apply fmt_bpow. lia.
    + assert (Z2 : z = (- 2 ^ 53)%Z) by lia. rewrite Z2. rewrite opp_IZR. apply generic_format_opp. change (IZR (2 ^ 53)) with (bpow radix2 53). apply fmt_bpow. lia.
  - apply generic_format_FLT. exists (Float radix2 z 0); [unfold F2R; cbn; ring|cbn; lia|cbn; lia].
Qed.
Lemma sum_int xs : forall acc (S A : Z), fin1 acc -> fval acc = IZR S -> (Z.abs S <= A)%Z -> Forall fin1 xs -> Forall whole xs -> IZR A + tota xs <= bp 53 ->
  let s := fold_left (fun s x => nadd s x) xs acc in fin1 s /\ fval s = IZR S + tot xs.
Proof.
  induction xs as [|x r IH]; intros acc S A [DA FA] V SA F W B; cbn [fold_left].
  - cbv zeta. unfold tot. cbn [map total fold_right]. split; [split; assumption|]. rewrite V. ring.
  - apply Forall_cons_iff in F. destruct F as [[DX FX] F]. apply Forall_cons_iff in W. destruct W as [[z Z0] W].
    assert (TX : tota (x :: r) = Rabs (fval x) + tota r) by reflexivity. assert (TT : tot (x :: r) = fval x + tot r) by reflexivity. rewrite TX in B. pose proof (tota_pos r) as TP.
    rewrite Z0, <- abs_IZR in B. assert (ZB : (A + Z.abs z <= 2 ^ 53)%Z).
    { apply le_IZR. rewrite plus_IZR. change (IZR (2 ^ 53)) with (bp 53). lra. }
    pose proof (add_val acc x DA DX FA FX) as AV. rewrite V, Z0, <- plus_IZR in AV.
    assert (RB : Rabs (IZR (S + z)) <= bp 53). { rewrite <- abs_IZR. change (bp 53) with (IZR (2 ^ 53)). apply IZR_le. lia. }
    destruct (rounds_small _ _ 53 AV RB ltac:(lia)) as [FS VS]. rewrite rnd_int in VS by lia.
    destruct (IH (nadd acc x) (S + z)%Z (A + Z.abs z)%Z) as [R1 R2]; [split; [apply double_add; assumption|exact FS]|exact VS|lia|exact F|exact W|rewrite plus_IZR; lra|].
    cbv zeta. split; [exact R1|]. rewrite R2, TT, Z0, plus_IZR. ring.
Qed.
Lemma mean_int xs : xs <> [] -> Forall fin1 xs -> Forall whole xs -> INR (length xs) <= 2 ^ 40 -> tota xs <= bp 53 -> nearest (meanf xs) (mean xs).
Proof.
  intros NE F W L B. destruct (len_val xs NE L) as ([DL FL] & VL & L1).
  destruct (sum_int xs n0 0%Z 0%Z) as [[DS FS] VS]; [split; [reflexivity|exact I]|reflexivity|lia|exact F|exact W|lra|]. rewrite Rplus_0_l in VS. fold (sumf xs) in DS, FS, VS.
  pose proof (div_val _ _ DS DL FS FL) as DV. rewrite VL, VS in DV. specialize (DV ltac:(lra)). change (tot xs / INR (length xs)) with (mean xs) in DV.
  assert (NI : 0 < / INR (length xs) <= 1) by (split; [apply Rinv_0_lt_compat; lra|rewrite <- Rinv_1; apply Rinv_le_contravar; lra]).
  assert (DB : Rabs (mean xs) <= bp 53).
  { change (mean xs) with (tot xs * / INR (length xs)). rewrite Rabs_mult, (Rabs_pos_eq (/ _)) by lra. pose proof (tot_tota xs). apply Rle_trans with (Rabs (tot xs) * 1); [apply Rmult_le_compat_l; [apply Rabs_pos|lra]|]. lra. }
  destruct (rounds_small _ _ 53 DV DB ltac:(lia)) as [FM VM]. fold (meanf xs) in FM, VM. split; [apply double_div; assumption|]. split; [apply finite_f, FM|].
  intros y DY FY. rewrite VM. destruct (@round_N_pt radix2 (FLT_exp (-1074) 53) valid_exp_f64 (fun z => negb (Z.even z)) (mean xs)) as [_ N]. apply N, fval_fmt, DY.
Qed.
