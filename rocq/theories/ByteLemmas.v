(** Lemmas about binary numbers. *)
From Verif Require Import Base BaseLemmas Num GeomSpec FloatSpec FloatBridge IoModel ByteModel ByteSpec.
From Coq Require Import Floats.SpecFloat Reals Lra Lia.
From Flocq Require Import Core BinarySingleNaN Digits.
Open Scope Z_scope.

(** ** integers *)
Lemma byte_range c : (N_of_ascii c < 256)%N. Proof. apply N_ascii_bounded. Qed.
Lemma le_bound b : (le_value b < 256 ^ N.of_nat (length b))%N.
Proof.
  induction b as [|c r IH]; [reflexivity|]. cbn [le_value length]. rewrite Nat2N.inj_succ, N.pow_succ_r'. pose proof (byte_range c). lia.
Qed.
Lemma low a l : (a < 256)%N -> ((a + 256 * l) mod 256 = a /\ (a + 256 * l) / 256 = l)%N.
Proof. intros H. split; [symmetry; apply (N.mod_unique _ _ l); lia|symmetry; apply (N.div_unique _ _ _ a); lia]. Qed.
Lemma le_encodes b : encodes Little b (le_value b).
Proof.
  split; [apply le_bound|]. induction b as [|c r IH]; intros i L; [cbn in L; lia|]. cbn [le_value]. pose proof (byte_range c) as B. destruct i as [|i].
  - change (256 ^ N.of_nat 0)%N with 1%N. rewrite N.div_1_r. symmetry. apply low, B.
  - cbn [length] in L. unfold byte_at. cbn [nth]. fold (byte_at r i). rewrite IH by lia. rewrite Nat2N.inj_succ, N.pow_succ_r', <- N.div_div by (try lia; apply N.pow_nonzero; lia).
    rewrite (proj2 (low _ (le_value r) B)). reflexivity.
Qed.
Lemma be_fold b : forall n, fold_left (fun n c => (256 * n + N_of_ascii c)%N) b n = (n * 256 ^ N.of_nat (length b) + le_value (rev b))%N.
Proof.
  assert (A : forall x c, le_value (x ++ [c]) = (le_value x + N_of_ascii c * 256 ^ N.of_nat (length x))%N).
  { induction x as [|a x IH]; intros c; [cbn [app le_value length]; change (256 ^ N.of_nat 0)%N with 1%N; lia|]. cbn [app le_value length]. rewrite IH, Nat2N.inj_succ, N.pow_succ_r'. lia. }
  induction b as [|c r IH]; intros n; [cbn [fold_left length rev le_value]; change (256 ^ N.of_nat 0)%N with 1%N; lia|].
  cbn [fold_left rev length]. rewrite IH, A, rev_length, Nat2N.inj_succ, N.pow_succ_r'. lia.
Qed.
Lemma be_le b : be_value b = le_value (rev b).
Proof. unfold be_value. rewrite be_fold. lia. Qed.
Lemma be_encodes b : encodes Big b (be_value b).
Proof.
  rewrite be_le. destruct (le_encodes (rev b)) as [A B]. rewrite rev_length in *. split; [exact A|]. intros i L. rewrite <- B by lia. unfold byte_at. rewrite rev_nth by lia. f_equal. f_equal. lia.
Qed.
Lemma uint_encodes en b : encodes en b (match en with Little => le_value b | Big => be_value b end).
Proof. destruct en; [apply le_encodes|apply be_encodes]. Qed.
Lemma be_bytes_length n : forall v, length (be_bytes n v) = n.
Proof. induction n as [|n IH]; intros v; [reflexivity|]. cbn [be_bytes]. rewrite app_length, IH. cbn [length]. lia. Qed.
Lemma be_value_bytes n : forall v, (v < 256 ^ N.of_nat n)%N -> be_value (be_bytes n v) = v.
Proof.
  unfold be_value. induction n as [|n IH]; intros v H; [change (256 ^ N.of_nat 0)%N with 1%N in H; cbn; lia|].
  cbn [be_bytes]. rewrite fold_left_app. cbn [fold_left]. rewrite IH.
  - rewrite N_ascii_embedding by (apply N.mod_lt; lia). symmetry. apply N.div_mod. lia.
  - rewrite Nat2N.inj_succ, N.pow_succ_r' in H. apply N.div_lt_upper_bound; lia.
Qed.
Lemma encodes_unique en b v w : encodes en b v -> encodes en b w -> v = w.
Proof.
  intros [A B] [C D].
  assert (G : forall i, (i < length b)%nat -> (v / 256 ^ N.of_nat i mod 256 = w / 256 ^ N.of_nat i mod 256)%N).
  { intros i L. destruct en; [rewrite <- B, <- D by exact L; reflexivity|]. specialize (B (length b - 1 - i)%nat ltac:(lia)). specialize (D (length b - 1 - i)%nat ltac:(lia)).
    replace (length b - 1 - (length b - 1 - i))%nat with i in * by lia. congruence. }
  clear B D. revert v w A C G. generalize (length b) as n. clear b. induction n as [|n IH]; intros v w A C G; [change (256 ^ N.of_nat 0)%N with 1%N in *; lia|].
  rewrite Nat2N.inj_succ, N.pow_succ_r' in A, C. pose proof (G 0%nat ltac:(lia)) as G0. change (256 ^ N.of_nat 0)%N with 1%N in G0. rewrite !N.div_1_r in G0.
  assert (E : (v / 256 = w / 256)%N).
  { apply IH; try (apply N.div_lt_upper_bound; lia). intros i L. specialize (G (S i) ltac:(lia)). rewrite Nat2N.inj_succ, N.pow_succ_r', <- !N.div_div in G by (try lia; apply N.pow_nonzero; lia). exact G. }
  rewrite (N.div_mod v 256), (N.div_mod w 256), E, G0 by lia. reflexivity.
Qed.
Lemma take_app n b r : length b = n -> take_bytes n (b ++ r) = Some (b, r).
Proof.
  intros <-. unfold take_bytes. rewrite app_length. destruct (length b + length r <? length b)%nat eqn:E; [apply Nat.ltb_lt in E; lia|].
  rewrite firstn_app, skipn_app, Nat.sub_diag, firstn_all, skipn_all. cbn [firstn skipn]. rewrite app_nil_r. reflexivity.
Qed.
Lemma take_short n s : (length s < n)%nat -> take_bytes n s = None.
Proof. intros L. unfold take_bytes. apply Nat.ltb_lt in L. rewrite L. reflexivity. Qed.
Lemma read_uint_app en n b r : length b = n -> read_uint en n (b ++ r) = Some (match en with Little => le_value b | Big => be_value b end, r).
Proof. intros L. unfold read_uint. rewrite (take_app n b r L). reflexivity. Qed.
Lemma signed_range n v : (0 < n)%nat -> (v < 256 ^ N.of_nat n)%N ->
  - 2 ^ (8 * Z.of_nat n - 1) <= to_signed n v < 2 ^ (8 * Z.of_nat n - 1) /\ (Z.of_N v - to_signed n v = 0 \/ Z.of_N v - to_signed n v = 2 ^ (8 * Z.of_nat n)).
Proof.
  intros N0 H. assert (E : 2 ^ (8 * Z.of_nat n) = 2 * 2 ^ (8 * Z.of_nat n - 1)) by (rewrite <- Z.pow_succ_r by lia; f_equal; lia).
  assert (E2 : Z.of_N (256 ^ N.of_nat n) = 2 ^ (8 * Z.of_nat n)) by (rewrite N2Z.inj_pow, nat_N_Z; change (Z.of_N 256) with (2 ^ 8); rewrite <- Z.pow_mul_r by lia; reflexivity).
  assert (E3 : Z.of_N (2 ^ (8 * N.of_nat n - 1)) = 2 ^ (8 * Z.of_nat n - 1)) by (rewrite N2Z.inj_pow; f_equal; lia).
  unfold to_signed. destruct (v <? 2 ^ (8 * N.of_nat n - 1))%N eqn:L; [apply N.ltb_lt in L|apply N.ltb_ge in L]; lia.
Qed.

(** ** floats *)
Section Bits.
Variables mw ew : Z.
Hypothesis M : 0 < mw.
Hypothesis W : 1 < ew.
Let prec := mw + 1.
Let emax := 2 ^ (ew - 1).
Let emn := 3 - emax - prec.
Lemma emax_ew : 2 ^ ew = 2 * emax. Proof. unfold emax. rewrite <- Z.pow_succ_r by lia. f_equal. lia. Qed.
Lemma emax_2 : 2 <= emax. Proof. unfold emax. change 2 with (2 ^ 1) at 1. apply Z.pow_le_mono_r; lia. Qed.
Lemma pow_mw : 0 < 2 ^ mw. Proof. apply Z.pow_pos_nonneg; lia. Qed.
Lemma digits_bounds m : 2 ^ (Zpos (digits2_pos m) - 1) <= Zpos m < 2 ^ Zpos (digits2_pos m).
Proof. rewrite Zpos_digits2_pos. pose proof (Zdigits_correct radix2 (Zpos m)) as H. change (Z.abs (Zpos m)) with (Zpos m) in H. exact H. Qed.
Lemma valid_sub s m : Zpos m < 2 ^ mw -> valid_binary prec emax (S754_finite s m emn) = true.
Proof.
  intros H. pose proof emax_2 as E2. cbn [valid_binary]. unfold SpecFloat.bounded, canonical_mantissa, SpecFloat.fexp, SpecFloat.emin. fold emn. apply andb_true_intro. split; [|apply Z.leb_le; unfold emn; lia].
  apply Zeq_is_eq_bool. destruct (digits_bounds m) as [L _]. assert (D : Zpos (digits2_pos m) - 1 < mw) by (apply (Z.pow_lt_mono_r_iff 2); lia). unfold emn, prec in *. lia.
Qed.
Lemma valid_norm s m e : 2 ^ mw <= Zpos m < 2 ^ (mw + 1) -> emn <= e -> e <= emax - prec -> valid_binary prec emax (S754_finite s m e) = true.
Proof.
  intros [H H'] L1 L2. cbn [valid_binary]. unfold SpecFloat.bounded, canonical_mantissa, SpecFloat.fexp, SpecFloat.emin. fold emn. apply andb_true_intro. split; [|apply Z.leb_le; exact L2].
  apply Zeq_is_eq_bool. destruct (digits_bounds m) as [A B]. assert (D1 : Zpos (digits2_pos m) - 1 < mw + 1) by (apply (Z.pow_lt_mono_r_iff 2); lia). assert (D2 : mw < Zpos (digits2_pos m)) by (apply (Z.pow_lt_mono_r_iff 2); lia). unfold emn, prec in *. lia.
Qed.
Lemma valid_inv s m e : valid_binary prec emax (S754_finite s m e) = true -> (Zpos m < 2 ^ mw /\ e = emn) \/ (2 ^ mw <= Zpos m < 2 ^ (mw + 1) /\ emn <= e <= emax - prec).
Proof.
  cbn [valid_binary]. unfold SpecFloat.bounded, canonical_mantissa, SpecFloat.fexp, SpecFloat.emin. fold emn. intros H. apply andb_prop in H. destruct H as [A B]. apply Zeq_bool_eq in A. apply Z.leb_le in B.
  destruct (digits_bounds m) as [L U]. assert (D : Zpos (digits2_pos m) <= mw + 1) by (unfold emn, prec in *; lia).
  destruct (Z.lt_ge_cases (Zpos (digits2_pos m)) (mw + 1)) as [C|C].
  - left. split; [|unfold emn, prec in *; lia]. eapply Z.lt_le_trans; [exact U|]. apply Z.pow_le_mono_r; lia.
  - right. assert (E : Zpos (digits2_pos m) = mw + 1) by lia. rewrite E in *. replace (mw + 1 - 1) with mw in L by lia. split; [lia|]. unfold emn, prec in *. lia.
Qed.
(** the fields *)
Lemma fields (s : bool) e m : 0 <= m < 2 ^ mw -> 0 <= e < 2 ^ ew -> let b := (if s then 2 ^ (mw + ew) else 0) + e * 2 ^ mw + m in
  b mod 2 ^ mw = m /\ b / 2 ^ mw mod 2 ^ ew = e /\ (2 ^ (mw + ew) <=? b) = s /\ 0 <= b < 2 * 2 ^ (mw + ew).
Proof.
  intros Hm He b. pose proof pow_mw as PM. assert (PE : 0 < 2 ^ ew) by (apply Z.pow_pos_nonneg; lia). assert (E : 2 ^ (mw + ew) = 2 ^ ew * 2 ^ mw) by (rewrite Z.pow_add_r by lia; lia).
  assert (B : b = ((if s then 2 ^ ew else 0) + e) * 2 ^ mw + m) by (unfold b; destruct s; rewrite ?E; lia).
  assert (D : b / 2 ^ mw = (if s then 2 ^ ew else 0) + e) by (rewrite B; rewrite Z.div_add_l by lia; rewrite Z.div_small by lia; lia).
  split; [rewrite B, Z.add_comm, Z.mod_add by lia; apply Z.mod_small; lia|]. split.
  - rewrite D. destruct s; [rewrite Z.add_comm; replace (e + 2 ^ ew) with (e + 1 * 2 ^ ew) by lia; rewrite Z.mod_add by lia|rewrite Z.add_0_l]; apply Z.mod_small; lia.
  - assert (X : 0 <= e * 2 ^ mw + m < 2 ^ ew * 2 ^ mw) by nia. unfold b. rewrite E in *. destruct s; [split; [apply Z.leb_le|]|split; [apply Z.leb_gt|]]; lia.
Qed.
Lemma decode_fields (s : bool) e m : 0 <= m < 2 ^ mw -> 0 <= e < 2 ^ ew ->
  float_of_bits mw ew (Z.to_N ((if s then 2 ^ (mw + ew) else 0) + e * 2 ^ mw + m)) =
    if e =? 0 then match m with Zpos p => S754_finite s p emn | _ => S754_zero s end
    else if e =? 2 ^ ew - 1 then match m with Z0 => S754_infinity s | _ => S754_nan end
    else match m + 2 ^ mw with Zpos p => S754_finite s p (e - 1 + emn) | _ => S754_nan end.
Proof.
  intros Hm He. destruct (fields s e m Hm He) as (A & B & C & D). unfold float_of_bits. rewrite Z2N.id by (apply D). rewrite A, B, C. reflexivity.
Qed.
Lemma decode_encode x : valid_binary prec emax x = true -> float_of_bits mw ew (bits_of_float mw ew x) = x.
Proof.
  intros V. pose proof emax_ew as EE. pose proof emax_2 as E2. pose proof pow_mw as PM. unfold bits_of_float. fold prec emax. fold emn. assert (P1 : 0 < 2 ^ (mw - 1) < 2 ^ mw) by (split; [apply Z.pow_pos_nonneg; lia|apply Z.pow_lt_mono_r; lia]).
  destruct x as [s|s| |s m e].
  - rewrite decode_fields by lia. reflexivity.
  - rewrite decode_fields by lia. destruct (2 ^ ew - 1 =? 0) eqn:Q; [apply Z.eqb_eq in Q; lia|]. rewrite Z.eqb_refl. reflexivity.
  - rewrite (decode_fields false (2 ^ ew - 1) (2 ^ (mw - 1))) by lia. destruct (2 ^ ew - 1 =? 0) eqn:Q; [apply Z.eqb_eq in Q; lia|]. rewrite Z.eqb_refl. destruct (2 ^ (mw - 1)) eqn:Q2; [lia|reflexivity|reflexivity].
  - destruct (valid_inv s m e V) as [[A ->]|[A B]].
    + destruct (Zpos m <? 2 ^ mw) eqn:Q; [|apply Z.ltb_ge in Q; lia]. rewrite decode_fields by lia. reflexivity.
    + destruct (Zpos m <? 2 ^ mw) eqn:Q; [apply Z.ltb_lt in Q; lia|]. rewrite Z.pow_add_r in A by lia. change (2 ^ 1) with 2 in A.
      assert (R : 0 <= e - emn + 1 < 2 ^ ew - 1) by (unfold emn in *; lia). rewrite decode_fields by lia.
      destruct (e - emn + 1 =? 0) eqn:Q1; [apply Z.eqb_eq in Q1; lia|]. destruct (e - emn + 1 =? 2 ^ ew - 1) eqn:Q2; [apply Z.eqb_eq in Q2; lia|].
      replace (Zpos m - 2 ^ mw + 2 ^ mw) with (Zpos m) by lia. f_equal. lia.
Qed.
Lemma encode_bound x : valid_binary prec emax x = true -> Z.of_N (bits_of_float mw ew x) < 2 * 2 ^ (mw + ew).
Proof.
  intros V. pose proof emax_ew as EE. pose proof emax_2 as E2. pose proof pow_mw as PM. unfold bits_of_float. fold prec emax. fold emn. assert (P1 : 0 < 2 ^ (mw - 1) < 2 ^ mw) by (split; [apply Z.pow_pos_nonneg; lia|apply Z.pow_lt_mono_r; lia]).
  assert (G : forall (s : bool) e m, 0 <= m < 2 ^ mw -> 0 <= e < 2 ^ ew -> Z.of_N (Z.to_N ((if s then 2 ^ (mw + ew) else 0) + e * 2 ^ mw + m)) < 2 * 2 ^ (mw + ew)).
  { intros s e m Hm He. destruct (fields s e m Hm He) as (_ & _ & _ & D). rewrite Z2N.id by apply D. apply D. }
  destruct x as [s|s| |s m e]; try (apply G; lia); [apply (G false); lia|].
  destruct (valid_inv s m e V) as [[A ->]|[A B]].
  - destruct (Zpos m <? 2 ^ mw) eqn:Q; [|apply Z.ltb_ge in Q; lia]. apply G; lia.
  - destruct (Zpos m <? 2 ^ mw) eqn:Q; [apply Z.ltb_lt in Q; lia|]. rewrite Z.pow_add_r in A by lia. change (2 ^ 1) with 2 in A. apply G; unfold emn in *; lia.
Qed.
Lemma decode_valid b : Z.of_N b < 2 * 2 ^ (mw + ew) -> valid_binary prec emax (float_of_bits mw ew b) = true.
Proof.
  intros L. pose proof emax_ew as EE. pose proof emax_2 as E2. pose proof pow_mw as PM. unfold float_of_bits. set (m := Z.of_N b mod 2 ^ mw). set (e := Z.of_N b / 2 ^ mw mod 2 ^ ew). fold prec emax. fold emn.
  assert (Hm : 0 <= m < 2 ^ mw) by (apply Z.mod_pos_bound; lia). assert (He : 0 <= e < 2 ^ ew) by (apply Z.mod_pos_bound; lia).
  destruct (e =? 0) eqn:Q0; [destruct m; [reflexivity|apply valid_sub; lia|reflexivity]|]. apply Z.eqb_neq in Q0. destruct (e =? 2 ^ ew - 1) eqn:Q1; [destruct m; reflexivity|]. apply Z.eqb_neq in Q1.
  destruct (m + 2 ^ mw) eqn:QM; [reflexivity| |reflexivity]. apply valid_norm; [rewrite Z.pow_add_r by lia; change (2 ^ 1) with 2; lia| |]; unfold emn in *; lia.
Qed.
End Bits.

(** ** conversions between the precisions *)
Section Conv.
Variables prec emax : Z.
Context (Hprec : FLX.Prec_gt_0 prec) (Hmax : Prec_lt_emax prec emax).
Lemma binary_round_aux_equiv' sx mx ex lx :
  SpecFloat.binary_round_aux prec emax sx mx ex lx = binary_round_aux prec emax mode_NE sx mx ex lx.
Proof.
  unfold SpecFloat.binary_round_aux, binary_round_aux. set (mrse' := shr_fexp _ _ _ _ _). case mrse'; intros mrs' e'; simpl.
  now rewrite (round_nearest_even_equiv sx).
Qed.
Lemma binary_round_equiv' s m e :
  SpecFloat.binary_round prec emax s m e = binary_round prec emax mode_NE s m e.
Proof.
  unfold SpecFloat.binary_round, binary_round, shl_align_fexp. set (mez := shl_align _ _ _); case mez as [mz ez].
  apply binary_round_aux_equiv'.
Qed.
Lemma fval_SF2R (x : spec_float) : fval x = SF2R radix2 x.
Proof.
  destruct x as [s|s| |s m e]; try reflexivity. unfold fval, SF2R, F2R. cbn [Fnum Fexp]. rewrite bpow_powerRZ.
  destruct s; cbn [cond_Zopp]; change (Z.neg m) with (- Z.pos m)%Z; change (IZR radix2) with 2%R; rewrite ?opp_IZR; lra.
Qed.
Definition rndp := round radix2 (fexp prec emax) ZnearestE.
Lemma convert_valid x : valid_binary prec emax (convert prec emax x) = true.
Proof.
  destruct x as [s|s| |s m e]; try reflexivity. cbn [convert]. rewrite binary_round_equiv'. apply (binary_round_correct prec emax Hprec Hmax mode_NE s m e).
Qed.
Lemma convert_val s m e : let x := S754_finite s m e in let z := convert prec emax x in
  if Rlt_bool (Rabs (rndp (fval x))) (bpow radix2 emax) then fval z = rndp (fval x) /\ finite z /\ sign_of z = Some s else z = S754_infinity s.
Proof.
  intros x z. unfold z, x. cbn [convert]. rewrite binary_round_equiv'. pose proof (binary_round_correct prec emax Hprec Hmax mode_NE s m e) as (V & C). rewrite (fval_SF2R (S754_finite s m e)). unfold rndp.
  change (SF2R radix2 (S754_finite s m e)) with (F2R (beta := radix2) {| Fnum := cond_Zopp s (Zpos m); Fexp := e |}). cbv zeta in C. cbn [round_mode] in C.
  destruct (Rlt_bool _ _).
  - destruct C as (C1 & C2 & C3). rewrite fval_SF2R. split; [exact C1|]. destruct (binary_round prec emax mode_NE s m e); try discriminate C2; (split; [exact I|cbn in *; congruence]).
  - rewrite C. reflexivity.
Qed.
(** two floats of the same format, value and sign are equal *)
Lemma valid_unique x y : valid_binary prec emax x = true -> valid_binary prec emax y = true -> finite x -> finite y -> fval x = fval y -> sign_of x = sign_of y -> x = y.
Proof.
  intros VX VY FX FY E S. rewrite !fval_SF2R in E. rewrite <- (B2SF_SF2B _ _ x VX), <- (B2SF_SF2B _ _ y VY). f_equal. apply B2R_Bsign_inj.
  - destruct x; try contradiction; reflexivity.
  - destruct y; try contradiction; reflexivity.
  - rewrite !B2R_SF2B. exact E.
  - rewrite !Bsign_SF2B. destruct x, y; try contradiction; cbn in *; congruence.
Qed.
Lemma convert_exact x : generic_format radix2 (fexp prec emax) (fval x) -> (Rabs (fval x) < bpow radix2 emax)%R -> finite x -> fval (convert prec emax x) = fval x /\ finite (convert prec emax x) /\ sign_of (convert prec emax x) = sign_of x.
Proof.
  intros G B F. destruct x as [s|s| |s m e]; try contradiction; [repeat split|]. pose proof (convert_val s m e) as C. cbv zeta in C. unfold rndp in C. rewrite round_generic in C by (try exact G; apply valid_rnd_N). rewrite Rlt_bool_true in C by exact B. exact C.
Qed.
End Conv.
#[local] Instance P24 : FLX.Prec_gt_0 24 := eq_refl _.
#[local] Instance M24 : Prec_lt_emax 24 128 := eq_refl _.
#[local] Instance P53 : FLX.Prec_gt_0 f64_prec := eq_refl _.
#[local] Instance M53 : Prec_lt_emax f64_prec f64_emax := eq_refl _.
Lemma f32_format x : is_f32 x -> generic_format radix2 (SpecFloat.fexp 24 128) (fval x) /\ (Rabs (fval x) < bpow radix2 128)%R.
Proof.
  intros V. rewrite fval_SF2R, <- (B2R_SF2B 24 128 x V). split; [apply generic_format_B2R|apply abs_B2R_lt_emax].
Qed.
Lemma f32_in_f64 r : generic_format radix2 (SpecFloat.fexp 24 128) r -> generic_format radix2 (SpecFloat.fexp f64_prec f64_emax) r.
Proof.
  apply generic_inclusion_mag. intros _. set (e := mag radix2 r : Z). unfold SpecFloat.fexp, SpecFloat.emin, f64_prec, f64_emax. lia.
Qed.
Lemma widen_spec x : is_f32 x -> finite x -> fval (widen x) = fval x /\ finite (widen x) /\ sign_of (widen x) = sign_of x.
Proof.
  intros V F. destruct (f32_format x V) as [G B]. apply (convert_exact f64_prec f64_emax _ _ x); [apply f32_in_f64, G| |exact F]. eapply Rlt_trans; [exact B|]. apply bpow_lt. reflexivity.
Qed.
Lemma widen_double x : is_double (widen x). Proof. apply (convert_valid f64_prec f64_emax _ _ x). Qed.
Lemma narrow_f32 x : is_f32 (narrow x). Proof. apply (convert_valid 24 128 _ _ x). Qed.
Lemma narrow_widen x : is_f32 x -> narrow (widen x) = x.
Proof.
  intros V. destruct x as [s|s| |s m e]; try reflexivity. set (y := S754_finite s m e) in *. destruct (widen_spec y V I) as (A & B & C). destruct (f32_format y V) as [G L].
  destruct (convert_exact 24 128 _ _ (widen y)) as (D & E & F); [rewrite A; exact G|rewrite A; exact L|exact B|]. fold (narrow (widen y)) in *.
  apply (valid_unique 24 128 _ _); [apply narrow_f32|exact V|exact E|exact I|congruence|congruence].
Qed.
