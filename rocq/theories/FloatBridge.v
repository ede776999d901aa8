(** The doubles of the standard library (SpecFloat) against Flocq's BinarySingleNaN, whose
    operations are proved to be correctly rounded.  The equivalences follow Flocq's PrimFloat.v,
    without the primitive floats. *)
From Verif Require Import Base Num NumLemmas GeomSpec FloatSpec.
From Coq Require Import Floats.SpecFloat Reals Lra.
From Flocq Require Import Core BinarySingleNaN.
Local Open Scope Z_scope.

Local Instance Hprec : FLX.Prec_gt_0 f64_prec := eq_refl _.
Local Instance Hmax : Prec_lt_emax f64_prec f64_emax := eq_refl _.
Notation bf := (binary_float f64_prec f64_emax).

Lemma round_nearest_even_equiv s m l : round_nearest_even m l = choice_mode mode_NE s m l.
Proof. case l; [reflexivity|intro c]. case c; [|reflexivity..]. now simpl; unfold Round.cond_incr; case Z.even. Qed.
Lemma binary_round_aux_equiv sx mx ex lx :
  SpecFloat.binary_round_aux f64_prec f64_emax sx mx ex lx = binary_round_aux f64_prec f64_emax mode_NE sx mx ex lx.
Proof.
  unfold SpecFloat.binary_round_aux, binary_round_aux. set (mrse' := shr_fexp _ _ _ _ _). case mrse'; intros mrs' e'; simpl.
  now rewrite (round_nearest_even_equiv sx).
Qed.
Lemma binary_round_equiv s m e :
  SpecFloat.binary_round f64_prec f64_emax s m e = binary_round f64_prec f64_emax mode_NE s m e.
Proof.
  unfold SpecFloat.binary_round, binary_round, shl_align_fexp. set (mez := shl_align _ _ _); case mez as [mz ez].
  apply binary_round_aux_equiv.
Qed.
Lemma binary_normalize_equiv m e szero :
  SpecFloat.binary_normalize f64_prec f64_emax m e szero = B2SF (binary_normalize f64_prec f64_emax Hprec Hmax mode_NE m e szero).
Proof. case m as [|p|p]; [now simpl|..]; simpl; rewrite B2SF_SF2B; apply binary_round_equiv. Qed.

Lemma add_equiv (x y : bf) : SFadd f64_prec f64_emax (B2SF x) (B2SF y) = B2SF (Bplus mode_NE x y).
Proof.
  destruct x as [sx|sx| |sx mx ex Bx], y as [sy|sy| |sy my ey By]; [now (trivial || simpl; case Bool.eqb)..|].
  apply binary_normalize_equiv.
Qed.
Lemma sub_equiv (x y : bf) : SFsub f64_prec f64_emax (B2SF x) (B2SF y) = B2SF (Bminus mode_NE x y).
Proof.
  destruct x as [sx|sx| |sx mx ex Bx], y as [sy|sy| |sy my ey By]; [now (trivial || simpl; case Bool.eqb)..|].
  simpl. unfold Zminus. rewrite <- cond_Zopp_negb. apply binary_normalize_equiv.
Qed.
Lemma mul_equiv (x y : bf) : SFmul f64_prec f64_emax (B2SF x) (B2SF y) = B2SF (Bmult mode_NE x y).
Proof.
  destruct x as [sx|sx| |sx mx ex Bx], y as [sy|sy| |sy my ey By]; [now trivial..|].
  simpl. rewrite B2SF_SF2B. apply binary_round_aux_equiv.
Qed.
Lemma div_equiv (x y : bf) : SFdiv f64_prec f64_emax (B2SF x) (B2SF y) = B2SF (Bdiv mode_NE x y).
Proof.
  destruct x as [sx|sx| |sx mx ex Bx], y as [sy|sy| |sy my ey By]; [now (trivial || simpl; case Bool.eqb)..|].
  simpl. rewrite B2SF_SF2B. set (melz := SFdiv_core_binary _ _ _ _ _ _). case melz as [[mz ez] lz]. apply binary_round_aux_equiv.
Qed.
Lemma sqrt_equiv (x : bf) : SFsqrt f64_prec f64_emax (B2SF x) = B2SF (Bsqrt mode_NE x).
Proof.
  destruct x as [sx|sx| |sx mx ex Bx]; [now (trivial || case sx)..|]. case sx; [reflexivity|].
  simpl. rewrite B2SF_SF2B. set (melz := SFsqrt_core_binary _ _ _ _). case melz as [[mz ez] lz]. apply binary_round_aux_equiv.
Qed.

(** every is_double is one of Flocq's *)
Lemma lift (x : T F64) : is_double x -> exists b : bf, x = B2SF b.
Proof. intros H. exists (SF2B x H). symmetry. apply B2SF_SF2B. Qed.
Lemma double_B (b : bf) : is_double (B2SF b). Proof. apply valid_binary_B2SF. Qed.
Lemma double_add (x y : T F64) : is_double x -> is_double y -> is_double (nadd x y).
Proof. intros X Y. destruct (lift x X) as [a ->], (lift y Y) as [b ->]. cbn [nadd F64]. rewrite add_equiv. apply double_B. Qed.
Lemma double_sub (x y : T F64) : is_double x -> is_double y -> is_double (nsub x y).
Proof. intros X Y. destruct (lift x X) as [a ->], (lift y Y) as [b ->]. cbn [nsub F64]. rewrite sub_equiv. apply double_B. Qed.
Lemma double_mul (x y : T F64) : is_double x -> is_double y -> is_double (nmul x y).
Proof. intros X Y. destruct (lift x X) as [a ->], (lift y Y) as [b ->]. cbn [nmul F64]. rewrite mul_equiv. apply double_B. Qed.
Lemma double_div (x y : T F64) : is_double x -> is_double y -> is_double (ndiv x y).
Proof. intros X Y. destruct (lift x X) as [a ->], (lift y Y) as [b ->]. cbn [ndiv F64]. rewrite div_equiv. apply double_B. Qed.
Lemma double_sqrt (x : T F64) : is_double x -> is_double (nsqrt x).
Proof. intros X. destruct (lift x X) as [a ->]. cbn [nsqrt F64]. rewrite sqrt_equiv. apply double_B. Qed.
Lemma double_lit m e : is_double (@lit F64 m e).
Proof. cbn [lit F64]. rewrite binary_normalize_equiv. apply double_B. Qed.
Lemma double_neg (x : T F64) : is_double x -> is_double (nneg x).
Proof. destruct x; cbn; auto. Qed.
Lemma double_abs (x : T F64) : is_double x -> is_double (nabs x).
Proof. destruct x; cbn; auto. Qed.

(** ** Values *)
Notation rnd := (round radix2 (FLT_exp (-1074) 53) ZnearestE).
Notation top := (bpow radix2 1024).
Lemma fval_B (b : bf) : fval (B2SF b) = B2R b.
Proof.
  destruct b as [| | |s m e H]; try reflexivity. unfold fval, B2SF, B2R, F2R. cbn [Fnum Fexp]. rewrite bpow_powerRZ.
  destruct s; cbn [cond_Zopp]; change (Z.neg m) with (- Z.pos m)%Z; change (IZR radix2) with 2%R; rewrite ?opp_IZR; lra.
Qed.
Lemma finite_B (b : bf) : f_finite (B2SF b) <-> is_finite b = true.
Proof. destruct b; cbn; split; auto; try discriminate; contradiction. Qed.

Definition fmt (r : R) : Prop := generic_format radix2 (FLT_exp (-1074) 53) r.
Lemma fval_fmt (x : T F64) : is_double x -> fmt (fval x).
Proof. intros X. destruct (lift x X) as [b ->]. rewrite fval_B. apply generic_format_B2R. Qed.
Lemma fval_bound (x : T F64) : is_double x -> (Rabs (fval x) < top)%R.
Proof. intros X. destruct (lift x X) as [b ->]. rewrite fval_B. apply (abs_B2R_lt_emax f64_prec f64_emax). Qed.

Lemma ncmp_val (x y : T F64) : is_double x -> is_double y -> f_finite x -> f_finite y ->
  ncmp x y = Some (Rcompare (fval x) (fval y)).
Proof.
  intros X Y FX FY. destruct (lift x X) as [a ->], (lift y Y) as [b ->]. rewrite !fval_B.
  apply finite_B in FX, FY. rewrite <- (Bcompare_correct _ _ a b FX FY). reflexivity.
Qed.
Lemma flt_val (x y : T F64) : is_double x -> is_double y -> f_finite x -> f_finite y -> (flt x y <-> (fval x < fval y)%R).
Proof.
  intros X Y FX FY. unfold flt, SFltb. pose proof (ncmp_val x y X Y FX FY) as E. cbn [ncmp F64] in E. rewrite E.
  destruct (Rcompare_spec (fval x) (fval y)); split; intros; try discriminate; try lra; reflexivity.
Qed.
Lemma fle_val (x y : T F64) : is_double x -> is_double y -> f_finite x -> f_finite y -> (fle x y <-> (fval x <= fval y)%R).
Proof.
  intros X Y FX FY. unfold fle, SFleb. pose proof (ncmp_val x y X Y FX FY) as E. cbn [ncmp F64] in E. rewrite E.
  destruct (Rcompare_spec (fval x) (fval y)); split; intros; try discriminate; try lra; reflexivity.
Qed.
Lemma feq_val (x y : T F64) : is_double x -> is_double y -> f_finite x -> f_finite y -> (feq x y <-> fval x = fval y).
Proof.
  intros X Y FX FY. unfold feq, SFeqb. pose proof (ncmp_val x y X Y FX FY) as E. cbn [ncmp F64] in E. rewrite E.
  destruct (Rcompare_spec (fval x) (fval y)); split; intros; try discriminate; try lra; reflexivity.
Qed.

(** A rounded result: the rounded value if it is in range, infinite otherwise. *)
Definition rounds (r : R) (z : T F64) : Prop :=
  ((Rabs (rnd r) < top)%R /\ f_finite z /\ fval z = rnd r) \/
  ((top <= rnd r)%R /\ z = S754_infinity false) \/ ((rnd r <= - top)%R /\ z = S754_infinity true).

Lemma overflow_NE s : binary_overflow f64_prec f64_emax mode_NE s = S754_infinity s.
Proof. reflexivity. Qed.
Lemma bsign_neg (b : bf) : (B2R b < 0)%R -> Bsign b = true.
Proof.
  destruct b as [| | |[] m e H]; cbn [B2R Bsign]; intros L; try reflexivity; try lra.
  exfalso. pose proof (F2R_gt_0 radix2 (Float radix2 (Zpos m) e) ltac:(reflexivity)). cbn [cond_Zopp] in L. lra.
Qed.
Lemma bsign_pos (b : bf) : (0 < B2R b)%R -> Bsign b = false.
Proof.
  destruct b as [| | |[] m e H]; cbn [B2R Bsign]; intros L; try reflexivity; try lra.
  exfalso. pose proof (F2R_lt_0 radix2 (Float radix2 (Zneg m) e) ltac:(reflexivity)). cbn [cond_Zopp Z.opp] in L. lra.
Qed.
Lemma valid_exp_f64 : Valid_exp (FLT_exp (-1074) 53). Proof. apply FLT_exp_valid. reflexivity. Qed.
Local Existing Instance valid_exp_f64.
Lemma rnd_0 : rnd 0 = 0%R. Proof. apply round_0. apply valid_rnd_N. Qed.
Lemma rnd_le x y : (x <= y -> rnd x <= rnd y)%R. Proof. apply round_le; auto with typeclass_instances. Qed.
Lemma rnd_id x : fmt x -> rnd x = x. Proof. apply round_generic. apply valid_rnd_N. Qed.

Lemma add_val (x y : T F64) : is_double x -> is_double y -> f_finite x -> f_finite y -> rounds (fval x + fval y) (nadd x y).
Proof.
  intros X Y FX FY. destruct (lift x X) as [a ->], (lift y Y) as [b ->]. rewrite !fval_B. apply finite_B in FX, FY.
  cbn [nadd F64]. rewrite add_equiv. pose proof (Bplus_correct _ _ Hprec Hmax mode_NE a b FX FY) as H.
  change (fexp f64_prec f64_emax) with (FLT_exp (-1074) 53) in H. change (round_mode mode_NE) with ZnearestE in H.
  change (bpow radix2 f64_emax) with top in H.
  unfold rounds. destruct (Rlt_bool_spec (Rabs (rnd (B2R a + B2R b))) top) as [L|L].
  - left. destruct H as (H1 & H2 & _). split; [exact L|]. rewrite finite_B, fval_B. auto.
  - right. destruct H as (H1 & H2). rewrite H1, overflow_NE.
    assert (Z : (B2R a + B2R b <> 0)%R).
    { intros Z. rewrite Z, rnd_0, Rabs_R0 in L. pose proof (bpow_gt_0 radix2 1024). lra. }
    destruct (Rle_lt_dec 0 (B2R a + B2R b)) as [P|P].
    + left. assert (Q : (0 <= rnd (B2R a + B2R b))%R) by (rewrite <- rnd_0; apply rnd_le; lra).
      rewrite Rabs_pos_eq in L by exact Q. split; [exact L|]. f_equal.
      destruct (Rle_lt_dec (B2R a) 0) as [A|A]; [rewrite H2|]; apply bsign_pos; lra.
    + right. assert (Q : (rnd (B2R a + B2R b) <= 0)%R) by (rewrite <- rnd_0; apply rnd_le; lra).
      rewrite Rabs_left1 in L by exact Q. split; [lra|]. f_equal.
      destruct (Rle_lt_dec 0 (B2R a)) as [A|A]; [rewrite H2|]; apply bsign_neg; lra.
Qed.
Lemma sub_as_add (x y : T F64) : f_finite y -> nsub x y = nadd x (nneg y).
Proof.
  intros FY. destruct x as [sx|sx| |sx mx ex], y as [sy|sy| |sy my ey]; cbn; try reflexivity; try contradiction.
  - destruct (Bool.eqb sx (negb sy)); destruct sx, sy; reflexivity.
Qed.

Lemma fval_neg (x : T F64) : fval (nneg x) = (- fval x)%R.
Proof. destruct x as [s|s| |[] m e]; cbn [fval nneg F64 SFopp negb]; lra. Qed.
Lemma finite_neg (x : T F64) : f_finite (nneg x) <-> f_finite x.
Proof. destruct x; cbn; tauto. Qed.
Lemma sub_val (x y : T F64) : is_double x -> is_double y -> f_finite x -> f_finite y -> rounds (fval x - fval y) (nsub x y).
Proof.
  intros X Y FX FY. rewrite sub_as_add by exact FY. unfold Rminus. rewrite <- fval_neg.
  apply add_val; auto using double_neg. apply finite_neg, FY.
Qed.
Lemma fval_abs (x : T F64) : fval (nabs x) = Rabs (fval x).
Proof.
  destruct x as [s|s| |[] m e]; cbn [fval nabs F64 SFabs]; rewrite ?Rabs_R0; auto.
  - rewrite Rabs_left1; [lra|]. pose proof (IZR_lt 0 (Zpos m) ltac:(reflexivity)). assert (0 < powerRZ 2 e)%R by (apply powerRZ_lt; lra). nra.
  - rewrite Rabs_pos_eq; [lra|]. pose proof (IZR_lt 0 (Zpos m) ltac:(reflexivity)). assert (0 < powerRZ 2 e)%R by (apply powerRZ_lt; lra). nra.
Qed.
Lemma finite_abs (x : T F64) : f_finite (nabs x) <-> f_finite x.
Proof. destruct x; cbn; tauto. Qed.
Lemma sign_xor (x y : R) (a b : bf) : is_finite a = true -> is_finite b = true ->
  ((0 < B2R a * B2R b)%R -> xorb (Bsign a) (Bsign b) = false) /\ ((B2R a * B2R b < 0)%R -> xorb (Bsign a) (Bsign b) = true).
Proof.
  intros A B. destruct (Rtotal_order (B2R a) 0) as [HA|[HA|HA]], (Rtotal_order (B2R b) 0) as [HB|[HB|HB]];
    try (rewrite (bsign_neg a HA)); try (rewrite (bsign_pos a HA)); try (rewrite (bsign_neg b HB)); try (rewrite (bsign_pos b HB));
    split; intros L; try reflexivity; exfalso; nra.
Qed.
Lemma mul_val (x y : T F64) : is_double x -> is_double y -> f_finite x -> f_finite y -> rounds (fval x * fval y) (nmul x y).
Proof.
  intros X Y FX FY. destruct (lift x X) as [a ->], (lift y Y) as [b ->]. rewrite !fval_B. apply finite_B in FX, FY.
  cbn [nmul F64]. rewrite mul_equiv. pose proof (Bmult_correct _ _ Hprec Hmax mode_NE a b) as H.
  change (fexp f64_prec f64_emax) with (FLT_exp (-1074) 53) in H. change (round_mode mode_NE) with ZnearestE in H.
  change (bpow radix2 f64_emax) with top in H.
  unfold rounds. destruct (Rlt_bool_spec (Rabs (rnd (B2R a * B2R b))) top) as [L|L].
  - left. destruct H as (H1 & H2 & _). split; [exact L|]. rewrite finite_B, fval_B. rewrite H2, FX, FY. auto.
  - right. rewrite H, overflow_NE. destruct (sign_xor 0 0 a b FX FY) as [S1 S2].
    assert (Z : (B2R a * B2R b <> 0)%R).
    { intros Z. rewrite Z, rnd_0, Rabs_R0 in L. pose proof (bpow_gt_0 radix2 1024). lra. }
    destruct (Rle_lt_dec 0 (B2R a * B2R b)) as [P|P].
    + left. assert (Q : (0 <= rnd (B2R a * B2R b))%R) by (rewrite <- rnd_0; apply rnd_le; lra).
      rewrite Rabs_pos_eq in L by exact Q. split; [exact L|]. f_equal. apply S1. lra.
    + right. assert (Q : (rnd (B2R a * B2R b) <= 0)%R) by (rewrite <- rnd_0; apply rnd_le; lra).
      rewrite Rabs_left1 in L by exact Q. split; [lra|]. f_equal. apply S2. lra.
Qed.
Lemma div_val (x y : T F64) : is_double x -> is_double y -> f_finite x -> f_finite y -> fval y <> 0%R -> rounds (fval x / fval y) (ndiv x y).
Proof.
  intros X Y FX FY NZ. destruct (lift x X) as [a ->], (lift y Y) as [b ->]. rewrite !fval_B in *. apply finite_B in FX, FY.
  cbn [ndiv F64]. rewrite div_equiv. pose proof (Bdiv_correct _ _ Hprec Hmax mode_NE a b NZ) as H.
  change (fexp f64_prec f64_emax) with (FLT_exp (-1074) 53) in H. change (round_mode mode_NE) with ZnearestE in H.
  change (bpow radix2 f64_emax) with top in H.
  unfold rounds. destruct (Rlt_bool_spec (Rabs (rnd (B2R a / B2R b))) top) as [L|L].
  - left. destruct H as (H1 & H2 & _). split; [exact L|]. rewrite finite_B, fval_B. rewrite H2, FX. auto.
  - right. rewrite H, overflow_NE. destruct (sign_xor 0 0 a b FX FY) as [S1 S2].
    assert (Q : (B2R a * B2R b = (B2R a / B2R b) * (B2R b * B2R b))%R) by (field; exact NZ).
    assert (BB : (0 < B2R b * B2R b)%R) by (pose proof (Rsqr_pos_lt _ NZ); exact H0).
    assert (Z : (B2R a / B2R b <> 0)%R).
    { intros Z. rewrite Z, rnd_0, Rabs_R0 in L. pose proof (bpow_gt_0 radix2 1024). lra. }
    destruct (Rle_lt_dec 0 (B2R a / B2R b)) as [P|P].
    + left. assert (Q' : (0 <= rnd (B2R a / B2R b))%R) by (rewrite <- rnd_0; apply rnd_le; lra).
      rewrite Rabs_pos_eq in L by exact Q'. split; [exact L|]. f_equal. apply S1. rewrite Q. apply Rmult_lt_0_compat; lra.
    + right. assert (Q' : (rnd (B2R a / B2R b) <= 0)%R) by (rewrite <- rnd_0; apply rnd_le; lra).
      rewrite Rabs_left1 in L by exact Q'. split; [lra|]. f_equal. apply S2. rewrite Q. nra.
Qed.
Lemma sqrt_val (x : T F64) : is_double x -> f_finite x -> (0 <= fval x)%R ->
  f_finite (nsqrt x) /\ fval (nsqrt x) = rnd (sqrt (fval x)).
Proof.
  intros X FX P. destruct (lift x X) as [a ->]. rewrite fval_B in *. apply finite_B in FX.
  cbn [nsqrt F64]. rewrite sqrt_equiv. rewrite finite_B, fval_B.
  destruct (Bsqrt_correct _ _ Hprec Hmax mode_NE a) as (H1 & H2 & _).
  change (fexp f64_prec f64_emax) with (FLT_exp (-1074) 53) in H1. change (round_mode mode_NE) with ZnearestE in H1.
  split; [|exact H1]. rewrite H2. destruct a as [| | |[] m e B]; try reflexivity; try discriminate.
  exfalso. pose proof (F2R_lt_0 radix2 (Float radix2 (Zneg m) e) ltac:(reflexivity)). cbn [B2R cond_Zopp Z.opp] in P. lra.
Qed.

(** ** Format facts *)
Lemma fmt_bpow e : (-1074 <= e)%Z -> fmt (bpow radix2 e).
Proof. intros H. apply generic_format_FLT_bpow; [reflexivity|exact H]. Qed.
(** differences of doubles are multiples of the smallest positive double *)
Lemma fmt_mult r : fmt r -> exists z : Z, r = (IZR z * bpow radix2 (-1074))%R.
Proof.
  intros H. apply (FLT_format_generic radix2 (-1074) 53) in H. destruct H as [f E M X].
  exists (Fnum f * Zpower 2 (Fexp f + 1074))%Z. rewrite E. unfold F2R. rewrite mult_IZR.
  change 2%Z with (radix_val radix2). rewrite IZR_Zpower by lia. rewrite Rmult_assoc, <- bpow_plus. f_equal. f_equal. lia.
Qed.
Lemma rnd_sub_pos x y : fmt x -> fmt y -> (x < y)%R -> (bpow radix2 (-1074) <= rnd (y - x))%R.
Proof.
  intros FX FY L. destruct (fmt_mult x FX) as [a ->], (fmt_mult y FY) as [b ->].
  pose proof (bpow_gt_0 radix2 (-1074)) as P. rewrite <- (rnd_id (bpow radix2 (-1074))) at 1 by (apply fmt_bpow; lia).
  apply rnd_le. apply Rmult_lt_reg_r in L; [|exact P]. apply lt_IZR in L.
  assert (1 <= IZR b - IZR a)%R by (rewrite <- minus_IZR; apply IZR_le; lia).
  rewrite <- Rmult_minus_distr_r. rewrite <- (Rmult_1_l (bpow radix2 (-1074))) at 1. apply Rmult_le_compat_r; lra.
Qed.
Lemma rnd_add_pos x y : fmt x -> fmt y -> (0 < x)%R -> (0 <= y)%R -> (x <= rnd (x + y))%R.
Proof. intros FX FY X Y. rewrite <- (rnd_id x FX) at 1. apply rnd_le. lra. Qed.
