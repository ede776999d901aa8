(** Lemmas about normalised vectors of doubles. *)
From Verif Require Import Base Num NumLemmas BBoxModel GeomSpec VecSpec VecModel FloatSpec FloatLemmas FloatBridge RootLemmas DistSpec DistLemmas DistLemmas2 DistLemmas3 UnitSpec.
From Coq Require Import Floats.SpecFloat Reals Lra Psatz.
From Flocq Require Import Core.
Local Open Scope R_scope.
Local Existing Instance valid_exp_f64.

Lemma nsub_zero (x : T F64) : f_finite x -> nsub x (S754_zero false) = x.
Proof. destruct x as [[]| | |]; intros F; try destruct F; reflexivity. Qed.
Lemma origin3 : finite3 (@mk3 F64 n0 n0 n0).
Proof. intros ax [->|[->| ->]]; split; try reflexivity; exact I. Qed.
Lemma origin2 : finite2 (@mk2 F64 n0 n0).
Proof. intros ax [->| ->]; split; try reflexivity; exact I. Qed.
Lemma abs3_dist p : finite3 p -> abs3 p = unwrap (nonneg_new (dist_3d p (@mk3 F64 n0 n0 n0))).
Proof.
  intros F. apply fin3 in F. destruct F as ((_ & A) & (_ & B) & (_ & C)). unfold abs3, dist_3d, sqr_dist_3d. cbn [px py pz].
  change (@n0 F64) with (S754_zero false : T F64). rewrite !nsub_zero by assumption. reflexivity.
Qed.
Lemma abs2_dist p : finite2 p -> abs2 p = unwrap (nonneg_new (dist_2d p (@mk2 F64 n0 n0))).
Proof.
  intros F. apply fin2 in F. destruct F as ((_ & A) & (_ & B)). unfold abs2, dist_2d, sqr_dist_2d. cbn [x2 y2].
  change (@n0 F64) with (S754_zero false : T F64). rewrite !nsub_zero by assumption. reflexivity.
Qed.
Lemma nonneg_nn x : nn x -> nonneg_new x = Some x.
Proof.
  intros N. unfold nonneg_new. assert (Z : nn (n0 : T F64)) by (split; [reflexivity|left; split; [exact I|cbn; lra]]).
  unfold ngeb. rewrite (ncmp_key x n0 N Z). pose proof (key_nn x N). change (key n0) with 0.
  destruct (Rcompare_spec (key x) 0); try reflexivity. lra.
Qed.
Lemma nn_dist3 p q : finite3 p -> finite3 q -> nn (dist_3d p q).
Proof. intros P Q. unfold dist_3d. apply sqrt_key. apply (sqr_key3 p q P Q). Qed.
Lemma nn_dist2 p q : finite2 p -> finite2 q -> nn (dist_2d p q).
Proof. intros P Q. unfold dist_2d. apply sqrt_key. apply (sqr_key2 p q P Q). Qed.
Lemma length3_dist p : length3 p = true_dist3 p (@mk3 F64 n0 n0 n0).
Proof. unfold length3, true_dist3, rsq3, rdot3, sqd3, real3. cbn [px py pz fval]. f_equal. change (fval n0) with 0. cbn. ring. Qed.
Lemma length2_dist p : length2 p = true_dist2 p (@mk2 F64 n0 n0).
Proof. unfold length2, true_dist2, rsq2, rdot2, sqd2, real2. cbn [x2 y2 fval]. f_equal. change (fval n0) with 0. cbn. ring. Qed.
Lemma coord3 p ax : axis3 ax -> Rabs (fval (ax p)) <= length3 p.
Proof.
  intros A. apply Rsqr_incr_0_var; [|apply sqrt_pos]. rewrite <- Rsqr_abs. unfold length3. rewrite Rsqr_sqrt; unfold rsq3, rdot3, real3; cbn [px py pz];
    pose proof (Rle_0_sqr (fval (px p))) as X; pose proof (Rle_0_sqr (fval (py p))) as Y; pose proof (Rle_0_sqr (fval (pz p))) as Z; unfold Rsqr in *; cbn in *.
  - destruct A as [->|[->| ->]]; lra.
  - lra.
Qed.
Lemma coord2 p ax : axis2 ax -> Rabs (fval (ax p)) <= length2 p.
Proof.
  intros A. apply Rsqr_incr_0_var; [|apply sqrt_pos]. rewrite <- Rsqr_abs. unfold length2. rewrite Rsqr_sqrt; unfold rsq2, rdot2, real2; cbn [x2 y2];
    pose proof (Rle_0_sqr (fval (x2 p))) as X; pose proof (Rle_0_sqr (fval (y2 p))) as Y; unfold Rsqr in *; cbn in *.
  - destruct A as [->| ->]; lra.
  - lra.
Qed.
Lemma eight_ur : 8 * ur = powerRZ 2 (-50).
Proof. replace (8 * ur) with (2 * (4 * ur)) by ring. rewrite four_ur, !bp_powerRZ. change (-50)%Z with (-51 + 1)%Z. rewrite bp_double. reflexivity. Qed.

Lemma fval_one : fval (n1 : T F64) = 1.
Proof. change (n1 : T F64) with (S754_finite false 4503599627370496 (-52) : T F64). cbn [fval]. rewrite bp_powerRZ. change (bp (-52)) with (/ 4503599627370496). field. Qed.
(** One coordinate *)
Lemma scaled (l x : T F64) L : is_double l -> close_to l L -> powerRZ 2 (-480) <= L <= powerRZ 2 511 -> is_double x -> f_finite x -> Rabs (fval x) <= L ->
  nearly (nmul (ndiv n1 l) x) (fval x / L).
Proof.
  intros DL [FL CL] [L1 L2] DX FX B. rewrite <- four_ur in CL. rewrite !bp_powerRZ in *. apply finite_f in FL. pose proof ur_small as U. pose proof (bp_pos (-480)) as P0. assert (LP : 0 < L) by lra.
  set (lv := fval l) in *. apply Rabs_le_inv in CL. assert (LV : L * (1 - 4 * ur) <= lv <= L * (1 + 4 * ur)) by lra. assert (LH : L / 2 <= lv <= 2 * L).
  { assert (0 <= L * (1 - 8 * ur)) by (apply Rmult_le_pos; lra). assert (0 <= L * (1 - 4 * ur)) by (apply Rmult_le_pos; lra). lra. }
  assert (LV0 : 0 < lv) by lra.
  assert (D1 : is_double (n1 : T F64)) by reflexivity. assert (F1 : f_finite (n1 : T F64)) by exact I. assert (V1 : fval (n1 : T F64) = 1) by exact fval_one.
  assert (BP : bp (-512) * bp 512 = 1) by (rewrite <- bpow_plus; reflexivity). assert (BP' : bp (-481) * bp 481 = 1) by (rewrite <- bpow_plus; reflexivity).
  assert (B512 : bp 512 = 2 * bp 511) by (rewrite <- bp_double; reflexivity). assert (B480 : bp (-480) = 2 * bp (-481)) by (rewrite <- bp_double; reflexivity).
  pose proof (bp_pos 512) as Q1. pose proof (bp_pos (-512)) as Q2. pose proof (bp_pos 481) as Q3. pose proof (bp_pos (-481)) as Q4.
  assert (LVU : lv <= bp 512) by lra. assert (LVL : bp (-481) <= lv) by lra.
  assert (FI : 1 / lv * lv = 1) by (field; lra). assert (FI0 : 0 < 1 / lv) by (unfold Rdiv; rewrite Rmult_1_l; apply Rinv_0_lt_compat; exact LV0).
  assert (FB : bp (-512) <= 1 / lv <= bp 481).
  { split; apply (Rmult_le_reg_r lv); try exact LV0; rewrite FI; [rewrite <- BP|rewrite <- BP', (Rmult_comm (bp (-481)))]; apply Rmult_le_compat_l; lra. }
  destruct (sqrt_rel (1 / lv)) as (e1 & E1 & R1); [apply Rle_trans with (2 := proj1 FB); apply bpow_le; lia|].
  destruct (rk_below (1 / lv) 481 (proj2 FB) ltac:(lia)) as [RK RB].
  assert (RN0 : 0 <= rnd (1 / lv)) by (apply rnd_nonneg; lra).
  assert (TOP : bp 481 < top) by (apply bpow_lt; lia).
  pose proof (div_val n1 l D1 DL F1 FL) as DV. fold lv in DV. rewrite V1 in DV. specialize (DV ltac:(lra)).
  assert (FV : f_finite (ndiv n1 l) /\ fval (ndiv n1 l) = rnd (1 / lv)).
  { destruct DV as [(_ & F & E)|[(T & _)|(T & _)]]; [split; assumption|lra|pose proof top_pos; lra]. }
  destruct FV as [FF FV]. clear DV.
  assert (DD : is_double (ndiv n1 l)) by (apply double_div; assumption).
  apply Rabs_le_inv in E1. set (xv := fval x) in *. set (fv := rnd (1 / lv)) in *.
  assert (RA : exists a, 1 - 6 * ur <= a <= 1 + 6 * ur /\ fv = a / L).
  { exists (fv * L). split; [|field; lra]. rewrite R1. assert (LL : L = (L / lv) * lv) by (field; lra). assert (LQ : 1 - 9/2 * ur <= L / lv <= 1 + 9/2 * ur).
    { split; apply (Rmult_le_reg_r lv); try exact LV0; rewrite <- LL; nra. }
    replace (1 / lv * (1 + e1) * L) with ((L / lv) * (1 + e1)) by (field; lra). nra. }
  destruct RA as (a & RA & FA). set (q := xv / L). assert (QB : Rabs q <= 1). { unfold q, Rdiv. rewrite Rabs_mult, (Rabs_pos_eq (/ L)) by (apply Rlt_le, Rinv_0_lt_compat; exact LP). apply (Rmult_le_reg_r L); [exact LP|]. rewrite Rmult_assoc, Rinv_l by lra. lra. }
  assert (PV : fv * xv = a * q) by (rewrite FA; unfold q; field; lra).
  pose proof (mul_val (ndiv n1 l) x DD DX FF FX) as MV. rewrite FV in MV. fold xv in MV. rewrite PV in MV.
  destruct (mul_rel (a * q)) as (e2 & h & E2 & H2 & R2). apply Rabs_le_inv in E2.
  assert (AQ : Rabs (a * q) <= 2) by (rewrite Rabs_mult, (Rabs_pos_eq a) by lra; pose proof (Rabs_pos q); nra).
  assert (ETA : eta <= 1). { unfold eta. assert (bp (-1074) <= bp 0) by (apply bpow_le; lia). change (bp 0) with 1 in *. lra. }
  assert (TT : 16 < top). { change 16 with (bp 4). apply bpow_lt. lia. }
  assert (RR : Rabs (rnd (a * q)) < top).
  { rewrite R2. apply Rle_lt_trans with (1 := Rabs_triang _ _). rewrite Rabs_mult. assert (Rabs (1 + e2) <= 2) by (apply Rabs_le; lra). pose proof (Rabs_pos (a * q)). nra. }
  assert (MM : f_finite (nmul (ndiv n1 l) x) /\ fval (nmul (ndiv n1 l) x) = rnd (a * q)).
  { apply Rabs_def2 in RR. destruct MV as [(_ & F & E)|[(T & _)|(T & _)]]; [split; assumption|lra|lra]. }
  destruct MM as [MF ME]. split; [apply finite_f, MF|]. rewrite ME, R2, <- eight_ur. rewrite bp_powerRZ. replace (a * q * (1 + e2) + h - q) with (q * (a * (1 + e2) - 1) + h) by ring.
  apply Rle_trans with (1 := Rabs_triang _ _). apply Rplus_le_compat.
  - rewrite Rabs_mult. apply Rmult_le_compat_l; [apply Rabs_pos|]. apply Rabs_le. nra.
  - unfold eta in H2. pose proof (bp_pos (-1074)). lra.
Qed.
(** Length of the result *)
Lemma one_square q d u t : 0 < u <= / 1000 -> 0 <= t <= u / 1000 -> Rabs q <= 1 -> Rabs d <= Rabs q * (8 * u) + t -> Rabs ((q + d) * (q + d) - q * q) <= 16 * u * (q * q) + u / 4.
Proof.
  intros U T Q D. replace ((q + d) * (q + d) - q * q) with (2 * q * d + d * d) by ring. apply Rle_trans with (1 := Rabs_triang _ _). rewrite !Rabs_mult, (Rabs_pos_eq 2) by lra.
  rewrite <- (Rabs_pos_eq (q * q)) by nra. rewrite (Rabs_mult q q). pose proof (Rabs_pos q) as PQ. pose proof (Rabs_pos d) as PD. set (a := Rabs q) in *. set (b := Rabs d) in *.
  assert (B : b <= 9 * u) by nra. assert (BB : b * b <= 9 * u * (9 * u)) by (apply Rmult_le_compat; lra). assert (UU : u * u <= u * / 1000) by (apply Rmult_le_compat_l; lra).
  assert (AB : a * b <= a * (a * (8 * u) + t)) by (apply Rmult_le_compat_l; lra). assert (AT : a * t <= 1 * t) by (apply Rmult_le_compat_r; lra). nra.
Qed.
Lemma root_one s e : 0 <= s -> Rabs (s - 1) <= e -> Rabs (sqrt s - 1) <= e.
Proof.
  intros S H. pose proof (sqrt_pos s) as P. pose proof (sqrt_sqrt s S) as Q. apply Rle_trans with (2 := H). assert (E : s - 1 = (sqrt s - 1) * (sqrt s + 1)) by lra.
  rewrite E, Rabs_mult, (Rabs_pos_eq (sqrt s + 1)) by lra. rewrite <- (Rmult_1_r (Rabs (sqrt s - 1))) at 1. apply Rmult_le_compat_l; [apply Rabs_pos|lra].
Qed.
Lemma tiny_t : powerRZ 2 (-1074) <= ur / 1000.
Proof.
  rewrite bp_powerRZ. unfold ur. assert (bp (-1074) <= bp (-63)) by (apply bpow_le; lia). assert (E : bp (-63) = bp (-52) * bp (-11)) by (rewrite <- bpow_plus; reflexivity). change (bp (-11)) with (/ 2048) in E. pose proof (bp_pos (-52)). lra.
Qed.
Lemma unit_sum q1 q2 q3 n1 n2 n3 : q1 * q1 + q2 * q2 + q3 * q3 = 1 ->
  Rabs (n1 - q1) <= Rabs q1 * powerRZ 2 (-50) + powerRZ 2 (-1074) -> Rabs (n2 - q2) <= Rabs q2 * powerRZ 2 (-50) + powerRZ 2 (-1074) -> Rabs (n3 - q3) <= Rabs q3 * powerRZ 2 (-50) + powerRZ 2 (-1074) ->
  nearly_one (sqrt (n1 * n1 + n2 * n2 + n3 * n3)).
Proof.
  rewrite <- eight_ur. pose proof tiny_t as T. assert (T0 : 0 <= powerRZ 2 (-1074)) by (rewrite bp_powerRZ; apply Rlt_le, bp_pos). pose proof ur_small as U. intros Q H1 H2 H3.
  assert (C : forall q, q * q <= 1 -> Rabs q <= 1) by (intros q H; apply Rabs_le; nra).
  apply (one_square q1 (n1 - q1) ur) in H1; [|exact U|lra|apply C; nra]. apply (one_square q2 (n2 - q2) ur) in H2; [|exact U|lra|apply C; nra]. apply (one_square q3 (n3 - q3) ur) in H3; [|exact U|lra|apply C; nra].
  replace (q1 + (n1 - q1)) with n1 in H1 by ring. replace (q2 + (n2 - q2)) with n2 in H2 by ring. replace (q3 + (n3 - q3)) with n3 in H3 by ring.
  unfold nearly_one. apply root_one; [nra|]. assert (E : powerRZ 2 (-48) = 32 * ur).
  { replace (32 * ur) with (4 * (8 * ur)) by ring. rewrite eight_ur, !bp_powerRZ. change (-48)%Z with (-50 + 2)%Z. rewrite bpow_plus. change (bp 2) with 4. ring. }
  rewrite E. apply Rabs_le_inv in H1, H2, H3. apply Rabs_le.
  assert (ES : 16 * ur * (q1 * q1) + 16 * ur * (q2 * q2) + 16 * ur * (q3 * q3) = 16 * ur) by (rewrite <- (Rmult_1_r (16 * ur)) at 4; rewrite <- Q; ring). lra.
Qed.
(** Overflow and underflow *)
Lemma sqk_zero x : is_double x -> f_finite x -> sqk x (S754_zero false) = rk (fval x * fval x).
Proof.
  intros D F. unfold sqk. cbn [fval]. rewrite Rminus_0_r. rewrite (rk_fix (Rabs (fval x))); [| |apply Rlt_le, fval_bound, D].
  - rewrite <- Rabs_mult, Rabs_pos_eq by nra. reflexivity.
  - rewrite <- fval_abs. apply fval_fmt, double_abs, D.
Qed.
Lemma sqk_huge x : is_double x -> f_finite x -> powerRZ 2 512 <= Rabs (fval x) -> sqk x (S754_zero false) = top.
Proof.
  intros D F H. rewrite sqk_zero by assumption. apply rk_ge_top. rewrite bp_powerRZ in H. rewrite <- (Rabs_pos_eq (fval x * fval x)) by nra. rewrite Rabs_mult.
  change top with (bp (512 + 512)). rewrite bpow_plus. pose proof (bp_pos 512). apply Rmult_le_compat; lra.
Qed.
Lemma sqk_tiny x : is_double x -> f_finite x -> Rabs (fval x) <= powerRZ 2 (-538) -> sqk x (S754_zero false) = 0.
Proof.
  intros D F H. rewrite sqk_zero by assumption. rewrite bp_powerRZ in H.
  assert (S : fval x * fval x <= bp (-1076)). { rewrite <- (Rabs_pos_eq (fval x * fval x)) by nra. rewrite Rabs_mult. change (-1076)%Z with (-538 + -538)%Z. rewrite bpow_plus. apply Rmult_le_compat; try apply Rabs_pos; exact H. }
  assert (R : rnd (bp (-1076)) = 0). { apply (round_N_small_pos radix2 (FLT_exp (-1074) 53) (fun z => negb (Z.even z)) (bp (-1076)) (-1075)); [split; [apply Rle_refl|apply bpow_lt; lia]|reflexivity]. }
  assert (Z : rnd (fval x * fval x) = 0). { apply Rle_antisym; [rewrite <- R; apply rnd_le, S|apply rnd_nonneg; nra]. }
  unfold rk. rewrite Z. apply Rmin_left, Rlt_le, top_pos.
Qed.
Lemma nn_top x : nn x -> key x = top -> x = S754_infinity false.
Proof. intros N K. pose proof N as [D [[F P]| ->]]; [|reflexivity]. pose proof (key_fin_lt x N F). lra. Qed.
Lemma nn_zero x : nn x -> key x = 0 -> neqb x n0 = true.
Proof.
  intros N K. assert (Z : nn (n0 : T F64)) by (split; [reflexivity|left; split; [exact I|cbn; lra]]). unfold neqb. rewrite (ncmp_key x n0 N Z), K. change (key n0) with 0. rewrite Rcompare_Eq; reflexivity.
Qed.
Lemma sqrt_top x : nn x -> key x = top -> nsqrt x = S754_infinity false.
Proof. intros N K. destruct (sqrt_key x N) as [N' K']. apply nn_top; [exact N'|]. rewrite K', K, Rlt_bool_false by lra. reflexivity. Qed.
Lemma sqrt_zero x : nn x -> key x = 0 -> key (nsqrt x) = 0.
Proof. intros N K. destruct (sqrt_key x N) as [N' K']. rewrite K', K, Rlt_bool_true by apply top_pos. rewrite sqrt_0. apply rnd_0. Qed.
Lemma rk0 : rk 0 = 0. Proof. apply rk_fix; [apply generic_format_0|apply Rlt_le, top_pos]. Qed.
Lemma over_inf x : f_finite x -> feq (nmul (ndiv n1 (S754_infinity false : T F64)) x) n0.
Proof. destruct x as [[]| | |[]]; intros F; try destruct F; vm_compute; reflexivity. Qed.
Lemma dist3_huge p ax : finite3 p -> axis3 ax -> powerRZ 2 512 <= Rabs (fval (ax p)) -> dist_3d p (@mk3 F64 n0 n0 n0) = S754_infinity false.
Proof.
  intros F A H. destruct (sqr_key3 p _ F origin3) as [N K]. unfold dist_3d. apply sqrt_top; [exact N|]. rewrite K. cbn [px py pz]. change (@n0 F64) with (S754_zero false : T F64).
  apply fin3 in F. destruct F as ((D1 & F1) & (D2 & F2) & (D3 & F3)). pose proof (sqk_nonneg (px p) (S754_zero false)) as S1. pose proof (sqk_nonneg (py p) (S754_zero false)) as S2. pose proof (sqk_nonneg (pz p) (S754_zero false)) as S3.
  destruct A as [->|[->| ->]].
  - rewrite (sqk_huge (px p)) by assumption. rewrite (rk_ge_top (top + _)) by lra. apply rk_ge_top. lra.
  - rewrite (sqk_huge (py p)) by assumption. rewrite (rk_ge_top (_ + top)) by lra. apply rk_ge_top. lra.
  - rewrite (sqk_huge (pz p)) by assumption. apply rk_ge_top. pose proof (rk_nonneg (sqk (px p) (S754_zero false) + sqk (py p) (S754_zero false))). lra.
Qed.
Lemma dist2_huge p ax : finite2 p -> axis2 ax -> powerRZ 2 512 <= Rabs (fval (ax p)) -> dist_2d p (@mk2 F64 n0 n0) = S754_infinity false.
Proof.
  intros F A H. destruct (sqr_key2 p _ F origin2) as [N K]. unfold dist_2d. apply sqrt_top; [exact N|]. rewrite K. cbn [x2 y2]. change (@n0 F64) with (S754_zero false : T F64).
  apply fin2 in F. destruct F as ((D1 & F1) & (D2 & F2)). pose proof (sqk_nonneg (x2 p) (S754_zero false)) as S1. pose proof (sqk_nonneg (y2 p) (S754_zero false)) as S2.
  destruct A as [->| ->].
  - rewrite (sqk_huge (x2 p)) by assumption. apply rk_ge_top. lra.
  - rewrite (sqk_huge (y2 p)) by assumption. apply rk_ge_top. lra.
Qed.
Lemma dist3_tiny p : finite3 p -> (forall ax, axis3 ax -> Rabs (fval (ax p)) <= powerRZ 2 (-538)) -> neqb (dist_3d p (@mk3 F64 n0 n0 n0)) n0 = true.
Proof.
  intros F H. destruct (sqr_key3 p _ F origin3) as [N K]. apply nn_zero; [apply nn_dist3; [exact F|exact origin3]|]. unfold dist_3d. apply sqrt_zero; [exact N|]. rewrite K. cbn [px py pz]. change (@n0 F64) with (S754_zero false : T F64).
  apply fin3 in F. destruct F as ((D1 & F1) & (D2 & F2) & (D3 & F3)). rewrite !sqk_tiny by (assumption || (apply H; unfold axis3; auto)). rewrite !Rplus_0_r, !rk0. reflexivity.
Qed.
Lemma dist2_tiny p : finite2 p -> (forall ax, axis2 ax -> Rabs (fval (ax p)) <= powerRZ 2 (-538)) -> neqb (dist_2d p (@mk2 F64 n0 n0)) n0 = true.
Proof.
  intros F H. destruct (sqr_key2 p _ F origin2) as [N K]. apply nn_zero; [apply nn_dist2; [exact F|exact origin2]|]. unfold dist_2d. apply sqrt_zero; [exact N|]. rewrite K. cbn [x2 y2]. change (@n0 F64) with (S754_zero false : T F64).
  apply fin2 in F. destruct F as ((D1 & F1) & (D2 & F2)). rewrite !sqk_tiny by (assumption || (apply H; unfold axis2; auto)). rewrite !Rplus_0_r, !rk0. reflexivity.
Qed.
