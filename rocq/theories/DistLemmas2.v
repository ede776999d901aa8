(** How accurate computed distances are. *)
From Verif Require Import Base Num NumLemmas BBoxModel GeomSpec FloatSpec FloatLemmas FloatBridge RootLemmas DistSpec DistLemmas.
From Coq Require Import Floats.SpecFloat Reals Lra Psatz.
From Flocq Require Import Core Relative Plus_error.
Local Open Scope R_scope.
Local Existing Instance valid_exp_f64.
Local Instance prec53 : Prec_gt_0 53 := eq_refl _.

Definition ur : R := / 2 * bp (-52).
Definition eta : R := / 2 * bp (-1074).
Lemma ur_small : 0 < ur <= / 1000.
Proof.
  unfold ur. assert (bp (-52) <= bp (-10)) by (apply bpow_le; lia). pose proof (bp_pos (-52)).
  change (bp (-10)) with (/ 1024) in *. lra.
Qed.
Lemma eta_pos : 0 < eta. Proof. unfold eta. pose proof (bp_pos (-1074)). lra. Qed.
Lemma add_rel x y : fmt x -> fmt y -> exists eps, Rabs eps <= ur /\ rnd (x + y) = (x + y) * (1 + eps).
Proof.
  intros X Y. destruct (FLT_plus_error_N_ex radix2 (-1074) 53 (fun z => negb (Z.even z)) x y X Y) as (eps & E1 & E2).
  exists eps. split; [|exact E2]. eapply Rle_trans; [exact E1|]. unfold u_ro. change (- (53) + 1)%Z with (-52)%Z. fold ur.
  pose proof ur_small as U. apply Rle_trans with (ur / 1); [|lra]. unfold Rdiv. apply Rmult_le_compat_l; [lra|]. apply Rinv_le_contravar; lra.
Qed.
Lemma mul_rel x : exists eps h, Rabs eps <= ur /\ Rabs h <= eta /\ rnd x = x * (1 + eps) + h.
Proof.
  destruct (error_N_FLT radix2 (-1074) 53 eq_refl (fun z => negb (Z.even z)) x) as (eps & h & E1 & E2 & _ & E3).
  exists eps, h. change (- (53) + 1)%Z with (-52)%Z in E1. auto.
Qed.
Lemma sqrt_rel x : bp (-1022) <= x -> exists eps, Rabs eps <= ur /\ rnd x = x * (1 + eps).
Proof.
  intros H. destruct (relative_error_N_FLT_ex radix2 (-1074) 53 eq_refl (fun z => negb (Z.even z)) x) as (eps & E1 & E2).
  { rewrite Rabs_pos_eq; [exact H|]. pose proof (bp_pos (-1022)). lra. }
  exists eps. change (- (53) + 1)%Z with (-52)%Z in E1. auto.
Qed.
Lemma rk_below r e : r <= bp e -> (-1074 <= e < 1024)%Z -> rk r = rnd r /\ rnd r <= bp e.
Proof.
  intros H E. assert (B : rnd r <= bp e) by (rewrite <- (rnd_id (bp e)) by (apply fmt_bpow; lia); apply rnd_le, H).
  split; [|exact B]. unfold rk. apply Rmin_left. apply Rle_trans with (1 := B). apply bpow_le. lia.
Qed.
Lemma between u eps x : 0 <= x -> Rabs eps <= u -> x * (1 - u) <= x * (1 + eps) <= x * (1 + u).
Proof. intros X E. apply Rabs_le_inv in E. split; apply Rmult_le_compat_l; lra. Qed.
Lemma sqk_acc x y : is_double x -> is_double y -> Rabs (fval x - fval y) <= bp 511 ->
  sqk x y <= bp 1022 /\ (fval x - fval y)^2 * (1 - ur)^3 - eta <= sqk x y <= (fval x - fval y)^2 * (1 + ur)^3 + eta.
Proof.
  intros X Y B. unfold sqk. set (a := Rabs (fval x - fval y)) in *. assert (A : 0 <= a) by apply Rabs_pos.
  destruct (rk_below a 511 B ltac:(lia)) as [-> E1].
  assert (F : exists eps, Rabs eps <= ur /\ rnd a = a * (1 + eps)).
  { unfold a, Rabs. destruct (Rcase_abs (fval x - fval y)).
    - replace (- (fval x - fval y)) with (fval y + - fval x) by ring. apply add_rel; [apply fval_fmt, Y|apply generic_format_opp, fval_fmt, X].
    - unfold Rminus. apply add_rel; [apply fval_fmt, X|apply generic_format_opp, fval_fmt, Y]. }
  destruct F as (e1 & H1 & R1). pose proof (rnd_nonneg a A) as N. set (e := rnd a) in *.
  assert (S : e * e <= bp 1022).
  { change 1022%Z with (511 + 511)%Z. rewrite bpow_plus. apply Rmult_le_compat; assumption. }
  destruct (rk_below (e * e) 1022 S ltac:(lia)) as [-> E2]. split; [exact E2|].
  destruct (mul_rel (e * e)) as (e2 & h & H2 & H3 & R2). rewrite R2. clear R2 E2 S.
  pose proof (between ur e1 a A H1) as C1. rewrite <- R1 in C1.
  assert (EE : 0 <= e * e) by nra.
  pose proof (between ur e2 (e * e) EE H2) as C2. apply Rabs_le_inv in H3.
  assert (SQ : (fval x - fval y)^2 = a * a).
  { unfold a. rewrite <- Rabs_mult, Rabs_pos_eq; [ring|apply Rle_0_sqr]. }
  rewrite SQ. pose proof ur_small as U.
  assert (Q1 : a * (1 - ur) * (a * (1 - ur)) <= e * e) by (apply Rmult_le_compat; nra).
  assert (Q2 : e * e <= a * (1 + ur) * (a * (1 + ur))) by (apply Rmult_le_compat; nra).
  assert (Q3 : a * (1 - ur) * (a * (1 - ur)) * (1 - ur) <= e * e * (1 - ur)) by (apply Rmult_le_compat_r; lra).
  assert (Q4 : e * e * (1 + ur) <= a * (1 + ur) * (a * (1 + ur)) * (1 + ur)) by (apply Rmult_le_compat_r; lra).
  split; lra.
Qed.
Lemma pow5 u : 0 < u <= / 1000 -> 1 - 5 * u <= (1 - u)^5 /\ (1 + u)^5 <= 1 + 21 / 4 * u.
Proof. intros U. split; nra. Qed.
Lemma sum_acc x1 y1 x2 y2 x3 y3 D : is_double x1 -> is_double y1 -> is_double x2 -> is_double y2 -> is_double x3 -> is_double y3 ->
  bp (-480) <= D <= bp 511 -> D * D = (fval x1 - fval y1)^2 + (fval x2 - fval y2)^2 + (fval x3 - fval y3)^2 ->
  let K := rk (rk (sqk x1 y1 + sqk x2 y2) + sqk x3 y3) in
  K < top /\ D * D * (1 - 11 / 2 * ur) <= K <= D * D * (1 + 11 / 2 * ur).
Proof.
  intros A1 B1 A2 B2 A3 B3 [D1 D2] E K. pose proof (bp_pos (-480)) as P0.
  assert (L : forall a, a^2 <= D * D -> Rabs a <= bp 511).
  { intros a H. apply Rle_trans with D; [|exact D2]. rewrite <- (Rabs_pos_eq D) by lra. apply Rsqr_le_abs_0. unfold Rsqr. lra. }
  pose proof (pow2_ge_0 (fval x1 - fval y1)) as G1. pose proof (pow2_ge_0 (fval x2 - fval y2)) as G2. pose proof (pow2_ge_0 (fval x3 - fval y3)) as G3.
  destruct (sqk_acc x1 y1 A1 B1 (L (fval x1 - fval y1) ltac:(lra))) as [T1 [L1 U1]]. destruct (sqk_acc x2 y2 A2 B2 (L (fval x2 - fval y2) ltac:(lra))) as [T2 [L2 U2]].
  destruct (sqk_acc x3 y3 A3 B3 (L (fval x3 - fval y3) ltac:(lra))) as [T3 [L3 U3]].
  pose proof (sqk_nonneg x1 y1) as N1. pose proof (sqk_nonneg x2 y2) as N2. pose proof (sqk_nonneg x3 y3) as N3.
  pose proof (rk_fmt (rk (Rabs (fval x1 - fval y1)) * rk (Rabs (fval x1 - fval y1)))) as F1. fold (sqk x1 y1) in F1.
  pose proof (rk_fmt (rk (Rabs (fval x2 - fval y2)) * rk (Rabs (fval x2 - fval y2)))) as F2. fold (sqk x2 y2) in F2.
  pose proof (rk_fmt (rk (Rabs (fval x3 - fval y3)) * rk (Rabs (fval x3 - fval y3)))) as F3. fold (sqk x3 y3) in F3.
  set (s1 := sqk x1 y1) in *. set (s2 := sqk x2 y2) in *. set (s3 := sqk x3 y3) in *.
  set (a1 := (fval x1 - fval y1)^2) in *. set (a2 := (fval x2 - fval y2)^2) in *. set (a3 := (fval x3 - fval y3)^2) in *.
  clearbody s1 s2 s3 a1 a2 a3.
  assert (H1023 : bp 1023 = 2 * bp 1022) by (rewrite <- bp_double; reflexivity).
  destruct (rk_below (s1 + s2) 1023 ltac:(lra) ltac:(lia)) as [R1 T4]. unfold K. rewrite R1.
  pose proof (rnd_nonneg (s1 + s2) ltac:(lra)) as N4.
  destruct (add_rel s1 s2 F1 F2) as (e1 & H1 & E1).
  pose proof (between ur e1 (s1 + s2) ltac:(lra) H1) as C1. rewrite <- E1 in C1.
  assert (F4 : fmt (rnd (s1 + s2))) by (apply generic_format_round; [apply valid_exp_f64|apply valid_rnd_N]).
  set (w := rnd (s1 + s2)) in *. clearbody w.
  destruct (add_rel w s3 F4 F3) as (e2 & H2 & E2).
  pose proof (between ur e2 (w + s3) ltac:(lra) H2) as C2. rewrite <- E2 in C2.
  assert (T5 : rnd (w + s3) <= 3 * bp 1022).
  { assert (FM : fmt (3 * bp 1022)).
    { apply generic_format_FLT. exists (Float radix2 3 1022); [reflexivity|vm_compute; reflexivity|vm_compute; discriminate]. }
    rewrite <- (rnd_id _ FM). apply rnd_le. lra. }
  assert (TT : top = 4 * bp 1022).
  { change top with (bp 1024). replace 1024%Z with (1023 + 1)%Z by reflexivity. rewrite bp_double, H1023. ring. }
  assert (R2 : rk (w + s3) = rnd (w + s3)).
  { unfold rk. apply Rmin_left. pose proof (bp_pos 1022). lra. }
  rewrite R2. split; [pose proof (bp_pos 1022); lra|].
  set (k := rnd (w + s3)) in *. clearbody k. clear K R1 R2 T4 T5 E1 E2 H1 H2 T1 T2 T3.
  pose proof ur_small as U. pose proof eta_pos as PE.
  assert (SM : 4 * eta <= D * D * (/ 8 * ur)).
  { assert (Q : D * D >= bp (-960)).
    { change (-960)%Z with (-480 + -480)%Z. rewrite bpow_plus. apply Rle_ge, Rmult_le_compat; lra. }
    apply Rle_trans with (bp (-960) * (/ 8 * ur)); [|apply Rmult_le_compat_r; lra].
    unfold eta, ur. assert (Z : bp (-1074) <= bp (-960) * bp (-52) * bp (-6)) by (rewrite <- !bpow_plus; apply bpow_le; lia).
    change (bp (-6)) with (/ 64) in Z. assert (0 < bp (-960) * bp (-52)) by (apply Rmult_lt_0_compat; apply bp_pos). lra. }
  destruct (pow5 ur U) as [P5 Q5].
  set (u := ur) in *. clearbody u.
  assert (EU : 0 < eta * u) by (apply Rmult_lt_0_compat; lra).
  assert (DD : 0 <= D * D) by nra.
  assert (Z : a1 * (1 - u)^3 - eta + (a2 * (1 - u)^3 - eta) <= s1 + s2) by lra.
  assert (Z' : s1 + s2 <= (a1 + a2) * (1 + u)^3 + 2 * eta) by lra.
  assert (W1 : (a1 + a2) * (1 - u)^4 - 2 * eta <= w).
  { apply Rle_trans with (2 := proj1 C1). apply Rle_trans with (((a1 + a2) * (1 - u)^3 - 2 * eta) * (1 - u)); [|apply Rmult_le_compat_r; lra].
    replace ((1 - u)^4) with ((1 - u)^3 * (1 - u)) by ring. set (q := (1 - u)^3). lra. }
  assert (W2 : w <= (a1 + a2) * (1 + u)^4 + 2 * eta * (1 + u)).
  { apply Rle_trans with (1 := proj2 C1). replace ((a1 + a2) * (1 + u)^4 + 2 * eta * (1 + u)) with (((a1 + a2) * (1 + u)^3 + 2 * eta) * (1 + u)) by ring.
    apply Rmult_le_compat_r; lra. }
  assert (V1 : a3 * (1 - u)^4 <= a3 * (1 - u)^3).
  { apply Rmult_le_compat_l; [lra|]. replace ((1 - u)^4) with ((1 - u)^3 * (1 - u)) by ring.
    rewrite <- (Rmult_1_r ((1 - u)^3)) at 2. apply Rmult_le_compat_l; [apply pow_le; lra|lra]. }
  assert (V2 : a3 * (1 + u)^3 <= a3 * (1 + u)^4).
  { apply Rmult_le_compat_l; [lra|]. apply Rle_pow; [lra|lia]. }
  assert (Y1 : D * D * (1 - u)^4 - 3 * eta <= w + s3) by (rewrite E; set (q := (1 - u)^4) in *; set (q' := (1 - u)^3) in *; lra).
  assert (Y2 : w + s3 <= D * D * (1 + u)^4 + 3 * eta * (1 + u)) by (rewrite E; set (q := (1 + u)^4) in *; set (q' := (1 + u)^3) in *; lra).
  split.
  - apply Rle_trans with (2 := proj1 C2). apply Rle_trans with ((D * D * (1 - u)^4 - 3 * eta) * (1 - u)); [|apply Rmult_le_compat_r; lra].
    replace ((D * D * (1 - u)^4 - 3 * eta) * (1 - u)) with (D * D * (1 - u)^5 - 3 * eta * (1 - u)) by ring.
    assert (D * D * (1 - 5 * u) <= D * D * (1 - u)^5) by (apply Rmult_le_compat_l; lra). set (q := (1 - u)^5) in *. lra.
  - apply Rle_trans with (1 := proj2 C2). apply Rle_trans with ((D * D * (1 + u)^4 + 3 * eta * (1 + u)) * (1 + u)); [apply Rmult_le_compat_r; lra|].
    replace ((D * D * (1 + u)^4 + 3 * eta * (1 + u)) * (1 + u)) with (D * D * (1 + u)^5 + 3 * eta * ((1 + u) * (1 + u))) by ring.
    assert (D * D * (1 + u)^5 <= D * D * (1 + 21 / 4 * u)) by (apply Rmult_le_compat_l; lra).
    assert ((1 + u) * (1 + u) <= 4 / 3) by nra. assert (3 * eta * ((1 + u) * (1 + u)) <= 3 * eta * (4 / 3)) by (apply Rmult_le_compat_l; lra). set (q := (1 + u)^5) in *. set (q' := (1 + u) * (1 + u)) in *. lra.
Qed.
Lemma root_acc K D : bp (-480) <= D -> D * D * (1 - 11 / 2 * ur) <= K <= D * D * (1 + 11 / 2 * ur) ->
  Rabs (rnd (sqrt K) - D) <= D * (4 * ur).
Proof.
  intros D1 [K1 K2]. pose proof ur_small as U. pose proof (bp_pos (-480)) as P0. set (u := ur) in *.
  assert (S1 : D * (1 - 3 * u) <= sqrt K).
  { rewrite <- (sqrt_square (D * (1 - 3 * u))) by nra. apply sqrt_le_1_alt. apply Rle_trans with (2 := K1).
    replace (D * (1 - 3 * u) * (D * (1 - 3 * u))) with (D * D * ((1 - 3 * u) * (1 - 3 * u))) by ring. apply Rmult_le_compat_l; nra. }
  assert (S2 : sqrt K <= D * (1 + 11 / 4 * u)).
  { rewrite <- (sqrt_square (D * (1 + 11 / 4 * u))) by nra. apply sqrt_le_1_alt. apply Rle_trans with (1 := K2).
    replace (D * (1 + 11 / 4 * u) * (D * (1 + 11 / 4 * u))) with (D * D * ((1 + 11 / 4 * u) * (1 + 11 / 4 * u))) by ring. apply Rmult_le_compat_l; nra. }
  destruct (sqrt_rel (sqrt K)) as (e & H & E).
  { apply Rle_trans with (2 := S1). apply Rle_trans with (bp (-480) * / 2); [|nra].
    change (/ 2) with (bp (-1)). rewrite <- bpow_plus. apply bpow_le. lia. }
  rewrite E. pose proof (between u e (sqrt K) (sqrt_pos K) H) as C.
  assert (X1 : D * (1 - 3 * u) * (1 - u) <= sqrt K * (1 - u)) by (apply Rmult_le_compat_r; lra).
  assert (X2 : sqrt K * (1 + u) <= D * (1 + 11 / 4 * u) * (1 + u)) by (apply Rmult_le_compat_r; lra).
  apply Rabs_le.
  assert (Y1 : D * (1 - 4 * u) <= D * (1 - 3 * u) * (1 - u)).
  { rewrite Rmult_assoc. apply Rmult_le_compat_l; nra. }
  assert (Y2 : D * (1 + 11 / 4 * u) * (1 + u) <= D * (1 + 4 * u)).
  { rewrite Rmult_assoc. apply Rmult_le_compat_l; nra. }
  lra.
Qed.
