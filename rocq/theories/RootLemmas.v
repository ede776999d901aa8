(** Rounded square roots of rounded squares. *)
From Verif Require Import Base Num NumLemmas GeomSpec FloatSpec FloatBridge.
From Coq Require Import Floats.SpecFloat Reals Lra Psatz.
From Flocq Require Import Core Relative Plus_error.
Local Open Scope R_scope.
Local Existing Instance valid_exp_f64.
Local Instance prec53 : Prec_gt_0 53 := eq_refl _.
Notation bp := (bpow radix2).

Lemma lt_sqrt a x : 0 <= a -> a * a < x -> a < sqrt x.
Proof. intros A H. rewrite <- (sqrt_square a A) at 1. apply sqrt_lt_1_alt. split; [nra|exact H]. Qed.
Lemma bp_pos e : 0 < bp e. Proof. apply bpow_gt_0. Qed.
Lemma bp_double e : bp (e + 1) = 2 * bp e.
Proof. rewrite bpow_plus. change (bp 1) with 2. ring. Qed.
Lemma sqrt_sq_ge d : fmt d -> bp (-511) <= d -> d <= rnd (sqrt (rnd (d * d))).
Proof.
  intros F L. pose proof (bp_pos (-511)) as P0. assert (P : 0 < d) by lra.
  set (k := (mag radix2 d - 1)%Z).
  assert (B : bp k <= d < bp (k + 1)).
  { unfold k. replace (mag radix2 d - 1 + 1)%Z with (mag radix2 d : Z) by lia. split.
    - pose proof (bpow_mag_le radix2 d ltac:(lra)) as H. rewrite Rabs_pos_eq in H by lra. exact H.
    - pose proof (bpow_mag_gt radix2 d) as H. rewrite Rabs_pos_eq in H by lra. exact H. }
  destruct B as [B1 B2].
  assert (Hk : (-511 <= k)%Z).
  { assert (bp (-511) < bp (k + 1)) as H by lra. apply lt_bpow in H. lia. }
  destruct (Req_dec d (bp k)) as [E|E].
  - rewrite E at 2 3. rewrite <- bpow_plus. rewrite (rnd_id (bp (k + k))) by (apply fmt_bpow; lia).
    rewrite bpow_plus, sqrt_square by apply bpow_ge_0. rewrite rnd_id by (apply fmt_bpow; lia). lra.
  - assert (U : ulp radix2 (FLT_exp (-1074) 53) d = 2 * (/ 2 * bp (-52)) * bp k).
    { rewrite ulp_neq_0 by lra. unfold cexp, FLT_exp. fold k.
      replace (Z.max (mag radix2 d - 53) (-1074)) with (-52 + k)%Z by (unfold k in *; lia).
      rewrite bpow_plus. field. }
    set (u := / 2 * bp (-52)) in *. assert (Pu : 0 < u < 1).
    { unfold u. assert (bp (-52) < 1) by (change 1 with (bp 0); apply bpow_lt; lia). pose proof (bp_pos (-52)). lra. }
    assert (D : d <= 2 * bp k - 2 * u * bp k).
    { assert (S : succ radix2 (FLT_exp (-1074) 53) d <= bp (k + 1)).
      { apply succ_le_lt; [apply valid_exp_f64|exact F|apply fmt_bpow; lia|exact B2]. }
      rewrite succ_eq_pos in S by lra. rewrite U in S. rewrite bp_double in S. lra. }
    apply round_N_ge_midp; [apply valid_exp_f64|exact F|].
    rewrite pred_eq_pos by lra. unfold pred_pos. fold k. rewrite Req_bool_false by exact E. rewrite U.
    destruct (relative_error_N_FLT_ex radix2 (-1074) 53 eq_refl (fun x => negb (Z.even x)) (d * d)) as (eps & E1 & E2).
    { rewrite Rabs_pos_eq by nra. change (-1074 + 53 - 1)%Z with (-511 + -511)%Z. rewrite bpow_plus. nra. }
    change (- (53) + 1)%Z with (-52)%Z in E1. fold u in E1. rewrite E2. apply Rabs_le_inv in E1.
    set (b := bp k) in *. assert (0 < b) by apply bp_pos. clearbody b u.
    apply lt_sqrt; [nra|].
    assert (X : (d + (d - 2 * u * b)) / 2 * ((d + (d - 2 * u * b)) / 2) = d * d - 2 * u * b * d + u * u * b * b) by field.
    rewrite X. apply Rlt_le_trans with (d * d * (1 - u)); [|apply Rmult_le_compat_l; nra].
    assert (Y : d * (2 * b - d) >= b * (2 * u * b)) by (apply Rle_ge, Rmult_le_compat; nra).
    assert (Z : u * (d * (2 * b - d) - u * b * b) > 0) by (apply Rmult_gt_0_compat; [lra|]; assert (0 < u * b * b) by (repeat apply Rmult_lt_0_compat; lra); nra).
    lra.
Qed.

Lemma mult_step x y : fmt x -> fmt y -> x < y -> x <= y - bp (-1074).
Proof.
  intros FX FY L. destruct (fmt_mult x FX) as [a ->], (fmt_mult y FY) as [b ->].
  pose proof (bp_pos (-1074)) as P. apply Rmult_lt_reg_r in L; [|exact P]. apply lt_IZR in L.
  assert (1 <= IZR b - IZR a) by (rewrite <- minus_IZR; apply IZR_le; lia). nra.
Qed.
Lemma sq_sqrt_sub q : fmt q -> 0 <= q < bp (-1022) -> q <= rnd (rnd (sqrt q) * rnd (sqrt q)).
Proof.
  intros F [Q0 Q1]. destruct (Req_dec q 0) as [->|N].
  { rewrite sqrt_0, !rnd_0, Rmult_0_l, rnd_0. lra. }
  set (s := sqrt q). assert (S0 : 0 < s) by (apply sqrt_lt_R0; lra).
  assert (SS : s * s = q) by (apply sqrt_sqrt; lra).
  assert (S1 : s < bp (-511)).
  { apply Rnot_le_lt. intro H. assert (bp (-1022) <= s * s); [|lra].
    change (-1022)%Z with (-511 + -511)%Z. rewrite bpow_plus. pose proof (bp_pos (-511)). nra. }
  set (d := rnd s). assert (D0 : 0 <= d) by (rewrite <- rnd_0; apply rnd_le; lra).
  assert (H : Rabs (d - s) <= / 2 * bp (-564)).
  { eapply Rle_trans; [apply error_le_half_ulp; apply valid_exp_f64|]. apply Rmult_le_compat_l; [lra|].
    rewrite ulp_neq_0 by lra. apply bpow_le. unfold cexp, FLT_exp.
    assert (mag radix2 s <= -511)%Z; [|lia]. apply mag_le_bpow; [lra|]. rewrite Rabs_pos_eq; lra. }
  apply Rabs_le_inv in H.
  apply round_N_ge_midp; [apply valid_exp_f64|exact F|].
  assert (PL : pred radix2 (FLT_exp (-1074) 53) q <= q - bp (-1074)).
  { apply mult_step; [apply generic_format_pred; [apply valid_exp_f64|exact F]|exact F|apply pred_lt_id; exact N]. }
  assert (E : bp (-1074) = bp (-510) * bp (-564)) by (rewrite <- bpow_plus; reflexivity).
  assert (E2 : bp (-510) = 2 * bp (-511)) by (rewrite <- bp_double; reflexivity).
  pose proof (bp_pos (-564)) as P1. set (w := bp (-564)) in *. set (z := bp (-511)) in *.
  rewrite E, E2 in PL. assert (G : q - z * w < d * d); [|lra].
  destruct (Rle_lt_dec s d) as [C|C]; [assert (0 < z * w) by (apply Rmult_lt_0_compat; [apply bp_pos|exact P1]); assert (s * s <= d * d) by (apply Rmult_le_compat; lra); lra|].
  assert (X : s * s - d * d = (s - d) * (s + d)) by ring.
  assert ((s - d) * (s + d) < / 2 * w * (2 * z)); [|lra].
  apply Rle_lt_trans with (/ 2 * w * (s + d)); [apply Rmult_le_compat_r; lra|]. apply Rmult_lt_compat_l; lra.
Qed.
Lemma root_back q e : fmt q -> 0 <= q -> rnd (sqrt q) <= e -> rnd (sqrt q) <= rnd (sqrt (rnd (e * e))).
Proof.
  intros F Q L. set (d := rnd (sqrt q)) in *.
  assert (D0 : 0 <= d) by (rewrite <- rnd_0; apply rnd_le, sqrt_pos).
  apply Rle_trans with (rnd (sqrt (rnd (d * d)))).
  - destruct (Rlt_le_dec q (bp (-1022))) as [S|S].
    + apply rnd_le, sqrt_le_1_alt. apply sq_sqrt_sub; auto.
    + apply sqrt_sq_ge; [apply generic_format_round; [apply valid_exp_f64|apply valid_rnd_N]|].
      rewrite <- (rnd_id (bp (-511))) by (apply fmt_bpow; lia). apply rnd_le.
      rewrite <- (sqrt_square (bp (-511))) by apply bpow_ge_0. apply sqrt_le_1_alt. rewrite <- bpow_plus. exact S.
  - apply rnd_le, sqrt_le_1_alt, rnd_le. nra.
Qed.
