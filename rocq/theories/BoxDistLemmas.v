(** Lemmas about distances to boxes in doubles. *)
From Verif Require Import Base Num NumLemmas BBoxModel GeomSpec FloatSpec FloatLemmas FloatBridge RootLemmas DistSpec DistLemmas DistLemmas3 CloudSpec BoxDistSpec.
From Coq Require Import Floats.SpecFloat Reals Lra Psatz.
From Flocq Require Import Core.
Local Open Scope R_scope.
Local Existing Instance valid_exp_f64.

(** Doubles that are numbers, with the infinities, as real numbers. *)
Definition ek (x : T F64) : R := match (x : spec_float) with S754_infinity false => top | S754_infinity true => - top | _ => fval x end.
Lemma ek_fin x : f_finite x -> ek x = fval x. Proof. destruct x as [|[]| |]; cbn; tauto. Qed.
Lemma ncmp_ek x y : is_double x -> is_double y -> number x -> number y -> ncmp x y = Some (Rcompare (ek x) (ek y)).
Proof.
  intros X Y NX NY. pose proof (fval_bound x X) as BX. pose proof (fval_bound y Y) as BY. apply Rabs_lt_inv in BX, BY. pose proof top_pos as T0.
  destruct (f_finite_dec x) as [FX|FX], (f_finite_dec y) as [FY|FY].
  - rewrite !ek_fin by assumption. apply ncmp_val; assumption.
  - rewrite (ek_fin x FX). destruct y as [|[]| |]; try (exfalso; apply FY; exact I); try (exfalso; apply NY; reflexivity); cbn [ek];
      [rewrite Rcompare_Gt by lra|rewrite Rcompare_Lt by lra]; destruct x as [|[]| |[]]; try destruct FX; reflexivity.
  - rewrite (ek_fin y FY). destruct x as [|[]| |]; try (exfalso; apply FX; exact I); try (exfalso; apply NX; reflexivity); cbn [ek];
      [rewrite Rcompare_Lt by lra|rewrite Rcompare_Gt by lra]; destruct y as [|[]| |[]]; try destruct FY; reflexivity.
  - destruct x as [|[]| |]; try (exfalso; apply FX; exact I); try (exfalso; apply NX; reflexivity); destruct y as [|[]| |]; try (exfalso; apply FY; exact I); try (exfalso; apply NY; reflexivity); cbn [ek];
      [rewrite Rcompare_Eq by lra|rewrite Rcompare_Lt by lra|rewrite Rcompare_Gt by lra|rewrite Rcompare_Eq by lra]; reflexivity.
Qed.
Lemma ngtb_ek x y : is_double x -> is_double y -> number x -> number y -> ngtb x y = Rlt_bool (ek y) (ek x).
Proof.
  intros X Y NX NY. unfold ngtb. rewrite ncmp_ek by assumption. destruct (Rcompare_spec (ek x) (ek y)); [rewrite Rlt_bool_false by lra|rewrite Rlt_bool_false by lra|rewrite Rlt_bool_true by lra]; reflexivity.
Qed.
(** The sign of a difference. *)
Lemma sub_ek x y : is_double x -> is_double y -> f_finite x -> f_finite y -> is_double (nsub x y) /\ number (nsub x y) /\
  (fval x < fval y -> ek (nsub x y) < 0) /\ (fval y < fval x -> 0 < ek (nsub x y)) /\ (fval x = fval y -> ek (nsub x y) = 0).
Proof.
  intros X Y FX FY. split; [apply double_sub; assumption|]. split; [apply sub_num; assumption|].
  pose proof (sub_val x y X Y FX FY) as R. unfold rounds in R. pose proof top_pos as T0. pose proof (bp_pos (-1074)) as B0.
  assert (N : fval x < fval y -> rnd (fval x - fval y) < 0).
  { intros L. pose proof (rnd_sub_pos _ _ (fval_fmt x X) (fval_fmt y Y) L) as Q. replace (fval x - fval y) with (- (fval y - fval x)) by ring. rewrite round_NE_opp. lra. }
  assert (P : fval y < fval x -> 0 < rnd (fval x - fval y)).
  { intros L. pose proof (rnd_sub_pos _ _ (fval_fmt y Y) (fval_fmt x X) L) as Q. lra. }
  assert (Z : fval x = fval y -> rnd (fval x - fval y) = 0) by (intros ->; rewrite Rminus_diag_eq by reflexivity; apply rnd_0).
  destruct R as [(_ & F & E)|[(T & E)|(T & E)]].
  - rewrite ek_fin by exact F. rewrite E. auto.
  - rewrite E. cbn [ek]. repeat split; intros H; [specialize (N H)| |specialize (Z H)]; lra.
  - rewrite E. cbn [ek]. repeat split; intros H; [|specialize (P H)|specialize (Z H)]; lra.
Qed.
Lemma zero_ek x : is_double x -> number x -> ek x = 0 -> exists s, x = S754_zero s.
Proof.
  intros D N E. pose proof top_pos as T0. destruct x as [s|[]| |s m e]; cbn [ek] in E; try lra; [eauto|destruct (N eq_refl)|].
  exfalso. cbn [fval] in E. pose proof (IZR_lt 0 (Zpos m) eq_refl) as M. rewrite bp_powerRZ in E. pose proof (bp_pos e) as B. destruct s; cbn in E; nra.
Qed.

(** One axis: the coordinate of the box next to [x]. *)
Definition clampf (lo hi x : T F64) : T F64 := if nltb x lo then lo else if nltb hi x then hi else x.
Lemma nltb_val x y : is_double x -> is_double y -> f_finite x -> f_finite y -> nltb x y = Rlt_bool (fval x) (fval y).
Proof.
  intros X Y FX FY. unfold nltb. rewrite ncmp_val by assumption. destruct (Rcompare_spec (fval x) (fval y)); [rewrite Rlt_bool_true by lra|rewrite Rlt_bool_false by lra|rewrite Rlt_bool_false by lra]; reflexivity.
Qed.
Definition fd (x : T F64) : Prop := is_double x /\ f_finite x.
Lemma clamp_spec lo hi x : fd lo -> fd hi -> fd x -> fval lo <= fval hi -> fd (clampf lo hi x) /\ fval lo <= fval (clampf lo hi x) <= fval hi /\
  forall y : R, fval lo <= y <= fval hi -> Rabs (fval x - fval (clampf lo hi x)) <= Rabs (fval x - y).
Proof.
  intros L H X O. unfold clampf. rewrite !nltb_val by (apply L || apply H || apply X).
  destruct (Rlt_bool_spec (fval x) (fval lo)); [|destruct (Rlt_bool_spec (fval hi) (fval x))].
  - split; [exact L|]. split; [lra|]. intros y Y. rewrite !Rabs_left1 by lra. lra.
  - split; [exact H|]. split; [lra|]. intros y Y. rewrite !Rabs_pos_eq by lra. lra.
  - split; [exact X|]. split; [lra|]. intros y Y. rewrite Rminus_diag_eq, Rabs_R0 by reflexivity. apply Rabs_pos.
Qed.
Lemma n0_fd : fd (n0 : T F64) /\ ek (n0 : T F64) = 0. Proof. split; [split; [reflexivity|exact I]|reflexivity]. Qed.
Lemma sq_zero s : nsq (S754_zero s : T F64) = S754_zero false. Proof. destruct s; reflexivity. Qed.
Lemma axis_dist lo hi x : fd lo -> fd hi -> fd x -> fval lo <= fval hi ->
  nsq (max_f64_3 (nsub lo x) n0 (nsub x hi)) = nsq (nsub x (clampf lo hi x)).
Proof.
  intros [L1 L2] [H1 H2] [X1 X2] O. destruct (sub_ek lo x L1 X1 L2 X2) as (DA & NA & A1 & A2 & A3). destruct (sub_ek x hi X1 H1 X2 H2) as (DB & NB & B1 & B2 & B3).
  destruct n0_fd as [[D0 F0] E0]. assert (N0 : number (n0 : T F64)) by apply lit_num.
  unfold max_f64_3, max_f64, clampf. rewrite (ngtb_ek (nsub lo x) n0) by assumption. rewrite E0, !nltb_val by assumption.
  destruct (Rlt_bool_spec (fval x) (fval lo)) as [C|C].
  - rewrite (Rlt_bool_true 0) by (apply A2, C). rewrite ngtb_ek by assumption. rewrite Rlt_bool_true by (specialize (A2 C); specialize (B1 ltac:(lra)); lra). apply nsq_sub_comm.
  - assert (NP : ek (nsub lo x) <= 0) by (destruct (Rle_lt_or_eq_dec _ _ C) as [Q|Q]; [specialize (A1 Q)|specialize (A3 Q)]; lra).
    rewrite (Rlt_bool_false 0) by exact NP. rewrite ngtb_ek by assumption. rewrite E0. destruct (Rlt_bool_spec (fval hi) (fval x)) as [G|G].
    + rewrite Rlt_bool_false by (specialize (B2 G); lra). reflexivity.
    + rewrite nsq_sub_self by exact X2. destruct (Rle_lt_or_eq_dec _ _ G) as [Q|Q].
      * rewrite Rlt_bool_true by (specialize (B1 Q); lra). reflexivity.
      * rewrite Rlt_bool_false by (specialize (B3 Q); lra). destruct (zero_ek _ DB NB (B3 Q)) as [s ->]. apply sq_zero.
Qed.
(** One axis of two boxes: the pair of coordinates next to each other. *)
Definition nearpair (smin smax omin omax : T F64) : T F64 * T F64 :=
  if nltb omax smin then (smin, omax) else if ngtb omin smax then (smax, omin) else if nltb smin omin then (omin, omin) else (smin, smin).
Lemma ngtb_val x y : is_double x -> is_double y -> f_finite x -> f_finite y -> ngtb x y = Rlt_bool (fval y) (fval x).
Proof.
  intros X Y FX FY. unfold ngtb. rewrite ncmp_val by assumption. destruct (Rcompare_spec (fval x) (fval y)); [rewrite Rlt_bool_false by lra|rewrite Rlt_bool_false by lra|rewrite Rlt_bool_true by lra]; reflexivity.
Qed.
Lemma gap_dist smin smax omin omax : fd smin -> fd smax -> fd omin -> fd omax -> fval smin <= fval smax -> fval omin <= fval omax ->
  let (u, v) := nearpair smin smax omin omax in fd u /\ fd v /\ fval smin <= fval u <= fval smax /\ fval omin <= fval v <= fval omax /\
  nsq (gap_axis smin smax omin omax) = nsq (nsub u v) /\
  forall x y : R, fval smin <= x <= fval smax -> fval omin <= y <= fval omax -> Rabs (fval u - fval v) <= Rabs (x - y).
Proof.
  intros A B C D O1 O2. unfold nearpair, gap_axis. rewrite !nltb_val, !ngtb_val by (apply A || apply B || apply C || apply D).
  destruct (Rlt_bool_spec (fval omax) (fval smin)); [|destruct (Rlt_bool_spec (fval smax) (fval omin)); [|destruct (Rlt_bool_spec (fval smin) (fval omin))]].
  - do 2 (split; [assumption|]). split; [lra|]. split; [lra|]. split; [apply nsq_sub_comm|]. intros x y X Y. rewrite !Rabs_pos_eq by lra. lra.
  - do 2 (split; [assumption|]). split; [lra|]. split; [lra|]. split; [apply nsq_sub_comm|]. intros x y X Y. rewrite !Rabs_left1 by lra. lra.
  - do 2 (split; [assumption|]). split; [lra|]. split; [lra|]. split; [rewrite nsq_sub_self by apply C; reflexivity|]. intros x y X Y. rewrite Rminus_diag_eq, Rabs_R0 by reflexivity. apply Rabs_pos.
  - do 2 (split; [assumption|]). split; [lra|]. split; [lra|]. split; [rewrite nsq_sub_self by apply A; reflexivity|]. intros x y X Y. rewrite Rminus_diag_eq, Rabs_R0 by reflexivity. apply Rabs_pos.
Qed.
(** Squares, sums and roots keep the order. *)
Lemma sqk_mono x y u v : Rabs (fval x - fval y) <= Rabs (fval u - fval v) -> sqk x y <= sqk u v.
Proof. intros H. unfold sqk. apply rk_le. apply Rmult_le_compat; try apply rk_abs_nonneg; apply rk_le, H. Qed.
Lemma nonneg_ok x : nn x -> unwrap (nonneg_new x) = Ok x.
Proof.
  intros N. unfold nonneg_new, ngeb. assert (Z : nn (n0 : T F64)) by (split; [reflexivity|left; split; [exact I|cbn; lra]]).
  rewrite ncmp_key by assumption. pose proof (key_nn x N) as K. change (key (n0 : T F64)) with 0. destruct (Rcompare_spec (key x) 0); [lra|reflexivity|reflexivity].
Qed.
Lemma sqr_mono3 p q p' q' : finite3 p -> finite3 q -> finite3 p' -> finite3 q' ->
  (forall ax, axis3 ax -> Rabs (fval (ax p) - fval (ax q)) <= Rabs (fval (ax p') - fval (ax q'))) -> fle (sqr_dist_3d p q) (sqr_dist_3d p' q') /\ fle (dist_3d p q) (dist_3d p' q').
Proof.
  intros P Q P' Q' M. destruct (sqr_key3 p q P Q) as [N E], (sqr_key3 p' q' P' Q') as [N' E'].
  assert (K : key (sqr_dist_3d p q) <= key (sqr_dist_3d p' q')).
  { rewrite E, E'. apply rk_le, Rplus_le_compat; [apply rk_le, Rplus_le_compat|]; apply sqk_mono, M; unfold axis3; auto. }
  split; [apply fle_key; assumption|]. apply fle_key; [apply sqrt_key, N|apply sqrt_key, N'|]. apply sqrt_key_mono; assumption.
Qed.
Lemma sqr_mono2 p q p' q' : finite2 p -> finite2 q -> finite2 p' -> finite2 q' ->
  (forall ax, axis2 ax -> Rabs (fval (ax p) - fval (ax q)) <= Rabs (fval (ax p') - fval (ax q'))) -> fle (sqr_dist_2d p q) (sqr_dist_2d p' q') /\ fle (dist_2d p q) (dist_2d p' q').
Proof.
  intros P Q P' Q' M. destruct (sqr_key2 p q P Q) as [N E], (sqr_key2 p' q' P' Q') as [N' E'].
  assert (K : key (sqr_dist_2d p q) <= key (sqr_dist_2d p' q')).
  { rewrite E, E'. apply rk_le, Rplus_le_compat; apply sqk_mono, M; unfold axis2; auto. }
  split; [apply fle_key; assumption|]. apply fle_key; [apply sqrt_key, N|apply sqrt_key, N'|]. apply sqrt_key_mono; assumption.
Qed.
Lemma true_mono3 p q (p' q' : pt3 RN) : (forall ax axr, (ax = px /\ axr = px) \/ (ax = py /\ axr = py) \/ (ax = pz /\ axr = pz) -> Rabs (fval (ax p) - fval (ax q)) <= Rabs (axr p' - axr q')) -> true_dist3 p q <= rdist3 p' q'.
Proof.
  intros M. apply sqrt_le_1_alt. unfold sqd3, real3. cbn [px py pz]. pose proof (M px px ltac:(auto)) as A. pose proof (M py py ltac:(auto)) as B. pose proof (M pz pz ltac:(auto)) as C.
  apply Rsqr_le_abs_1 in A, B, C. unfold Rsqr in *. lra.
Qed.
Lemma true_mono2 p q (p' q' : pt2 RN) : (forall ax axr, (ax = x2 /\ axr = x2) \/ (ax = y2 /\ axr = y2) -> Rabs (fval (ax p) - fval (ax q)) <= Rabs (axr p' - axr q')) -> true_dist2 p q <= rdist2 p' q'.
Proof.
  intros M. apply sqrt_le_1_alt. unfold sqd2, real2. cbn [x2 y2]. pose proof (M x2 x2 ltac:(auto)) as A. pose proof (M y2 y2 ltac:(auto)) as B.
  apply Rsqr_le_abs_1 in A, B. unfold Rsqr in *. lra.
Qed.
