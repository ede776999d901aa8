(** Lemmas about regions decided with rounding. *)
From Verif Require Import Base Num NumLemmas BBoxModel GeomSpec FloatSpec FloatLemmas FloatBridge RootLemmas DistSpec DistLemmas DistLemmas2 DistLemmas3 UnitLemmas GeoSpec.
From Coq Require Import Floats.SpecFloat Reals Lra Psatz.
From Flocq Require Import Core Mult_error.
Local Open Scope R_scope.
Local Existing Instance valid_exp_f64.

Lemma root_small s x1 y1 x2 y2 x3 y3 : nn s -> key s = rk (rk (sqk x1 y1 + sqk x2 y2) + sqk x3 y3) ->
  Rabs (fval x1 - fval y1) <= bp (-480) -> Rabs (fval x2 - fval y2) <= bp (-480) -> Rabs (fval x3 - fval y3) <= bp (-480) -> key (nsqrt s) <= bp (-478).
Proof.
  intros N K H1 H2 H3.
  assert (Q : forall x y, Rabs (fval x - fval y) <= bp (-480) -> 0 <= sqk x y <= bp (-960)).
  { intros x y H. split; [apply sqk_nonneg|]. unfold sqk. destruct (rk_below _ (-480) H ltac:(lia)) as [E L]. rewrite E. pose proof (rnd_nonneg _ (Rabs_pos (fval x - fval y))) as P.
    assert (M : rnd (Rabs (fval x - fval y)) * rnd (Rabs (fval x - fval y)) <= bp (-960)) by (change (-960)%Z with (-480 + -480)%Z; rewrite bpow_plus; apply Rmult_le_compat; assumption).
    destruct (rk_below _ (-960) M ltac:(lia)) as [E' L']. rewrite E'. exact L'. }
  apply Q in H1, H2, H3. assert (B1 : bp (-959) = 2 * bp (-960)) by (rewrite <- bp_double; reflexivity). assert (B2 : bp (-958) = 2 * bp (-959)) by (rewrite <- bp_double; reflexivity). pose proof (bp_pos (-960)).
  destruct (rk_below (sqk x1 y1 + sqk x2 y2) (-959) ltac:(lra) ltac:(lia)) as [E1 L1]. rewrite E1 in K.
  destruct (rk_below (rnd (sqk x1 y1 + sqk x2 y2) + sqk x3 y3) (-958) ltac:(lra) ltac:(lia)) as [E2 L2]. rewrite E2 in K. rewrite <- K in L2.
  destruct (sqrt_key s N) as [N' E]. rewrite E. pose proof (key_nn s N) as KN. rewrite Rlt_bool_true by (apply Rle_lt_trans with (1 := L2); apply bpow_lt; lia).
  assert (SQ : sqrt (key s) <= bp (-479)). { rewrite <- (sqrt_square (bp (-479))) by apply Rlt_le, bp_pos. apply sqrt_le_1_alt. rewrite <- bpow_plus. exact L2. }
  destruct (rk_below (sqrt (key s)) (-479) SQ ltac:(lia)) as [_ L3]. apply Rle_trans with (1 := L3). apply bpow_le. lia.
Qed.
Lemma root_big s x1 y1 x2 y2 x3 y3 : nn s -> key s = rk (rk (sqk x1 y1 + sqk x2 y2) + sqk x3 y3) ->
  bp 510 <= Rabs (fval x1 - fval y1) \/ bp 510 <= Rabs (fval x2 - fval y2) \/ bp 510 <= Rabs (fval x3 - fval y3) -> bp 510 <= key (nsqrt s).
Proof.
  intros N K H.
  assert (RF : forall e, (-1074 <= e <= 1024)%Z -> rk (bp e) = bp e) by (intros e L; apply rk_fix; [apply fmt_bpow; lia|apply bpow_le; lia]).
  assert (Q : forall x y, bp 510 <= Rabs (fval x - fval y) -> bp 1020 <= sqk x y).
  { intros x y L. unfold sqk. rewrite <- (RF 1020%Z) by lia. apply rk_le. apply rk_le in L. rewrite RF in L by lia. change 1020%Z with (510 + 510)%Z. rewrite bpow_plus. pose proof (bp_pos 510). apply Rmult_le_compat; lra. }
  assert (KS : bp 1020 <= key s).
  { rewrite K. pose proof (sqk_nonneg x1 y1) as S1. pose proof (sqk_nonneg x2 y2) as S2. pose proof (sqk_nonneg x3 y3) as S3. pose proof (rk_nonneg (sqk x1 y1 + sqk x2 y2) ltac:(lra)) as S12.
    rewrite <- (RF 1020%Z) by lia. apply rk_le. destruct H as [H|[H|H]]; apply Q in H; [| |lra].
    - assert (bp 1020 <= rk (sqk x1 y1 + sqk x2 y2)) by (rewrite <- (RF 1020%Z) by lia; apply rk_le; lra). lra.
    - assert (bp 1020 <= rk (sqk x1 y1 + sqk x2 y2)) by (rewrite <- (RF 1020%Z) by lia; apply rk_le; lra). lra. }
  destruct (sqrt_key s N) as [N' E]. rewrite E. destruct (Rlt_bool (key s) top); [|apply bpow_le; lia].
  rewrite <- (rnd_id (bp 510)) by (apply fmt_bpow; lia). apply rnd_le. rewrite <- (sqrt_square (bp 510)) by apply Rlt_le, bp_pos. apply sqrt_le_1_alt. rewrite <- bpow_plus. exact KS.
Qed.
Lemma decided s x1 y1 x2 y2 x3 y3 D r : nn s -> key s = rk (rk (sqk x1 y1 + sqk x2 y2) + sqk x3 y3) ->
  is_double x1 -> is_double y1 -> is_double x2 -> is_double y2 -> is_double x3 -> is_double y3 ->
  D = sqrt ((fval x1 - fval y1)^2 + (fval x2 - fval y2)^2 + (fval x3 - fval y3)^2) -> usual_radius r -> decides_radius (nleb (nsqrt s) r) D (fval r).
Proof.
  intros N K A1 B1 A2 B2 A3 B3 ED (DR & FR & R1 & R2). rewrite !bp_powerRZ in *. apply finite_f in FR. pose proof (bp_pos (-478)) as P0. pose proof ur_small as U.
  assert (NR : nn r) by (split; [exact DR|left; split; [exact FR|lra]]). destruct (sqrt_key s N) as [N' _].
  assert (FK : nleb (nsqrt s) r = true <-> key (nsqrt s) <= fval r). { rewrite <- (key_fin r FR). apply (fle_key (nsqrt s) r N' NR). }
  pose proof (pow2_ge_0 (fval x1 - fval y1)) as G1. pose proof (pow2_ge_0 (fval x2 - fval y2)) as G2. pose proof (pow2_ge_0 (fval x3 - fval y3)) as G3.
  set (S := (fval x1 - fval y1)^2 + (fval x2 - fval y2)^2 + (fval x3 - fval y3)^2) in *. assert (D0 : 0 <= D) by (rewrite ED; apply sqrt_pos). assert (DD : D * D = S) by (rewrite ED; apply sqrt_sqrt; unfold S; lra).
  unfold decides_radius. rewrite <- eight_ur.
  destruct (Rle_or_lt D (bp (-480))) as [SM|SM].
  - assert (C : forall a, a^2 <= S -> Rabs a <= bp (-480)). { intros a H. apply Rle_trans with D; [|exact SM]. rewrite <- (Rabs_pos_eq D) by lra. apply Rsqr_le_abs_0. unfold Rsqr. lra. }
    assert (B : bp (-480) <= bp (-478)) by (apply bpow_le; lia). split; intros H.
    + nra.
    + apply FK. apply Rle_trans with (2 := R1). apply (root_small s x1 y1 x2 y2 x3 y3 N K); apply C; unfold S; lra.
  - destruct (Rle_or_lt D (bp 511)) as [MD|BG].
    + assert (CL : close_to (nsqrt s) D). { apply (dist_acc s x1 y1 x2 y2 x3 y3 D N K A1 B1 A2 B2 A3 B3 ED). right. rewrite !bp_powerRZ. lra. }
      destruct CL as [FS CL]. apply finite_f in FS. rewrite (key_fin _ FS) in FK. rewrite <- four_ur in CL. apply Rabs_le_inv in CL. split; intros H.
      * apply FK in H. assert (DU : D * (1 - 4 * ur) <= fval r) by lra. apply (Rmult_le_reg_r (1 - 4 * ur)); [lra|]. apply Rle_trans with (1 := DU). assert (ur * ur <= ur * / 1000) by (apply Rmult_le_compat_l; lra).
        rewrite Rmult_assoc. rewrite <- (Rmult_1_r (fval r)) at 1. apply Rmult_le_compat_l; [lra|]. lra.
      * apply FK. apply Rle_trans with (D * (1 + 4 * ur)); [lra|]. apply Rle_trans with (fval r * (1 - 8 * ur) * (1 + 4 * ur)); [apply Rmult_le_compat_r; lra|].
        rewrite Rmult_assoc. rewrite <- (Rmult_1_r (fval r)) at 2. apply Rmult_le_compat_l; [lra|]. assert (0 <= ur * ur) by nra. lra.
    + assert (B : bp 511 = 2 * bp 510) by (rewrite <- bp_double; reflexivity). pose proof (bp_pos 510) as P1. split; intros H.
      * exfalso. apply FK in H. assert (W : bp 510 <= key (nsqrt s)); [|lra]. apply (root_big s x1 y1 x2 y2 x3 y3 N K).
        destruct (Rle_or_lt (bp 510) (Rabs (fval x1 - fval y1))) as [|H1]; [auto|]. destruct (Rle_or_lt (bp 510) (Rabs (fval x2 - fval y2))) as [|H2]; [auto|]. destruct (Rle_or_lt (bp 510) (Rabs (fval x3 - fval y3))) as [|H3]; [auto|].
        exfalso. assert (SQ : forall a, Rabs a < bp 510 -> a^2 <= bp 510 * bp 510). { intros a L. rewrite <- Rsqr_pow2, Rsqr_abs. unfold Rsqr. pose proof (Rabs_pos a). apply Rmult_le_compat; lra. }
        apply SQ in H1, H2, H3. assert (bp 511 * bp 511 < D * D) by (apply Rmult_le_0_lt_compat; lra). rewrite B in *. unfold S in DD. nra.
      * exfalso. nra.
Qed.
(** Halves, and comparing with a rounded border *)
Lemma half_exact s : usual_size s -> f_finite (ndiv s n2) /\ is_double (ndiv s n2) /\ fval (ndiv s n2) = fval s / 2.
Proof.
  intros (D & F & H). apply finite_f in F. rewrite bp_powerRZ in H. pose proof (bp_pos (-1021)) as P.
  assert (V2 : fval (n2 : T F64) = 2). { change (n2 : T F64) with (S754_finite false 4503599627370496 (-51) : T F64). cbn [fval]. rewrite bp_powerRZ. change (bp (-51)) with (/ 2251799813685248). field. }
  assert (D2 : is_double (n2 : T F64)) by reflexivity. assert (F2 : f_finite (n2 : T F64)) by exact I.
  pose proof (div_val s n2 D D2 F F2) as R. rewrite V2 in R. specialize (R ltac:(lra)).
  assert (FM : rnd (fval s / 2) = fval s / 2).
  { apply rnd_id. replace (fval s / 2) with (fval s * bp (-1)) by (change (bp (-1)) with (/ 2); reflexivity). apply mult_bpow_exact_FLT; [apply fval_fmt, D|].
    destruct (mag radix2 (fval s)) as [e E]. cbn [mag_val]. specialize (E ltac:(lra)). rewrite Rabs_pos_eq in E by lra. assert (LB : bp (-1021) < bp e) by lra. apply lt_bpow in LB. lia. }
  unfold rounds in R. rewrite FM in R. pose proof (fval_bound s D) as B. rewrite Rabs_pos_eq in B by lra. split; [|split; [apply double_div; assumption|]]; destruct R as [(_ & G & E)|[(T & _)|(T & _)]]; try assumption; pose proof top_pos; lra.
Qed.
Lemma rnd_nearest r x : fval x = rnd r -> nearest_double x r.
Proof.
  intros E y D F. rewrite E. destruct (round_N_pt radix2 (FLT_exp (-1074) 53) (fun z => negb (Z.even z)) r) as [_ H]. apply (H (fval y)). apply fval_fmt, D.
Qed.
Lemma upper x r z : is_double x -> f_finite x -> is_double z -> rounds r z ->
  (fval x <= r -> nleb x z = true) /\ (nleb x z = true -> fval x <= r \/ nearest_double x r).
Proof.
  intros DX FX DZ R. pose proof (fval_fmt x DX) as FM. pose proof (fval_bound x DX) as BX. apply Rabs_def2 in BX. destruct R as [(_ & FZ & E)|[(T & ->)|(T & ->)]].
  - pose proof (fle_val x z DX DZ FX FZ) as L. change (fle x z) with (nleb x z = true) in L. rewrite L, E. split; intros H.
    + rewrite <- (rnd_id (fval x) FM). apply rnd_le, H.
    + destruct (Rle_or_lt (fval x) r) as [C|C]; [left; exact C|right]. apply rnd_nearest. apply Rle_antisym; [exact H|]. rewrite <- (rnd_id (fval x) FM). apply rnd_le. lra.
  - split; intros H; [destruct x as [| | |[]]; try destruct FX; reflexivity|]. left. destruct (Rle_or_lt (fval x) r) as [C|C]; [exact C|exfalso]. assert (rnd r <= fval x) by (rewrite <- (rnd_id (fval x) FM); apply rnd_le; lra). lra.
  - split; intros H; [exfalso|destruct x as [| | |[]]; try destruct FX; discriminate]. assert (fval x <= rnd r) by (rewrite <- (rnd_id (fval x) FM); apply rnd_le; exact H). lra.
Qed.
Lemma lower x r z : is_double x -> f_finite x -> is_double z -> rounds r z ->
  (r <= fval x -> ngeb x z = true) /\ (ngeb x z = true -> r <= fval x \/ nearest_double x r).
Proof.
  intros DX FX DZ R. pose proof (fval_fmt x DX) as FM. pose proof (fval_bound x DX) as BX. apply Rabs_def2 in BX. destruct R as [(_ & FZ & E)|[(T & ->)|(T & ->)]].
  - assert (L : ngeb x z = true <-> fval z <= fval x). { unfold ngeb. rewrite (ncmp_val x z DX DZ FX FZ). destruct (Rcompare_spec (fval x) (fval z)); split; intros; try reflexivity; try discriminate; lra. }
    rewrite L, E. split; intros H.
    + rewrite <- (rnd_id (fval x) FM). apply rnd_le, H.
    + destruct (Rle_or_lt r (fval x)) as [C|C]; [left; exact C|right]. apply rnd_nearest. apply Rle_antisym; [|exact H]. rewrite <- (rnd_id (fval x) FM). apply rnd_le. lra.
  - split; intros H; [exfalso|destruct x as [| | |[]]; try destruct FX; discriminate]. assert (rnd r <= fval x) by (rewrite <- (rnd_id (fval x) FM); apply rnd_le; exact H). lra.
  - split; intros H; [destruct x as [| | |[]]; try destruct FX; reflexivity|]. left. destruct (Rle_or_lt r (fval x)) as [C|C]; [exact C|exfalso]. assert (fval x <= rnd r) by (rewrite <- (rnd_id (fval x) FM); apply rnd_le; lra). lra.
Qed.
Lemma interval x c s : is_double x -> f_finite x -> is_double c -> f_finite c -> usual_size s ->
  (truly_between x c s -> (ngeb x (nsub c (ndiv s n2)) && nleb x (nadd c (ndiv s n2)))%bool = true) /\
  ((ngeb x (nsub c (ndiv s n2)) && nleb x (nadd c (ndiv s n2)))%bool = true -> between_borders x c s).
Proof.
  intros DX FX DC FC S. destruct (half_exact s S) as (FH & DH & EH). pose proof (sub_val c _ DC DH FC FH) as R1. pose proof (add_val c _ DC DH FC FH) as R2. rewrite EH in R1, R2.
  destruct (lower x _ _ DX FX (double_sub _ _ DC DH) R1) as [L1 L2]. destruct (upper x _ _ DX FX (double_add _ _ DC DH) R2) as [U1 U2]. rewrite Bool.andb_true_iff. split.
  - intros [A B]. auto.
  - intros [A B]. split; auto.
Qed.
