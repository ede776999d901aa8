(** Lemmas about vertical rays against level triangles in doubles. *)
From Verif Require Import Base Num NumLemmas BBoxModel GeomSpec VecSpec VecModel VecLemmas FloatSpec FloatLemmas FloatBridge RootLemmas DistSpec DistLemmas DistLemmas2 DistLemmas3 ShapeModel ShapeSpec ShapeLemmas BoxDistSpec BoxDistLemmas MeanSpec MeanLemmas UnitSpec UnitLemmas UnitProps SatF64Spec SatF64Lemmas GridSpec GridLemmas LineModel CloudModel CloudSpec RayGridSpec.
From Coq Require Import Floats.SpecFloat Reals Lra Lia Psatz.
From Flocq Require Import Core Relative.
Local Open Scope R_scope.
Local Existing Instance valid_exp_f64.

Lemma fd_le x : fd x -> le_e 1024 x.
Proof. intros F. split; [exact F|]. apply Rlt_le, fval_bound, F. Qed.
(** Zeros *)
Lemma mul0 x y : fd x -> fd y -> fval x = 0 \/ fval y = 0 -> fd (nmul x y) /\ fval (nmul x y) = 0.
Proof.
  intros [DX FX] [DY FY] Z. assert (P : fval x * fval y = 0) by (destruct Z as [-> | ->]; ring).
  pose proof (mul_val x y DX DY FX FY) as M. rewrite P in M. destruct (rounds_small _ _ 0 M) as [F V]; [rewrite Rabs_R0; apply Rlt_le, bp_pos|lia|].
  split; [split; [apply double_mul; assumption|exact F]|]. rewrite V. apply rnd_0.
Qed.
Lemma rounds_same r (y z : T F64) : rounds r z -> fd y -> r = fval y -> f_finite z /\ fval z = fval y.
Proof.
  intros RD [D F] ->. pose proof (rnd_id _ (fval_fmt y D)) as E. pose proof (fval_bound y D) as B. apply Rabs_def2 in B.
  destruct RD as [(_ & FF & V)|[(O & _)|(O & _)]]; rewrite E in *; [split; [exact FF|congruence]|lra|lra].
Qed.
Lemma add0 x y : fd x -> fd y -> fval x = 0 -> fd (nadd x y) /\ fval (nadd x y) = fval y.
Proof.
  intros [DX FX] [DY FY] Z. destruct (rounds_same _ y _ (add_val x y DX DY FX FY)) as [F V]; [split; assumption|rewrite Z; ring|].
  split; [split; [apply double_add; assumption|exact F]|exact V].
Qed.
Lemma add0r x y : fd x -> fd y -> fval y = 0 -> fd (nadd x y) /\ fval (nadd x y) = fval x.
Proof.
  intros [DX FX] [DY FY] Z. destruct (rounds_same _ x _ (add_val x y DX DY FX FY)) as [F V]; [split; assumption|rewrite Z; ring|].
  split; [split; [apply double_add; assumption|exact F]|exact V].
Qed.
(** Normals that are vertical *)
Definition fd3 (p : pt3 F64) : Prop := fd (px p) /\ fd (py p) /\ fd (pz p).
Definition upr (n : pt3 F64) : Prop := fd3 n /\ fval (px n) = 0 /\ fval (py n) = 0.
Lemma dot_upr n q : upr n -> fd3 q -> Rabs (fval (pz n) * fval (pz q)) <= bp 1000 -> fd (dot3 n q) /\ fval (dot3 n q) = rnd (fval (pz n) * fval (pz q)).
Proof.
  intros ((NX & NY & NZ) & ZX & ZY) (QX & QY & QZ) B. unfold dot3.
  destruct (mul0 _ _ NX QX (or_introl ZX)) as [F1 V1]. destruct (mul0 _ _ NY QY (or_introl ZY)) as [F2 V2]. destruct (add0 _ _ F1 F2 V1) as [F3 V3].
  destruct (rounds_le _ _ 1000 (mul_val _ _ (proj1 NZ) (proj1 QZ) (proj2 NZ) (proj2 QZ)) (double_mul _ _ (proj1 NZ) (proj1 QZ)) B ltac:(lia)) as [[F4 _] V4].
  destruct (add0 _ _ F3 F4 ltac:(congruence)) as [F5 V5]. split; [exact F5|]. rewrite V5. exact V4.
Qed.
(** Rounding keeps signs. *)
Lemma rnd_rel x : bp (-1022) <= Rabs x -> exists eps, Rabs eps <= ur /\ rnd x = x * (1 + eps).
Proof.
  intros H. destruct (relative_error_N_FLT_ex radix2 (-1074) 53 eq_refl (fun z => negb (Z.even z)) x) as (eps & E1 & E2); [exact H|].
  exists eps. split; [|exact E2]. change (- (53) + 1)%Z with (-52)%Z in E1. exact E1.
Qed.
Lemma rnd_sign x : x = 0 \/ bp (-1022) <= Rabs x -> (rnd x <= 0 <-> x <= 0).
Proof.
  intros [->|H]; [rewrite rnd_0; reflexivity|]. destruct (rnd_rel x H) as (e & E & ->). apply Rabs_le_inv in E. pose proof ur_small. split; intros; nra.
Qed.
Lemma nz_scale n k e : (-500 <= e)%Z -> / 2 <= Rabs n -> n * (IZR k * bp e) = 0 \/ bp (-1022) <= Rabs (n * (IZR k * bp e)).
Proof.
  intros E N. destruct (Z.eq_dec k 0) as [-> |K]; [left; ring|right]. rewrite !Rabs_mult, <- abs_IZR, (Rabs_pos_eq (bp e)) by apply Rlt_le, bp_pos.
  assert (1 <= IZR (Z.abs k)) by (apply IZR_le; lia). assert (B : bp (-1022) <= / 2 * bp e).
  { replace (/ 2) with (bp (-1)) by reflexivity. rewrite <- bpow_plus. apply bpow_le. lia. }
  pose proof (bp_pos e). apply Rle_trans with (1 := B). apply Rmult_le_compat; [lra|lra|exact N|]. rewrite <- (Rmult_1_l (bp e)) at 1. apply Rmult_le_compat_r; lra.
Qed.
Lemma grid_le n k e b : (Z.abs k <= 2 ^ b)%Z -> (0 <= b)%Z -> Rabs n <= 2 -> Rabs (n * (IZR k * bp e)) <= bp (1 + (b + e)).
Proof.
  intros K B N. rewrite !Rabs_mult, <- abs_IZR, (Rabs_pos_eq (bp e)) by apply Rlt_le, bp_pos. rewrite !bpow_plus. change (bp 1) with 2.
  assert (IZR (Z.abs k) <= bp b) by (rewrite <- IZR_Zpower by exact B; apply IZR_le, K). assert (0 <= IZR (Z.abs k)) by (apply IZR_le; lia). pose proof (bp_pos e).
  apply Rmult_le_compat; try assumption; [apply Rabs_pos|apply Rmult_le_pos; lra|apply Rmult_le_compat_r; lra].
Qed.
Lemma side_sign n q k e : upr n -> fd3 q -> gr e (pz q) k -> (Z.abs k <= 2 ^ 50)%Z -> (-450 <= e <= 450)%Z -> / 2 <= Rabs (fval (pz n)) <= 2 ->
  nleb (dot3 n q) n0 = true <-> fval (pz n) * IZR k <= 0.
Proof.
  intros U Q G K E N. assert (B : Rabs (fval (pz n) * fval (pz q)) <= bp 1000).
  { rewrite (gr_val _ _ _ G). apply Rle_trans with (1 := grid_le _ _ _ 50 K ltac:(lia) (proj2 N)). apply bpow_le. lia. }
  destruct (dot_upr n q U Q B) as [F V]. assert (F0 : fd (n0 : T F64)) by (split; [reflexivity|exact I]).
  assert (NL : nleb (dot3 n q) n0 = true <-> fval (dot3 n q) <= 0).
  { unfold nleb. rewrite (ncmp_val _ _ (proj1 F) (proj1 F0) (proj2 F) (proj2 F0)). change (fval (n0 : T F64)) with 0. destruct (Rcompare_spec (fval (dot3 n q)) 0); split; intros; try reflexivity; try discriminate; lra. }
  rewrite NL, V, (gr_val _ _ _ G), rnd_sign by (apply nz_scale; [lia|apply N]). pose proof (bp_pos e). replace (fval (pz n) * (IZR k * bp e)) with (fval (pz n) * IZR k * bp e) by ring. split; intros; nra.
Qed.
(** The normal of a level triangle *)
Lemma fin_mul (f x : T F64) : f_finite x -> f_finite (nmul f x) -> f_finite f.
Proof. destruct f as [s|s| |s m e], x as [t|t| |t m' e']; intros A B; try exact I; try destruct A; try destruct B. Qed.
Lemma norm_z_one : @norm3_z F64 = Ok (fp3 0 0 1). Proof. vmeq. Qed.
Lemma fval_fz0 : fval (fz 0) = 0. Proof. reflexivity. Qed.
Lemma normal_upr (q : pt3 F64) c f : fd3 q -> fval (px q) = 0 -> fval (py q) = 0 -> gr f (pz q) c -> (Z.abs c <= 2 ^ 50)%Z -> (-450 <= f <= 450)%Z ->
  exists n, (match norm3_new q with Ok m => obind (@norm3_z F64) (fun _ => Ok m) | Err _ => norm3_z | Panic => Panic end) = Ok n /\ upr n /\ / 2 <= Rabs (fval (pz n)) <= 2 /\ (c <> 0%Z -> 0 < fval (pz n) * IZR c).
Proof.
  intros Q X Y G C E. assert (F : finite3 q). { destruct Q as ([D1 F1] & [D2 F2] & [D3 F3]). intros ax [->|[->| ->]]; (split; [assumption|apply finite_f; assumption]). }
  assert (LE : length3 q = Rabs (fval (pz q))).
  { unfold length3, rsq3, rdot3, real3. cbn [px py pz]. rewrite X, Y. cbn. rewrite !Rmult_0_l, !Rplus_0_l. apply sqrt_Rsqr_abs. }
  destruct (Z.eq_dec c 0) as [-> |CN].
  - assert (T : neqb (dist_3d q (@mk3 F64 n0 n0 n0)) n0 = true).
    { apply dist3_tiny; [exact F|]. assert (0 <= powerRZ 2 (-538)) by (rewrite bp_powerRZ; apply Rlt_le, bp_pos). intros ax [->|[->| ->]]; [rewrite X|rewrite Y|rewrite (gr_val _ _ _ G), Rmult_0_l]; rewrite Rabs_R0; assumption. }
    unfold norm3_new. rewrite (abs3_dist q F), (nonneg_nn _ (nn_dist3 _ _ F origin3)). cbn [unwrap obind]. rewrite T. rewrite norm_z_one. eexists. split; [reflexivity|].
    assert (V1 : fval (fz 1) = 1) by exact fval_one. cbn [fp3 px py pz]. split; [|split; [rewrite V1, Rabs_R1; lra|congruence]].
    split; [repeat split|split; reflexivity].
  - assert (LB : powerRZ 2 (-480) <= length3 q <= powerRZ 2 511).
    { rewrite LE, (gr_val _ _ _ G), !bp_powerRZ, Rabs_mult, <- abs_IZR, (Rabs_pos_eq (bp f)) by apply Rlt_le, bp_pos. pose proof (bp_pos f).
      assert (1 <= IZR (Z.abs c)) by (apply IZR_le; lia). assert (IZR (Z.abs c) <= bp 50) by (change (bp 50) with (IZR (2 ^ 50)); apply IZR_le, C). split.
      - apply Rle_trans with (1 * bp f); [rewrite Rmult_1_l; apply bpow_le; lia|apply Rmult_le_compat_r; lra].
      - apply Rle_trans with (bp 50 * bp f); [apply Rmult_le_compat_r; lra|rewrite <- bpow_plus; apply bpow_le; lia]. }
    destruct (C173_direction q F LB) as (n & NE & DN & _). rewrite NE, norm_z_one. cbn [obind]. exists n. split; [reflexivity|].
    assert (LP : 0 < length3 q) by (pose proof (bp_pos (-480)); rewrite <- bp_powerRZ in *; lra).
    assert (NC : exists g, is_double g /\ n = mk3 (nmul g (px q)) (nmul g (py q)) (nmul g (pz q))).
    { revert NE. unfold norm3_new. rewrite (abs3_dist q F), (nonneg_nn _ (nn_dist3 _ _ F origin3)). cbn [unwrap obind]. destruct (neqb _ _); [discriminate|]. intros I. apply (f_equal (fun o => match o with Ok a => a | _ => n end)) in I. eexists. split; [|symmetry; exact I].
      apply double_div; [reflexivity|apply (nn_dist3 _ _ F origin3)]. }
    destruct NC as (g & DG & NC). destruct Q as (Q1 & Q2 & Q3). pose proof (DN px (or_introl eq_refl)) as [FX _]. pose proof (DN pz (or_intror (or_intror eq_refl))) as [FZ NZ].
    assert (FG : fd g). { split; [exact DG|]. apply (fin_mul g (px q) (proj2 Q1)). apply finite_f. rewrite NC in FX. exact FX. }
    destruct (mul0 g _ FG Q1 (or_intror X)) as [M1 M1']. destruct (mul0 g _ FG Q2 (or_intror Y)) as [M2 M2'].
    assert (DZ : is_double (pz n)) by (rewrite NC; apply double_mul; [exact DG|apply Q3]).
    assert (AQ : Rabs (fval (pz q) / length3 q) = 1). { rewrite LE in *. unfold Rdiv. rewrite Rabs_mult, Rabs_inv, Rabs_Rabsolu. field. lra. }
    assert (SQ : fval (pz q) / length3 q * IZR c = Rabs (IZR c)).
    { rewrite LE, (gr_val _ _ _ G), Rabs_mult, (Rabs_pos_eq (bp f)) by apply Rlt_le, bp_pos. pose proof (bp_pos f). assert (NZc : IZR c <> 0) by (apply not_0_IZR, CN). pose proof (Rabs_pos_lt _ NZc).
      assert (SQ2 : IZR c * IZR c = Rabs (IZR c) * Rabs (IZR c)) by (rewrite <- Rabs_mult, Rabs_pos_eq; nra).
      replace (IZR c * bp f / (Rabs (IZR c) * bp f) * IZR c) with (IZR c * IZR c / Rabs (IZR c)) by (field; lra). rewrite SQ2. field. lra. }
    set (s := fval (pz q) / length3 q) in *. rewrite AQ in NZ. assert (SM : 1 * powerRZ 2 (-50) + powerRZ 2 (-1074) <= / 4).
    { rewrite !bp_powerRZ. assert (bp (-50) <= bp (-3)) by (apply bpow_le; lia). assert (bp (-1074) <= bp (-3)) by (apply bpow_le; lia). change (bp (-3)) with (/ 8) in *. lra. }
    assert (NS : Rabs (fval (pz n) - s) <= / 4) by lra. apply Rabs_le_inv in NS. assert (S1 : s = 1 \/ s = -1). { unfold Rabs in AQ. destruct (Rcase_abs s); lra. }
    split; [|split].
    + split; [split; [rewrite NC; exact M1|split; [rewrite NC; exact M2|split; [exact DZ|apply finite_f, FZ]]]|split; [rewrite NC; exact M1'|rewrite NC; exact M2']].
    + destruct S1 as [S1|S1]; rewrite S1 in NS; [rewrite Rabs_pos_eq by lra|rewrite Rabs_left1 by lra]; lra.
    + intros _. assert (NZc : IZR c <> 0) by (apply not_0_IZR, CN). pose proof (Rabs_pos_lt _ NZc). destruct S1 as [S1|S1]; rewrite S1 in NS, SQ; nra.
Qed.
(** Where the ray meets the plane *)
Lemma gr_le e x k b : gr e x k -> (Z.abs k <= 2 ^ b)%Z -> (0 <= b)%Z -> le_e (b + e) x.
Proof.
  intros [F V] K B. split; [exact F|]. rewrite V, Rabs_mult, <- abs_IZR, (Rabs_pos_eq (bp e)) by apply Rlt_le, bp_pos. rewrite bpow_plus.
  apply Rmult_le_compat_r; [apply Rlt_le, bp_pos|]. rewrite <- IZR_Zpower by exact B. apply IZR_le, K.
Qed.
Lemma rnd_pm x s : fmt x -> Rabs s = 1 -> rnd (x * s) = x * s.
Proof. intros F S. apply rnd_id. unfold Rabs in S. destruct (Rcase_abs s); [replace (x * s) with (- x) by (replace s with (-1) by lra; ring); apply generic_format_opp, F|replace (x * s) with x by (replace s with 1 by lra; ring); exact F]. Qed.
Lemma ur_bp : ur = bp (-53). Proof. unfold ur. change (-53)%Z with (-1 + -52)%Z. rewrite bpow_plus. reflexivity. Qed.
Lemma meets n e (o v d : pt3 F64) xo yo zo xv yv zv : upr n -> / 2 <= Rabs (fval (pz n)) <= 2 -> (-200 <= e <= 200)%Z ->
  gr e (px o) xo -> gr e (py o) yo -> gr e (pz o) zo -> gr e (px v) xv -> gr e (py v) yv -> gr e (pz v) zv ->
  (Z.abs xo <= 2 ^ 20)%Z -> (Z.abs yo <= 2 ^ 20)%Z -> (Z.abs zo <= 2 ^ 20)%Z -> (Z.abs xv <= 2 ^ 20)%Z -> (Z.abs yv <= 2 ^ 20)%Z -> (Z.abs zv <= 2 ^ 20)%Z -> vertical d ->
  neqb (dot3 n d) n0 = false /\ exists t, nleb (ndiv (nneg (dot3 n (vsub3 o v))) (dot3 n d)) n0 = t /\ (t = true <-> 0 <= IZR (zo - zv) * fval (pz d)) /\
  (t = false -> let p := pt3_add o (norm3_mul d (ndiv (nneg (dot3 n (vsub3 o v))) (dot3 n d))) in
     gr e (px p) xo /\ gr e (py p) yo /\ fd (pz p) /\ Rabs (fval (pz p) - fval (pz v)) <= bp (e - 28)).
Proof.
  intros U N E OX OY OZ VX VY VZ BX BY BZ CX CY CZ (FD & DX & DY & DZ).
  assert (F0 : fd (n0 : T F64)) by (split; [reflexivity|exact I]).
  assert (FDD : fd3 d). { apply fin3 in FD. exact FD. }
  assert (NZ : Rabs (fval (pz n) * fval (pz d)) <= 2) by (rewrite Rabs_mult, DZ; lra). assert (B2 : 2 <= bp 1000) by (change 2 with (bp 1); apply bpow_le; lia).
  destruct (dot_upr n d U FDD ltac:(lra)) as [FB VB]. rewrite rnd_pm in VB; [|apply fval_fmt, U|exact DZ].
  assert (BN : fval (dot3 n d) <> 0). { rewrite VB. intros Z. apply Rmult_integral in Z. destruct Z as [Z|Z]; rewrite Z, Rabs_R0 in *; lra. }
  split. { unfold neqb. rewrite (ncmp_val _ _ (proj1 FB) (proj1 F0) (proj2 FB) (proj2 F0)). change (fval (n0 : T F64)) with 0. destruct (Rcompare_spec (fval (dot3 n d)) 0); try reflexivity. congruence. }
  assert (WX := gr_sub e _ _ _ _ OX VX ltac:(lia) ltac:(lia)). assert (WY := gr_sub e _ _ _ _ OY VY ltac:(lia) ltac:(lia)). assert (WZ := gr_sub e _ _ _ _ OZ VZ ltac:(lia) ltac:(lia)).
  set (w := vsub3 o v) in *. assert (FW : fd3 w) by (split; [apply WX|split; [apply WY|apply WZ]]). change (nsub (pz o) (pz v)) with (pz w) in WZ.
  assert (WB : Rabs (fval (pz n) * fval (pz w)) <= bp 1000).
  { rewrite (gr_val _ _ _ WZ). apply Rle_trans with (bp (1 + (21 + e))); [apply grid_le; [lia|lia|apply N]|apply bpow_le; lia]. }
  destruct (dot_upr n w U FW WB) as [FA VA]. set (A := nneg (dot3 n w)). assert (FA' : fd A) by (split; [apply double_neg, FA|apply finite_neg, FA]).
  assert (VA' : fval A = - rnd (fval (pz n) * fval (pz w))) by (unfold A; rewrite fval_neg, VA; reflexivity).
  set (wv := fval (pz w)) in *. set (nz := fval (pz n)) in *. set (s := fval (pz d)) in *. assert (SS : s * s = 1). { unfold Rabs in DZ. destruct (Rcase_abs s); nra. }
  assert (NN : nz <> 0) by (intros Z; rewrite Z, Rabs_R0 in N; lra). assert (SN : s <> 0) by (intros Z; rewrite Z in SS; lra).
  assert (RW : exists e1, Rabs e1 <= ur /\ rnd (nz * wv) = nz * wv * (1 + e1)).
  { unfold wv. rewrite (gr_val _ _ _ WZ). destruct (nz_scale nz (zo - zv) e ltac:(lia) (proj1 N)) as [Z|Z]; [exists 0|apply rnd_rel, Z].
    rewrite Z, rnd_0, Rabs_R0. pose proof ur_small. split; [lra|ring]. }
  destruct RW as (e1 & E1 & RW). assert (QV : fval A / fval (dot3 n d) = - (wv * s) * (1 + e1)).
  { rewrite VA', VB, RW. apply (Rmult_eq_reg_r (nz * s)); [|apply Rmult_integral_contrapositive_currified; assumption]. replace (- (wv * s) * (1 + e1) * (nz * s)) with (- (nz * wv * (1 + e1)) * (s * s)) by ring. rewrite SS. field. split; assumption. }
  assert (WV : wv = IZR (zo - zv) * bp e) by apply (gr_val _ _ _ WZ).
  assert (WL : wv = 0 \/ bp e <= Rabs wv).
  { rewrite WV. destruct (Z.eq_dec (zo - zv) 0) as [-> |K]; [left; ring|right]. rewrite Rabs_mult, <- abs_IZR, (Rabs_pos_eq (bp e)) by apply Rlt_le, bp_pos. assert (1 <= IZR (Z.abs (zo - zv))) by (apply IZR_le; lia). pose proof (bp_pos e). nra. }
  assert (WU : Rabs wv <= bp (21 + e)). { pose proof (gr_le e (pz w) (zo - zv) 21 WZ ltac:(lia) ltac:(lia)) as [_ H]. exact H. }
  apply Rabs_le_inv in E1. pose proof ur_small as UR. assert (QA : Rabs (- (wv * s) * (1 + e1)) = Rabs wv * (1 + e1)) by (rewrite Rabs_mult, Rabs_Ropp, Rabs_mult, DZ, (Rabs_pos_eq (1 + e1)) by lra; ring).
  assert (QB : Rabs (- (wv * s) * (1 + e1)) <= bp (22 + e)).
  { rewrite QA. replace (22 + e)%Z with ((21 + e) + 1)%Z by lia. rewrite bp_S. pose proof (Rabs_pos wv). nra. }
  pose proof (div_val A (dot3 n d) (proj1 FA') (proj1 FB) (proj2 FA') (proj2 FB) BN) as DV. rewrite QV in DV.
  destruct (rounds_le _ _ (22 + e) DV (double_div _ _ (proj1 FA') (proj1 FB)) QB ltac:(lia)) as [[FR LR] VR].
  set (r := ndiv A (dot3 n d)) in *.
  assert (RR : exists e2, Rabs e2 <= ur /\ fval r = - (wv * s) * (1 + e1) * (1 + e2)).
  { rewrite VR. destruct WL as [WL|WL].
    - exists 0. rewrite WL. replace (- (0 * s) * (1 + e1)) with 0 by ring. rewrite rnd_0, Rabs_R0. split; [lra|ring].
    - apply rnd_rel. rewrite QA. assert (bp (-1022) <= / 2 * bp e) by (change (/ 2) with (bp (-1)); rewrite <- bpow_plus; apply bpow_le; lia). pose proof (bp_pos e). nra. }
  destruct RR as (e2 & E2 & RV). apply Rabs_le_inv in E2. set (g := (1 + e1) * (1 + e2)) in *. assert (G0 : 1 - 3 * ur <= g <= 1 + 3 * ur) by (unfold g; nra).
  assert (RV' : fval r = - (wv * s) * g) by (rewrite RV; unfold g; ring). clear RV.
  exists (nleb r n0). split; [reflexivity|]. split.
  - assert (NL : nleb r n0 = true <-> fval r <= 0).
    { unfold nleb. rewrite (ncmp_val _ _ (proj1 FR) (proj1 F0) (proj2 FR) (proj2 F0)). change (fval (n0 : T F64)) with 0. destruct (Rcompare_spec (fval r) 0); split; intros; try reflexivity; try discriminate; lra. }
    rewrite NL, RV', WV. pose proof (bp_pos e). assert (GP : 0 < g * bp e) by (apply Rmult_lt_0_compat; lra). replace (- (IZR (zo - zv) * bp e * s) * g) with (- (IZR (zo - zv) * s * (g * bp e))) by ring. split; intros; nra.
  - intros _. cbn zeta. cbn [pt3_add norm3_mul px py pz].
    destruct FDD as (D1 & D2 & D3). destruct (mul0 r _ FR D1 (or_intror DX)) as [M1 M1']. destruct (mul0 r _ FR D2 (or_intror DY)) as [M2 M2'].
    destruct (add0r _ _ (gr_fd _ _ _ OX) M1 M1') as [P1 P1']. destruct (add0r _ _ (gr_fd _ _ _ OY) M2 M2') as [P2 P2'].
    split; [split; [exact P1|rewrite P1'; apply OX]|]. split; [split; [exact P2|rewrite P2'; apply OY]|].
    assert (RB : Rabs (fval r * fval (pz d)) <= bp (22 + e)) by (fold s; rewrite Rabs_mult, DZ; lra).
    destruct (rounds_le _ _ (22 + e) (mul_val _ _ (proj1 FR) (proj1 D3) (proj2 FR) (proj2 D3)) (double_mul _ _ (proj1 FR) (proj1 D3)) RB ltac:(lia)) as [LM VM].
    fold s in VM. rewrite rnd_pm in VM; [|apply fval_fmt, FR|exact DZ]. assert (VM' : fval (nmul r (pz d)) = - wv * g) by (rewrite VM, RV'; replace (- (wv * s) * g * s) with (- wv * g * (s * s)) by ring; rewrite SS; ring).
    assert (LO : le_e (22 + e) (pz o)) by (apply (gr_le e (pz o) zo 22 OZ); lia). destruct (le_add (22 + e) _ _ LO LM ltac:(lia)) as [[FP _] VP]. split; [exact FP|].
    destruct (add_rel (fval (pz o)) (fval (nmul r (pz d))) (fval_fmt _ (proj1 (gr_fd _ _ _ OZ))) (fval_fmt _ (proj1 (proj1 LM)))) as (e3 & E3 & R3). rewrite R3 in VP. rewrite VP, VM'.
    assert (OW : fval (pz o) = fval (pz v) + wv) by (rewrite WV, (gr_val _ _ _ OZ), (gr_val _ _ _ VZ), minus_IZR; ring). rewrite OW.
    assert (LV : Rabs (fval (pz v)) <= bp (20 + e)) by (apply (gr_le e (pz v) zv 20 VZ); lia). set (z := fval (pz v)) in *. apply Rabs_le_inv in LV, E3, WU.
    replace (e - 28)%Z with (-53 + (25 + e))%Z by lia. rewrite bpow_plus, <- ur_bp. rewrite (bpow_plus _ 25 e), (bpow_plus _ 20 e) in *. rewrite (bpow_plus _ 21 e) in WU. change (bp 25) with 33554432. replace 33554432 with (32 * 1048576) by lra. change (bp 20) with 1048576 in *. change (bp 21) with 2097152 in WU.
    set (b := bp e) in *. assert (BPos : 0 < b) by apply bp_pos. clearbody b. set (h := 1048576 * b) in *. assert (H0 : 0 < h) by (unfold h; lra).
    replace (32 * 1048576 * b) with (32 * h) by (unfold h; ring). assert (WU' : - (2 * h) <= wv <= 2 * h) by (unfold h; lra). clear WU.
    replace ((z + wv + - wv * g) * (1 + e3) - z) with (z * e3 + wv * (1 - g) * (1 + e3)) by ring.
    apply Rle_trans with (1 := Rabs_triang _ _). rewrite !Rabs_mult.
    assert (A1 : Rabs z <= h) by (apply Rabs_le; lra). assert (A2 : Rabs e3 <= ur) by (apply Rabs_le; lra). assert (A3 : Rabs wv <= 2 * h) by (apply Rabs_le; lra). assert (A4 : Rabs (1 - g) <= 3 * ur) by (apply Rabs_le; lra). assert (A5 : Rabs (1 + e3) <= 2) by (apply Rabs_le; lra).
    assert (T1 : Rabs z * Rabs e3 <= h * ur) by (apply Rmult_le_compat; try apply Rabs_pos; assumption).
    assert (T2 : Rabs wv * Rabs (1 - g) * Rabs (1 + e3) <= 2 * h * (3 * ur) * 2) by (apply Rmult_le_compat; try (apply Rmult_le_pos; apply Rabs_pos); try apply Rabs_pos; [apply Rmult_le_compat; try apply Rabs_pos; assumption|exact A5]).
    nra.
Qed.
(** What it means exactly *)
Definition edge (ax ay bx by' ox oy : R) : R := (bx - ax) * (oy - ay) - (by' - ay) * (ox - ax).
Lemma crosses_level (x1 y1 x2 y2 x3 y3 z xo yo zo s : R) (q : pt3 RN) : s * s = 1 -> let c := (x2 - x1) * (y3 - y2) - (y2 - y1) * (x3 - x2) in
  crosses (mkline3 (rp3 xo yo zo) (rp3 0 0 s)) (rp3 x1 y1 z) (rp3 x2 y2 z) (rp3 x3 y3 z) q <->
  0 < - ((zo - z) * s) /\ 0 < c * edge x1 y1 x2 y2 xo yo /\ 0 < c * edge x2 y2 x3 y3 xo yo /\ 0 < c * edge x3 y3 x1 y1 xo yo /\ q = rp3 xo yo z.
Proof.
  intros S c. unfold crosses, rdot3, area_vec, at_param, weighted. cbn [px py pz anchor dir rp3]. unfold rp3. cbn [px py pz].
  split.
  - intros (A & (t & T & P) & u & v & w & U & V & W & UVW & Q). rewrite P in Q. injection Q as Q1 Q2 Q3.
    assert (CN : c <> 0) by (intros Z; apply A; transitivity (c * s); [unfold c; cbn; ring|rewrite Z; ring]).
    assert (CC : 0 < c * c) by nra. assert (O1 : xo = u * x1 + v * x2 + w * x3) by lra. assert (O2 : yo = u * y1 + v * y2 + w * y3) by lra.
    assert (O3 : z = zo + t * s). { replace (u * z + v * z + w * z) with ((u + v + w) * z) in Q3 by ring. rewrite UVW in Q3. lra. }
    assert (UE : u = 1 - v - w) by lra.
    assert (K1 : edge x1 y1 x2 y2 xo yo = w * c) by (unfold edge, c; rewrite O1, O2, UE; ring).
    assert (K2 : edge x2 y2 x3 y3 xo yo = u * c) by (unfold edge, c; rewrite O1, O2, UE; ring).
    assert (K3 : edge x3 y3 x1 y1 xo yo = v * c) by (unfold edge, c; rewrite O1, O2, UE; ring).
    rewrite K1, K2, K3. split; [rewrite O3; replace (- ((zo - (zo + t * s)) * s)) with (t * (s * s)) by ring; rewrite S; lra|].
    split; [nra|]. split; [nra|]. split; [nra|]. rewrite P. f_equal; lra.
  - intros (T & K1 & K2 & K3 & Q). assert (CN : c <> 0) by (intros Z; rewrite Z in K1; lra). assert (SN : s <> 0) by (intros Z; rewrite Z in S; lra).
    split; [intros Z; apply CN, (Rmult_eq_reg_r s); [|exact SN]; rewrite Rmult_0_l, <- Z; unfold c; cbn; ring|].
    split; [exists (- ((zo - z) * s)); split; [exact T|rewrite Q; f_equal; try ring; replace (zo + - ((zo - z) * s) * s) with (zo - (zo - z) * (s * s)) by ring; rewrite S; ring]|].
    assert (P : forall k, 0 < c * k -> 0 < k / c). { intros k K. replace (k / c) with (c * k * / (c * c)) by (field; exact CN). apply Rmult_lt_0_compat; [exact K|apply Rinv_0_lt_compat; nra]. }
    exists (edge x2 y2 x3 y3 xo yo / c), (edge x3 y3 x1 y1 xo yo / c), (edge x1 y1 x2 y2 xo yo / c). split; [apply P, K2|]. split; [apply P, K3|]. split; [apply P, K1|].
    assert (SUM : edge x2 y2 x3 y3 xo yo / c + edge x3 y3 x1 y1 xo yo / c + edge x1 y1 x2 y2 xo yo / c = 1) by (unfold edge; unfold c in *; field; exact CN).
    split; [exact SUM|]. rewrite Q. f_equal.
    + unfold edge; unfold c in *; field; exact CN.
    + unfold edge; unfold c in *; field; exact CN.
    + replace (edge x2 y2 x3 y3 xo yo / c * z + edge x3 y3 x1 y1 xo yo / c * z + edge x1 y1 x2 y2 xo yo / c * z) with ((edge x2 y2 x3 y3 xo yo / c + edge x3 y3 x1 y1 xo yo / c + edge x1 y1 x2 y2 xo yo / c) * z) by ring. rewrite SUM. ring.
Qed.
(** One side of the triangle *)
Definition zedge (ax ay bx by' ox oy : Z) : Z := ((bx - ax) * (oy - ay) - (by' - ay) * (ox - ax))%Z.
Lemma abs_mul_le a b k l : (0 <= k)%Z -> (0 <= l)%Z -> (Z.abs a <= 2 ^ k)%Z -> (Z.abs b <= 2 ^ l)%Z -> (Z.abs (a * b) <= 2 ^ (k + l))%Z.
Proof. intros K L A B. rewrite Z.abs_mul, Z.pow_add_r by lia. apply Z.mul_le_mono_nonneg; lia. Qed.
Lemma side_test n e (a b p : pt3 F64) ax ay az bx by' bz ox oy : upr n -> / 2 <= Rabs (fval (pz n)) <= 2 -> (-200 <= e <= 200)%Z ->
  gr e (px a) ax -> gr e (py a) ay -> gr e (pz a) az -> gr e (px b) bx -> gr e (py b) by' -> gr e (pz b) bz -> gr e (px p) ox -> gr e (py p) oy -> le_e (24 + e) (pz p) ->
  (Z.abs ax <= 2 ^ 20)%Z -> (Z.abs ay <= 2 ^ 20)%Z -> (Z.abs az <= 2 ^ 20)%Z -> (Z.abs bx <= 2 ^ 20)%Z -> (Z.abs by' <= 2 ^ 20)%Z -> (Z.abs bz <= 2 ^ 20)%Z -> (Z.abs ox <= 2 ^ 20)%Z -> (Z.abs oy <= 2 ^ 20)%Z ->
  nleb (dot3 n (cross3 (vsub3 b a) (vsub3 p a))) n0 = true <-> fval (pz n) * IZR (zedge ax ay bx by' ox oy) <= 0.
Proof.
  intros U N E A1 A2 A3 B1 B2 B3 P1 P2 P3 LA1 LA2 LA3 LB1 LB2 LB3 LP1 LP2.
  assert (W : forall x k, gr e x k -> (Z.abs k <= 2 ^ 20)%Z -> le_e (24 + e) x). { intros x k G K. apply (gr_le e x k 24 G); lia. }
  assert (LA : le3 (24 + e) a) by (split; [|split]; eapply W; eassumption). assert (LB : le3 (24 + e) b) by (split; [|split]; eapply W; eassumption).
  assert (LP : le3 (24 + e) p) by (split; [eapply W; eassumption|split; [eapply W; eassumption|exact P3]]).
  pose proof (conn_le _ _ _ LA LB ltac:(lia)) as C1. pose proof (conn_le _ _ _ LA LP ltac:(lia)) as C2. change (conn a b) with (vsub3 b a) in C1. change (conn a p) with (vsub3 p a) in C2.
  pose proof (cross_le _ _ _ _ C1 C2 ltac:(lia)) as (F1 & F2 & F3).
  apply side_sign with (e := (e + e)%Z); [exact U|split; [apply F1|split; [apply F2|apply F3]]| | |lia|exact N].
  - unfold zedge. cbn [cross3 vsub3 px py pz]. assert (M1 := abs_mul_le (bx - ax) (oy - ay) 21 21 ltac:(lia) ltac:(lia) ltac:(lia) ltac:(lia)). assert (M2 := abs_mul_le (by' - ay) (ox - ax) 21 21 ltac:(lia) ltac:(lia) ltac:(lia) ltac:(lia)).
    apply gr_sub; [apply gr_mul; [apply gr_sub; try assumption; lia|apply gr_sub; try assumption; lia|lia|lia]|apply gr_mul; [apply gr_sub; try assumption; lia|apply gr_sub; try assumption; lia|lia|lia]|lia|lia].
  - unfold zedge. assert (M1 := abs_mul_le (bx - ax) (oy - ay) 21 21 ltac:(lia) ltac:(lia) ltac:(lia) ltac:(lia)). assert (M2 := abs_mul_le (by' - ay) (ox - ax) 21 21 ltac:(lia) ltac:(lia) ltac:(lia) ltac:(lia)). lia.
Qed.
Lemma dif21 a b : (Z.abs a <= 2 ^ 20)%Z -> (Z.abs b <= 2 ^ 20)%Z -> (Z.abs (a - b) <= 2 ^ 21)%Z. Proof. lia. Qed.
Lemma dif53 a : (Z.abs a <= 2 ^ 21)%Z -> (Z.abs a <= 2 ^ 53)%Z. Proof. lia. Qed.
Lemma dif43 a b : (Z.abs a <= 2 ^ (21 + 21))%Z -> (Z.abs b <= 2 ^ (21 + 21))%Z -> (Z.abs (a - b) <= 2 ^ 50)%Z. Proof. lia. Qed.
Lemma mul42 a b : (Z.abs a <= 2 ^ 21)%Z -> (Z.abs b <= 2 ^ 21)%Z -> (Z.abs (a * b) <= 2 ^ (21 + 21))%Z. Proof. intros. apply abs_mul_le; try assumption; discriminate. Qed.
Lemma is53 a : (Z.abs a <= 2 ^ (21 + 21))%Z -> (Z.abs a <= 2 ^ 53)%Z. Proof. lia. Qed.
Lemma is53' a : (Z.abs a <= 2 ^ 50)%Z -> (Z.abs a <= 2 ^ 53)%Z. Proof. lia. Qed.
Lemma rng1 e : (-200 <= e <= 200)%Z -> (-1074 <= e <= 960)%Z. Proof. lia. Qed.
Lemma rng2 e : (-200 <= e <= 200)%Z -> (-1074 <= e + e <= 960)%Z. Proof. lia. Qed.
Lemma rng3 e : (-200 <= e <= 200)%Z -> (-450 <= e + e <= 450)%Z. Proof. lia. Qed.
Lemma gsub e x y a b : (-200 <= e <= 200)%Z -> gr e x a -> gr e y b -> (Z.abs a <= 2 ^ 20)%Z -> (Z.abs b <= 2 ^ 20)%Z -> gr e (nsub x y) (a - b).
Proof. intros E X Y A B. apply gr_sub; [exact X|exact Y|apply dif53, dif21; assumption|apply rng1, E]. Qed.
Lemma gdet e x y z w a b c d : (-200 <= e <= 200)%Z -> gr e x a -> gr e y b -> gr e z c -> gr e w d -> (Z.abs a <= 2 ^ 21)%Z -> (Z.abs b <= 2 ^ 21)%Z -> (Z.abs c <= 2 ^ 21)%Z -> (Z.abs d <= 2 ^ 21)%Z ->
  gr (e + e) (nsub (nmul x y) (nmul z w)) (a * b - c * d).
Proof.
  intros E X Y Z W A B C D. pose proof (mul42 a b A B) as M1. pose proof (mul42 c d C D) as M2. apply gr_sub; [apply gr_mul; [exact X|exact Y|apply is53, M1|apply rng2, E]|apply gr_mul; [exact Z|exact W|apply is53, M2|apply rng2, E]|apply is53', dif43; assumption|apply rng2, E].
Qed.
Lemma tri_normal e (a b c : pt3 F64) x1 y1 x2 y2 x3 y3 z : (-200 <= e <= 200)%Z ->
  gr e (px a) x1 -> gr e (py a) y1 -> gr e (pz a) z -> gr e (px b) x2 -> gr e (py b) y2 -> gr e (pz b) z -> gr e (px c) x3 -> gr e (py c) y3 -> gr e (pz c) z ->
  (Z.abs x1 <= 2 ^ 20)%Z -> (Z.abs y1 <= 2 ^ 20)%Z -> (Z.abs x2 <= 2 ^ 20)%Z -> (Z.abs y2 <= 2 ^ 20)%Z -> (Z.abs x3 <= 2 ^ 20)%Z -> (Z.abs y3 <= 2 ^ 20)%Z -> (Z.abs z <= 2 ^ 20)%Z ->
  let k := ((x2 - x1) * (y3 - y2) - (y2 - y1) * (x3 - x2))%Z in
  exists n, normal_of_face a b c = Ok n /\ upr n /\ / 2 <= Rabs (fval (pz n)) <= 2 /\ (k <> 0%Z -> 0 < fval (pz n) * IZR k).
Proof.
  intros E A1 A2 A3 B1 B2 B3 C1 C2 C3 L1 L2 L3 L4 L5 L6 L7 k.
  pose proof (gsub e _ _ _ _ E B1 A1 L3 L1) as U1. pose proof (gsub e _ _ _ _ E B2 A2 L4 L2) as U2. pose proof (gsub e _ _ _ _ E B3 A3 L7 L7) as U3.
  pose proof (gsub e _ _ _ _ E C1 B1 L5 L3) as V1. pose proof (gsub e _ _ _ _ E C2 B2 L6 L4) as V2. pose proof (gsub e _ _ _ _ E C3 B3 L7 L7) as V3. rewrite Z.sub_diag in U3, V3.
  pose proof (dif21 _ _ L3 L1) as D1. pose proof (dif21 _ _ L4 L2) as D2. pose proof (dif21 _ _ L5 L3) as D3. pose proof (dif21 _ _ L6 L4) as D4. assert (D0 : (Z.abs 0 <= 2 ^ 21)%Z) by discriminate.
  assert (Q1 := gdet e _ _ _ _ _ _ _ _ E U2 V3 U3 V2 D2 D0 D0 D4). assert (Q2 := gdet e _ _ _ _ _ _ _ _ E U3 V1 U1 V3 D0 D3 D1 D0). assert (Q3 := gdet e _ _ _ _ _ _ _ _ E U1 V2 U2 V1 D1 D4 D2 D3).
  rewrite Z.mul_0_r, Z.mul_0_l in Q1, Q2. unfold normal_of_face. apply normal_upr with (f := (e + e)%Z).
  - split; [apply Q1|split; [apply Q2|apply Q3]].
  - rewrite <- (Rmult_0_l (bp (e + e))). apply Q1.
  - rewrite <- (Rmult_0_l (bp (e + e))). apply Q2.
  - exact Q3.
  - apply dif43; apply mul42; assumption.
  - apply rng3, E.
Qed.
