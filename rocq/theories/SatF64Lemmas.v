(** Lemmas about the separating axis test in doubles. *)
From Verif Require Import Base Num NumLemmas BBoxModel GeomSpec VecSpec VecModel VecLemmas FloatSpec FloatLemmas FloatBridge RootLemmas DistSpec DistLemmas DistLemmas2 DistLemmas3 ShapeModel ShapeSpec ShapeLemmas BoxDistSpec BoxDistLemmas MeanSpec MeanLemmas UnitSpec UnitLemmas SatF64Spec.
From Coq Require Import Floats.SpecFloat Reals Lra Lia Psatz.
From Flocq Require Import Core.
Local Open Scope R_scope.

(** ** Sizes *)
Definition le_e (e : Z) (x : T F64) : Prop := fd x /\ Rabs (fval x) <= bp e.
Lemma rounds_le r z e : rounds r z -> is_double z -> Rabs r <= bp e -> (-1074 <= e < 1024)%Z -> le_e e z /\ fval z = rnd r.
Proof.
  intros RD D B E. destruct (rounds_small r z e RD B E) as [F V]. split; [|exact V]. split; [split; assumption|]. rewrite V.
  apply Rabs_le_inv in B. apply Rabs_le. assert (FE : fmt (bp e)) by (apply fmt_bpow; lia). split.
  - rewrite <- (rnd_id (bp e) FE), <- round_NE_opp. apply rnd_le. lra.
  - rewrite <- (rnd_id (bp e) FE). apply rnd_le. lra.
Qed.
Lemma le_mul a b x y : le_e a x -> le_e b y -> (-1074 <= a + b < 1024)%Z -> le_e (a + b) (nmul x y) /\ fval (nmul x y) = rnd (fval x * fval y).
Proof.
  intros [[DX FX] BX] [[DY FY] BY] E. apply rounds_le; [apply mul_val; assumption|apply double_mul; assumption| |exact E].
  rewrite Rabs_mult, bpow_plus. apply Rmult_le_compat; try apply Rabs_pos; assumption.
Qed.
Lemma bp_S e : bp (e + 1) = 2 * bp e. Proof. rewrite bpow_plus. change (bp 1) with 2. ring. Qed.
Lemma le_add a x y : le_e a x -> le_e a y -> (-1074 <= a + 1 < 1024)%Z -> le_e (a + 1) (nadd x y) /\ fval (nadd x y) = rnd (fval x + fval y).
Proof.
  intros [[DX FX] BX] [[DY FY] BY] E. apply rounds_le; [apply add_val; assumption|apply double_add; assumption| |exact E].
  rewrite bp_S. apply Rle_trans with (1 := Rabs_triang _ _). lra.
Qed.
Lemma le_sub a x y : le_e a x -> le_e a y -> (-1074 <= a + 1 < 1024)%Z -> le_e (a + 1) (nsub x y) /\ fval (nsub x y) = rnd (fval x - fval y).
Proof.
  intros [[DX FX] BX] [[DY FY] BY] E. apply rounds_le; [apply sub_val; assumption|apply double_sub; assumption| |exact E].
  rewrite bp_S. unfold Rminus. apply Rle_trans with (1 := Rabs_triang _ _). rewrite Rabs_Ropp. lra.
Qed.
Lemma le_wide a b x : (a <= b)%Z -> le_e a x -> le_e b x.
Proof. intros L [F B]. split; [exact F|]. apply Rle_trans with (1 := B). apply bpow_le, L. Qed.
Definition le3 (e : Z) (p : pt3 F64) : Prop := le_e e (px p) /\ le_e e (py p) /\ le_e e (pz p).
Lemma le3_fin e p : le3 e p -> finite3 p.
Proof. intros (([D1 F1] & _) & ([D2 F2] & _) & ([D3 F3] & _)) ax [->|[->| ->]]; (split; [assumption|apply finite_f; assumption]). Qed.
Lemma conn_le a p q : le3 a p -> le3 a q -> (-1074 <= a + 1 < 1024)%Z -> le3 (a + 1) (conn p q).
Proof. intros (P1 & P2 & P3) (Q1 & Q2 & Q3) E. split; [|split]; cbn [conn px py pz]; apply le_sub; assumption. Qed.
Lemma cross_le a b p q : le3 a p -> le3 b q -> (-1074 <= a + b < 1022)%Z -> le3 (a + b + 1) (cross3 p q).
Proof.
  intros (P1 & P2 & P3) (Q1 & Q2 & Q3) E. assert (M : forall x y, le_e a x -> le_e b y -> le_e (a + b) (nmul x y)) by (intros; apply le_mul; [assumption|assumption|lia]).
  split; [|split]; cbn [cross3 px py pz]; apply le_sub; try lia; apply M; assumption.
Qed.

(** ** Normalised vectors of any size *)
Lemma rnd_double t : 0 <= t -> rnd t <= 2 * t.
Proof.
  intros T. pose proof (bp_pos (-1074)) as P. assert (E75 : bp (-1074) = 2 * bp (-1075)) by (change (-1074)%Z with (-1075 + 1)%Z; apply bp_S).
  destruct (Rlt_dec t (bp (-1075))) as [L|L].
  - destruct (Req_dec t 0) as [->|N]; [rewrite rnd_0; lra|].
    assert (R : rnd t = 0).
    { destruct (Rle_dec (bp (-1076)) t) as [G|G].
      - apply (round_N_small_pos radix2 (FLT_exp (-1074) 53) (fun z => negb (Z.even z)) t (-1075)); [split; [exact G|exact L]|reflexivity].
      - assert (R : rnd (bp (-1076)) = 0). { apply (round_N_small_pos radix2 (FLT_exp (-1074) 53) (fun z => negb (Z.even z)) (bp (-1076)) (-1075)); [split; [apply Rle_refl|apply bpow_lt; lia]|reflexivity]. }
        apply Rle_antisym; [rewrite <- R; apply rnd_le; lra|apply rnd_nonneg, T]. }
    rewrite R. lra.
  - destruct (Rle_dec t (bp (-1074))) as [G|G].
    + apply Rle_trans with (bp (-1074)); [|lra]. rewrite <- (rnd_id (bp (-1074))) by (apply fmt_bpow; lia). apply rnd_le, G.
    + destruct (mul_rel t) as (e & h & E1 & E2 & ->). apply Rabs_le_inv in E1, E2. unfold eta in E2. pose proof ur_small. nra.
Qed.
Lemma square_acc x : le_e 420 x -> le_e 840 (nsq x) /\ 0 <= fval (nsq x) <= 2 * (fval x * fval x) /\ fval x * fval x * (1 - ur) - eta <= fval (nsq x).
Proof.
  intros X. destruct (le_mul 420 420 x x X X ltac:(lia)) as [L V]. split; [exact L|]. unfold nsq. rewrite V.
  assert (P : 0 <= fval x * fval x) by apply Rle_0_sqr. split; [split; [apply rnd_nonneg, P|apply rnd_double, P]|].
  destruct (mul_rel (fval x * fval x)) as (e & h & E1 & E2 & ->). apply Rabs_le_inv in E1, E2. nra.
Qed.
Lemma sqrt_mono a b : 0 <= a -> 0 <= b -> a * a <= b -> a <= sqrt b.
Proof. intros A B H. rewrite <- (sqrt_square a A). apply sqrt_le_1_alt, H. Qed.
Definition unit_like (n : pt3 F64) : Prop := le3 1 n /\ 9 / 64 <= rsq3 (real3 n).
Lemma norm3_z_F : @norm3_z F64 = Ok (fp3 0 0 1). Proof. vmeq. Qed.
Lemma unit_z : unit_like (fp3 0 0 1).
Proof.
  assert (V0 : fval (fz 0) = 0) by reflexivity. assert (V1 : fval (fz 1) = 1) by exact fval_one.
  split; [split; [|split]; (split; [split; vm_compute; first [reflexivity|exact I]|]); cbn [px py pz fp3]; rewrite ?V0, ?V1; change (bp 1) with 2; rewrite Rabs_pos_eq; lra|].
  unfold rsq3, rdot3, real3. cbn [px py pz fp3]. rewrite V0, V1. lra.
Qed.
Lemma norm_axis v : le3 420 v -> exists n, norm3_or_z v = Ok n /\ unit_like n.
Proof.
  intros (X & Y & Z). destruct (square_acc _ X) as (SX & [QX0 QX1] & QX2), (square_acc _ Y) as (SY & [QY0 QY1] & QY2), (square_acc _ Z) as (SZ & [QZ0 QZ1] & QZ2).
  destruct (le_add 840 _ _ SX SY ltac:(lia)) as [S1 V1]. destruct (le_add 841 _ _ S1 (le_wide 840 841 _ ltac:(lia) SZ) ltac:(lia)) as [S2 V2].
  set (qx := fval (nsq (px v))) in *. set (qy := fval (nsq (py v))) in *. set (qz := fval (nsq (pz v))) in *.
  set (K' := nadd (nadd (nsq (px v)) (nsq (py v))) (nsq (pz v))) in *.
  assert (FX : fmt qx) by (apply fval_fmt, SX). assert (FY : fmt qy) by (apply fval_fmt, SY). assert (FZ : fmt qz) by (apply fval_fmt, SZ).
  destruct (add_rel qx qy FX FY) as (e1 & E1 & R1). rewrite R1 in V1.
  destruct (add_rel (fval (nadd (nsq (px v)) (nsq (py v)))) qz (fval_fmt _ (proj1 (proj1 S1))) FZ) as (e2 & E2 & R2). rewrite R2, V1 in V2. clear R1 R2.
  set (K := fval K') in *. pose proof ur_small as U. apply Rabs_le_inv in E1, E2.
  assert (KU : 999 / 1000 * (qx + qy + qz) <= (qx + qy) * (1 + e1) + qz <= 1001 / 1000 * (qx + qy + qz)) by nra.
  assert (KK : 998 / 1000 * (qx + qy + qz) <= K <= 1003 / 1000 * (qx + qy + qz)) by nra. clear KU.
  assert (K0 : 0 <= K) by lra. destruct S2 as [[DK FK] BK]. fold K in BK.
  destruct (sqrt_val K' DK FK K0) as [FL VL]. fold K in VL. pose proof (double_sqrt K' DK) as DL. set (l := nsqrt K') in *.
  assert (L0 : 0 <= fval l) by (rewrite VL; apply rnd_nonneg, sqrt_pos).
  unfold norm3_or_z, norm3_new, abs3. fold K' l.
  assert (NN : nonneg_new l = Some l). { apply nonneg_nn. split; [exact DL|left; split; [exact FL|exact L0]]. }
  rewrite NN. cbn [unwrap obind]. rewrite norm3_z_F. cbn [obind]. destruct (neqb l n0) eqn:ZE; [exists (fp3 0 0 1); split; [reflexivity|exact unit_z]|].
  eexists. split; [reflexivity|].
  assert (KP : bp (-1074) <= K).
  { destruct (fmt_mult K (fval_fmt _ DK)) as [z KZ]. assert (ZP : (0 < z)%Z).
    { apply Z.nle_gt. intros ZN. assert (KL : K = 0). { apply Rle_antisym; [|exact K0]. rewrite KZ. apply IZR_le in ZN. pose proof (bp_pos (-1074)). nra. }
      rewrite KL, sqrt_0, rnd_0 in VL. assert (neqb l n0 = true); [|congruence]. apply nn_zero; [split; [exact DL|left; split; [exact FL|exact L0]]|]. rewrite key_fin by exact FL. exact VL. }
    rewrite KZ. rewrite <- (Rmult_1_l (bp (-1074))) at 1. apply Rmult_le_compat_r; [apply Rlt_le, bp_pos|]. apply IZR_le. lia. }
  set (s := sqrt K) in *. assert (SS : s * s = K) by (apply sqrt_sqrt, K0).
  assert (SL : bp (-537) <= s) by (apply sqrt_mono; [apply Rlt_le, bp_pos|exact K0|rewrite <- bpow_plus; exact KP]).
  assert (SU : s <= bp 421). { apply Rsqr_incr_0_var; [|apply Rlt_le, bp_pos]. unfold Rsqr. rewrite SS, <- bpow_plus. rewrite Rabs_pos_eq in BK by exact K0. exact BK. }
  pose proof (bp_pos (-537)) as P537. assert (SP : 0 < s) by lra.
  destruct (sqrt_rel s) as (e3 & E3 & R3); [apply Rle_trans with (2 := SL); apply bpow_le; lia|]. rewrite R3 in VL. clear R3. apply Rabs_le_inv in E3.
  assert (LP : 0 < fval l) by (rewrite VL; nra). assert (LB : / 2 * s <= fval l <= 2 * s) by (rewrite VL; split; nra).
  assert (B538 : bp 538 = / (/ 2 * bp (-537))). { rewrite Rinv_mult, Rinv_inv. rewrite <- bpow_opp. symmetry. rewrite Rmult_comm. change (- -537)%Z with 537%Z. rewrite Rmult_comm. symmetry. apply (bp_S 537). }
  assert (IU : / fval l <= bp 538). { rewrite B538. apply Rinv_le_contravar; [lra|]. lra. }
  assert (IL : bp (-422) <= / fval l). { change (-422)%Z with (- (422))%Z. rewrite bpow_opp. apply Rinv_le_contravar; [exact LP|]. change 422%Z with (421 + 1)%Z. rewrite bp_S. lra. }
  destruct (rounds_le (fval (n1 : T F64) / fval l) (ndiv n1 l) 538) as [LF VF].
  { apply div_val; [reflexivity|exact DL|exact I|exact FL|lra]. }
  { apply double_div; [reflexivity|exact DL]. }
  { rewrite fval_one. unfold Rdiv. rewrite Rmult_1_l, Rabs_pos_eq; [exact IU|]. apply Rlt_le, Rinv_0_lt_compat, LP. }
  { lia. }
  rewrite fval_one in VF. unfold Rdiv in VF. rewrite Rmult_1_l in VF.
  destruct (sqrt_rel (/ fval l)) as (e4 & E4 & R4); [apply Rle_trans with (2 := IL); apply bpow_le; lia|]. rewrite R4 in VF. clear R4. apply Rabs_le_inv in E4.
  set (f := fval (ndiv n1 l)) in *.
  assert (G : 99 / 100 <= f * s <= 101 / 100).
  { assert (GE : f * s * (1 + e3) = 1 + e4). { rewrite VF, VL. field. split; nra. }
    assert (FP : 0 <= f * s). { apply Rmult_le_pos; [|lra]. rewrite VF. apply Rmult_le_pos; [apply Rlt_le, Rinv_0_lt_compat, LP|lra]. } nra. }
  assert (CO : forall x q, le_e 420 x -> 0 <= q -> fval x * fval x * (1 - ur) - eta <= q -> q <= qx + qy + qz ->
    le_e 1 (nmul (ndiv n1 l) x) /\ (4 / 10 * s <= Rabs (fval x) -> 3 / 8 <= Rabs (fval (nmul (ndiv n1 l) x)))).
  { intros x q LX Q0 Q1 Q2. destruct (le_mul 538 420 _ _ LF LX ltac:(lia)) as [[FM _] VM]. fold f in VM.
    destruct (mul_rel (f * fval x)) as (e5 & h & E5 & E6 & R5). rewrite R5 in VM. clear R5. apply Rabs_le_inv in E5.
    assert (ETA : eta <= K / 2) by (unfold eta; lra). assert (ET : eta <= / 1000). { unfold eta. assert (bp (-1074) <= bp (-10)) by (apply bpow_le; lia). change (bp (-10)) with (/ 1024) in *. lra. }
    set (a := Rabs (fval x)). assert (A0 : 0 <= a) by apply Rabs_pos. assert (AA : a * a = fval x * fval x) by (unfold a; rewrite <- Rabs_mult, Rabs_pos_eq; [reflexivity|apply Rle_0_sqr]).
    assert (AU : a <= 13 / 10 * s). { apply Rsqr_incr_0_var; [|lra]. unfold Rsqr. replace (13 / 10 * s * (13 / 10 * s)) with (169 / 100 * K) by (rewrite <- SS; field). rewrite AA. nra. }
    assert (F0 : 0 < f) by nra. assert (FA : Rabs (f * fval x) = f * a) by (rewrite Rabs_mult, (Rabs_pos_eq f) by lra; reflexivity).
    assert (FU : f * a <= 1313 / 1000) by (apply Rle_trans with (f * (13 / 10 * s)); [apply Rmult_le_compat_l; lra|lra]).
    assert (D : Rabs (fval (nmul (ndiv n1 l) x) - f * fval x) <= / 500 * (f * a) + / 1000).
    { rewrite VM. replace (f * fval x * (1 + e5) + h - f * fval x) with (f * fval x * e5 + h) by ring. apply Rle_trans with (1 := Rabs_triang _ _). rewrite Rabs_mult, FA. assert (E7 : Rabs e5 <= / 500) by (apply Rabs_le; lra). apply Rplus_le_compat; [|lra]. rewrite Rmult_comm. apply Rmult_le_compat_r; [|exact E7]. apply Rmult_le_pos; lra. }
    split.
    - split; [exact FM|]. change (bp 1) with 2. replace (fval (nmul (ndiv n1 l) x)) with (f * fval x + (fval (nmul (ndiv n1 l) x) - f * fval x)) by ring. apply Rle_trans with (1 := Rabs_triang _ _). rewrite FA. lra.
    - intros AL. fold a in AL. assert (FL2 : 396 / 1000 <= f * a) by (apply Rle_trans with (f * (4 / 10 * s)); [lra|apply Rmult_le_compat_l; lra]).
      replace (fval (nmul (ndiv n1 l) x)) with (f * fval x - (f * fval x - fval (nmul (ndiv n1 l) x))) by ring.
      pose proof (Rabs_triang_inv (f * fval x) (f * fval x - fval (nmul (ndiv n1 l) x))) as TI. rewrite (Rabs_minus_sym (f * fval x)) in TI at 1. rewrite Rabs_minus_sym in D. rewrite Rabs_minus_sym in TI. rewrite FA in TI. lra. }
  destruct (CO _ _ X QX0 QX2 ltac:(lra)) as [NX LX], (CO _ _ Y QY0 QY2 ltac:(lra)) as [NY LY], (CO _ _ Z QZ0 QZ2 ltac:(lra)) as [NZ LZ].
  split; [split; [exact NX|split; [exact NY|exact NZ]]|].
  unfold rsq3, rdot3, real3. cbn [px py pz]. set (a := fval (nmul (ndiv n1 l) (px v))) in *. set (b := fval (nmul (ndiv n1 l) (py v))) in *. set (c := fval (nmul (ndiv n1 l) (pz v))) in *.
  assert (SQ : forall t, 3 / 8 <= Rabs t -> 9 / 64 <= t * t). { intros t T. rewrite <- (Rabs_pos_eq (t * t)) by apply Rle_0_sqr. rewrite Rabs_mult. nra. }
  assert (BIG : forall t, 16 / 100 * K <= t * t -> 4 / 10 * s <= Rabs t).
  { intros t T. apply Rsqr_incr_0_var; [|apply Rabs_pos]. rewrite <- Rsqr_abs. unfold Rsqr. replace (4 / 10 * s * (4 / 10 * s)) with (16 / 100 * K) by (rewrite <- SS; field). exact T. }
  pose proof (Rle_0_sqr a) as A0. pose proof (Rle_0_sqr b) as B0. pose proof (Rle_0_sqr c) as C0. unfold Rsqr in *.
  destruct (Rle_dec (16 / 100 * K) (fval (px v) * fval (px v))) as [C1|C1]; [specialize (SQ _ (LX (BIG _ C1))); lra|].
  destruct (Rle_dec (16 / 100 * K) (fval (py v) * fval (py v))) as [C2|C2]; [specialize (SQ _ (LY (BIG _ C2))); lra|].
  destruct (Rle_dec (16 / 100 * K) (fval (pz v) * fval (pz v))) as [C3|C3]; [specialize (SQ _ (LZ (BIG _ C3))); lra|].
  exfalso. lra.
Qed.

(** ** Projections *)
Lemma prod_acc e M x u : le_e e x -> Rabs (fval x) <= M -> le_e 1 u -> (-1074 <= e + 1 < 1024)%Z -> le_e (e + 1) (nmul x u) /\ Rabs (fval (nmul x u) - fval x * fval u) <= 2 * M * ur + eta /\ Rabs (fval x * fval u) <= 2 * M.
Proof.
  intros X XM U E. destruct (le_mul e 1 x u X U E) as [L V]. split; [exact L|].
  assert (B : Rabs (fval x * fval u) <= 2 * M). { rewrite Rabs_mult, Rmult_comm. apply Rmult_le_compat; try apply Rabs_pos; [apply U|exact XM]. }
  split; [|exact B]. rewrite V. destruct (mul_rel (fval x * fval u)) as (e1 & h & E1 & E2 & ->).
  replace (fval x * fval u * (1 + e1) + h - fval x * fval u) with (fval x * fval u * e1 + h) by ring. apply Rle_trans with (1 := Rabs_triang _ _). apply Rplus_le_compat; [|exact E2].
  rewrite Rabs_mult. apply Rmult_le_compat; try apply Rabs_pos; assumption.
Qed.
Lemma sum_acc x y B : fmt x -> fmt y -> Rabs x + Rabs y <= B -> Rabs (rnd (x + y) - (x + y)) <= B * ur.
Proof.
  intros X Y L. destruct (add_rel x y X Y) as (e & E & ->). replace ((x + y) * (1 + e) - (x + y)) with ((x + y) * e) by ring.
  rewrite Rabs_mult. apply Rmult_le_compat; try apply Rabs_pos; [|exact E]. apply Rle_trans with (1 := Rabs_triang _ _), L.
Qed.
Definition in_M (M : R) (p : pt3 F64) : Prop := le3 200 p /\ forall ax, axis3 ax -> Rabs (fval (ax p)) <= M.
Lemma dot_acc M p u : bp (-900) <= M -> in_M M p -> le3 1 u -> fd (dot3 p u) /\ Rabs (fval (dot3 p u) - rdot3 (real3 p) (real3 u)) <= 20 * M * ur.
Proof.
  intros MP [(P1 & P2 & P3) B] (U1 & U2 & U3). unfold dot3.
  assert (BX := B px (or_introl eq_refl)). assert (BY := B py (or_intror (or_introl eq_refl))). assert (BZ := B pz (or_intror (or_intror eq_refl))).
  destruct (prod_acc 200 M _ _ P1 BX U1 ltac:(lia)) as (X1 & X2 & X3), (prod_acc 200 M _ _ P2 BY U2 ltac:(lia)) as (Y1 & Y2 & Y3), (prod_acc 200 M _ _ P3 BZ U3 ltac:(lia)) as (Z1 & Z2 & Z3).
  set (x := nmul (px p) (px u)) in *. set (y := nmul (py p) (py u)) in *. set (z := nmul (pz p) (pz u)) in *.
  destruct (le_add 201 x y X1 Y1 ltac:(lia)) as [S1 V1]. destruct (le_add 202 _ z S1 (le_wide 201 202 _ ltac:(lia) Z1) ltac:(lia)) as [S2 V2].
  split; [apply S2|]. unfold rdot3, real3. cbn [px py pz].
  assert (ET : eta <= M * ur / 100). { unfold eta, ur. assert (A : bp (-1074) <= bp (-962) / 100). { assert (bp (-1074) <= bp (-969)) by (apply bpow_le; lia). replace (bp (-962)) with (128 * bp (-969)); [pose proof (bp_pos (-969)); lra|]. change 128 with (bp 7). rewrite <- bpow_plus. reflexivity. }
    assert (C : bp (-962) <= M * bp (-52)). { apply Rle_trans with (bp (-900) * bp (-52)); [rewrite <- bpow_plus; apply bpow_le; lia|apply Rmult_le_compat_r; [apply Rlt_le, bp_pos|exact MP]]. } lra. }
  pose proof ur_small as U. assert (U0 : 0 < ur) by (unfold ur; pose proof (bp_pos (-52)); lra). pose proof (bp_pos (-900)) as P9.
  assert (MU : 0 <= M * ur <= M / 1000) by nra. set (m := M * ur) in *. replace (2 * M * ur) with (2 * m) in * by (unfold m; ring). replace (20 * M * ur) with (20 * m) by (unfold m; ring).
  assert (Q : forall a b, Rabs (a - b) <= 2 * m + eta -> Rabs b <= 2 * M -> Rabs a <= 201 / 100 * M).
  { intros a b A1 A2. replace a with (b + (a - b)) by ring. apply Rle_trans with (1 := Rabs_triang _ _). lra. }
  pose proof (Q _ _ X2 X3) as QX. pose proof (Q _ _ Y2 Y3) as QY. pose proof (Q _ _ Z2 Z3) as QZ.
  pose proof (sum_acc (fval x) (fval y) (402 / 100 * M) (fval_fmt _ (proj1 (proj1 X1))) (fval_fmt _ (proj1 (proj1 Y1))) ltac:(lra)) as A1. rewrite <- V1 in A1.
  replace (402 / 100 * M * ur) with (402 / 100 * m) in A1 by (unfold m; ring).
  assert (QS : Rabs (fval (nadd x y)) <= 404 / 100 * M).
  { replace (fval (nadd x y)) with (fval x + fval y + (fval (nadd x y) - (fval x + fval y))) by ring. apply Rle_trans with (1 := Rabs_triang _ _). pose proof (Rabs_triang (fval x) (fval y)). lra. }
  pose proof (sum_acc (fval (nadd x y)) (fval z) (605 / 100 * M) (fval_fmt _ (proj1 (proj1 S1))) (fval_fmt _ (proj1 (proj1 Z1))) ltac:(lra)) as A2. rewrite <- V2 in A2.
  replace (605 / 100 * M * ur) with (605 / 100 * m) in A2 by (unfold m; ring).
  apply Rabs_le_inv in A1, A2, X2, Y2, Z2. apply Rabs_le. cbn [nadd nmul RN T]. lra.
Qed.
Definition dots (u : pt3 F64) (ps : list (pt3 F64)) : Prop := forall p, In p ps -> fd (dot3 p u).
Lemma range_fold_F (u : pt3 F64) ps mn mx : dots u ps -> fd mn -> fd mx -> exists mn' mx',
  fold_left (sat_visit u) ps (Some mn, Some mx) = (Some mn', Some mx') /\ fd mn' /\ fd mx' /\
  (fval mn' <= fval mn /\ fval mx <= fval mx') /\ (forall p, In p ps -> fval mn' <= fval (dot3 p u) <= fval mx').
Proof.
  revert mn mx. induction ps as [|p ps IH]; intros mn mx D FN FX.
  - exists mn, mx. split; [reflexivity|]. split; [exact FN|]. split; [exact FX|]. split; [lra|intros ? []].
  - cbn [fold_left]. unfold sat_visit at 2. cbn [fst snd]. assert (Dp : fd (dot3 p u)) by (apply D; left; reflexivity). set (x := dot3 p u) in *.
    assert (E1 : exists mn1, (if nltb x mn then Some x else Some mn) = Some mn1 /\ fd mn1 /\ fval mn1 <= fval mn /\ fval mn1 <= fval x).
    { rewrite nltb_val by (first [apply Dp|apply FN]). destruct (Rlt_bool_spec (fval x) (fval mn)); eexists; (split; [reflexivity|]); (split; [assumption|]); lra. }
    assert (E2 : exists mx1, (if ngtb x mx then Some x else Some mx) = Some mx1 /\ fd mx1 /\ fval mx <= fval mx1 /\ fval x <= fval mx1).
    { rewrite ngtb_val by (first [apply Dp|apply FX]). destruct (Rlt_bool_spec (fval mx) (fval x)); eexists; (split; [reflexivity|]); (split; [assumption|]); lra. }
    destruct E1 as (mn1 & -> & F1 & A1 & A2), E2 as (mx1 & -> & F2 & B1 & B2).
    destruct (IH mn1 mx1) as (mn' & mx' & E & G1 & G2 & [C1 C2] & K); [intros q Q; apply D; right; exact Q|exact F1|exact F2|].
    exists mn', mx'. split; [exact E|]. split; [exact G1|]. split; [exact G2|]. split; [lra|]. intros q [<-|Q]; [fold x; lra|apply K, Q].
Qed.
Lemma range_F (u : pt3 F64) ps : ps <> [] -> dots u ps -> exists mn mx, sat_range u ps = (Some mn, Some mx) /\ fd mn /\ fd mx /\ forall p, In p ps -> fval mn <= fval (dot3 p u) <= fval mx.
Proof.
  destruct ps as [|p ps]; [congruence|]. intros _ D. unfold sat_range. cbn [fold_left]. unfold sat_visit at 2. cbn [fst snd].
  assert (Dp : fd (dot3 p u)) by (apply D; left; reflexivity).
  destruct (range_fold_F u ps (dot3 p u) (dot3 p u)) as (mn & mx & E & F1 & F2 & C & K); [intros q Q; apply D; right; exact Q|exact Dp|exact Dp|].
  exists mn, mx. split; [exact E|]. split; [exact F1|]. split; [exact F2|]. intros q [<-|Q]; [lra|apply K, Q].
Qed.
(** An object whose points and axes are as they should be. *)
Definition good (M : R) (o : sat_object F64) : Prop := sat_points o <> [] /\ (forall p, In p (sat_points o) -> in_M M p) /\ forall u, In u (sat_axes o) -> unit_like u.
Lemma apart_axis (a b : sat_object F64) : sat_collide a b = false -> exists u, In u (sat_axes a ++ sat_axes b) /\ sat_apart a b u = true.
Proof.
  rewrite collide_forallb. induction (sat_axes a ++ sat_axes b) as [|u l IH]; intros F; cbn [forallb] in F; [discriminate|].
  destruct (sat_apart a b u) eqn:E; [exists u; split; [left; reflexivity|exact E]|]. destruct (IH F) as (v & V & W). exists v. split; [right; exact V|exact W].
Qed.
Lemma apart_F M a b : bp (-900) <= M -> good M a -> good M b -> sat_collide a b = false -> exists u mna mxa mnb mxb, unit_like u /\
  (forall p, In p (sat_points a) -> mna <= fval (dot3 p u) <= mxa) /\ (forall p, In p (sat_points b) -> mnb <= fval (dot3 p u) <= mxb) /\ (mxa < mnb \/ mxb < mna).
Proof.
  intros MP (NA & PA & XA) (NB & PB & XB) F. destruct (apart_axis a b F) as (u & IU & AP). assert (UU : unit_like u) by (apply in_app_or in IU; destruct IU as [I|I]; [apply XA, I|apply XB, I]).
  destruct (range_F u _ NA) as (mna & mxa & EA & FA1 & FA2 & KA); [intros p I; apply (dot_acc M p u MP (PA p I) (proj1 UU))|].
  destruct (range_F u _ NB) as (mnb & mxb & EB & FB1 & FB2 & KB); [intros p I; apply (dot_acc M p u MP (PB p I) (proj1 UU))|].
  unfold sat_apart in AP. rewrite EA, EB in AP. exists u, (fval mna), (fval mxa), (fval mnb), (fval mxb). split; [exact UU|]. split; [exact KA|]. split; [exact KB|].
  apply orb_true_iff in AP. rewrite !nltb_val in AP by (first [apply FA1|apply FA2|apply FB1|apply FB2]).
  destruct AP as [AP|AP]; [left|right]; match goal with H : Rlt_bool ?x ?y = true |- _ => destruct (Rlt_bool_spec x y); [assumption|discriminate] end.
Qed.
Definition deep_hull (r : R) (A B : list (pt3 RN)) : Prop := forall w : pt3 RN, rsq3 w <= r * r -> exists p q, in_hull A p /\ in_hull B q /\ forall ax, axis3 ax -> ax q = ax p + ax w.
Lemma deep_core M a b : bp (-900) <= M -> good M a -> good M b -> deep_hull (M * bp (-46)) (map real3 (sat_points a)) (map real3 (sat_points b)) -> sat_collide a b = true.
Proof.
  intros MP GA GB D. destruct (sat_collide a b) eqn:F; [reflexivity|exfalso]. destruct (apart_F M a b MP GA GB F) as (u & mna & mxa & mnb & mxb & [U1 U2] & KA & KB & AP).
  set (U := real3 u) in *. set (d := 20 * M * ur).
  assert (HB : forall o mn mx, good M o -> (forall p, In p (sat_points o) -> mn <= fval (dot3 p u) <= mx) -> forall p, in_hull (map real3 (sat_points o)) p -> mn - d <= rdot3 p U <= mx + d).
  { intros o mn mx (_ & P & _) K p H. apply (hull_bound U _ _ _ _ H). intros q I. apply in_map_iff in I. destruct I as (q' & <- & I).
    destruct (dot_acc M q' u MP (P _ I) U1) as [_ E]. specialize (K _ I). apply Rabs_le_inv in E. unfold d, U in *. lra. }
  assert (U0 : 0 < ur) by (unfold ur; pose proof (bp_pos (-52)); lra). pose proof (bp_pos (-900)) as P9.
  assert (RHO : M * bp (-46) = 128 * (M * ur)). { unfold ur. replace (bp (-46)) with (64 * bp (-52)); [lra|]. change 64 with (bp 6). rewrite <- bpow_plus. reflexivity. }
  assert (MU : 0 < M * ur) by (apply Rmult_lt_0_compat; lra). assert (DD : d = 20 * (M * ur)) by (unfold d; ring).
  set (L := sqrt (rsq3 U)). assert (LL : L * L = rsq3 U) by (apply sqrt_sqrt; lra). assert (L38 : 3 / 8 <= L) by (apply sqrt_mono; lra).
  set (r := M * bp (-46)) in *.
  assert (W : forall s : R, s = 1 \/ s = -1 -> exists p q, in_hull (map real3 (sat_points a)) p /\ in_hull (map real3 (sat_points b)) q /\ rdot3 q U = rdot3 p U + s * (r * L)).
  { intros s S1. set (k := s * r / L). assert (KL : k * L = s * r) by (unfold k; field; lra). destruct (D (rp3 (k * px U) (k * py U) (k * pz U))) as (p & q & HA & HQ & EQ).
    - replace (rsq3 (rp3 (k * px U) (k * py U) (k * pz U))) with ((k * L) * (k * L)); [rewrite KL; destruct S1 as [->| ->]; lra|].
      transitivity (k * k * (L * L)); [ring|]. rewrite LL. unfold rsq3, rdot3. cbn [px py pz rp3]. toR. ring.
    - exists p, q. split; [exact HA|]. split; [exact HQ|]. assert (X := EQ px (or_introl eq_refl)). assert (Y := EQ py (or_intror (or_introl eq_refl))). assert (Z := EQ pz (or_intror (or_intror eq_refl))). cbn [px py pz rp3] in X, Y, Z.
      replace (s * (r * L)) with (k * (L * L)) by (transitivity (k * L * L); [ring|rewrite KL; ring]). rewrite LL. unfold rsq3, rdot3 in *. rewrite X, Y, Z. toR. ring. }
  assert (RL : 48 * (M * ur) <= r * L) by (rewrite RHO; nra).
  destruct AP as [AP|AP].
  - destruct (W (-1)) as (p & q & HA & HQ & EQ); [right; reflexivity|]. pose proof (HB a mna mxa GA KA p HA). pose proof (HB b mnb mxb GB KB q HQ). lra.
  - destruct (W 1) as (p & q & HA & HQ & EQ); [left; reflexivity|]. pose proof (HB a mna mxa GA KA p HA). pose proof (HB b mnb mxb GB KB q HQ). lra.
Qed.
Lemma vertex_core M a b v : bp (-900) <= M -> good M a -> good M b -> In v (sat_points a) -> In v (sat_points b) -> sat_collide a b = true.
Proof.
  intros MP GA GB IA IB. destruct (sat_collide a b) eqn:F; [reflexivity|exfalso]. destruct (apart_F M a b MP GA GB F) as (u & mna & mxa & mnb & mxb & _ & KA & KB & AP).
  specialize (KA v IA). specialize (KB v IB). lra.
Qed.

(** ** Shapes *)
Lemma small_in M p : M <= bp 200 -> small3 M p -> in_M M p.
Proof.
  intros MB [F B]. split; [|exact B]. assert (G : forall ax, axis3 ax -> le_e 200 (ax p)).
  { intros ax A. destruct (F ax A) as [D N]. split; [split; [exact D|apply finite_f; assumption]|]. apply Rle_trans with (1 := B ax A), MB. }
  split; [|split]; apply G; unfold axis3; auto.
Qed.
Lemma norm3_x_F : @norm3_x F64 = Ok (fp3 1 0 0). Proof. vmeq. Qed.
Lemma norm3_y_F : @norm3_y F64 = Ok (fp3 0 1 0). Proof. vmeq. Qed.
Lemma unit_x : unit_like (fp3 1 0 0).
Proof.
  assert (V0 : fval (fz 0) = 0) by reflexivity. assert (V1 : fval (fz 1) = 1) by exact fval_one.
  split; [split; [|split]; (split; [split; vm_compute; first [reflexivity|exact I]|]); cbn [px py pz fp3]; rewrite ?V0, ?V1; change (bp 1) with 2; rewrite Rabs_pos_eq; lra|].
  unfold rsq3, rdot3, real3. cbn [px py pz fp3]. rewrite V0, V1. lra.
Qed.
Lemma unit_y : unit_like (fp3 0 1 0).
Proof.
  assert (V0 : fval (fz 0) = 0) by reflexivity. assert (V1 : fval (fz 1) = 1) by exact fval_one.
  split; [split; [|split]; (split; [split; vm_compute; first [reflexivity|exact I]|]); cbn [px py pz fp3]; rewrite ?V0, ?V1; change (bp 1) with 2; rewrite Rabs_pos_eq; lra|].
  unfold rsq3, rdot3, real3. cbn [px py pz fp3]. rewrite V0, V1. lra.
Qed.
Definition sat_ofF (c : collider F64) : res (sat_object F64) :=
  match c with CAABB b => sat_of_bb b | CBox u => sat_of_ubox u | CFace t => sat_of_tri t end.
Lemma le3_wide a b p : (a <= b)%Z -> le3 a p -> le3 b p.
Proof. intros L (A & B & C). split; [|split]; apply (le_wide a b); assumption. Qed.
Lemma shape_good M c : bp (-900) <= M <= bp 200 -> small_shape M c -> exists o, sat_ofF c = Ok o /\ good M o /\ sat_points o = vertices c /\ forall p, space c p -> in_hull (map real3 (sat_points o)) p.
Proof.
  intros [MP MB] S. destruct c as [b|u|t]; [| destruct S|].
  - cbn [sat_ofF]. unfold sat_of_bb. rewrite norm3_x_F, norm3_y_F, norm3_z_F. cbn [obind]. eexists. split; [reflexivity|]. destruct S as ((F1 & F2 & V) & [_ S1] & [_ S2]).
    split; [|split; [reflexivity|]].
    + split; [discriminate|]. split; [|intros u [<-|[<-|[<-|[]]]]; [exact unit_x|exact unit_y|exact unit_z]].
      intros p I. apply (small_in M p MB). assert (C : forall ax, axis3 ax -> ax p = ax (min3 b) \/ ax p = ax (max3 b)).
      { cbn in I. repeat (destruct I as [<-|I]; [intros ax [->|[->| ->]]; cbn; auto|]). destruct I. }
      split; intros ax A; destruct (C ax A) as [-> | ->]; [apply F1, A|apply F2, A|apply S1, A|apply S2, A].
    + intros p H. cbn [sat_points]. change (map real3 (bb3_corners b)) with (bb3_corners (realbox3 b)). apply hull_bb; [|exact H].
      assert (G : forall ax : pt3 F64 -> T F64, axis3 ax -> fval (ax (min3 b)) < fval (ax (max3 b))).
      { intros ax A. specialize (V ax A). destruct (F1 ax A) as [D1 N1], (F2 ax A) as [D2 N2]. apply flt_val in V; try assumption; apply finite_f; assumption. }
      intros ax [->|[->| ->]]; [apply (G px)|apply (G py)|apply (G pz)]; unfold axis3; auto.
  - destruct S as (SA & SB & SC). pose proof (small_in M _ MB SA) as IA. pose proof (small_in M _ MB SB) as IB. pose proof (small_in M _ MB SC) as IC.
    cbn [sat_ofF]. unfold sat_of_tri.
    pose proof (conn_le 200 _ _ (proj1 IA) (proj1 IB) ltac:(lia)) as EAB. pose proof (conn_le 200 _ _ (proj1 IB) (proj1 IC) ltac:(lia)) as EBC. pose proof (conn_le 200 _ _ (proj1 IC) (proj1 IA) ltac:(lia)) as ECA.
    cbn [Z.add Pos.add Pos.succ] in EAB, EBC, ECA.
    destruct (norm_axis (cross3 (conn (tri_a t) (tri_b t)) (conn (tri_b t) (tri_c t)))) as (n & -> & N); [apply (le3_wide 403); [lia|]; apply (cross_le 201 201 _ _ EAB EBC); lia|]. cbn [obind].
    assert (G : forall e, le3 201 e -> exists m, norm3_or_z (cross3 n e) = Ok m /\ unit_like m). { intros e E. apply norm_axis, (le3_wide 203); [lia|]. apply (cross_le 1 201 _ _ (proj1 N) E). lia. }
    destruct (G _ EAB) as (m1 & -> & N1), (G _ EBC) as (m2 & -> & N2), (G _ ECA) as (m3 & -> & N3). cbn [obind]. eexists. split; [reflexivity|].
    split; [|split; [reflexivity|]].
    + split; [discriminate|]. split; [intros p [<-|[<-|[<-|[]]]]; assumption|intros u [<-|[<-|[<-|[<-|[]]]]]; assumption].
    + intros p H. cbn [sat_points map]. apply (hull_tri (mktri (real3 (tri_a t)) (real3 (tri_b t)) (real3 (tri_c t))) p H).
Qed.
Lemma collides_sat a b oa ob : ~ (is_aabb a /\ is_aabb b) -> (forall u, a <> CBox u) -> (forall u, b <> CBox u) -> sat_ofF a = Ok oa -> sat_ofF b = Ok ob -> collider_collides a b = Ok (sat_collide oa ob).
Proof.
  intros N NA NB EA EB. destruct a as [a|u|a]; [|destruct (NA u eq_refl)|]; (destruct b as [b|u|b]; [|destruct (NB u eq_refl)|]); cbn [collider_collides sat_ofF] in *.
  - exfalso. apply N. split; exact I.
  - rewrite EA, EB. reflexivity.
  - rewrite EA, EB. cbn [sat_collide_res obind]. rewrite collide_sym. reflexivity.
  - rewrite EA, EB. reflexivity.
Qed.
