From Verif Require Import Base BaseLemmas Num NumLemmas BBoxModel GeomSpec BBoxLemmas MatrixLemmas CloudLemmas FloatSpec FloatBridge HullModel HullSpec.
From Coq Require Import Floats.SpecFloat Reals Lra Psatz Lia ZArith R_Ifp.
From Flocq Require Import Core Relative Mult_error BinarySingleNaN.
Local Open Scope R_scope.

(** ** Boxes contain their points *)
Lemma from3_bounds {NM num} (L : OrdLaws NM num) dbg (ps : list (pt3 NM)) b : (Z.of_nat (length ps) < 2 ^ 31)%Z ->
  Forall (fun p => forall ax, axis3 ax -> num (ax p)) ps -> bb3_from_iterator dbg ps = Ok b ->
  forall ax, axis3 ax -> In (ax (max3 b)) (map ax ps) /\ In (ax (min3 b)) (map ax ps) /\
    forall p, In p ps -> nleb (ax (min3 b)) (ax p) = true /\ nleb (ax p) (ax (max3 b)) = true.
Proof.
  intros LE F H ax A. rewrite bb3_from_spec in H by exact LE. destruct ps as [|p [|q r]]; try discriminate.
  assert (E : b = mkbb3 (mk3 (fmin (map px (q :: r)) (px p)) (fmin (map py (q :: r)) (py p)) (fmin (map pz (q :: r)) (pz p)))
                        (mk3 (fmax (map px (q :: r)) (px p)) (fmax (map py (q :: r)) (py p)) (fmax (map pz (q :: r)) (pz p)))).
  { unfold bb3_new in H. repeat (destruct (_ || _)%bool in H; try discriminate). apply Ok_inj in H. symmetry. exact H. }
  inversion F as [|? ? F1 F2]; subst.
  assert (N1 : num (ax p)) by (apply F1, A). assert (N2 : Forall num (map ax (q :: r))).
  { apply Forall_forall. intros v I. apply in_map_iff in I. destruct I as (t & <- & I). rewrite Forall_forall in F2. apply F2; assumption. }
  destruct (fmin_spec L _ _ N1 N2) as [I1 B1]. destruct (fmax_spec L _ _ N1 N2) as [I2 B2].
  assert (K : ax (max3 (mkbb3 (mk3 (fmin (map px (q :: r)) (px p)) (fmin (map py (q :: r)) (py p)) (fmin (map pz (q :: r)) (pz p)))
                        (mk3 (fmax (map px (q :: r)) (px p)) (fmax (map py (q :: r)) (py p)) (fmax (map pz (q :: r)) (pz p))))) = fmax (map ax (q :: r)) (ax p) /\
              ax (min3 (mkbb3 (mk3 (fmin (map px (q :: r)) (px p)) (fmin (map py (q :: r)) (py p)) (fmin (map pz (q :: r)) (pz p)))
                        (mk3 (fmax (map px (q :: r)) (px p)) (fmax (map py (q :: r)) (py p)) (fmax (map pz (q :: r)) (pz p))))) = fmin (map ax (q :: r)) (ax p)).
  { destruct A as [->|[->| ->]]; split; reflexivity. }
  destruct K as [-> ->]. split; [exact I2|]. split; [exact I1|]. intros t I. apply (in_map ax) in I. split; [apply B1|apply B2]; exact I.
Qed.
(** ** Exact arithmetic *)
Lemma max_uint_R bits : @max_uint RN bits = IZR (2 ^ Z.of_N bits - 1).
Proof. unfold max_uint. cbn [lit RN powerRZ]. apply Rmult_1_r. Qed.
Lemma axis_R bits (mn mx p : R) : (0 < bits)%N -> mn < mx -> mn <= p <= mx ->
  let u := (mx - mn) / IZR (2 ^ Z.of_N bits - 1) in
  exists n, real_to_uint bits ((p - mn) / u) = Some n /\ (n < 2 ^ bits)%N /\ mn + u * IZR (Z.of_N n) <= p < mn + u * IZR (Z.of_N n) + u.
Proof.
  intros B L [P1 P2] u. set (K := (2 ^ Z.of_N bits - 1)%Z) in *.
  assert (K1 : (1 <= K)%Z). { unfold K. change 1%Z with (2 ^ 1 - 1)%Z at 1. enough (2 ^ 1 <= 2 ^ Z.of_N bits)%Z by lia. apply Z.pow_le_mono_r; lia. }
  assert (KR : 1 <= IZR K) by (apply IZR_le; exact K1).
  assert (U : 0 < u) by (unfold u; apply Rdiv_lt_0_compat; lra).
  set (v := (p - mn) / u). assert (V0 : 0 <= v) by (unfold v; apply Rmult_le_pos; [lra|left; apply Rinv_0_lt_compat; exact U]).
  assert (V1 : v <= IZR K).
  { unfold v. apply (Rmult_le_reg_r u); [exact U|]. unfold Rdiv. rewrite Rmult_assoc, Rinv_l, Rmult_1_r by lra. unfold u, Rdiv. rewrite (Rmult_comm (mx - mn)), <- Rmult_assoc, Rinv_r, Rmult_1_l by lra. lra. }
  destruct (base_Int_part v) as [I1 I2]. set (i := Int_part v) in *.
  assert (i0 : (0 <= i)%Z). { assert (-1 < i)%Z; [|lia]. apply lt_IZR. lra. }
  assert (iK : (i <= K)%Z) by (apply le_IZR; lra).
  exists (Z.to_N i). unfold real_to_uint. destruct (Rlt_dec (-1) v) as [_|N]; [|exfalso; lra].
  assert (VK : v < IZR (2 ^ Z.of_N bits)). { assert (IZR (2 ^ Z.of_N bits) = IZR K + 1) by (unfold K; rewrite minus_IZR; lra). lra. }
  destruct (Rlt_dec v (IZR (2 ^ Z.of_N bits))) as [_|N]; [|contradiction]. fold i. split; [reflexivity|]. split.
  - apply N2Z.inj_lt. rewrite Z2N.id, N2Z.inj_pow by lia. unfold K in iK. change (Z.of_N 2) with 2%Z. lia.
  - rewrite Z2N.id by lia. assert (E : p = mn + u * v) by (unfold v; field; lra). split; rewrite E; [|]; nra.
Qed.
(** ** Doubles *)
Lemma fval_int (m : positive) (e k : Z) : (e <= 0)%Z -> Zpos m = (k * 2 ^ (- e))%Z -> fval (S754_finite false m e) = IZR k.
Proof.
  intros E H. unfold fval. rewrite Rmult_1_l, H, mult_IZR, Rmult_assoc. replace (IZR (2 ^ (- e)) * powerRZ 2 e) with 1; [apply Rmult_1_r|].
  change (2 ^ (- e))%Z with (radix_val radix2 ^ (- e))%Z. rewrite IZR_Zpower by lia. change 2 with (IZR (radix_val radix2)). rewrite <- bpow_powerRZ, <- bpow_plus. replace (- e + e)%Z with 0%Z by lia. reflexivity.
Qed.
Lemma max8 : @max_uint F64 8 = S754_finite false (255 * 2 ^ 45) (-45). Proof. vmeq. Qed.
Lemma max16 : @max_uint F64 16 = S754_finite false (65535 * 2 ^ 37) (-37). Proof. vmeq. Qed.
Lemma max32 : @max_uint F64 32 = S754_finite false (4294967295 * 2 ^ 21) (-21). Proof. vmeq. Qed.
Lemma max64 : @max_uint F64 64 = S754_finite false (2 ^ 52) 12. Proof. vmeq. Qed.
Lemma max_small bits : bits = 8%N \/ bits = 16%N \/ bits = 32%N ->
  f_finite (@max_uint F64 bits) /\ fval (@max_uint F64 bits) = IZR (2 ^ Z.of_N bits - 1).
Proof.
  intros [->|[->| ->]]; [rewrite max8|rewrite max16|rewrite max32]; (split; [exact I|]); apply fval_int; vm_compute; congruence.
Qed.
Lemma max_64 : f_finite (@max_uint F64 64) /\ fval (@max_uint F64 64) = bpow radix2 64.
Proof.
  rewrite max64. split; [exact I|]. unfold fval. rewrite Rmult_1_l. change (Zpos (2 ^ 52)) with (radix_val radix2 ^ 52)%Z. rewrite IZR_Zpower by lia.
  change 2 with (IZR (radix_val radix2)). rewrite <- bpow_powerRZ, <- bpow_plus. reflexivity.
Qed.
(** the conversion succeeds exactly below 2^bits *)
Lemma fval_split (m : positive) (e : Z) : fval (S754_finite false m e) = IZR (Zpos m) * bpow radix2 e.
Proof. unfold fval. rewrite Rmult_1_l. change 2 with (IZR (radix_val radix2)). rewrite <- bpow_powerRZ. reflexivity. Qed.
Lemma to_uint_some bits (z : T F64) : f_finite z -> 0 <= fval z < IZR (2 ^ Z.of_N bits) -> exists n, f64_to_uint bits z = Some n /\ IZR (Z.of_N n) <= fval z < IZR (Z.of_N n) + 1.
Proof.
  destruct z as [s|s| |s m e]; cbn [f_finite]; try contradiction.
  - intros _ _. exists 0%N. split; [reflexivity|]. cbn. lra.
  - intros _ [Z0 Z1]. unfold f64_to_uint. destruct s.
    { exfalso. unfold fval in Z0. assert (0 < IZR (Zpos m) * powerRZ 2 e) by (apply Rmult_lt_0_compat; [apply IZR_lt; lia|apply powerRZ_lt; lra]). lra. }
    rewrite fval_split in *. set (t := (if (0 <=? e)%Z then Zpos m * 2 ^ e else Zpos m / 2 ^ (- e))%Z).
    assert (T0 : (0 <= t)%Z). { unfold t. destruct (Z.leb_spec 0 e); [apply Z.mul_nonneg_nonneg; [lia|apply Z.pow_nonneg; lia]|apply Z.div_pos; [lia|apply Z.pow_pos_nonneg; lia]]. }
    assert (TT : IZR t <= IZR (Zpos m) * bpow radix2 e < IZR t + 1).
    { unfold t. destruct (Z.leb_spec 0 e) as [G|G].
      - rewrite mult_IZR. change (2 ^ e)%Z with (radix_val radix2 ^ e)%Z. rewrite IZR_Zpower by exact G. lra.
      - set (d := (2 ^ (- e))%Z). assert (D0 : (0 < d)%Z) by (apply Z.pow_pos_nonneg; lia). assert (DR : 0 < IZR d) by (apply IZR_lt; exact D0).
        assert (Eb : bpow radix2 e = / IZR d). { unfold d. change (2 ^ (- e))%Z with (radix_val radix2 ^ (- e))%Z. rewrite IZR_Zpower by lia. rewrite <- bpow_opp. f_equal. lia. }
        rewrite Eb. pose proof (Z.div_mod (Zpos m) d ltac:(lia)) as DM. pose proof (Z.mod_pos_bound (Zpos m) d D0) as MB.
        set (qd := (Zpos m / d)%Z) in *. set (rd := (Zpos m mod d)%Z) in *. rewrite DM, plus_IZR, mult_IZR.
        replace ((IZR d * IZR qd + IZR rd) * / IZR d) with (IZR qd + IZR rd * / IZR d) by (field; lra).
        assert (0 <= IZR rd) by (apply IZR_le; lia). assert (IZR rd < IZR d) by (apply IZR_lt; lia).
        assert (0 < / IZR d) by (apply Rinv_0_lt_compat; exact DR). assert (IZR d * / IZR d = 1) by (apply Rinv_r; lra). nra. }
    exists (Z.to_N t). rewrite Z2N.id by exact T0. split; [|exact TT].
    destruct (N.ltb_spec (Z.to_N t) (2 ^ bits)) as [_|N]; [reflexivity|]. exfalso.
    assert (t < 2 ^ Z.of_N bits)%Z by (apply lt_IZR; lra). apply N2Z.inj_le in N. rewrite Z2N.id, N2Z.inj_pow in N by exact T0. change (Z.of_N 2) with 2%Z in N. lia.
Qed.
Lemma to_uint_none bits (z : T F64) : f_finite z -> IZR (2 ^ Z.of_N bits) <= fval z -> f64_to_uint bits z = None.
Proof.
  intros F G. assert (P : 0 < IZR (2 ^ Z.of_N bits)) by (apply IZR_lt, Z.pow_pos_nonneg; lia).
  destruct z as [s|s| |s m e]; cbn [f_finite] in F; try contradiction; [cbn in G; lra|]. unfold f64_to_uint. destruct s.
  { exfalso. unfold fval in G. assert (0 < IZR (Zpos m) * powerRZ 2 e) by (apply Rmult_lt_0_compat; [apply IZR_lt; lia|apply powerRZ_lt; lra]). lra. }
  rewrite fval_split in G. set (t := (if (0 <=? e)%Z then Zpos m * 2 ^ e else Zpos m / 2 ^ (- e))%Z).
  assert (T : (2 ^ Z.of_N bits <= t)%Z).
  { unfold t. destruct (Z.leb_spec 0 e) as [E|E].
    - apply le_IZR. rewrite mult_IZR. change (2 ^ e)%Z with (radix_val radix2 ^ e)%Z. rewrite IZR_Zpower by exact E. exact G.
    - apply Z.div_le_lower_bound; [apply Z.pow_pos_nonneg; lia|]. apply le_IZR. rewrite mult_IZR. change (2 ^ (- e))%Z with (radix_val radix2 ^ (- e))%Z. rewrite IZR_Zpower by lia.
      pose proof (bpow_gt_0 radix2 (- e)) as BP. apply (Rmult_le_compat_r (bpow radix2 (- e))) in G; [|lra]. rewrite Rmult_assoc, <- bpow_plus in G. replace (e + - e)%Z with 0%Z in G by lia. cbn [bpow] in G. rewrite Rmult_1_r in G. rewrite Rmult_comm. exact G. }
  destruct (N.ltb_spec (Z.to_N t) (2 ^ bits)) as [N|_]; [|reflexivity]. exfalso. apply N2Z.inj_lt in N. rewrite N2Z.inj_pow in N. change (Z.of_N 2) with 2%Z in N.
  rewrite Z2N.id in N by (pose proof (Z.pow_nonneg 2 (Z.of_N bits) ltac:(lia)); lia). lia.
Qed.
Lemma small_bounds bits : bits = 8%N \/ bits = 16%N \/ bits = 32%N -> (1 <= 2 ^ Z.of_N bits - 1 <= 2 ^ 32 - 1)%Z.
Proof. intros [->|[->| ->]]; vm_compute; split; congruence. Qed.
Lemma fmt_half (K : Z) : (0 <= K <= 2 ^ 32)%Z -> fmt (IZR K + / 2).
Proof.
  intros H. apply generic_format_FLT. exists (Float radix2 (2 * K + 1) (-1)).
  - unfold F2R. cbn [Fnum Fexp]. rewrite plus_IZR, mult_IZR. change (bpow radix2 (-1)) with (/ 2). field.
  - cbn [Fnum]. apply Z.abs_lt. change (radix_val radix2 ^ 53)%Z with (2 ^ 53)%Z. lia.
  - cbn [Fexp]. lia.
Qed.
Lemma top_big : bpow radix2 33 < top. Proof. apply bpow_lt. lia. Qed.
Section AxisF.
Variables (mn mx p : T F64).
Hypotheses (Dn : is_double mn) (Dx : is_double mx) (Dp : is_double p) (Fn : f_finite mn) (Fx : f_finite mx) (Fp : f_finite p)
  (L1 : fle mn p) (L2 : fle p mx) (Fr : f_finite (nsub mx mn)) (Br : bpow radix2 (-900) <= fval (nsub mx mn)).
Let r := fval (nsub mx mn).
Lemma axis_range : r = rnd (fval mx - fval mn) /\ r < top /\ 0 < r.
Proof.
  assert (P : 0 < r) by (pose proof (bpow_gt_0 radix2 (-900)); unfold r; lra).
  pose proof (fval_bound _ (double_sub mx mn Dx Dn)) as B. fold r in B. rewrite Rabs_pos_eq in B by lra.
  destruct (sub_val mx mn Dx Dn Fx Fn) as [(_ & _ & E)|[(_ & E)|(_ & E)]]; [auto|exfalso; rewrite E in Fr; exact Fr..].
Qed.
Lemma axis_dist : f_finite (nsub p mn) /\ 0 <= fval (nsub p mn) <= r.
Proof.
  destruct axis_range as (E & T & P). apply fle_val in L1, L2; auto.
  assert (A : 0 <= rnd (fval p - fval mn)) by (rewrite <- rnd_0; apply rnd_le; lra).
  assert (B : rnd (fval p - fval mn) <= r) by (rewrite E; apply rnd_le; lra).
  destruct (sub_val p mn Dp Dn Fp Fn) as [(_ & F & ->)|[(G & _)|(G & _)]]; [auto|exfalso; lra|exfalso]. pose proof (bpow_gt_0 radix2 1024). lra.
Qed.
Lemma axis_unit (K : R) (m : T F64) : is_double m -> f_finite m -> fval m = K -> 1 <= K <= bpow radix2 64 ->
  f_finite (ndiv (nabs (nsub mx mn)) m) /\ fval (ndiv (nabs (nsub mx mn)) m) = rnd (r / K) /\ r / K * (1 - bpow radix2 (-53)) <= rnd (r / K).
Proof.
  intros Dm Fm Em [K1 K2]. destruct axis_range as (E & T & P).
  assert (AB : fval (nabs (nsub mx mn)) = r) by (rewrite fval_abs; apply Rabs_pos_eq; unfold r in P |- *; lra).
  assert (Q : 0 < r / K) by (apply Rdiv_lt_0_compat; lra).
  assert (QR : r / K <= r). { unfold Rdiv. rewrite <- (Rmult_1_r r) at 2. apply Rmult_le_compat_l; [lra|]. rewrite <- Rinv_1. apply Rinv_le; lra. }
  assert (UP : rnd (r / K) <= r). { replace r with (rnd r) at 2; [apply rnd_le, QR|]. apply rnd_id. unfold r. apply fval_fmt, double_sub; assumption. }
  assert (LO : bpow radix2 (-964) <= r / K).
  { apply (Rmult_le_reg_r K); [lra|]. unfold Rdiv. rewrite Rmult_assoc, Rinv_l, Rmult_1_r by lra. fold r in Br. apply Rle_trans with (bpow radix2 (-900)); [|exact Br].
    change (-900)%Z with (-964 + 64)%Z. rewrite bpow_plus. apply Rmult_le_compat_l; [apply bpow_ge_0|exact K2]. }
  pose proof (relative_error_N_FLT radix2 (-1074) 53 ltac:(lia) (fun x => negb (Z.even x)) (r / K)) as RE. rewrite (Rabs_pos_eq (r / K)) in RE by lra.
  lapply RE; [clear RE; intros RE|apply Rle_trans with (bpow radix2 (-964)); [apply bpow_le; lia|exact LO]].
  change (Znearest (fun x => negb (Z.even x))) with ZnearestE in RE.
  assert (H53 : / 2 * bpow radix2 (-53 + 1) = bpow radix2 (-53)) by (rewrite bpow_plus; change (bpow radix2 1) with 2; lra).
  change (- (53))%Z with (-53)%Z in RE. rewrite H53 in RE. pose proof (Rle_abs (- (rnd (r / K) - r / K))) as RA. rewrite Rabs_Ropp in RA.
  assert (LOW : r / K * (1 - bpow radix2 (-53)) <= rnd (r / K)) by lra.
  assert (POS : 0 <= rnd (r / K)) by (rewrite <- rnd_0; apply rnd_le; lra).
  destruct (div_val (nabs (nsub mx mn)) m (double_abs _ (double_sub _ _ Dx Dn)) Dm (proj2 (finite_abs _) Fr) Fm ltac:(rewrite Em; lra)) as [(_ & F & V)|[(G & _)|(G & _)]].
  - rewrite AB, Em in V. auto.
  - exfalso. rewrite AB, Em in G. lra.
  - exfalso. rewrite AB, Em in G. pose proof (bpow_gt_0 radix2 1024). lra.
Qed.
Lemma axis_F bits : bits = 8%N \/ bits = 16%N \/ bits = 32%N -> exists n, f64_to_uint bits (ndiv (nsub p mn) (ndiv (nabs (nsub mx mn)) (max_uint bits))) = Some n.
Proof.
  intros B. destruct (max_small bits B) as [FM EM]. pose proof (small_bounds bits B) as SB. set (K := (2 ^ Z.of_N bits - 1)%Z) in *.
  assert (K1 : 1 <= IZR K) by (apply IZR_le; lia). assert (K2 : IZR K <= bpow radix2 32) by (change (bpow radix2 32) with (IZR (2 ^ 32)); apply IZR_le; lia).
  destruct (axis_unit (IZR K) (max_uint bits) (double_lit _ _) FM EM) as (FU & EU & LU); [split; [exact K1|apply Rle_trans with (bpow radix2 32); [exact K2|apply bpow_le; lia]]|].
  destruct axis_range as (_ & _ & P). destruct axis_dist as (FD & D0 & D1).
  assert (Q : 0 < r / IZR K) by (apply Rdiv_lt_0_compat; lra).
  assert (E53 : 0 < bpow radix2 (-53) < / 2 ^ 52) by (split; [apply bpow_gt_0|change (/ 2 ^ 52) with (/ 2 ^ 52)%R; cbn [bpow]; apply Rinv_lt_contravar; [apply Rmult_lt_0_compat; [apply pow_lt; lra|apply IZR_lt; reflexivity]|]; rewrite pow_IZR; apply IZR_lt; reflexivity]).
  assert (P52 : 2 ^ 52 = IZR (2 ^ 52)) by (rewrite pow_IZR; reflexivity).
  set (ep := bpow radix2 (-53)) in *. assert (EP : ep < / 4503599627370496) by (rewrite P52 in E53; exact (proj2 E53)).
  set (u := ndiv (nabs (nsub mx mn)) (max_uint bits)) in *. assert (U0 : 0 < fval u) by (rewrite EU; nra).
  assert (DU : 0 <= fval (nsub p mn) / fval u <= IZR K + / 2).
  { split; [apply Rmult_le_pos; [lra|left; apply Rinv_0_lt_compat, U0]|]. apply (Rmult_le_reg_r (fval u)); [exact U0|]. unfold Rdiv at 1. rewrite Rmult_assoc, Rinv_l, Rmult_1_r by lra.
    apply Rle_trans with r; [exact D1|]. apply Rle_trans with ((IZR K + / 2) * (r / IZR K * (1 - ep))); [|apply Rmult_le_compat_l; [lra|rewrite EU; exact LU]].
    replace ((IZR K + / 2) * (r / IZR K * (1 - ep))) with (r * ((1 + / (2 * IZR K)) * (1 - ep))) by (field; lra). rewrite <- (Rmult_1_r r) at 1. apply Rmult_le_compat_l; [lra|].
    assert (IK : / (2 * bpow radix2 32) <= / (2 * IZR K)) by (apply Rinv_le; lra). change (bpow radix2 32) with 4294967296 in IK.
    assert (KI : 0 < / (2 * IZR K) <= / 2) by (split; [apply Rinv_0_lt_compat; lra|apply Rinv_le; lra]). nra. }
  assert (R0 : 0 <= rnd (fval (nsub p mn) / fval u)) by (rewrite <- rnd_0; apply rnd_le; lra).
  assert (R1 : rnd (fval (nsub p mn) / fval u) <= IZR K + / 2) by (rewrite <- (rnd_id (IZR K + / 2)); [apply rnd_le; lra|apply fmt_half; lia]).
  assert (TB : IZR K + / 2 < top) by (apply Rle_lt_trans with (bpow radix2 33); [change (bpow radix2 33) with (2 * bpow radix2 32); lra|apply top_big]).
  assert (KK : IZR (2 ^ Z.of_N bits) = IZR K + 1) by (unfold K; rewrite minus_IZR; lra).
  destruct (div_val (nsub p mn) u (double_sub _ _ Dp Dn) (double_div _ _ (double_abs _ (double_sub _ _ Dx Dn)) (double_lit _ _)) FD FU ltac:(lra)) as [(_ & F & V)|[(G & _)|(G & _)]].
  - destruct (to_uint_some bits _ F) as (n & Hn & _); [rewrite V, KK; lra|]. exists n. exact Hn.
  - exfalso. lra.
  - exfalso. pose proof (bpow_gt_0 radix2 1024). lra.
Qed.
(** 64 bits: the largest integer rounds to 2^64 and the upper end of the range does not fit *)
Lemma axis_64 : f64_to_uint 64 (ndiv (nsub mx mn) (ndiv (nabs (nsub mx mn)) (max_uint 64))) = None.
Proof.
  destruct max_64 as [FM EM]. destruct (axis_unit (bpow radix2 64) (max_uint 64) (double_lit _ _) FM EM) as (FU & EU & _); [split; [change 1 with (bpow radix2 0); apply bpow_le; lia|lra]|].
  destruct axis_range as (_ & T & P). set (u := ndiv (nabs (nsub mx mn)) (max_uint 64)) in *.
  assert (DIV : r / bpow radix2 64 = r * bpow radix2 (-64)) by (unfold Rdiv; rewrite <- bpow_opp; reflexivity).
  assert (EX : fval u = r * bpow radix2 (-64)).
  { rewrite EU, DIV. apply rnd_id. apply mult_bpow_exact_FLT; [apply fval_fmt, double_sub; assumption|].
    assert (-900 < mag radix2 r)%Z; [|lia]. apply mag_gt_bpow. rewrite Rabs_pos_eq by lra. exact Br. }
  pose proof (bpow_gt_0 radix2 (-64)) as B64. assert (U0 : 0 < fval u) by (rewrite EX; apply Rmult_lt_0_compat; assumption).
  assert (QQ : r / fval u = bpow radix2 64).
  { rewrite EX. unfold Rdiv. rewrite Rinv_mult, <- Rmult_assoc, Rinv_r, Rmult_1_l by lra. rewrite <- bpow_opp. reflexivity. }
  assert (T64 : bpow radix2 64 < top) by (apply bpow_lt; lia).
  assert (V64 : rnd (bpow radix2 64) = bpow radix2 64) by (apply rnd_id, fmt_bpow; lia).
  destruct (div_val (nsub mx mn) u (double_sub _ _ Dx Dn) (double_div _ _ (double_abs _ (double_sub _ _ Dx Dn)) (double_lit _ _)) Fr FU ltac:(lra)) as [(_ & F & V)|[(G & _)|(G & _)]]; try fold r in V; try fold r in G.
  - apply to_uint_none; [exact F|]. rewrite V, QQ, V64. change (IZR (2 ^ Z.of_N 64)) with (bpow radix2 64). lra.
  - exfalso. rewrite QQ, V64 in G. lra.
  - exfalso. rewrite QQ, V64 in G. pose proof (bpow_gt_0 radix2 64). pose proof (bpow_gt_0 radix2 1024). lra.
Qed.
End AxisF.
(** ** The loop *)
Lemma points_ok {NM} (c : Cast NM) bits (mn : pt3 NM) ux uy uz : forall ps,
  (forall p, In p ps -> exists x y z, to_uint c bits ((px p - px mn) / ux)%num = Some x /\ to_uint c bits ((py p - py mn) / uy)%num = Some y /\ to_uint c bits ((pz p - pz mn) / uz)%num = Some z) ->
  exists l, compress_points c bits mn ux uy uz ps = Ok l /\
    Forall2 (fun p u => to_uint c bits ((px p - px mn) / ux)%num = Some (unitsx u) /\ to_uint c bits ((py p - py mn) / uy)%num = Some (unitsy u) /\ to_uint c bits ((pz p - pz mn) / uz)%num = Some (unitsz u)) ps l.
Proof.
  induction ps as [|p r IH]; intros H; [exists []; split; [reflexivity|constructor]|].
  destruct (H p (or_introl eq_refl)) as (x & y & z & HX & HY & HZ). destruct IH as (l & E & F); [intros q Q; apply H; right; exact Q|].
  exists (mkcp x y z :: l). cbn [compress_points]. unfold conv. rewrite HX, HY, HZ. cbn [obind]. rewrite E. cbn [obind]. split; [reflexivity|]. constructor; [|exact F]. cbn [unitsx unitsy unitsz]. auto.
Qed.
Lemma conv_cases {NM} (c : Cast NM) bits v : (exists n, conv c bits v = Ok n) \/ conv c bits v = Err NumberConversionError.
Proof. unfold conv. destruct (to_uint c bits v) as [n|]; [left; exists n; reflexivity|right; reflexivity]. Qed.
Lemma points_cases {NM} (c : Cast NM) bits (mn : pt3 NM) ux uy uz : forall ps,
  (exists l, compress_points c bits mn ux uy uz ps = Ok l) \/ compress_points c bits mn ux uy uz ps = Err NumberConversionError.
Proof.
  induction ps as [|p r IH]; [left; exists []; reflexivity|]. cbn [compress_points].
  destruct (conv_cases c bits ((px p - px mn) / ux)%num) as [[x ->]| ->]; [|right; reflexivity]. cbn [obind].
  destruct (conv_cases c bits ((py p - py mn) / uy)%num) as [[y ->]| ->]; [|right; reflexivity]. cbn [obind].
  destruct (conv_cases c bits ((pz p - pz mn) / uz)%num) as [[z ->]| ->]; [|right; reflexivity]. cbn [obind].
  destruct IH as [[l ->]| ->]; [left; eexists; reflexivity|right; reflexivity].
Qed.
Lemma points_bad {NM} (c : Cast NM) bits (mn : pt3 NM) ux uy uz : forall ps p, In p ps -> to_uint c bits ((px p - px mn) / ux)%num = None ->
  compress_points c bits mn ux uy uz ps = Err NumberConversionError.
Proof.
  induction ps as [|q r IH]; intros p I H; [destruct I|]. cbn [compress_points]. destruct I as [->|I].
  - unfold conv. rewrite H. reflexivity.
  - destruct (conv_cases c bits ((px q - px mn) / ux)%num) as [[x ->]| ->]; [|reflexivity]. cbn [obind].
    destruct (conv_cases c bits ((py q - py mn) / uy)%num) as [[y ->]| ->]; [|reflexivity]. cbn [obind].
    destruct (conv_cases c bits ((pz q - pz mn) / uz)%num) as [[z ->]| ->]; [|reflexivity]. cbn [obind]. rewrite (IH p I H). reflexivity.
Qed.
Lemma box_exists_R dbg (ps : list (pt3 RN)) : (Z.of_nat (length ps) < 2 ^ 31)%Z ->
  (forall ax, axis3 ax -> exists p q, In p ps /\ In q ps /\ ax p < ax q) -> exists b, bb3_from_iterator dbg ps = Ok b /\ valid3 b.
Proof.
  intros LE H. assert (F : Forall (fun p : pt3 RN => forall ax, axis3 ax -> (fun _ : T RN => True) (ax p)) ps) by (apply Forall_forall; auto).
  pose proof (fun b => from3_bounds RN_laws dbg ps b LE F) as B. rewrite bb3_from_spec in B by exact LE. rewrite bb3_from_spec by exact LE.
  destruct ps as [|p [|q r]].
  - destruct (H px ltac:(left; reflexivity)) as (? & ? & [] & _).
  - destruct (H px ltac:(left; reflexivity)) as (? & ? & [<-|[]] & [<-|[]] & G). lra.
  - match goal with |- exists b, bb3_new ?a ?c = _ /\ _ => set (mn := a) in *; set (mx := c) in * end.
    assert (K : forall ax, axis3 ax -> ax mn < ax mx).
    { intros ax A. inversion F as [|? ? F1 F2]; subst. assert (N1 : (fun _ : T RN => True) (ax p)) by exact I.
      assert (N2 : Forall (fun _ : T RN => True) (map ax (q :: r))) by (apply Forall_forall; auto).
      destruct (fmin_spec RN_laws _ _ N1 N2) as [I1 B1]. destruct (fmax_spec RN_laws _ _ N1 N2) as [I2 B2].
      assert (E1 : ax mn = fmin (map ax (q :: r)) (ax p)) by (destruct A as [->|[->| ->]]; reflexivity).
      assert (E2 : ax mx = fmax (map ax (q :: r)) (ax p)) by (destruct A as [->|[->| ->]]; reflexivity).
      destruct (H ax A) as (s & t & Is & It & L). rewrite E1, E2.
      apply (in_map ax) in Is, It. pose proof (B1 _ Is) as X1. pose proof (B2 _ It) as X2. apply R_leb in X1, X2. apply Rle_lt_trans with (ax s); [exact X1|]. apply Rlt_le_trans with (ax t); [exact L|exact X2]. }
    exists (mkbb3 mn mx). split; [|exact K]. apply bb3_new_R. split; [reflexivity|]. repeat split; apply K; [left|right; left|right; right]; reflexivity.
Qed.
Lemma Forall2_map_r {A B D} (P : A -> D -> Prop) (g : B -> D) : forall l m, Forall2 (fun a b => P a (g b)) l m -> Forall2 P l (map g m).
Proof. intros l m F. induction F; constructor; auto. Qed.
Lemma Forall2_strengthen {A B} (P Q : A -> B -> Prop) : forall l m, (forall a b, In a l -> P a b -> Q a b) -> Forall2 P l m -> Forall2 Q l m.
Proof. intros l m H F. induction F as [|a b l m P1 F IH]; constructor; [apply H; [left; reflexivity|exact P1]|apply IH; intros; apply H; [right; assumption|assumption]]. Qed.
Lemma roundtrip_R dbg bits (ps : list (pt3 RN)) : (0 < bits)%N -> (Z.of_nat (length ps) < 2 ^ 31)%Z ->
  (forall ax, axis3 ax -> exists p q, In p ps /\ In q ps /\ ax p < ax q) ->
  exists c, compress RC dbg bits ps = Ok c /\
    Forall2 (fun p q => forall ax w, axis3 ax -> extent (map ax ps) w -> ax q <= ax p < ax q + w / IZR (2 ^ Z.of_N bits - 1)) ps (decompress c) /\
    Forall (fun u => (unitsx u < 2 ^ bits)%N /\ (unitsy u < 2 ^ bits)%N /\ (unitsz u < 2 ^ bits)%N) (cc_data c).
Proof.
  intros B LE H. destruct (box_exists_R dbg ps LE H) as (b & E & V).
  assert (F : Forall (fun p : pt3 RN => forall ax, axis3 ax -> (fun _ : T RN => True) (ax p)) ps) by (apply Forall_forall; auto).
  pose proof (from3_bounds RN_laws dbg ps b LE F E) as BD.
  assert (UE : forall ax, axis3 ax -> (nabs (ax (max3 b) - ax (min3 b)) / max_uint bits)%num = (ax (max3 b) - ax (min3 b)) / IZR (2 ^ Z.of_N bits - 1)).
  { intros ax A. rewrite max_uint_R. cbn [ndiv RN nabs nsub]. specialize (V ax A). rewrite Rabs_pos_eq by lra. reflexivity. }
  assert (AX : forall ax p, axis3 ax -> In p ps -> let u := (nabs (ax (max3 b) - ax (min3 b)) / max_uint bits)%num in
     exists n, real_to_uint bits ((ax p - ax (min3 b)) / u)%num = Some n /\ (n < 2 ^ bits)%N /\ ax (min3 b) + u * IZR (Z.of_N n) <= ax p < ax (min3 b) + u * IZR (Z.of_N n) + u).
  { intros ax p A I u. unfold u. rewrite (UE ax A). destruct (BD ax A) as (_ & _ & G). destruct (G p I) as [G1 G2]. apply R_leb in G1, G2. apply axis_R; [exact B|exact (V ax A)|split; assumption]. }
  assert (PX : axis3 (@px RN)) by (left; reflexivity). assert (PY : axis3 (@py RN)) by (right; left; reflexivity). assert (PZ : axis3 (@pz RN)) by (right; right; reflexivity).
  destruct (points_ok RC bits (min3 b) (nabs (px (max3 b) - px (min3 b)) / max_uint bits)%num (nabs (py (max3 b) - py (min3 b)) / max_uint bits)%num (nabs (pz (max3 b) - pz (min3 b)) / max_uint bits)%num ps) as (l & EL & FL).
  { intros p I. destruct (AX px p PX I) as (x & HX & _), (AX py p PY I) as (y & HY & _), (AX pz p PZ I) as (z & HZ & _). exists x, y, z. auto. }
  eexists. unfold compress. rewrite E. rewrite EL. split; [reflexivity|]. unfold decompress. cbn [cc_data cc_start unitsizex unitsizey unitsizez].
  assert (GG : Forall2 (fun p u => In p ps /\ (unitsx u < 2 ^ bits)%N /\ (unitsy u < 2 ^ bits)%N /\ (unitsz u < 2 ^ bits)%N /\
     let q := mk3 (px (min3 b) + nabs (px (max3 b) - px (min3 b)) / max_uint bits * of_usize (unitsx u))%num (py (min3 b) + nabs (py (max3 b) - py (min3 b)) / max_uint bits * of_usize (unitsy u))%num (pz (min3 b) + nabs (pz (max3 b) - pz (min3 b)) / max_uint bits * of_usize (unitsz u))%num in
     forall ax, axis3 ax -> ax q <= ax p < ax q + (ax (max3 b) - ax (min3 b)) / IZR (2 ^ Z.of_N bits - 1)) ps l).
  { revert FL. apply Forall2_strengthen. intros p u I (HX & HY & HZ). destruct (AX px p PX I) as (x & HX' & BX & RX), (AX py p PY I) as (y & HY' & BY & RY), (AX pz p PZ I) as (z & HZ' & BZ & RZ).
    change (to_uint RC) with real_to_uint in HX, HY, HZ. rewrite HX in HX'. rewrite HY in HY'. rewrite HZ in HZ'. apply Some_inj in HX', HY', HZ'. subst x y z.
    split; [exact I|]. split; [exact BX|]. split; [exact BY|]. split; [exact BZ|]. intros q ax A. rewrite <- (UE ax A). unfold q.
    destruct A as [->|[->| ->]]; cbn [px py pz]; rewrite lit_n; assumption. }
  split.
  - apply Forall2_map_r. revert GG. apply Forall2_strengthen. intros p u _ (I & _ & _ & _ & G).
    intros ax w A (lo & hi & I1 & I2 & G3 & ->). destruct (BD ax A) as (J1 & J2 & J3).
    assert (lo = ax (min3 b)). { apply Rle_antisym; [apply (G3 _ J2)|]. apply in_map_iff in I1. destruct I1 as (t & <- & I1). destruct (J3 t I1) as [X _]. apply R_leb in X. exact X. }
    assert (hi = ax (max3 b)). { apply Rle_antisym; [|apply (G3 _ J1)]. apply in_map_iff in I2. destruct I2 as (t & <- & I2). destruct (J3 t I2) as [_ X]. apply R_leb in X. exact X. }
    subst lo hi. apply (G ax A).
  - clear -GG. induction GG as [|p u ps0 l (_ & A & B & C & _) GG IH]; constructor; auto.
Qed.
(** ** Doubles, whole clouds *)
Lemma two_bpow e : powerRZ 2 e = bpow radix2 e. Proof. change 2 with (IZR (radix_val radix2)). symmetry. apply bpow_powerRZ. Qed.
Lemma spread_differ vs : spread vs -> differ vs.
Proof.
  intros (D & _ & u & v & U & V & H). exists u, v. split; [exact U|]. split; [exact V|]. destruct (D u U), (D v V). apply flt_val; auto. rewrite two_bpow in H. pose proof (bpow_gt_0 radix2 (-900)). lra.
Qed.
Lemma spread_range vs lo hi : spread vs -> In lo vs -> In hi vs -> (forall v, In v vs -> fle lo v /\ fle v hi) ->
  is_double lo /\ is_double hi /\ f_finite lo /\ f_finite hi /\ f_finite (nsub hi lo) /\ bpow radix2 (-900) <= fval (nsub hi lo).
Proof.
  intros (D & M & u & v & U & V & H) L1 L2 B. destruct (D lo L1) as [D1 F1], (D hi L2) as [D2 F2], (D u U) as [D3 F3], (D v V) as [D4 F4].
  destruct (B u U) as [BU _], (B v V) as [_ BV]. apply fle_val in BU, BV; auto. rewrite two_bpow in H. specialize (M lo hi L1 L2). rewrite two_bpow in M.
  split; [exact D1|]. split; [exact D2|]. split; [exact F1|]. split; [exact F2|].
  assert (LO : bpow radix2 (-900) <= rnd (fval hi - fval lo)) by (rewrite <- (rnd_id (bpow radix2 (-900))) at 1 by (apply fmt_bpow; lia); apply rnd_le; lra).
  assert (HI : rnd (fval hi - fval lo) <= bpow radix2 1023) by (rewrite <- (rnd_id (bpow radix2 1023)) by (apply fmt_bpow; lia); apply rnd_le; lra).
  assert (TT : bpow radix2 1023 < top) by (apply bpow_lt; lia).
  destruct (sub_val hi lo D2 D1 F2 F1) as [(_ & F & E)|[(G & _)|(G & _)]]; [rewrite E; auto|exfalso; lra|exfalso]. pose proof (bpow_gt_0 radix2 (-900)). pose proof (bpow_gt_0 radix2 1024). lra.
Qed.
Lemma spread_box dbg (ps : list (pt3 F64)) : (Z.of_nat (length ps) < 2 ^ 31)%Z -> (forall ax, axis3 ax -> spread (map ax ps)) ->
  exists b, bb3_from_iterator dbg ps = Ok b /\ forall ax, axis3 ax -> In (ax (max3 b)) (map ax ps) /\ In (ax (min3 b)) (map ax ps) /\
    forall v, In v (map ax ps) -> fle (ax (min3 b)) v /\ fle v (ax (max3 b)).
Proof.
  intros LE SP. assert (NU : Forall number3 ps).
  { apply Forall_forall. intros p I ax A E. destruct (SP ax A) as (D & _). destruct (D (ax p) (in_map ax _ _ I)) as [_ F]. rewrite E in F. exact F. }
  pose proof (from3_spec dbg ps NU LE) as H. destruct (bb3_from_iterator dbg ps) as [b|e|]; cbn [from3_outcome] in H.
  - exists b. split; [reflexivity|]. intros ax A. destruct H as [_ H]. destruct (H ax A) as ((I1 & B1) & (I2 & B2) & _). split; [exact I2|]. split; [exact I1|]. auto.
  - exfalso. destruct (spread_differ _ (SP px (or_introl eq_refl))) as (u & v & U & V & L). destruct e; try exact H.
    + destruct H as (_ & ax & A & N). apply N, spread_differ, SP, A.
    + destruct ps as [|p [|q r]]; [destruct U| |cbn [length] in H; lia]. destruct U as [<-|[]], V as [<-|[]]. destruct (SP px (or_introl eq_refl)) as (D & _).
      destruct (D (px p) (or_introl eq_refl)) as [DD FF]. apply flt_val in L; auto. lra.
  - destruct H.
Qed.
Lemma never_fails dbg bits (ps : list (pt3 F64)) : bits = 8%N \/ bits = 16%N \/ bits = 32%N -> (Z.of_nat (length ps) < 2 ^ 31)%Z ->
  (forall ax, axis3 ax -> spread (map ax ps)) -> exists c, compress F64C dbg bits ps = Ok c /\ length (decompress c) = length ps.
Proof.
  intros B LE SP. destruct (spread_box dbg ps LE SP) as (b & E & BD).
  assert (AX : forall ax p, axis3 ax -> In p ps -> exists n, f64_to_uint bits ((ax p - ax (min3 b)) / (nabs (ax (max3 b) - ax (min3 b)) / max_uint bits))%num = Some n).
  { intros ax p A I. destruct (BD ax A) as (I1 & I2 & BB). destruct (spread_range _ _ _ (SP ax A) I2 I1 BB) as (D1 & D2 & F1 & F2 & F3 & G).
    destruct (SP ax A) as (D & _). pose proof (in_map ax _ _ I) as J. destruct (D _ J) as [DP FP]. destruct (BB _ J). apply axis_F; assumption. }
  assert (PX : axis3 (@px F64)) by (left; reflexivity). assert (PY : axis3 (@py F64)) by (right; left; reflexivity). assert (PZ : axis3 (@pz F64)) by (right; right; reflexivity).
  destruct (points_ok F64C bits (min3 b) (nabs (px (max3 b) - px (min3 b)) / max_uint bits)%num (nabs (py (max3 b) - py (min3 b)) / max_uint bits)%num (nabs (pz (max3 b) - pz (min3 b)) / max_uint bits)%num ps) as (l & EL & FL).
  { intros p I. destruct (AX px p PX I) as (x & HX), (AX py p PY I) as (y & HY), (AX pz p PZ I) as (z & HZ). exists x, y, z. auto. }
  eexists. unfold compress. rewrite E, EL. split; [reflexivity|]. unfold decompress. rewrite map_length. cbn [cc_data]. clear -FL. induction FL; cbn [length]; auto.
Qed.
Lemma always_fails_64 dbg (ps : list (pt3 F64)) : (Z.of_nat (length ps) < 2 ^ 31)%Z -> (forall ax, axis3 ax -> spread (map ax ps)) -> compress F64C dbg 64 ps = Err NumberConversionError.
Proof.
  intros LE SP. destruct (spread_box dbg ps LE SP) as (b & E & BD). unfold compress. rewrite E.
  assert (A : axis3 (@px F64)) by (left; reflexivity). destruct (BD px A) as (I1 & I2 & BB). destruct (spread_range _ _ _ (SP px A) I2 I1 BB) as (D1 & D2 & F1 & F2 & F3 & G).
  apply in_map_iff in I1. destruct I1 as (p & EP & I). erewrite points_bad; [reflexivity|exact I|]. rewrite EP. change (to_uint F64C) with f64_to_uint. apply axis_64; assumption.
Qed.
