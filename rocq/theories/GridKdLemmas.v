(** Searching a KdTree of grid points is exact. *)
From Verif Require Import Base BaseLemmas Num NumLemmas SortSpec SortLemmas BBoxModel GeomSpec FloatSpec FloatLemmas FloatBridge RootLemmas DistSpec DistLemmas DistLemmas2 DistLemmas3 CloudModel CloudLemmas KdModel KdSpec KdLemmas KdProps BoxDistLemmas GridSpec GridLemmas GridHullLemmas.
From Coq Require Import Floats.SpecFloat Reals Lra Lia Psatz.
From Flocq Require Import Core.
Local Open Scope R_scope.

Lemma gr_abs e x a : gr e x a -> gr e (nabs x) (Z.abs a).
Proof.
  intros [[DX FX] VX]. split; [split; [apply double_abs, DX|apply finite_abs, FX]|].
  rewrite fval_abs, VX, Rabs_mult, <- abs_IZR, (Rabs_pos_eq (bp e)) by apply Rlt_le, bp_pos. reflexivity.
Qed.
Lemma gr_half : gr (-1) (nhalf : T F64) 1.
Proof. split; [split; [reflexivity|exact I]|]. change (nhalf : T F64) with (S754_finite false 4503599627370496 (-53) : T F64). cbn [fval]. rewrite bp_powerRZ. change (bp (-53)) with (/ 9007199254740992). change (bp (-1)) with (/ 2). lra. Qed.
Lemma bp2 e : bp (e + e) = bp e * bp e. Proof. apply bpow_plus. Qed.

(** rounded roots compare with grid values as the roots do *)
Lemma root_scale (n e : Z) : (0 <= n)%Z -> sqrt (IZR n * bp (e + e)) = sqrt (IZR n) * bp e.
Proof. intros N. rewrite sqrt_mult by (first [apply (IZR_le 0), N|apply Rlt_le, bp_pos]). rewrite bp2, sqrt_square by (apply Rlt_le, bp_pos). reflexivity. Qed.
Lemma root_cmp (n m e : Z) : (0 <= n)%Z -> (Z.abs m <= 2 ^ 25)%Z -> (-500 <= e <= 480)%Z ->
  (rnd (sqrt (IZR n) * bp e) <= IZR m * bp e <-> sqrt (IZR n) <= IZR m).
Proof.
  intros N M E. pose proof (bp_pos e) as P. split; intros H.
  2:{ rewrite <- (rnd_grid m e) by lia. apply rnd_le, Rmult_le_compat_r; [lra|exact H]. }
  apply Rnot_lt_le. intros L. assert (S0 : 0 <= sqrt (IZR n)) by apply sqrt_pos.
  assert (SQ : sqrt (IZR n) * sqrt (IZR n) = IZR n) by (apply sqrt_sqrt, (IZR_le 0), N).
  assert (R0 : 0 <= rnd (sqrt (IZR n) * bp e)). { rewrite <- (rnd_id 0) by apply generic_format_0. apply rnd_le, Rmult_le_pos; [exact S0|lra]. }
  assert (M0 : (0 <= m)%Z). { apply le_IZR. apply Rmult_le_reg_r with (bp e); [exact P|]. rewrite Rmult_0_l. lra. }
  assert (NM : (m * m + 1 <= n)%Z). { assert ((m * m < n)%Z); [|lia]. apply lt_IZR. rewrite mult_IZR, <- SQ. apply (IZR_le 0) in M0. apply Rmult_le_0_lt_compat; assumption. }
  set (y := IZR (m * 2 ^ 27 + 1) * bp (e - 27)).
  assert (Y : y = (IZR m + / 134217728) * bp e).
  { unfold y. unfold Z.sub. rewrite bpow_plus, plus_IZR, mult_IZR. change (bp (- (27))) with (/ 134217728). change (IZR (2 ^ 27)) with 134217728. field. }
  assert (YL : y <= sqrt (IZR n) * bp e).
  { rewrite Y. apply Rmult_le_compat_r; [lra|]. apply Rsqr_incr_0_var; [|exact S0]. unfold Rsqr. rewrite SQ.
    apply Rle_trans with (IZR (m * m + 1)); [|apply IZR_le, NM]. rewrite plus_IZR, mult_IZR.
    assert (IZR m <= 33554432) by (apply IZR_le; lia). apply (IZR_le 0) in M0. nra. }
  apply rnd_le in YL. unfold y in YL. rewrite rnd_grid in YL by lia. fold y in YL. rewrite Y in YL.
  assert (IZR m * bp e < (IZR m + / 134217728) * bp e) by (apply Rmult_lt_compat_r; lra). lra.
Qed.
Lemma root_strict (n1 n2 e : Z) : (0 <= n1 < n2)%Z -> (n2 <= 3 * 2 ^ 48)%Z -> (-500 <= e <= 480)%Z ->
  rnd (sqrt (IZR n1) * bp e) < rnd (sqrt (IZR n2) * bp e).
Proof.
  intros N M E. pose proof (bp_pos e) as P.
  set (a := sqrt (IZR n1)). set (b := sqrt (IZR n2)). assert (A0 : 0 <= a) by apply sqrt_pos. assert (B0 : 0 <= b) by apply sqrt_pos.
  assert (A2 : a * a = IZR n1) by (apply sqrt_sqrt, (IZR_le 0); lia). assert (B2 : b * b = IZR n2) by (apply sqrt_sqrt, (IZR_le 0); lia).
  assert (G : a * a + 1 <= b * b) by (rewrite A2, B2, <- (plus_IZR n1 1); apply IZR_le; lia).
  assert (AB : a < b) by nra. assert (BU : b <= 33554432).
  { apply Rsqr_incr_0_var; [|lra]. unfold Rsqr. rewrite B2. apply Rle_trans with (IZR (3 * 2 ^ 48)); [apply IZR_le, M|]. change (IZR (3 * 2 ^ 48)) with 844424930131968. lra. }
  assert (GAP : / 67108864 <= b - a). { apply Rmult_le_reg_r with (a + b); [lra|]. replace ((b - a) * (a + b)) with (b * b - a * a) by ring. nra. }
  set (u := / 268435456).
  assert (ER : forall c, 0 <= c <= 33554432 -> Rabs (rnd (c * bp e) - c * bp e) <= u * bp e).
  { intros c C. apply Rle_trans with (/ 2 * bp (e - 27)).
    - eapply Rle_trans; [apply (@error_le_half_ulp radix2 (FLT_exp (-1074) 53) valid_exp_f64 (fun z => negb (Z.even z)))|]. apply Rmult_le_compat_l; [lra|].
      eapply Rle_trans; [apply (@ulp_le radix2 (FLT_exp (-1074) 53) valid_exp_f64 _ _ (bp (e + 25)))|].
      + rewrite (Rabs_pos_eq (c * bp e)) by nra. rewrite (Rabs_pos_eq (bp (e + 25))) by apply Rlt_le, bp_pos. rewrite bpow_plus. change (bp 25) with 33554432. nra.
      + rewrite ulp_bpow. unfold FLT_exp. apply bpow_le. lia.
    - unfold Z.sub. rewrite bpow_plus. change (bp (- (27))) with (/ 134217728). unfold u. lra. }
  assert (EA := ER a ltac:(lra)). assert (EB := ER b ltac:(lra)). apply Rabs_le_inv in EA, EB.
  assert (K : a * bp e + 2 * (u * bp e) < b * bp e). { replace (a * bp e + 2 * (u * bp e)) with ((a + 2 * u) * bp e) by ring. apply Rmult_lt_compat_r; [exact P|]. unfold u. lra. }
  lra.
Qed.

Section Kd.
Context (e : Z) (E : (-500 <= e <= 480)%Z).
Lemma sqr_grid p q : grid3 e 23 p -> grid3 e 23 q -> exists n, (0 <= n <= 3 * 2 ^ 48)%Z /\ gr (e + e) (sqr_dist_3d p q) n /\ sqd3 (real3 p) (real3 q) = IZR n * bp (e + e).
Proof.
  intros (PX & PY & PZ) (QX & QY & QZ). apply grid_gr in PX, PY, PZ, QX, QY, QZ.
  destruct PX as (a & A1 & A2), PY as (b & B1 & B2), PZ as (c & C1 & C2), QX as (a' & A1' & A2'), QY as (b' & B1' & B2'), QZ as (c' & C1' & C2').
  change (2 ^ 23)%Z with 8388608%Z in *. assert (P53 : (2 ^ 53 = 9007199254740992)%Z) by reflexivity. assert (P48 : (3 * 2 ^ 48 = 844424930131968)%Z) by reflexivity.
  pose proof (gr_sub e _ _ _ _ A2 A2' ltac:(lia) ltac:(lia)) as D1. pose proof (gr_sub e _ _ _ _ B2 B2' ltac:(lia) ltac:(lia)) as D2. pose proof (gr_sub e _ _ _ _ C2 C2' ltac:(lia) ltac:(lia)) as D3.
  assert (SQ : forall d, (Z.abs d <= 16777216)%Z -> (0 <= d * d <= 281474976710656)%Z) by (intros d Q; nia).
  pose proof (SQ (a - a')%Z ltac:(lia)) as S1. pose proof (SQ (b - b')%Z ltac:(lia)) as S2. pose proof (SQ (c - c')%Z ltac:(lia)) as S3.
  pose proof (gr_mul e e _ _ _ _ D1 D1 ltac:(lia) ltac:(lia)) as M1. pose proof (gr_mul e e _ _ _ _ D2 D2 ltac:(lia) ltac:(lia)) as M2. pose proof (gr_mul e e _ _ _ _ D3 D3 ltac:(lia) ltac:(lia)) as M3.
  pose proof (gr_add (e + e) _ _ _ _ M1 M2 ltac:(lia) ltac:(lia)) as T1. pose proof (gr_add (e + e) _ _ _ _ T1 M3 ltac:(lia) ltac:(lia)) as T2.
  exists ((a - a') * (a - a') + (b - b') * (b - b') + (c - c') * (c - c'))%Z. split; [lia|]. split; [exact T2|].
  unfold sqd3, real3. cbn [px py pz]. rewrite (gr_val _ _ _ A2), (gr_val _ _ _ A2'), (gr_val _ _ _ B2), (gr_val _ _ _ B2'), (gr_val _ _ _ C2), (gr_val _ _ _ C2').
  rewrite bp2, !plus_IZR, !mult_IZR, !minus_IZR. ring.
Qed.
Lemma dist_grid p q : grid3 e 23 p -> grid3 e 23 q -> exists n, (0 <= n <= 3 * 2 ^ 48)%Z /\ fd (dist_3d p q) /\ fval (dist_3d p q) = rnd (sqrt (IZR n) * bp e) /\
  sqrt (sqd3 (real3 p) (real3 q)) = sqrt (IZR n) * bp e /\ sqd3 (real3 p) (real3 q) = IZR n * bp (e + e).
Proof.
  intros P Q. destruct (sqr_grid p q P Q) as (n & N & [[D F] V] & S). exists n. split; [exact N|].
  assert (NN : 0 <= fval (sqr_dist_3d p q)) by (rewrite V; apply Rmult_le_pos; [apply (IZR_le 0); lia|apply Rlt_le, bp_pos]).
  destruct (sqrt_val _ D F NN) as [F1 V1]. split; [split; [apply double_sqrt, D|exact F1]|]. unfold dist_3d. rewrite V1, V, S, root_scale by lia. auto.
Qed.
Lemma ball_grid c r p : grid3 e 23 c -> on_grid e 25 r -> grid3 e 23 p -> nleb (dist_3d c p) r = @nleb RN (dist_3d (real3 c) (real3 p)) (fval r).
Proof.
  intros C R P. destruct (dist_grid c p C P) as (n & N & FD & V & S & _). pose proof (grid_fd _ _ _ R) as FR. apply grid_gr in R. destruct R as (m & M & G).
  rewrite nleb_same by assumption. change (@dist_3d RN (real3 c) (real3 p)) with (sqrt (@sqr_dist_3d RN (real3 c) (real3 p))). rewrite (sqr_dist_R (real3 c) (real3 p)).
  apply eq_true_iff_eq. rewrite !R_leb, S, V, (gr_val _ _ _ G), (root_cmp n m e) by (first [assumption|lia]). pose proof (bp_pos e) as B. split; intros H.
  - apply Rmult_le_compat_r; lra.
  - apply Rmult_le_reg_r with (bp e); assumption.
Qed.
Lemma sum_grid k c r : (k <= 51)%Z -> on_grid e k c -> on_grid e k r -> fd (nadd c r) /\ fval (nadd c r) = fval c + fval r /\ fd (nsub c r) /\ fval (nsub c r) = fval c - fval r.
Proof.
  intros K C R. apply grid_gr in C, R. destruct C as (a & A & GA), R as (b & B & GB). assert (P : (2 ^ k <= 2 ^ 51)%Z) by (apply Z.pow_le_mono_r; lia).
  change (2 ^ 51)%Z with 2251799813685248%Z in P. assert (P53 : (2 ^ 53 = 9007199254740992)%Z) by reflexivity.
  pose proof (gr_add e _ _ _ _ GA GB ltac:(lia) ltac:(lia)) as S. pose proof (gr_sub e _ _ _ _ GA GB ltac:(lia) ltac:(lia)) as D.
  split; [exact (gr_fd _ _ _ S)|]. split; [rewrite (gr_val _ _ _ S), (gr_val _ _ _ GA), (gr_val _ _ _ GB), plus_IZR; ring|].
  split; [exact (gr_fd _ _ _ D)|]. rewrite (gr_val _ _ _ D), (gr_val _ _ _ GA), (gr_val _ _ _ GB), minus_IZR. ring.
Qed.
Lemma grid_wide k l x : (k <= l)%Z -> on_grid e k x -> on_grid e l x.
Proof. intros K (D & F & z & B & V). split; [exact D|]. split; [exact F|]. exists z. split; [|exact V]. eapply Z.le_trans; [exact B|]. apply Z.pow_le_mono_r; lia. Qed.
Lemma dimcmp_same k c p d : grid3 e k c -> grid3 e k p -> dimension_compare c p d = dimension_compare (real3 c) (real3 p) d.
Proof.
  intros (A1 & A2 & A3) (B1 & B2 & B3). unfold dimension_compare. destruct d as [|[[]|[]|]]; try reflexivity; rewrite ncmp_same by (eapply grid_fd; eassumption); reflexivity.
Qed.
Context {P : Type} (pos : P -> pt3 F64).
Definition rpos (p : P) : pt3 RN := real3 (pos p).
Lemma cmp_same k d a b : grid3 e k (pos a) -> grid3 e k (pos b) -> kd_cmp rpos d a b = kd_cmp pos d a b.
Proof.
  intros (A1 & A2 & A3) (B1 & B2 & B3). unfold kd_cmp, cmp_or_eq, rpos. destruct d as [|[[]|[]|]]; try reflexivity; rewrite ncmp_same by (eapply grid_fd; eassumption); reflexivity.
Qed.
Lemma kd_cmp_ok d (l : list P) : cmp_ok (kd_cmp rpos d) l.
Proof.
  assert (K : forall f : P -> T RN, cmp_ok (fun a b => cmp_or_eq (f a) (f b)) l) by (intros f; apply (cmp_preorder RN_laws f), Forall_forall; auto).
  assert (Z : cmp_ok (fun _ _ : P => Eq) l) by (split; [reflexivity|intros; discriminate]).
  destruct d as [|[[]|[]|]]; first [exact (K (fun a => px (rpos a)))|exact (K (fun a => py (rpos a)))|exact (K (fun a => pz (rpos a)))|exact Z].
Qed.
Lemma new_same sort k fuel : sort_ok sort -> forall dim pc, Forall (fun p => grid3 e k (pos p)) pc -> kd_new pos sort fuel dim pc = kd_new rpos sort fuel dim pc.
Proof.
  intros SO. induction fuel as [|f IH]; intros dim pc F; [reflexivity|]. cbn [kd_new].
  assert (S : sort P (kd_cmp pos (dim mod 2)%N) pc = sort P (kd_cmp rpos (dim mod 2)%N) pc).
  { pose proof F as F'. rewrite Forall_forall in F'. assert (C : forall a b, In a pc -> In b pc -> kd_cmp rpos (dim mod 2)%N a b = kd_cmp pos (dim mod 2)%N a b) by (intros a b A B; apply (cmp_same k); apply F'; assumption).
    assert (OK : cmp_ok (kd_cmp pos (dim mod 2)%N) pc) by (apply (cmp_ok_map (fun p => p) _ (kd_cmp rpos (dim mod 2)%N)); [exact C|rewrite map_id; apply kd_cmp_ok]).
    rewrite (sort_unique sort _ _ pc SO OK), (sort_unique sort _ _ pc SO (kd_cmp_ok _ pc)). rewrite <- (map_id (isort P (kd_cmp pos (dim mod 2)%N) pc)), <- (isort_map (fun p => p) _ _ pc C), map_id. reflexivity. }
  destruct pc as [|p [|q r]]; [reflexivity|reflexivity|]. cbv zeta. rewrite <- S.
  assert (G : Forall (fun p => grid3 e k (pos p)) (sort P (kd_cmp pos (dim mod 2)%N) (p :: q :: r))) by (eapply Permutation_Forall; [exact (sort_perm _ SO _ _ _)|exact F]).
  destruct (nth_error _ _); [|reflexivity]. rewrite !IH; [reflexivity| |].
  - rewrite Forall_forall in G |- *. intros x X. apply G. rewrite <- (firstn_skipn (Datatypes.S (Nat.div2 (length (sort P (kd_cmp pos (dim mod 2)%N) (p :: q :: r)))))). apply in_or_app. right. exact X.
  - rewrite Forall_forall in G |- *. intros x X. apply G. rewrite <- (firstn_skipn (Nat.div2 (length (sort P (kd_cmp pos (dim mod 2)%N) (p :: q :: r))))). apply in_or_app. left. exact X.
Qed.
Lemma sphere_same c r t : grid3 e 23 c -> on_grid e 25 r -> Forall (fun p => grid3 e 23 (pos p)) (elems t) -> forall pc,
  kd_in_sphere pos (mksphere c r) t pc = kd_in_sphere rpos (mksphere (real3 c) (fval r)) t pc.
Proof.
  intros C R. induction t as [|l IHl v rt IHr d]; intros F pc; [reflexivity|]. cbn [elems] in F. apply Forall_app in F. destruct F as [FL F]. pose proof (Forall_inv F) as FV. pose proof (Forall_inv_tail F) as FR.
  cbn [kd_in_sphere sph_center sph_radius]. unfold rpos at 1. rewrite (ball_grid c r (pos v) C R FV). destruct (is_none l && is_none rt); [reflexivity|].
  cbv zeta. rewrite (dimcmp_same 23 c (pos v) d C FV). change (rpos v) with (real3 (pos v)).
  set (q := if nleb (dist_3d (real3 c) (real3 (pos v))) (fval r) then pc ++ [v] else pc).
  assert (B : forall cs cv, on_grid e 23 cs -> on_grid e 23 cv -> ngeb (nadd cs r) cv = @ngeb RN (nadd (fval cs : T RN) (fval r)) (fval cv) /\ nleb (nsub cs r) cv = @nleb RN (nsub (fval cs : T RN) (fval r)) (fval cv)).
  { intros cs cv G1 G2. destruct (sum_grid 25 cs r ltac:(lia) (grid_wide 23 25 cs ltac:(lia) G1) R) as (S1 & S2 & S3 & S4). pose proof (grid_fd _ _ _ G2) as FV2.
    rewrite ngeb_same, nleb_same, S2, S4 by assumption. split; reflexivity. }
  destruct C as (C1 & C2 & C3), FV as (V1 & V2 & V3).
  destruct (B _ _ C1 V1) as [X1 X2], (B _ _ C2 V2) as [Y1 Y2], (B _ _ C2 V3) as [Z1 Z2].
  unfold sph_x, sph_y, sph_z. cbn [sph_center sph_radius].
  destruct (dimension_compare (real3 c) (real3 (pos v)) d) as [[]| |]; destruct d as [|[]]; rewrite ?X1, ?X2, ?Y1, ?Y2, ?Z1, ?Z2, ?IHl, ?IHr by assumption; reflexivity.
Qed.
Lemma boxside_same c s p : on_grid e 23 c -> on_grid e 25 s -> on_grid e 23 p ->
  nleb (nabs (nsub c p)) (nmul nhalf s) = @nleb RN (nabs (nsub (fval c : T RN) (fval p))) (nmul (nhalf : T RN) (fval s)) /\
  ngeb (nadd c (nmul nhalf s)) p = @ngeb RN (nadd (fval c : T RN) (nmul (nhalf : T RN) (fval s))) (fval p) /\
  nleb (nsub c (nmul nhalf s)) p = @nleb RN (nsub (fval c : T RN) (nmul (nhalf : T RN) (fval s))) (fval p).
Proof.
  intros C S Q. pose proof (grid_fd _ _ _ Q) as FQ. apply grid_gr in C, S, Q. destruct C as (a & A & GA), S as (s' & B & GS), Q as (q & D & GQ). change (2 ^ 23)%Z with 8388608%Z in *. change (2 ^ 25)%Z with 33554432%Z in *.
  assert (P53 : (2 ^ 53 = 9007199254740992)%Z) by reflexivity.
  pose proof (gr_abs e _ _ (gr_sub e _ _ _ _ GA GQ ltac:(lia) ltac:(lia))) as D1.
  pose proof (gr_mul (-1) e _ _ _ _ gr_half GS ltac:(lia) ltac:(lia)) as M. rewrite Z.mul_1_l in M.
  assert (GA' : gr (-1 + e) c (a * 2)). { destruct GA as [F V]. split; [exact F|]. rewrite V, bpow_plus, mult_IZR. change (bp (-1)) with (/ 2). field. }
  pose proof (gr_add (-1 + e) _ _ _ _ GA' M ltac:(lia) ltac:(lia)) as S1. pose proof (gr_sub (-1 + e) _ _ _ _ GA' M ltac:(lia) ltac:(lia)) as S2.
  assert (H : fval (nmul nhalf s) = (nmul (nhalf : T RN) (fval s : T RN) : R)). { rewrite (gr_val _ _ _ M), (gr_val _ _ _ GS), bpow_plus. change (bp (-1)) with (/ 2). change (nmul (nhalf : T RN) (IZR s' * bp e : T RN)) with ((nhalf : T RN) * (IZR s' * bp e)). rewrite R_nhalf. lra. }
  assert (HV : fval (nmul nhalf s) = IZR s' * bp (-1 + e)) by exact (gr_val _ _ _ M).
  rewrite !nleb_same, ngeb_same by (first [exact FQ|exact (gr_fd _ _ _ D1)|exact (gr_fd _ _ _ S1)|exact (gr_fd _ _ _ S2)|exact (gr_fd _ _ _ M)]). rewrite <- H.
  split; [|split].
  - f_equal. rewrite (gr_val _ _ _ D1). change (@nabs RN (nsub (fval c : T RN) (fval p))) with (Rabs (fval c - fval p)). rewrite (gr_val _ _ _ GA), (gr_val _ _ _ GQ), abs_IZR, minus_IZR, <- Rmult_minus_distr_r, Rabs_mult, (Rabs_pos_eq (bp e)) by apply Rlt_le, bp_pos. reflexivity.
  - f_equal. rewrite (gr_val _ _ _ S1). change (@nadd RN (fval c) (fval (nmul nhalf s))) with (fval c + fval (nmul nhalf s)). rewrite HV, (gr_val _ _ _ GA'), plus_IZR. ring.
  - f_equal. rewrite (gr_val _ _ _ S2). change (@nsub RN (fval c) (fval (nmul nhalf s))) with (fval c - fval (nmul nhalf s)). rewrite HV, (gr_val _ _ _ GA'), minus_IZR. ring.
Qed.
Lemma box_same c sx sy sz t : grid3 e 23 c -> on_grid e 25 sx -> on_grid e 25 sy -> on_grid e 25 sz -> Forall (fun p => grid3 e 23 (pos p)) (elems t) -> forall pc,
  kd_in_box pos (mkbox3d c sx sy sz) t pc = kd_in_box rpos (@mkbox3d RN (real3 c) (fval sx) (fval sy) (fval sz)) t pc.
Proof.
  intros C SX SY SZ. induction t as [|l IHl v rt IHr d]; intros F pc; [reflexivity|]. cbn [elems] in F. apply Forall_app in F. destruct F as [FL F]. pose proof (Forall_inv F) as FV. pose proof (Forall_inv_tail F) as FR.
  cbn [kd_in_box box_center box_sx box_sy box_sz dimension_dist]. rewrite (dimcmp_same 23 c (pos v) d C FV). change (rpos v) with (real3 (pos v)).
  destruct C as (C1 & C2 & C3), FV as (V1 & V2 & V3).
  destruct (boxside_same _ _ _ C1 SX V1) as (X1 & X2 & X3), (boxside_same _ _ _ C2 SY V2) as (Y1 & Y2 & Y3), (boxside_same _ _ _ C3 SZ V3) as (Z1 & Z2 & Z3).
  rewrite X1, Y1, Z1. change (px (real3 ?p)) with (fval (px p)). change (py (real3 ?p)) with (fval (py p)). change (pz (real3 ?p)) with (fval (pz p)).
  match goal with |- context [if ?b then pc ++ [v] else pc] => set (q := if b then pc ++ [v] else pc) end.
  destruct (is_none l && is_none rt); [reflexivity|]. cbv zeta.
  destruct (dimension_compare (real3 c) (real3 (pos v)) d) as [[]| |]; destruct d as [|[]]; rewrite ?X2, ?X3, ?Y2, ?Y3, ?Z2, ?Z3, ?IHl, ?IHr by assumption; reflexivity.
Qed.
End Kd.
