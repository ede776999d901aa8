From Verif Require Import Base Num NumLemmas GeomSpec FloatLemmas BBoxLemmas VecModel WrapModel VecSpec VecLemmas AngleModel AngleSpec.
From Coq Require Import Floats.SpecFloat Reals Lra Psatz Lia.

(** ** doubles: sums of squares *)
Definition pos_float (x : T F64) : Prop :=
  match x with S754_zero s | S754_infinity s | S754_finite s _ _ => s = false | S754_nan => False end.
Lemma round_aux_pos m e l : (0 <= m)%Z -> pos_float (binary_round_aux f64_prec f64_emax false m e l).
Proof.
  intro H. unfold binary_round_aux.
  pose proof (shr_fexp_nonneg m e l H) as H1. destruct (shr_fexp f64_prec f64_emax m e l) as [r1 e1]. cbn [fst] in H1.
  pose proof (shr_fexp_nonneg (round_nearest_even (shr_m r1) (loc_of_shr_record r1)) e1 loc_Exact (round_ne_nonneg _ _ H1)) as H2.
  destruct (shr_fexp f64_prec f64_emax _ _ _) as [r2 e2]. cbn [fst] in H2.
  destruct (shr_m r2); [reflexivity| |lia]. destruct (Zle_bool e2 _); reflexivity.
Qed.
Lemma round_pos m e : pos_float (binary_round f64_prec f64_emax false m e).
Proof. unfold binary_round. destruct (shl_align _ _ _) as [mz ez]. apply round_aux_pos. lia. Qed.
Lemma normalize_pos m e : (0 <= m)%Z -> pos_float (binary_normalize f64_prec f64_emax m e false).
Proof. destruct m; cbn [binary_normalize]; intros H; [reflexivity|apply round_pos|lia]. Qed.
Lemma nsq_pos (x : T F64) : number x -> pos_float (nsq x).
Proof.
  unfold number, nsq. destruct x as [[]|[]| |[] m e]; intros H; try reflexivity; try congruence; cbn -[binary_round_aux];
    apply round_aux_pos; lia.
Qed.
Lemma nsq_nan : nsq (S754_nan : T F64) = S754_nan. Proof. reflexivity. Qed.
Lemma add_pos (x y : T F64) : pos_float x -> pos_float y -> pos_float (nadd x y).
Proof.
  destruct x as [s|s| |s m e], y as [s'|s'| |s' m' e']; cbn [pos_float]; intros A B; try contradiction; subst; try reflexivity.
  cbn -[binary_normalize shl_align Z.add]. apply normalize_pos. 
  cbn [cond_Zopp]. lia.
Qed.
Lemma sqrt_pos_float (x : T F64) : pos_float x -> pos_float (nsqrt x).
Proof.
  destruct x as [s|s| |s m e]; cbn [pos_float]; intros A; try contradiction; subst; try reflexivity.
  cbn -[SFsqrt_core_binary binary_round_aux].
  assert (X : (0 <= fst (fst (SFsqrt_core_binary f64_prec f64_emax (Z.pos m) e)))%Z).
  { unfold SFsqrt_core_binary. match goal with |- context [Z.sqrtrem ?a] => pose proof (Z.sqrtrem_spec a) as Q; pose proof (Z.sqrt_nonneg a) as Q2;
      rewrite <- Z.sqrtrem_sqrt in Q2; destruct (Z.sqrtrem a) as [q r] end. exact Q2. }
  destruct (SFsqrt_core_binary f64_prec f64_emax (Z.pos m) e) as [[mz ez] lz]. apply round_aux_pos, X.
Qed.
Lemma pos_float_nonneg (x : T F64) : pos_float x -> nonneg_new x = Some x.
Proof. destruct x as [s|s| |s m e]; cbn [pos_float]; intros A; try contradiction; subst; reflexivity. Qed.
Definition numbers3 (a : pt3 F64) : Prop := number (px a) /\ number (py a) /\ number (pz a).
Lemma abs3_num (a : pt3 F64) : numbers3 a -> exists l, abs3 a = Ok l /\ pos_float l.
Proof.
  intros (A & B & C). exists (nsqrt (nadd (nadd (nsq (px a)) (nsq (py a))) (nsq (pz a)))).
  assert (P : pos_float (nsqrt (nadd (nadd (nsq (px a)) (nsq (py a))) (nsq (pz a)))))
    by (apply sqrt_pos_float, add_pos; [apply add_pos|]; apply nsq_pos; assumption).
  split; [|exact P]. unfold abs3. rewrite (pos_float_nonneg _ P). reflexivity.
Qed.
Lemma add_nan_l (x : T F64) : nadd (S754_nan : T F64) x = S754_nan.
Proof. destruct x; reflexivity. Qed.
Lemma add_nan_r (x : T F64) : nadd x (S754_nan : T F64) = S754_nan.
Proof. destruct x; reflexivity. Qed.
Lemma abs3_nan (a : pt3 F64) : ~ numbers3 a -> abs3 a = Panic.
Proof.
  intros H. destruct a as [x y z]. unfold numbers3, number in H. cbn [px py pz] in H.
  unfold abs3. cbn [px py pz].
  assert (D : x = S754_nan \/ y = S754_nan \/ z = S754_nan).
  { destruct x, y, z; auto; exfalso; apply H; repeat split; discriminate. }
  destruct D as [-> |[-> | ->]]; rewrite nsq_nan, ?add_nan_l, ?add_nan_r, ?add_nan_l; reflexivity.
Qed.

Local Open Scope R_scope.
(** ** the reals *)
Lemma cauchy3 a b : Rabs (rdot3 a b) <= sqrt (rsq3 a) * sqrt (rsq3 b).
Proof.
  rewrite <- sqrt_mult by apply rsq3_nonneg. rewrite <- (sqrt_Rsqr_abs (rdot3 a b)). apply sqrt_le_1_alt.
  unfold Rsqr, rsq3, rdot3. destruct a as [a1 a2 a3], b as [b1 b2 b3]. cbn [px py pz].
  pose proof (Rle_0_sqr (a1*b2 - a2*b1)). pose proof (Rle_0_sqr (a1*b3 - a3*b1)). pose proof (Rle_0_sqr (a2*b3 - a3*b2)).
  unfold Rsqr in *. cbn in *. nra.
Qed.
Lemma rad_to3_R (an : Angles RN) (a b : pt3 RN) : rad_to3 an a b =
  if Req_EM_T (rsq3 a) 0 then Err CantCalculateAngleIfZeroLength else
  if Req_EM_T (rsq3 b) 0 then Err CantCalculateAngleIfZeroLength else
  Ok (nacos an (rdot3 a b / (sqrt (rsq3 a) * sqrt (rsq3 b)) : T RN)).
Proof.
  unfold rad_to3. rewrite !abs3_R. cbn [obind]. pose proof (rsq3_nonneg a). pose proof (rsq3_nonneg b).
  assert (Z : forall x, 0 <= x -> ((sqrt x : T RN) == n0)%num = if Req_EM_T x 0 then true else false).
  { intros x X. destruct (R_eqb_spec (sqrt x) (@n0 RN)) as [E|E]; rewrite R_n0 in E; destruct (Req_EM_T x 0) as [D|D]; auto.
    - exfalso. apply D. apply sqrt_eq_0; assumption.
    - exfalso. apply E. rewrite D. apply sqrt_0. }
  rewrite Z by assumption. destruct (Req_EM_T (rsq3 a) 0); [reflexivity|].
  rewrite Z by assumption. destruct (Req_EM_T (rsq3 b) 0); reflexivity.
Qed.
Lemma quotient_range a b : rsq3 a <> 0 -> rsq3 b <> 0 -> -1 <= rdot3 a b / (sqrt (rsq3 a) * sqrt (rsq3 b)) <= 1.
Proof.
  intros A B. pose proof (rsq3_nonneg a). pose proof (rsq3_nonneg b).
  assert (Pa : 0 < sqrt (rsq3 a)) by (apply sqrt_lt_R0; lra). assert (Pb : 0 < sqrt (rsq3 b)) by (apply sqrt_lt_R0; lra).
  pose proof (cauchy3 a b) as C. assert (P : 0 < sqrt (rsq3 a) * sqrt (rsq3 b)) by (apply Rmult_lt_0_compat; assumption).
  set (d := sqrt (rsq3 a) * sqrt (rsq3 b)) in *. pose proof (Rle_abs (rdot3 a b)). pose proof (Rle_abs (- rdot3 a b)) as Q. rewrite Rabs_Ropp in Q.
  split.
  - apply Rmult_le_reg_r with d; [exact P|]. unfold Rdiv. rewrite Rmult_assoc, Rinv_l by lra. lra.
  - apply Rmult_le_reg_r with d; [exact P|]. unfold Rdiv. rewrite Rmult_assoc, Rinv_l by lra. lra.
Qed.
Lemma rad_to3_angle (an : Angles RN) a b : exact_acos (nacos an) -> rsq3 a <> 0 -> rsq3 b <> 0 ->
  exists t, rad_to3 an a b = Ok (t : T RN) /\ angle_between a b t.
Proof.
  intros L A B. rewrite rad_to3_R. destruct (Req_EM_T (rsq3 a) 0); [contradiction|]. destruct (Req_EM_T (rsq3 b) 0); [contradiction|].
  destruct (L _ (quotient_range a b A B)) as [H1 H2]. eexists; split; [reflexivity|]. split; [exact H1|]. rewrite H2.
  pose proof (rsq3_nonneg a). pose proof (rsq3_nonneg b).
  assert (Pa : 0 < sqrt (rsq3 a)) by (apply sqrt_lt_R0; lra). assert (Pb : 0 < sqrt (rsq3 b)) by (apply sqrt_lt_R0; lra).
  field. lra.
Qed.
Lemma angle_unique a b t u : rsq3 a <> 0 -> rsq3 b <> 0 -> angle_between a b t -> angle_between a b u -> t = u.
Proof.
  intros A B [T1 T2] [U1 U2]. pose proof (rsq3_nonneg a). pose proof (rsq3_nonneg b).
  assert (Pa : 0 < sqrt (rsq3 a)) by (apply sqrt_lt_R0; lra). assert (Pb : 0 < sqrt (rsq3 b)) by (apply sqrt_lt_R0; lra).
  assert (P : 0 < sqrt (rsq3 a) * sqrt (rsq3 b)) by (apply Rmult_lt_0_compat; assumption).
  apply cos_inj; try assumption. apply Rmult_eq_reg_l with (sqrt (rsq3 a) * sqrt (rsq3 b)); lra.
Qed.
Lemma angle_sym a b t : angle_between a b t -> angle_between b a t.
Proof. intros [A B]. split; [exact A|]. rewrite (Rmult_comm (sqrt (rsq3 b))), B. unfold rdot3. cbn. ring. Qed.
Lemma rsq3_times k a : rsq3 (times3 k a) = k * k * rsq3 a.
Proof. unfold rsq3, rdot3, times3. cbn. ring. Qed.
Lemma rdot3_times k a b : rdot3 (times3 k a) b = k * rdot3 a b.
Proof. unfold rdot3, times3. cbn. ring. Qed.
Lemma sqrt_times k a : sqrt (rsq3 (times3 k a)) = Rabs k * sqrt (rsq3 a).
Proof. rewrite rsq3_times, sqrt_mult by (try apply rsq3_nonneg; nra). f_equal. apply sqrt_Rsqr_abs. Qed.
Lemma angle_scale k a b t : 0 < k -> angle_between a b t -> angle_between (times3 k a) b t.
Proof.
  intros K [A B]. split; [exact A|]. rewrite sqrt_times, rdot3_times, <- B, Rabs_pos_eq by lra. ring.
Qed.
Lemma angle_flip k a b t : k < 0 -> angle_between a b t -> angle_between (times3 k a) b (PI - t).
Proof.
  intros K [A B]. split; [lra|]. rewrite sqrt_times, rdot3_times, <- B, Rabs_left by lra. rewrite Rtrigo_facts.cos_pi_minus. ring.
Qed.

Lemma exact_acos_acos : exact_acos acos.
Proof. intros x X. split; [apply acos_bound|apply cos_acos; lra]. Qed.

(** ** the filter in 3D *)
Lemma sqrt_1_unit a : rsq3 a = 1 -> sqrt (rsq3 a) = 1.
Proof. intros ->. apply sqrt_1. Qed.
Lemma dfilter3_R (an : Angles RN) (f : @dfilter3 RN) (p n : pt3 RN) : exact_acos (nacos an) -> rsq3 (field3 f p) = 1 -> rsq3 n = 1 ->
  exists b, dfilter3_allowed an f (p, n) = Ok b /\
    (b = true <-> exists t, angle_between (field3 f p) n t /\ t <= tol3 f).
Proof.
  intros L A B. destruct (rad_to3_angle an (field3 f p) n L) as [t [E T]]; try lra.
  unfold dfilter3_allowed. cbn [fst snd]. rewrite E. eexists; split; [reflexivity|]. rewrite R_leb. split.
  - intros H. exists t. auto.
  - intros (u & U1 & U2). rewrite (angle_unique (field3 f p) n t u); auto; lra.
Qed.
Lemma dfilter3_dot (an : Angles RN) (f : @dfilter3 RN) (p n : pt3 RN) : exact_acos (nacos an) -> rsq3 (field3 f p) = 1 -> rsq3 n = 1 ->
  0 <= tol3 f <= PI ->
  exists b, dfilter3_allowed an f (p, n) = Ok b /\ (b = true <-> cos (tol3 f) <= rdot3 (field3 f p) n).
Proof.
  intros L A B E. destruct (dfilter3_R an f p n L A B) as (b & H & I). exists b. split; [exact H|]. rewrite I.
  destruct (rad_to3_angle an (field3 f p) n L) as (t & _ & T); try lra. split.
  - intros (u & [U1 U2] & U3). rewrite !sqrt_1_unit in U2 by assumption. rewrite <- U2.
    destruct (Req_dec u (tol3 f)) as [-> |N]; [lra|]. pose proof (cos_decreasing_1 u (tol3 f)). lra.
  - intros D. exists t. split; [exact T|]. destruct T as [T1 T2]. rewrite !sqrt_1_unit in T2 by assumption.
    destruct (Rle_lt_dec t (tol3 f)) as [|Q]; [assumption|]. pose proof (cos_decreasing_1 (tol3 f) t). lra.
Qed.

(** ** two dimensions *)
Lemma polar_unique x y t u : x <> 0 \/ y <> 0 -> polar_angle x y t -> polar_angle x y u -> t = u.
Proof.
  intros N (T1 & T2 & T3) (U1 & U2 & U3).
  assert (P : 0 < sqrt (x * x + y * y)) by (apply sqrt_lt_R0; destruct N; nra).
  set (r := sqrt (x * x + y * y)) in *.
  assert (C : cos t = cos u) by (apply Rmult_eq_reg_l with r; lra).
  assert (D : sin t = sin u) by (apply Rmult_eq_reg_l with r; lra).
  assert (Q : cos (t - u) = 1). { rewrite cos_minus, C, D. pose proof (sin2_cos2 u). unfold Rsqr in *. lra. }
  assert (E : forall d, 0 <= d < 2 * PI -> cos d = 1 -> d = 0).
  { intros d Hd Hc. destruct (Rle_lt_dec d PI) as [L|L].
    - apply cos_inj; try lra. rewrite cos_0. exact Hc.
    - exfalso. assert (PI < d < 2 * PI) by lra. assert (cos d < 1); [|lra].
      replace d with (2 * PI - (2 * PI - d)) by ring. rewrite cos_minus, cos_2PI, sin_2PI.
      rewrite <- cos_0 at 2. pose proof (cos_decreasing_1 0 (2 * PI - d)). lra. }
  destruct (Rle_lt_dec u t) as [L|L].
  - assert (t - u = 0) by (apply E; lra). lra.
  - assert (u - t = 0); [apply E; [lra|]|lra]. rewrite <- Q. rewrite <- cos_neg. f_equal. ring.
Qed.
Lemma polar_up x y t : polar_angle x y t -> 0 < y -> 0 < t < PI.
Proof.
  intros ([A B] & _ & C) Y. assert (P : 0 <= sqrt (x * x + y * y)) by apply sqrt_pos.
  assert (S1 : 0 < sin t). { destruct (Rle_lt_dec (sin t) 0); [exfalso; nra|assumption]. }
  destruct (Rle_lt_dec t 0) as [N|N].
  - exfalso. assert (0 <= sin (- t)) by (apply sin_ge_0; lra). rewrite sin_neg in *. lra.
  - split; [exact N|]. destruct B as [B| ->]; [exact B|]. rewrite sin_PI in S1. lra.
Qed.
Lemma polar_down x y t : polar_angle x y t -> y < 0 -> t < 0.
Proof.
  intros ([A B] & _ & C) Y. assert (P : 0 <= sqrt (x * x + y * y)) by apply sqrt_pos.
  destruct (Rlt_le_dec t 0) as [N|N]; [exact N|]. exfalso. assert (0 <= sin t) by (apply sin_ge_0; lra). nra.
Qed.
Lemma polar_left x y t : polar_angle x y t -> x < 0 -> 0 <= y -> PI / 2 < t.
Proof.
  intros H X Y. pose proof H as ([A B] & C & D). assert (P : 0 <= sqrt (x * x + y * y)) by apply sqrt_pos.
  destruct (Rlt_le_dec (PI / 2) t) as [N|N]; [exact N|]. exfalso.
  destruct (Rle_lt_dec (- (PI / 2)) t) as [M|M].
  - assert (0 <= cos t) by (apply cos_ge_0; lra). nra.
  - assert (sin (- t) > 0) by (apply sin_gt_0; lra). rewrite sin_neg in *.
    assert (0 < sqrt (x * x + y * y)) by (apply sqrt_lt_R0; nra). nra.
Qed.
Lemma polar_sq x y c s : s * x = y * c -> s * s + c * c = 1 -> (x * x + y * y) * (c * c) = x * x.
Proof.
  intros I U. transitivity (x * x * (c * c) + (y * c) * (y * c)); [ring|]. rewrite <- I.
  transitivity (x * x * (s * s + c * c)); [ring|rewrite U; ring].
Qed.
Lemma sq_inj_pos a b : 0 < a -> 0 < b -> a * a = b * b -> a = b.
Proof. intros. apply Rsqr_inj; unfold Rsqr; lra. Qed.
Lemma exact_atan2_R : exact_atan2 atan2_R.
Proof.
  split.
  - unfold atan2_R. repeat destruct (Rlt_dec _ _); try lra. 
  - intros x y N. assert (P : 0 < x * x + y * y) by (destruct N; nra).
    pose proof PI_RGT_0 as Pi. set (r := sqrt (x * x + y * y)).
    assert (Q : 0 < r) by (apply sqrt_lt_R0, P). assert (Sq : r * r = x * x + y * y) by (apply sqrt_sqrt; lra).
    assert (K : x <> 0 -> exists c s, cos (atan (y / x)) = c /\ sin (atan (y / x)) = s /\ 0 < c /\ s * x = y * c /\ s * s + c * c = 1).
    { intros X. exists (cos (atan (y / x))), (sin (atan (y / x))). repeat split.
      - destruct (atan_bound (y / x)). apply cos_gt_0; lra.
      - destruct (atan_bound (y / x)). assert (C : 0 < cos (atan (y / x))) by (apply cos_gt_0; lra).
        pose proof (tan_atan (y / x)) as Tn. unfold tan in Tn. apply (f_equal (fun z => z * (cos (atan (y / x)) * x))) in Tn.
        replace (sin (atan (y / x)) / cos (atan (y / x)) * (cos (atan (y / x)) * x)) with (sin (atan (y / x)) * x) in Tn by (field; lra).
        rewrite Tn. field. exact X.
      - pose proof (sin2_cos2 (atan (y / x))) as U. unfold Rsqr in U. exact U. }
    unfold polar_angle. fold r. unfold atan2_R.
    destruct (Rlt_dec 0 x) as [X|X]; [|destruct (Rlt_dec x 0) as [X'|X']; [destruct (Rle_dec 0 y) as [Y|Y]|]].
    + destruct K as (c & s & Ec & Es & C & I & U); [lra|]. destruct (atan_bound (y / x)). split; [lra|]. rewrite Ec, Es.
      assert (r * c = x).
      { assert ((r * c) * (r * c) = x * x) by (replace ((r*c)*(r*c)) with (r * r * (c * c)) by ring; rewrite Sq; apply polar_sq with s; assumption).
        assert (0 < r * c) by (apply Rmult_lt_0_compat; lra). apply sq_inj_pos; lra. }
      split; [lra|]. apply Rmult_eq_reg_r with c; [|lra]. rewrite <- I. nra.
    + destruct K as (c & s & Ec & Es & C & I & U); [lra|]. destruct (atan_bound (y / x)).
      assert (r * c = - x).
      { assert ((r * c) * (r * c) = x * x) by (replace ((r*c)*(r*c)) with (r * r * (c * c)) by ring; rewrite Sq; apply polar_sq with s; assumption).
        assert (0 < r * c) by (apply Rmult_lt_0_compat; lra). apply sq_inj_pos; lra. }
      assert (atan (y / x) <= 0).
      { rewrite <- atan_0. destruct (Req_dec y 0) as [-> |]; [unfold Rdiv; rewrite Rmult_0_l; lra|]. left. apply atan_increasing.
        assert (0 < y * / - x) by (apply Rmult_lt_0_compat; [lra|apply Rinv_0_lt_compat; lra]). unfold Rdiv.
        rewrite Rinv_opp in *. nra. }
      split; [lra|]. rewrite neg_cos, neg_sin, Ec, Es. split; [lra|]. apply Rmult_eq_reg_r with c; [|lra]. rewrite <- I. nra.
    + destruct K as (c & s & Ec & Es & C & I & U); [lra|]. destruct (atan_bound (y / x)).
      assert (r * c = - x).
      { assert ((r * c) * (r * c) = x * x) by (replace ((r*c)*(r*c)) with (r * r * (c * c)) by ring; rewrite Sq; apply polar_sq with s; assumption).
        assert (0 < r * c) by (apply Rmult_lt_0_compat; lra). apply sq_inj_pos; lra. }
      assert (0 < atan (y / x)).
      { rewrite <- atan_0. apply atan_increasing.
        assert (0 < - y * / - x) by (apply Rmult_lt_0_compat; [lra|apply Rinv_0_lt_compat; lra]). unfold Rdiv.
        rewrite Rinv_opp in *. nra. }
      split; [lra|]. replace (atan (y / x) - PI) with (atan (y / x) + PI - 2 * PI) by ring.
      rewrite cos_minus, sin_minus, cos_2PI, sin_2PI, neg_cos, neg_sin, Ec, Es. split; [lra|]. apply Rmult_eq_reg_r with c; [|lra]. rewrite <- ?I. nra.
    + assert (x = 0) by lra. subst x. assert (Y : y <> 0) by (destruct N; lra).
      assert (r = Rabs y). { unfold r. replace (0 * 0 + y * y) with (Rsqr y) by (unfold Rsqr; ring). apply sqrt_Rsqr_abs. }
      destruct (Rlt_dec 0 y) as [Y1|Y1].
      * rewrite cos_PI2, sin_PI2. rewrite Rabs_pos_eq in * by lra. lra.
      * destruct (Rlt_dec y 0) as [Y2|Y2]; [|lra]. rewrite cos_neg, sin_neg, cos_PI2, sin_PI2. rewrite Rabs_left in * by lra. lra.
Qed.
Lemma rad_to2_polar (an : Angles RN) (a b : pt2 RN) : exact_atan2 (natan2 an) ->
  (x2 a = x2 b /\ y2 a = y2 b -> rad_to2 an a b = (0 : R)) /\
  (~ (x2 a = x2 b /\ y2 a = y2 b) -> polar_angle (x2 b - x2 a) (y2 b - y2 a) (rad_to2 an a b)).
Proof.
  intros [Z L]. unfold rad_to2. split.
  - intros [-> ->]. change (natan2 an (y2 b - y2 b) (x2 b - x2 b) = 0). rewrite !Rminus_diag_eq by reflexivity. exact Z.
  - intros N. apply (L (x2 b - x2 a) (y2 b - y2 a)). destruct (Req_dec (x2 b - x2 a) 0); [|auto].
    right. intros E. apply N. cbn in *. lra.
Qed.
Lemma dfilter2_below (an : Angles RN) (f : @dfilter2 RN) (p n : pt2 RN) : exact_atan2 (natan2 an) -> 0 <= tol2 f -> y2 n < y2 (field2 f p) ->
  dfilter2_allowed an f (p, n) = true.
Proof.
  intros L E Y. destruct (rad_to2_polar an (field2 f p) n L) as [_ H]. specialize (H ltac:(cbn in *; lra)).
  unfold dfilter2_allowed. cbn [fst snd]. apply R_leb. apply polar_down in H; cbn in *; lra.
Qed.
Lemma dfilter2_x (an : Angles RN) (f : @dfilter2 RN) (p n : pt2 RN) : exact_atan2 (natan2 an) -> 0 <= tol2 f <= PI / 2 ->
  x2 (field2 f p) = 1 -> y2 (field2 f p) = 0 -> rsq2 n = 1 ->
  dfilter2_allowed an f (p, n) = true <-> y2 n < 0 \/ (x2 n = 1 /\ y2 n = 0).
Proof.
  intros L E X Y U. split.
  - intros H. destruct (Rlt_le_dec (y2 n) 0) as [|P]; [auto|right].
    destruct (Req_dec (x2 n) 1) as [Q|Q].
    + split; [exact Q|]. unfold rsq2, rdot2 in U. rewrite Q in U. cbn in *. nra.
    + exfalso. assert (x2 n < 1). { unfold rsq2, rdot2 in U. cbn in *. nra. }
      destruct (rad_to2_polar an (field2 f p) n L) as [_ K]. rewrite X, Y in K. specialize (K ltac:(intros [? _]; congruence)).
      apply polar_left in K; [|cbn in *; lra|cbn in *; lra]. unfold dfilter2_allowed in H. cbn [fst snd] in H. apply R_leb in H. lra.
  - intros [H|[H1 H2]].
    + apply dfilter2_below; auto; [lra|]. rewrite Y. exact H.
    + destruct (rad_to2_polar an (field2 f p) n L) as [K _]. unfold dfilter2_allowed. cbn [fst snd]. apply R_leb. rewrite K; [lra|].
      rewrite X, Y, H1, H2. auto.
Qed.
