(** Non-negative doubles with infinity as real numbers, and distances in these terms. *)
From Verif Require Import Base Num NumLemmas BBoxModel GeomSpec FloatSpec FloatLemmas FloatBridge RootLemmas DistSpec.
From Coq Require Import Floats.SpecFloat Reals Lra Psatz.
From Flocq Require Import Core Relative Plus_error.
Local Open Scope R_scope.
Local Existing Instance valid_exp_f64.
Local Instance prec53 : Prec_gt_0 53 := eq_refl _.

Definition key (x : T F64) : R := match (x : spec_float) with S754_infinity false => top | _ => fval x end.
Definition nn (x : T F64) : Prop := is_double x /\ ((f_finite x /\ 0 <= fval x) \/ x = S754_infinity false).
Definition rk (r : R) : R := Rmin (rnd r) top.
Lemma top_pos : 0 < top. Proof. apply bpow_gt_0. Qed.
Lemma finite_f x : finite x <-> f_finite x. Proof. destruct x; cbn; tauto. Qed.
Lemma key_fin x : f_finite x -> key x = fval x.
Proof. destruct x as [|[]| |]; cbn; tauto. Qed.
Lemma key_nn x : nn x -> 0 <= key x <= top.
Proof.
  intros [D [[F P]| ->]].
  - rewrite key_fin by exact F. pose proof (fval_bound x D) as B. rewrite Rabs_pos_eq in B by exact P. lra.
  - cbn. pose proof top_pos. lra.
Qed.
Lemma key_fin_lt x : nn x -> f_finite x -> key x < top.
Proof.
  intros [D [[F P]| ->]] H; [|destruct H]. rewrite key_fin by exact F.
  pose proof (fval_bound x D) as B. rewrite Rabs_pos_eq in B by exact P. lra.
Qed.
Lemma ncmp_key x y : nn x -> nn y -> ncmp x y = Some (Rcompare (key x) (key y)).
Proof.
  intros X Y. pose proof X as [DX CX]. pose proof Y as [DY CY].
  destruct CX as [[FX PX]| ->], CY as [[FY PY]| ->].
  - rewrite !key_fin by assumption. apply ncmp_val; assumption.
  - rewrite Rcompare_Lt by (apply (key_fin_lt x X FX)). destruct x as [|[]| |[]]; try destruct FX; reflexivity.
  - rewrite Rcompare_Gt by (apply (key_fin_lt y Y FY)). destruct y as [|[]| |[]]; try destruct FY; reflexivity.
  - rewrite Rcompare_Eq by reflexivity. reflexivity.
Qed.
Lemma fle_key x y : nn x -> nn y -> (fle x y <-> key x <= key y).
Proof.
  intros X Y. unfold fle, SFleb. pose proof (ncmp_key x y X Y) as E. cbn [ncmp F64] in E. rewrite E.
  destruct (Rcompare_spec (key x) (key y)); split; intros; try discriminate; try lra; reflexivity.
Qed.
Lemma flt_key x y : nn x -> nn y -> (flt x y <-> key x < key y).
Proof.
  intros X Y. unfold flt, SFltb. pose proof (ncmp_key x y X Y) as E. cbn [ncmp F64] in E. rewrite E.
  destruct (Rcompare_spec (key x) (key y)); split; intros; try discriminate; try lra; reflexivity.
Qed.
Lemma rk_le a b : a <= b -> rk a <= rk b.
Proof. intros H. unfold rk. apply Rle_min_compat_r, rnd_le, H. Qed.
Lemma rk_top : rk top = top.
Proof. unfold rk. rewrite rnd_id by (apply fmt_bpow; lia). apply Rmin_left. lra. Qed.
Lemma rk_ge_top a : top <= a -> rk a = top.
Proof. intros H. apply Rle_antisym; [apply Rmin_r|]. rewrite <- rk_top. apply rk_le, H. Qed.
Lemma rnd_nonneg a : 0 <= a -> 0 <= rnd a.
Proof. intros H. rewrite <- rnd_0. apply rnd_le, H. Qed.
Lemma key_fmt x : nn x -> fmt (key x).
Proof. intros [D [[F P]| ->]]; [rewrite key_fin by exact F; apply fval_fmt, D|apply fmt_bpow; lia]. Qed.
(** a rounded non-negative result *)
Lemma rounds_nn r z : is_double z -> 0 <= r -> rounds r z -> nn z /\ key z = rk r.
Proof.
  intros D P [(L & F & E)|[(L & ->)|(L & ->)]]; pose proof (rnd_nonneg r P) as Q; pose proof top_pos.
  - rewrite Rabs_pos_eq in L by exact Q. split; [split; [exact D|left; split; [exact F|lra]]|].
    rewrite key_fin by exact F. unfold rk. rewrite Rmin_left by lra. exact E.
  - split; [split; [exact D|right; reflexivity]|]. unfold rk. rewrite Rmin_right by exact L. reflexivity.
  - lra.
Qed.
Lemma add_key x y : nn x -> nn y -> nn (nadd x y) /\ key (nadd x y) = rk (key x + key y).
Proof.
  intros X Y. pose proof X as [DX CX]. pose proof Y as [DY CY].
  destruct CX as [[FX PX]| ->].
  - destruct CY as [[FY PY]| ->].
    + apply rounds_nn; [apply double_add; assumption|rewrite !key_fin by assumption; lra|].
      rewrite !key_fin by assumption. apply add_val; assumption.
    + assert (E : @nadd F64 x (S754_infinity false) = S754_infinity false) by (destruct x as [|[]| |[]]; try destruct FX; reflexivity).
      rewrite E. split; [exact Y|]. rewrite rk_ge_top; [reflexivity|]. pose proof (key_nn x X). cbn [key]. lra.
  - assert (E : @nadd F64 (S754_infinity false) y = S754_infinity false).
    { destruct CY as [[FY PY]| ->]; [destruct y as [|[]| |[]]; try destruct FY|]; reflexivity. }
    rewrite E. split; [exact X|]. rewrite rk_ge_top; [reflexivity|]. pose proof (key_nn y Y). cbn [key]. lra.
Qed.
Lemma sqrt_key x : nn x -> nn (nsqrt x) /\ key (nsqrt x) = (if Rlt_bool (key x) top then rnd (sqrt (key x)) else top).
Proof.
  intros X. pose proof X as [DX CX]. destruct CX as [[FX PX]| ->].
  - rewrite Rlt_bool_true by (apply key_fin_lt; assumption). rewrite (key_fin x) by exact FX.
    destruct (sqrt_val x DX FX PX) as [F E]. rewrite key_fin by exact F. split; [|exact E].
    split; [apply double_sqrt, DX|left]. split; [exact F|]. rewrite E. apply rnd_nonneg, sqrt_pos.
  - cbn [key]. rewrite Rlt_bool_false by lra. split; [|reflexivity]. split; [reflexivity|right; reflexivity].
Qed.
Lemma sqrt_key_mono x y : nn x -> nn y -> key x <= key y -> key (nsqrt x) <= key (nsqrt y).
Proof.
  intros X Y L. destruct (sqrt_key x X) as [NX EX], (sqrt_key y Y) as [NY EY].
  destruct (Rlt_bool_spec (key y) top) as [B|B].
  - rewrite EX, EY, Rlt_bool_true by lra. apply rnd_le, sqrt_le_1_alt, L.
  - rewrite EY. apply (key_nn _ NX).
Qed.
Lemma f_finite_dec x : f_finite x \/ ~ f_finite x.
Proof. destruct x; cbn; auto. Qed.
(** the square of any number *)
Lemma sq_key z : is_double z -> z <> S754_nan -> nn (nabs z) /\ nn (nsq z) /\ key (nsq z) = rk (key (nabs z) * key (nabs z)).
Proof.
  intros D N. destruct (f_finite_dec z) as [F|F].
  - assert (FA : f_finite (nabs z)) by (apply finite_abs, F).
    assert (A : nn (nabs z)).
    { split; [apply double_abs, D|left]. split; [exact FA|]. rewrite fval_abs. apply Rabs_pos. }
    split; [exact A|]. rewrite (key_fin (nabs z)) by exact FA. rewrite fval_abs, <- Rabs_mult.
    rewrite Rabs_pos_eq by nra. apply rounds_nn; [apply double_mul; exact D|nra|apply mul_val; assumption].
  - destruct z as [s|s| |s m e]; try (exfalso; apply F; exact I); [|congruence].
    assert (A : nn (S754_infinity false : T F64)) by (split; [reflexivity|right; reflexivity]).
    split; [exact A|]. assert (E : @nsq F64 (S754_infinity s) = S754_infinity false) by (destruct s; reflexivity).
    rewrite E. split; [exact A|]. cbn [nabs F64 SFabs key]. rewrite rk_ge_top; [reflexivity|].
    pose proof top_pos. assert (1 <= top) by (change 1 with (bpow radix2 0); apply bpow_le; lia). nra.
Qed.
Lemma sub_key x y : is_double x -> is_double y -> f_finite x -> f_finite y ->
  is_double (nsub x y) /\ nsub x y <> S754_nan /\ key (nabs (nsub x y)) = rk (Rabs (fval x - fval y)).
Proof.
  intros X Y FX FY. split; [apply double_sub; assumption|].
  assert (AB : rnd (Rabs (fval x - fval y)) = Rabs (rnd (fval x - fval y))) by (apply round_NE_abs; apply valid_exp_f64).
  unfold rk. rewrite AB. pose proof top_pos.
  destruct (sub_val x y X Y FX FY) as [(L & F & E)|[(L & E)|(L & E)]].
  - split; [intros Q; rewrite Q in F; exact F|]. rewrite key_fin by (apply finite_abs, F). rewrite fval_abs, E.
    rewrite Rmin_left by lra. reflexivity.
  - rewrite E. split; [discriminate|]. rewrite Rmin_right by (rewrite Rabs_pos_eq; lra). reflexivity.
  - rewrite E. split; [discriminate|]. rewrite Rmin_right by (rewrite Rabs_left1; lra). reflexivity.
Qed.
(** the square of the difference of two coordinates *)
Definition sqk (x y : T F64) : R := rk (rk (Rabs (fval x - fval y)) * rk (Rabs (fval x - fval y))).
Lemma sqsub_key x y : is_double x -> is_double y -> f_finite x -> f_finite y ->
  nn (nsq (nsub x y)) /\ key (nsq (nsub x y)) = sqk x y.
Proof.
  intros X Y FX FY. destruct (sub_key x y X Y FX FY) as (D & N & E). destruct (sq_key _ D N) as (_ & B & C).
  split; [exact B|]. rewrite C, E. reflexivity.
Qed.
Lemma rk_nonneg a : 0 <= a -> 0 <= rk a.
Proof. intros H. unfold rk. apply Rmin_glb; [apply rnd_nonneg, H|apply Rlt_le, top_pos]. Qed.
Lemma rk_abs_nonneg a : 0 <= rk (Rabs a). Proof. apply rk_nonneg, Rabs_pos. Qed.
Lemma sqk_nonneg x y : 0 <= sqk x y.
Proof. apply rk_nonneg. pose proof (rk_abs_nonneg (fval x - fval y)). nra. Qed.
Lemma fin3 p : finite3 p -> (is_double (px p) /\ f_finite (px p)) /\ (is_double (py p) /\ f_finite (py p)) /\ (is_double (pz p) /\ f_finite (pz p)).
Proof.
  intros H. pose proof (H px ltac:(unfold axis3; auto)) as A. pose proof (H py ltac:(unfold axis3; auto)) as B. pose proof (H pz ltac:(unfold axis3; auto)) as C.
  rewrite !finite_f in *. auto.
Qed.
Lemma fin2 p : finite2 p -> (is_double (x2 p) /\ f_finite (x2 p)) /\ (is_double (y2 p) /\ f_finite (y2 p)).
Proof.
  intros H. pose proof (H x2 ltac:(unfold axis2; auto)) as A. pose proof (H y2 ltac:(unfold axis2; auto)) as B.
  rewrite !finite_f in *. auto.
Qed.
Lemma sqr_key3 p q : finite3 p -> finite3 q -> nn (sqr_dist_3d p q) /\
  key (sqr_dist_3d p q) = rk (rk (sqk (px p) (px q) + sqk (py p) (py q)) + sqk (pz p) (pz q)).
Proof.
  intros P Q. apply fin3 in P, Q. destruct P as ((? & ?) & (? & ?) & (? & ?)), Q as ((? & ?) & (? & ?) & (? & ?)).
  destruct (sqsub_key (px p) (px q)) as [A1 A2]; try assumption. destruct (sqsub_key (py p) (py q)) as [B1 B2]; try assumption.
  destruct (sqsub_key (pz p) (pz q)) as [C1 C2]; try assumption. unfold sqr_dist_3d.
  destruct (add_key _ _ A1 B1) as [D1 D2]. destruct (add_key _ _ D1 C1) as [E1 E2]. split; [exact E1|]. rewrite E2, D2, A2, B2, C2. reflexivity.
Qed.
Lemma sqr_key2 p q : finite2 p -> finite2 q -> nn (sqr_dist_2d p q) /\
  key (sqr_dist_2d p q) = rk (sqk (x2 p) (x2 q) + sqk (y2 p) (y2 q)).
Proof.
  intros P Q. apply fin2 in P, Q. destruct P as ((? & ?) & (? & ?)), Q as ((? & ?) & (? & ?)).
  destruct (sqsub_key (x2 p) (x2 q)) as [A1 A2]; try assumption. destruct (sqsub_key (y2 p) (y2 q)) as [B1 B2]; try assumption.
  unfold sqr_dist_2d. destruct (add_key _ _ A1 B1) as [D1 D2]. split; [exact D1|]. rewrite D2, A2, B2. reflexivity.
Qed.
(** a summand is at most the rounded sum *)
Lemma rk_fix a : fmt a -> a <= top -> rk a = a.
Proof. intros F L. unfold rk. rewrite rnd_id by exact F. apply Rmin_left, L. Qed.
Lemma rk_fmt a : fmt (rk a).
Proof.
  unfold rk, Rmin. destruct (Rle_dec _ _); [apply generic_format_round; [apply valid_exp_f64|apply valid_rnd_N]|apply fmt_bpow; lia].
Qed.
Lemma rk_le_top a : rk a <= top. Proof. apply Rmin_r. Qed.
Lemma sqk_le a b x y : 0 <= b -> sqk x y <= a -> sqk x y <= rk (a + b).
Proof.
  intros B L. rewrite <- (rk_fix (sqk x y)); [|apply rk_fmt|apply rk_le_top]. apply rk_le. lra.
Qed.
Lemma sqk_le' a b x y : 0 <= b -> sqk x y <= a -> sqk x y <= rk (b + a).
Proof. intros. rewrite Rplus_comm. apply sqk_le; assumption. Qed.
