(** Lemmas about the wrappers and about sizes and centers in IEEE arithmetic. *)
From Verif Require Import Base Num NumLemmas BBoxModel GeomSpec FloatSpec FloatBridge WrapModel.
From Coq Require Import Floats.SpecFloat Reals Lra Lia ZArith.
From Flocq Require Import Core BinarySingleNaN.

Lemma n0_zero : @n0 F64 = S754_zero false. Proof. reflexivity. Qed.
Lemma n2_fin : @n2 F64 = S754_finite false 4503599627370496 (-51). Proof. vmeq. Qed.
Lemma double_n0 : is_double (@n0 F64). Proof. apply double_lit. Qed.
Lemma double_n2 : is_double (@n2 F64). Proof. apply double_lit. Qed.
Lemma fval_n2 : fval (@n2 F64) = 2%R.
Proof. rewrite n2_fin. unfold fval. rewrite <- (bpow_powerRZ radix2). replace (IZR 4503599627370496) with (bpow radix2 52) by (cbn; lra).
  rewrite Rmult_1_l, <- bpow_plus. cbn. lra. Qed.

Lemma pos_iff (x : T F64) : is_double x -> f_finite x -> (flt n0 x <-> (0 < fval x)%R).
Proof. intros D F. rewrite flt_val by (try apply double_n0; try exact I; auto). rewrite n0_zero. cbn. tauto. Qed.
Lemma nn_iff (x : T F64) : is_double x -> f_finite x -> (fle n0 x <-> (0 <= fval x)%R).
Proof. intros D F. rewrite fle_val by (try apply double_n0; try exact I; auto). rewrite n0_zero. cbn. tauto. Qed.
Lemma pos_inf : flt n0 infinity. Proof. reflexivity. Qed.
Lemma nn_inf : fle n0 infinity. Proof. reflexivity. Qed.
Lemma pos_cases (x : T F64) : is_double x -> flt n0 x -> x = infinity \/ (f_finite x /\ (0 < fval x)%R).
Proof.
  intros D P. destruct x as [s|s| |s m e] eqn:E; try discriminate P.
  - destruct s; [discriminate P|left; reflexivity].
  - right. split; [exact I|]. rewrite <- E in *. apply pos_iff; subst; auto. exact I.
Qed.
Lemma nn_cases (x : T F64) : is_double x -> fle n0 x -> x = infinity \/ (f_finite x /\ (0 <= fval x)%R).
Proof.
  intros D P. destruct x as [s|s| |s m e] eqn:E; try discriminate P.
  - right. split; [exact I|cbn; lra].
  - destruct s; [discriminate P|left; reflexivity].
  - right. split; [exact I|]. rewrite <- E in *. apply nn_iff; subst; auto. exact I.
Qed.
Lemma pos_nn (x : T F64) : flt n0 x -> fle n0 x.
Proof. unfold flt, fle, SFltb, SFleb. destruct (SFcompare (@n0 F64) x) as [[]|]; auto; discriminate. Qed.
Lemma top_pos : (0 < top)%R. Proof. apply bpow_gt_0. Qed.

Lemma rounds_pos r z : is_double z -> rounds r z -> (0 < rnd r)%R -> flt n0 z.
Proof.
  intros D [(B & F & V)|[(B & ->)|(B & ->)]] P.
  - apply pos_iff; auto. lra.
  - reflexivity.
  - pose proof top_pos. lra.
Qed.
Lemma rounds_nn r z : is_double z -> rounds r z -> (0 <= rnd r)%R -> fle n0 z.
Proof.
  intros D [(B & F & V)|[(B & ->)|(B & ->)]] P.
  - apply nn_iff; auto. lra.
  - reflexivity.
  - pose proof top_pos. lra.
Qed.
Lemma rnd_nn r : (0 <= r)%R -> (0 <= rnd r)%R. Proof. intros H. rewrite <- rnd_0. apply rnd_le, H. Qed.

Lemma add_inf_r (x : T F64) : f_finite x -> nadd x infinity = infinity.
Proof. destruct x; cbn; try contradiction; auto. Qed.
Lemma add_inf_l (x : T F64) : f_finite x -> nadd infinity x = infinity.
Proof. destruct x; cbn; try contradiction; auto. Qed.
Lemma add_pos_nn (a b : T F64) : is_double a -> is_double b -> flt n0 a -> fle n0 b -> flt n0 (nadd a b).
Proof.
  intros A B PA PB. destruct (pos_cases a A PA) as [->|[FA VA]], (nn_cases b B PB) as [->|[FB VB]].
  - reflexivity.
  - rewrite add_inf_l; auto using pos_inf.
  - rewrite add_inf_r; auto using pos_inf.
  - eapply rounds_pos; [apply double_add; auto|apply add_val; auto|].
    pose proof (rnd_add_pos (fval a) (fval b) (fval_fmt a A) (fval_fmt b B) VA VB). lra.
Qed.
Lemma add_nn_pos (a b : T F64) : is_double a -> is_double b -> fle n0 a -> flt n0 b -> flt n0 (nadd a b).
Proof.
  intros A B PA PB. destruct (nn_cases a A PA) as [->|[FA VA]], (pos_cases b B PB) as [->|[FB VB]].
  - reflexivity.
  - rewrite add_inf_l; auto using pos_inf.
  - rewrite add_inf_r; auto using pos_inf.
  - eapply rounds_pos; [apply double_add; auto|apply add_val; auto|].
    pose proof (rnd_add_pos (fval b) (fval a) (fval_fmt b B) (fval_fmt a A) VB VA). rewrite Rplus_comm. lra.
Qed.
Lemma add_nn_nn (a b : T F64) : is_double a -> is_double b -> fle n0 a -> fle n0 b -> fle n0 (nadd a b).
Proof.
  intros A B PA PB. destruct (nn_cases a A PA) as [->|[FA VA]], (nn_cases b B PB) as [->|[FB VB]].
  - reflexivity.
  - rewrite add_inf_l; auto using nn_inf.
  - rewrite add_inf_r; auto using nn_inf.
  - eapply rounds_nn; [apply double_add; auto|apply add_val; auto|]. apply rnd_nn. lra.
Qed.
Lemma sqrt_pos_f (a : T F64) : is_double a -> flt n0 a -> flt n0 (nsqrt a).
Proof.
  intros A P. destruct (pos_cases a A P) as [->|[FA VA]]; [reflexivity|].
  destruct (sqrt_val a A FA ltac:(lra)) as [F V]. apply pos_iff; auto using double_sqrt. rewrite V.
  destruct (fmt_mult _ (fval_fmt a A)) as [z Ez]. pose proof (bpow_gt_0 radix2 (-1074)).
  assert (Z1 : (1 <= z)%Z). { assert (0 < IZR z)%R by (rewrite Ez in VA; nra). apply (lt_IZR 0) in H0. lia. }
  apply IZR_le in Z1.
  assert (bpow radix2 (-537) <= sqrt (fval a))%R.
  { rewrite <- (sqrt_square (bpow radix2 (-537))) by apply bpow_ge_0. apply sqrt_le_1_alt. rewrite <- bpow_plus.
    change (-537 + -537)%Z with (-1074)%Z. rewrite Ez. nra. }
  apply Rlt_le_trans with (rnd (bpow radix2 (-537))).
  - rewrite rnd_id by (apply fmt_bpow; lia). apply bpow_gt_0.
  - apply rnd_le. auto.
Qed.
Lemma sqrt_nn_f (a : T F64) : is_double a -> fle n0 a -> fle n0 (nsqrt a).
Proof.
  intros A P. destruct (nn_cases a A P) as [->|[FA VA]]; [reflexivity|].
  destruct (sqrt_val a A FA VA) as [F V]. apply nn_iff; auto using double_sqrt. rewrite V. apply rnd_nn, sqrt_pos.
Qed.

Lemma is_zero_val (x : T F64) : is_double x -> f_finite x -> (fval x = 0%R <-> exists s, x = S754_zero s).
Proof.
  intros D F. destruct x as [s|s| |s m e]; try contradiction.
  - split; eauto. 
  - split; [|intros [? ?]; discriminate]. intros E. exfalso. unfold fval in E.
    pose proof (IZR_lt 0 (Zpos m) ltac:(reflexivity)). assert (0 < powerRZ 2 e)%R by (apply powerRZ_lt; lra).
    assert (0 < IZR (Zpos m) * powerRZ 2 e)%R by (apply Rmult_lt_0_compat; auto). destruct s; lra.
Qed.
Lemma feq0_iff (x : T F64) : feq x n0 <-> exists s, x = S754_zero s.
Proof.
  rewrite n0_zero. split.
  - destruct x as [s|s| |s m e]; cbn; intros E; try discriminate; eauto; destruct s; discriminate.
  - intros [s ->]. reflexivity.
Qed.
Lemma mul_pos_inf_r (a : T F64) : f_finite a -> (0 < fval a)%R -> nmul a infinity = infinity.
Proof.
  intros F V. destruct a as [s|s| |s m e]; try contradiction; [cbn in V; lra|]. destruct s; auto. exfalso.
  unfold fval in V. pose proof (IZR_lt 0 (Zpos m) ltac:(reflexivity)). assert (0 < powerRZ 2 e)%R by (apply powerRZ_lt; lra).
  assert (0 < IZR (Zpos m) * powerRZ 2 e)%R by (apply Rmult_lt_0_compat; auto). lra.
Qed.
Lemma mul_comm_f (a b : T F64) : nmul a b = nmul b a.
Proof. destruct a as [s|s| |s m e], b as [t|t| |t n f]; cbn; auto; rewrite ?(Bool.xorb_comm s); auto.
  rewrite (Pos.mul_comm m), (Z.add_comm e). reflexivity. Qed.
Lemma mul_nn_nn (a b : T F64) : is_double a -> is_double b -> fle n0 a -> fle n0 b ->
  (a = infinity -> ~ feq b n0) -> (b = infinity -> ~ feq a n0) -> fle n0 (nmul a b).
Proof.
  intros A B PA PB NA NB. destruct (nn_cases a A PA) as [->|[FA VA]], (nn_cases b B PB) as [->|[FB VB]].
  - reflexivity.
  - rewrite mul_comm_f, mul_pos_inf_r; auto using nn_inf. destruct VB as [|E]; auto.
    exfalso. apply NA; auto. apply feq0_iff. apply is_zero_val; auto.
  - rewrite mul_pos_inf_r; auto using nn_inf. destruct VA as [|E]; auto.
    exfalso. apply NB; auto. apply feq0_iff. apply is_zero_val; auto.
  - eapply rounds_nn; [apply double_mul; auto|apply mul_val; auto|]. apply rnd_nn. nra.
Qed.
Lemma mul_nan (a b : T F64) : is_double a -> is_double b -> fle n0 a -> fle n0 b ->
  (nmul a b = S754_nan <-> (a = infinity /\ feq b n0) \/ (feq a n0 /\ b = infinity)).
Proof.
  intros A B PA PB. split.
  - intros E. destruct (nn_cases a A PA) as [->|[FA VA]], (nn_cases b B PB) as [->|[FB VB]].
    + discriminate.
    + left. split; auto. apply feq0_iff. apply is_zero_val; auto. destruct VB as [L|]; auto.
      rewrite mul_comm_f, mul_pos_inf_r in E by auto. discriminate.
    + right. split; auto. apply feq0_iff. apply is_zero_val; auto. destruct VA as [L|]; auto.
      rewrite mul_pos_inf_r in E by auto. discriminate.
    + destruct (mul_val a b A B FA FB) as [(_ & F & _)|[(_ & X)|(_ & X)]]; rewrite E in *; try discriminate. contradiction.
  - intros [[-> Z]|[Z ->]]; apply feq0_iff in Z as [s ->]; reflexivity.
Qed.
Lemma div_inf_fin (a : T F64) : f_finite a -> (0 < fval a)%R -> ndiv infinity a = infinity.
Proof.
  intros F V. destruct a as [s|s| |s m e]; try contradiction; [cbn in V; lra|]. destruct s; auto. exfalso.
  unfold fval in V. pose proof (IZR_lt 0 (Zpos m) ltac:(reflexivity)). assert (0 < powerRZ 2 e)%R by (apply powerRZ_lt; lra).
  assert (0 < IZR (Zpos m) * powerRZ 2 e)%R by (apply Rmult_lt_0_compat; auto). lra.
Qed.
Lemma div_fin_inf (a : T F64) : f_finite a -> exists s, ndiv a infinity = S754_zero s.
Proof. destruct a; cbn; try contradiction; eauto. Qed.
Lemma div_nn_pos (a b : T F64) : is_double a -> is_double b -> fle n0 a -> flt n0 b ->
  (a = infinity -> b <> infinity) -> fle n0 (ndiv a b).
Proof.
  intros A B PA PB N. destruct (nn_cases a A PA) as [->|[FA VA]], (pos_cases b B PB) as [->|[FB VB]].
  - exfalso. apply N; auto.
  - rewrite div_inf_fin; auto using nn_inf.
  - destruct (div_fin_inf a FA) as [s ->]. reflexivity.
  - eapply rounds_nn; [apply double_div; auto|apply div_val; auto; lra|]. apply rnd_nn.
    apply Rmult_le_pos; auto. apply Rlt_le, Rinv_0_lt_compat, VB.
Qed.
Lemma nonneg_some (x : T F64) : fle n0 x -> nonneg_new x = Some x.
Proof.
  unfold nonneg_new, ngeb, fle, SFleb. cbn [ncmp F64]. destruct x as [s|s| |s m e]; cbn; try discriminate; auto; destruct s; auto; discriminate.
Qed.
Lemma nonneg_none (x : T F64) : ~ fle n0 x -> nonneg_new x = None.
Proof.
  unfold nonneg_new, ngeb, fle, SFleb. cbn [ncmp F64]. destruct x as [s|s| |s m e]; cbn; auto; try (intros H; exfalso; apply H; reflexivity); destruct s; auto;
   intros H; exfalso; apply H; reflexivity.
Qed.
Lemma positive_some (x : T F64) : flt n0 x -> positive_new x = Some x.
Proof.
  unfold positive_new, ngtb, flt, SFltb. cbn [ncmp F64]. destruct x as [s|s| |s m e]; cbn; try discriminate; auto; destruct s; auto; discriminate.
Qed.
Lemma positive_none (x : T F64) : ~ flt n0 x -> positive_new x = None.
Proof.
  unfold positive_new, ngtb, flt, SFltb. cbn [ncmp F64]. destruct x as [s|s| |s m e]; cbn; auto; try (intros H; exfalso; apply H; reflexivity); destruct s; auto;
   intros H; exfalso; apply H; reflexivity.
Qed.

(** ** Sizes and centers *)
Local Instance valid_exp_f64' : Valid_exp (FLT_exp (-1074) 53). Proof. apply FLT_exp_valid. reflexivity. Qed.
Lemma sub_lt_pos (x y : T F64) : is_double x -> is_double y -> flt x y -> flt n0 (nsub y x).
Proof.
  intros X Y L.
  destruct x as [sx|sx| |sx mx ex] eqn:EX, y as [sy|sy| |sy my ey] eqn:EY; try discriminate L;
    try (destruct sx; discriminate L); try (destruct sy; discriminate L);
    try (destruct sx, sy; try discriminate L; reflexivity); try (destruct sx; try discriminate L; reflexivity);
    try (destruct sy; try discriminate L; reflexivity).
  all: rewrite <- EX, <- EY in *.
  all: assert (FX : f_finite x) by (subst; exact I); assert (FY : f_finite y) by (subst; exact I).
  all: apply (flt_val x y X Y FX FY) in L.
  all: eapply rounds_pos; [apply double_sub; auto|apply sub_val; auto|].
  all: pose proof (rnd_sub_pos _ _ (fval_fmt x X) (fval_fmt y Y) L); pose proof (bpow_gt_0 radix2 (-1074)); lra.
Qed.
Lemma abs_of_pos (x : T F64) : flt n0 x -> nabs x = x.
Proof. destruct x as [s|s| |s m e]; cbn; try discriminate; auto; destruct s; auto; discriminate. Qed.
Lemma size_axis (x y : T F64) : is_double x -> is_double y -> flt x y ->
  unwrap (positive_new (nabs (nsub y x))) = Ok (nsub y x) /\ flt n0 (nsub y x).
Proof.
  intros X Y L. pose proof (sub_lt_pos x y X Y L) as P. split; auto. rewrite abs_of_pos, positive_some; auto.
Qed.
Lemma half_le D : (bpow radix2 (-1074) <= D)%R -> (rnd (rnd D / 2) <= D)%R.
Proof.
  intros LD. pose proof (bpow_gt_0 radix2 (-1074)) as P.
  destruct (mag radix2 D) as [e He]. specialize (He ltac:(lra)). rewrite Rabs_pos_eq in He by lra. destruct He as [H1 H2].
  assert (E : (-1074 < e)%Z). { apply (lt_bpow radix2). lra. }
  apply Rle_trans with (rnd (bpow radix2 (e - 1))).
  - apply rnd_le. apply Rle_trans with (bpow radix2 e / 2)%R.
    + apply Rmult_le_compat_r; [lra|]. rewrite <- (rnd_id (bpow radix2 e)) by (apply fmt_bpow; lia). apply rnd_le. lra.
    + right. replace e with ((e - 1) + 1)%Z at 1 by lia. rewrite bpow_plus. change (bpow radix2 1) with 2%R. lra.
  - rewrite rnd_id by (apply fmt_bpow; lia). exact H1.
Qed.
Lemma center_axis (x y : T F64) : is_double x -> is_double y -> f_finite x -> f_finite y -> flt x y -> f_finite (nsub y x) ->
  fle x (nadd x (ndiv (nsub y x) n2)) /\ fle (nadd x (ndiv (nsub y x) n2)) y.
Proof.
  intros X Y FX FY L FD. apply (flt_val x y X Y FX FY) in L.
  pose proof (double_sub y x Y X) as DD.
  assert (VD : fval (nsub y x) = rnd (fval y - fval x)).
  { destruct (sub_val y x Y X FY FX) as [(_ & _ & V)|[(_ & E)|(_ & E)]]; auto; rewrite E in FD; contradiction. }
  pose proof (rnd_sub_pos _ _ (fval_fmt x X) (fval_fmt y Y) L) as P1. pose proof (bpow_gt_0 radix2 (-1074)) as P2.
  assert (F2 : f_finite (@n2 F64)) by (rewrite n2_fin; exact I).
  pose proof (div_val (nsub y x) n2 DD double_n2 FD F2 ltac:(rewrite fval_n2; lra)) as H.
  rewrite fval_n2 in H. set (h := ndiv (nsub y x) n2) in *. assert (DH : is_double h) by (apply double_div; auto using double_n2).
  assert (B1 : (rnd (fval (nsub y x) / 2) <= fval y - fval x)%R).
  { rewrite VD. apply half_le; auto. destruct (fmt_mult _ (fval_fmt x X)) as [a Ea], (fmt_mult _ (fval_fmt y Y)) as [b Eb].
    rewrite Ea, Eb in *. apply Rmult_lt_reg_r in L; auto. apply lt_IZR in L. assert (1 <= b - a)%Z by lia. apply IZR_le in H0.
    rewrite minus_IZR in H0. nra. }
  assert (B0 : (0 <= rnd (fval (nsub y x) / 2))%R) by (apply rnd_nn; rewrite VD; lra).
  assert (BD : (rnd (fval (nsub y x) / 2) <= fval (nsub y x))%R).
  { rewrite <- (rnd_id (fval (nsub y x))) at 2 by (apply fval_fmt; auto). apply rnd_le. rewrite VD. lra. }
  pose proof (fval_bound _ DD) as BT. apply Rabs_def2 in BT.
  assert (HF : f_finite h /\ fval h = rnd (fval (nsub y x) / 2)).
  { destruct H as [(_ & F & V)|[(B & _)|(B & _)]]; auto; exfalso; pose proof top_pos; lra. }
  destruct HF as [FH VH].
  pose proof (add_val x h X DH FX FH) as HA. set (c := nadd x h) in *. assert (DC : is_double c) by (apply double_add; auto).
  assert (C1 : (fval x <= rnd (fval x + fval h))%R) by (rewrite <- (rnd_id (fval x)) at 1 by (apply fval_fmt; auto); apply rnd_le; lra).
  assert (C2 : (rnd (fval x + fval h) <= fval y)%R) by (rewrite <- (rnd_id (fval y)) by (apply fval_fmt; auto); apply rnd_le; lra).
  pose proof (fval_bound _ X) as TX. pose proof (fval_bound _ Y) as TY. apply Rabs_def2 in TX, TY.
  destruct HA as [(_ & F & V)|[(B & _)|(B & _)]]; [|exfalso; lra..].
  split; apply fle_val; auto; lra.
Qed.
Lemma center_axis_iff (x y : T F64) : is_double x -> is_double y -> f_finite x -> f_finite y -> flt x y ->
  (fle x (nadd x (ndiv (nsub y x) n2)) /\ fle (nadd x (ndiv (nsub y x) n2)) y <-> f_finite (nsub y x)).
Proof.
  intros X Y FX FY L. split; [|intros F; apply center_axis; auto].
  intros [_ H]. pose proof (sub_lt_pos x y X Y L) as P.
  destruct (pos_cases _ (double_sub y x Y X) P) as [E|[F _]]; auto. exfalso. rewrite E in H.
  change (ndiv infinity (@n2 F64)) with infinity in H. rewrite add_inf_r in H by auto.
  destruct y as [s|s| |s m e]; try contradiction; try discriminate H; destruct s; discriminate H.
Qed.
