(** Properties of Positive and NonNegative and of box sizes and centers, for all doubles. *)
From Verif Require Import Base Num NumLemmas BBoxModel GeomSpec FloatSpec FloatBridge WrapModel WrapLemmas.
From Coq Require Import Floats.SpecFloat Reals Lra Lia.

(** ** C48: Positive and NonNegative *)
(** `new` accepts exactly the positive (non negative) doubles, NaN is rejected. *)
Theorem C48_new : forall v w : T F64,
  (positive_new v = Some w <-> w = v /\ flt n0 v) /\
  (nonneg_new v = Some w <-> w = v /\ fle n0 v) /\
  positive_new (S754_nan : T F64) = None /\ nonneg_new (S754_nan : T F64) = None.
Proof.
  intros v w. repeat apply conj; try reflexivity.
  - intros H. destruct (SFltb (@n0 F64) v) eqn:E.
    + rewrite (positive_some v E) in H. injection H as <-. auto.
    + rewrite (positive_none v) in H; [discriminate|]. unfold flt. rewrite E. discriminate.
  - intros [-> H]. apply positive_some, H.
  - intros H. destruct (SFleb (@n0 F64) v) eqn:E.
    + rewrite (nonneg_some v E) in H. injection H as <-. auto.
    + rewrite (nonneg_none v) in H; [discriminate|]. unfold fle. rewrite E. discriminate.
  - intros [-> H]. apply nonneg_some, H.
Qed.
Print Assumptions C48_new.

(** Sums and square roots keep what the types promise, for all doubles including infinity. *)
Theorem C48_sums : forall a b c d : T F64, is_double a -> is_double b -> is_double c -> is_double d ->
  flt n0 a -> flt n0 b -> fle n0 c -> fle n0 d ->
  flt n0 (pos_add a b) /\ flt n0 (pos_add_nn a c) /\ flt n0 (nn_add_pos c a) /\ fle n0 (nn_add c d) /\
  flt n0 (pos_sqrt a) /\ fle n0 (nn_sqrt c) /\ fle n0 (nn_from a) /\
  flt n0 (@pos_one F64) /\ fle n0 (@nn_zero F64) /\ fle n0 (@nn_one F64).
Proof.
  intros a b c d A B C D PA PB PC PD. unfold pos_add, pos_add_nn, nn_add_pos, nn_add, pos_sqrt, nn_sqrt, nn_from.
  split; [apply add_pos_nn; auto using pos_nn|]. split; [apply add_pos_nn; auto|]. split; [apply add_nn_pos; auto|].
  split; [apply add_nn_nn; auto|]. split; [apply sqrt_pos_f; auto|]. split; [apply sqrt_nn_f; auto|].
  split; [apply pos_nn; auto|]. split; [vmeq|]. split; vmeq.
Qed.
Print Assumptions C48_sums.

(** Products of non negatives are non negative unless they are zero times infinity, which is
    NaN; products of positives are never NaN and non negative (they may underflow to zero). *)
Theorem C48_products : forall a b c d : T F64, is_double a -> is_double b -> is_double c -> is_double d ->
  flt n0 a -> flt n0 b -> fle n0 c -> fle n0 d ->
  (nn_mul c d = S754_nan <-> (c = infinity /\ feq d n0) \/ (feq c n0 /\ d = infinity)) /\
  (nn_mul c d <> S754_nan -> fle n0 (nn_mul c d)) /\
  (nn_mul_pos c a = S754_nan <-> feq c n0 /\ a = infinity) /\
  (nn_mul_pos c a <> S754_nan -> fle n0 (nn_mul_pos c a)) /\
  pos_mul_nn a c = nn_mul_pos c a /\
  fle n0 (pos_mul a b).
Proof.
  intros a b c d A B C D PA PB PC PD.
  assert (NZ : forall x, flt n0 x -> ~ feq x n0).
  { intros x P Z. apply feq0_iff in Z as [s ->]. destruct s; discriminate P. }
  unfold nn_mul, nn_mul_pos, pos_mul_nn, nn_mul_pos, pos_mul.
  assert (G : forall x y, is_double x -> is_double y -> fle n0 x -> fle n0 y -> nmul x y <> S754_nan -> fle n0 (nmul x y)).
  { intros x y X Y PX PY N. apply mul_nn_nn; auto; intros E Z; apply N; apply mul_nan; auto. }
  split; [apply mul_nan; auto|]. split; [apply G; auto|].
  split. { rewrite (mul_nan c a C A PC (pos_nn a PA)). split; [intros [[_ Z]|H]; [exfalso; exact (NZ a PA Z)|exact H]|auto]. }
  split; [apply G; auto using pos_nn|]. split; [reflexivity|].
  apply G; auto using pos_nn. rewrite mul_nan by auto using pos_nn. intros [[_ Z]|[Z _]]; [exact (NZ b PB Z)|exact (NZ a PA Z)].
Qed.
Print Assumptions C48_products.

(** Quotients: when the unwraps of Positive's divisions panic, and when the unchecked divisions
    of NonNegative break its promise. *)
Theorem C48_quotients : forall a b c d : T F64, is_double a -> is_double b -> is_double c -> is_double d ->
  flt n0 a -> flt n0 b -> fle n0 c -> fle n0 d ->
  (if_panics (pos_div a b) (a = infinity /\ b = infinity) (fle n0)) /\
  (if_panics (pos_div_nn a c) (a = infinity /\ c = infinity \/ c = minus_zero) (fle n0)) /\
  (fle n0 (nn_div_pos c a) <-> ~ (c = infinity /\ a = infinity)) /\
  (fle n0 (nn_div c d) <-> ~ (c = infinity /\ d = infinity \/ feq c n0 /\ feq d n0 \/ d = minus_zero)).
Proof.
  assert (NPZ : forall x, flt n0 x -> x <> S754_zero false /\ x <> S754_zero true) by (intros x P; split; intros ->; discriminate P).
  assert (K : forall x y, is_double x -> is_double y -> fle n0 x -> fle n0 y ->
    (fle n0 (ndiv x y) <-> ~ (x = infinity /\ y = infinity \/ feq x n0 /\ feq y n0 \/ y = minus_zero))).
  { intros x y X Y PX PY. destruct (SFltb (@n0 F64) y) eqn:Py.
    - assert (ZY : ~ feq y n0) by (intros Z; apply feq0_iff in Z as [s ->]; destruct s; discriminate Py).
      split.
      + intros P [[-> ->]|[[_ Z]| ->]]; [discriminate P|auto|discriminate Py].
      + intros N. apply div_nn_pos; auto.
    - assert (Zy : exists s, y = S754_zero s).
      { destruct (nn_cases y Y PY) as [->|[F V]]; [discriminate|]. apply is_zero_val; auto. destruct V as [V|V]; auto.
        apply pos_iff in V; auto. unfold flt in V. rewrite Py in V. discriminate. }
      destruct Zy as [s ->]. destruct s.
      + split; [|intros N; exfalso; apply N; auto].
        destruct x as [t|t| |t m e]; cbn; intros P; try discriminate P; destruct t; try discriminate P; discriminate PX.
      + split.
        * intros P [[_ E]|[[Z _]|E]]; try discriminate E. apply feq0_iff in Z as [t ->]. destruct t; discriminate P.
        * intros N. destruct x as [t|t| |t m e].
          -- exfalso. apply N. right. left. split; reflexivity.
          -- destruct t; [discriminate PX|reflexivity].
          -- discriminate PX.
          -- destruct t; [discriminate PX|reflexivity]. }
  assert (K' : forall x y (Q : Prop), (fle n0 (ndiv x y) <-> ~ Q) -> (~ ~ Q -> Q) -> if_panics (unwrap (nonneg_new (ndiv x y))) Q (fle n0)).
  { intros x y Q H NN. destruct (SFleb (@n0 F64) (ndiv x y)) eqn:E.
    - rewrite nonneg_some by exact E. split; [|exact E]. apply H, E.
    - rewrite nonneg_none by (unfold fle; rewrite E; discriminate). apply NN. intros NQ. apply H in NQ. unfold fle in NQ. rewrite E in NQ. discriminate. }
  assert (IE : forall x : T F64, {x = infinity} + {x <> infinity}).
  { intros [s|s| |s m e]; try (right; discriminate). destruct s; [right; discriminate|left; reflexivity]. }
  assert (ZE : forall x : T F64, {x = minus_zero} + {x <> minus_zero}).
  { intros [s|s| |s m e]; try (right; discriminate). destruct s; [left; reflexivity|right; discriminate]. }
  intros a b c d A B C D PA PB PC PD.
  assert (NZ : forall x, flt n0 x -> ~ feq x n0).
  { intros x P Z. apply feq0_iff in Z as [s ->]. destruct s; discriminate P. }
  split; [|split; [|split]].
  - apply K'.
    + rewrite (K a b A B (pos_nn a PA) (pos_nn b PB)). split; intros N H; apply N; [auto|].
      destruct H as [H|[[Z _]| ->]]; [exact H|exfalso; exact (NZ a PA Z)|discriminate PB].
    + destruct (IE a), (IE b); tauto.
  - apply K'.
    + rewrite (K a c A C (pos_nn a PA) PC). split; intros N H; apply N.
      * destruct H; auto.
      * destruct H as [H|[[Z _]|H]]; auto. exfalso; exact (NZ a PA Z).
    + destruct (IE a), (IE c), (ZE c); tauto.
  - unfold nn_div_pos. rewrite (K c a C A PC (pos_nn a PA)). split; intros N H; apply N; [auto|].
    destruct H as [H|[[_ Z]| ->]]; [exact H|exfalso; exact (NZ a PA Z)|discriminate PA].
  - apply K; auto.
Qed.
Print Assumptions C48_quotients.
(** The promise fails: a product of two Positive is not positive, a quotient of two Positive
    panics, NonNegative accepts minus zero, which makes Positive's division panic and
    NonNegative's produce minus infinity. *)
Theorem C48_promise_refuted :
  (exists a b : T F64, is_double a /\ is_double b /\ flt n0 a /\ flt n0 b /\ ~ flt n0 (pos_mul a b)) /\
  (exists a b : T F64, is_double a /\ is_double b /\ flt n0 a /\ flt n0 b /\ pos_div a b = Panic) /\
  (exists c : T F64, is_double c /\ nonneg_new c = Some c /\ pos_div_nn pos_one c = Panic /\ flt (nn_div nn_one c) n0).
Proof.
  split; [|split].
  - exists (lit 1 (-600)), (lit 1 (-600)). split; [apply double_lit|]. split; [apply double_lit|].
    split; [vmeq|]. split; [vmeq|]. unfold flt. assert (E : SFltb (@n0 F64) (pos_mul (@lit F64 1 (-600)) (@lit F64 1 (-600))) = false) by vmeq.
    rewrite E. discriminate.
  - exists infinity, infinity. split; [reflexivity|]. split; [reflexivity|]. split; [vmeq|]. split; vmeq.
  - exists minus_zero. split; [reflexivity|]. split; [vmeq|]. split; vmeq.
Qed.
Print Assumptions C48_promise_refuted.
Example C48_case : is_double (fz 3) /\ is_double infinity /\ flt n0 (fz 3) /\ flt n0 infinity /\
  pos_div (fz 3) (fz 2) = Ok (lit 3 (-1)) /\ nn_mul (fz 0) infinity = S754_nan.
Proof. split; [apply double_lit|]. split; [reflexivity|]. split; [vmeq|]. split; [vmeq|]. split; vmeq. Qed.

(** ** C87: sizes of ordered boxes *)
(** No size query and no collision test of ordered boxes of doubles panics; sizes are positive. *)
Theorem C87_sizes_3d : forall b : bb3 F64, box_double3 b -> fvalid3 b ->
  exists sx sy sz, bb3_size_x b = Ok sx /\ bb3_size_y b = Ok sy /\ bb3_size_z b = Ok sz /\
    flt n0 sx /\ flt n0 sy /\ flt n0 sz /\
    sx = (px (max3 b) - px (min3 b))%num /\ sy = (py (max3 b) - py (min3 b))%num /\ sz = (pz (max3 b) - pz (min3 b))%num.
Proof.
  intros b D V. exists (nsub (px (max3 b)) (px (min3 b))), (nsub (py (max3 b)) (py (min3 b))), (nsub (pz (max3 b)) (pz (min3 b))).
  assert (X : axis3 (@px F64)) by (left; auto). assert (Y : axis3 (@py F64)) by (right; left; auto). assert (Z : axis3 (@pz F64)) by (right; right; auto).
  destruct (size_axis _ _ (proj1 (D _ X)) (proj2 (D _ X)) (V _ X)), (size_axis _ _ (proj1 (D _ Y)) (proj2 (D _ Y)) (V _ Y)),
    (size_axis _ _ (proj1 (D _ Z)) (proj2 (D _ Z)) (V _ Z)). auto 15.
Qed.
Print Assumptions C87_sizes_3d.
Theorem C87_sizes_2d : forall b : bb2 F64, box_double2 b -> fvalid2 b ->
  exists sx sy, bb2_size_x b = Ok sx /\ bb2_size_y b = Ok sy /\ flt n0 sx /\ flt n0 sy /\
    sx = (x2 (max2 b) - x2 (min2 b))%num /\ sy = (y2 (max2 b) - y2 (min2 b))%num.
Proof.
  intros b D V. exists (nsub (x2 (max2 b)) (x2 (min2 b))), (nsub (y2 (max2 b)) (y2 (min2 b))).
  assert (X : axis2 (@x2 F64)) by (left; auto). assert (Y : axis2 (@y2 F64)) by (right; auto).
  destruct (size_axis _ _ (proj1 (D _ X)) (proj2 (D _ X)) (V _ X)), (size_axis _ _ (proj1 (D _ Y)) (proj2 (D _ Y)) (V _ Y)). auto 15.
Qed.
Print Assumptions C87_sizes_2d.
Theorem C87_collides_total : (forall a b : bb3 F64, box_double3 a -> box_double3 b -> fvalid3 a -> fvalid3 b ->
    exists r, bb3_collides_with a b = Ok r) /\
  (forall a b : bb2 F64, box_double2 a -> box_double2 b -> fvalid2 a -> fvalid2 b ->
    exists r, bb2_collides_with a b = Ok r).
Proof.
  split; intros a b DA DB VA VB.
  - destruct (C87_sizes_3d a DA VA) as (s1 & s2 & s3 & E1 & E2 & E3 & _), (C87_sizes_3d b DB VB) as (t1 & t2 & t3 & F1 & F2 & F3 & _).
    unfold bb3_collides_with. rewrite E1, E2, E3, F1, F2, F3. cbn [collide_axis obind res_and].
    destruct (_ < _)%num; cbn [obind]; eauto. destruct (_ < _)%num; cbn [obind]; eauto.
  - destruct (C87_sizes_2d a DA VA) as (s1 & s2 & E1 & E2 & _), (C87_sizes_2d b DB VB) as (t1 & t2 & F1 & F2 & _).
    unfold bb2_collides_with. rewrite E1, E2, F1, F2. cbn [collide_axis obind res_and].
    destruct (_ < _)%num; cbn [obind]; eauto.
Qed.
Print Assumptions C87_collides_total.
Definition C87_box : bb3 F64 := mkbb3 (fp3 0 0 0) (mk3 (fz 1) (@lit F64 1 (-1074)) infinity).
Example C87_case : box_double3 C87_box /\ fvalid3 C87_box /\ bb3_size_y C87_box = Ok (lit 1 (-1074)).
Proof.
  split; [|split].
  - intros ? [->|[->| ->]]; split; try apply double_lit; reflexivity.
  - intros ? [->|[->| ->]]; vmeq.
  - vmeq.
Qed.

(** ** C88: the center of an ordered box *)
(** On an axis with finite ends the center lies between them exactly if the size is finite. *)
Theorem C88_center_3d : forall (b : bb3 F64) ax, box_double3 b -> fvalid3 b -> axis3 ax ->
  finite (ax (min3 b)) -> finite (ax (max3 b)) ->
  (fle (ax (min3 b)) (ax (bb3_center b)) /\ fle (ax (bb3_center b)) (ax (max3 b)) <->
   finite (ax (max3 b) - ax (min3 b))%num).
Proof.
  intros b ax D V A F1 F2.
  assert (E : ax (bb3_center b) = nadd (ax (min3 b)) (ndiv (nsub (ax (max3 b)) (ax (min3 b))) n2)) by (destruct A as [->|[->| ->]]; reflexivity).
  rewrite E. destruct (D _ A) as [D1 D2]. pose proof (V _ A) as L. apply center_axis_iff; auto.
Qed.
Print Assumptions C88_center_3d.
Theorem C88_center_2d : forall (b : bb2 F64) ax, box_double2 b -> fvalid2 b -> axis2 ax ->
  finite (ax (min2 b)) -> finite (ax (max2 b)) ->
  (fle (ax (min2 b)) (ax (bb2_center b)) /\ fle (ax (bb2_center b)) (ax (max2 b)) <->
   finite (ax (max2 b) - ax (min2 b))%num).
Proof.
  intros b ax D V A F1 F2.
  assert (E : ax (bb2_center b) = nadd (ax (min2 b)) (ndiv (nsub (ax (max2 b)) (ax (min2 b))) n2)) by (destruct A as [->| ->]; reflexivity).
  rewrite E. destruct (D _ A) as [D1 D2]. pose proof (V _ A) as L. apply center_axis_iff; auto.
Qed.
Print Assumptions C88_center_2d.
(** The size of a box with finite corners can overflow, and then the center is outside. *)
Theorem C88_center_outside_refuted : exists b : bb2 F64, box_double2 b /\ fvalid2 b /\
  finite (x2 (min2 b)) /\ finite (x2 (max2 b)) /\ flt (x2 (max2 b)) (x2 (bb2_center b)).
Proof.
  exists (mkbb2 (@mk2 F64 (lit (-1) 1023) (fz 0)) (@mk2 F64 (lit 1 1023) (fz 1))).
  split; [intros ? [->| ->]; split; apply double_lit|]. split; [intros ? [->| ->]; vmeq|].
  split; [cbn; exact I|]. split; [cbn; exact I|]. vmeq.
Qed.
Print Assumptions C88_center_outside_refuted.
Example C88_case : box_double3 (mkbb3 (fp3 0 0 0) (fp3 1 2 3)) /\ fvalid3 (mkbb3 (fp3 0 0 0) (fp3 1 2 3)) /\
  px (bb3_center (mkbb3 (fp3 0 0 0) (fp3 1 2 3))) = nhalf.
Proof.
  split; [intros ? [->|[->| ->]]; split; apply double_lit|]. split; [intros ? [->|[->| ->]]; vmeq|vmeq].
Qed.
