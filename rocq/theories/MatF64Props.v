(** C185: transforming points by matrices, in doubles. *)
From Verif Require Import Base BaseLemmas Num NumLemmas BBoxModel GeomSpec FloatSpec FloatLemmas FloatBridge RootLemmas DistSpec DistLemmas DistLemmas2 DistLemmas3 BoxDistLemmas MatrixModel MatrixSpec MatrixLemmas MatrixProps ClusterLemmas2 GridSpec GridLemmas GridBoxLemmas SatF64Lemmas UnitLemmas MatF64Spec MatF64Lemmas.
From Coq Require Import Floats.SpecFloat Reals Lra Lia Setoid Morphisms.
From Flocq Require Import Core.
Local Open Scope R_scope.

Lemma fin3_fd p : finite3 p -> fd (px p) /\ fd (py p) /\ fd (pz p).
Proof. intros F. split; [|split]; apply fin_fd, F; unfold axis3; auto. Qed.
Lemma fin2_fd p : finite2 p -> fd (x2 p) /\ fd (y2 p).
Proof. intros F. split; apply fin_fd, F; unfold axis2; auto. Qed.

(** The unit matrix keeps every point; translations add and scales multiply with a single rounding. *)
Theorem C185_simple : forall p : pt3 F64, finite3 p ->
  (forall ax, axis3 ax -> feq (ax (pt3_multiply_m p m4_identity)) (ax p)) /\
  (forall x y z, fin x -> fin y -> fin z -> forall ax, axis3 ax -> feq (ax (pt3_multiply_m p (m4_translation x y z))) (ax (pt3_move_by p x y z))) /\
  (forall x y z, fin x -> fin y -> fin z -> forall ax, axis3 ax -> feq (ax (pt3_multiply_m p (m4_scale x y z))) (ax (mk3 (nmul (px p) x) (nmul (py p) y) (nmul (pz p) z)))).
Proof.
  intros p F. destruct (fin3_fd p F) as (X & Y & Z). pose proof (proj2 X) as FX. pose proof (proj2 Y) as FY. pose proof (proj2 Z) as FZ.
  assert (NN : forall v, fd v -> v <> S754_nan) by (intros v [_ H] ->; exact H).
  split; [|split].
  - intros ax [->|[->| ->]]; (apply eqv_feq; [|apply NN; assumption]); unfold pt3_multiply_m, m4_identity; cbn [px py pz MatrixModel.m4_00 MatrixModel.m4_01 MatrixModel.m4_02 MatrixModel.m4_03 MatrixModel.m4_10 MatrixModel.m4_11 MatrixModel.m4_12 MatrixModel.m4_13 MatrixModel.m4_20 MatrixModel.m4_21 MatrixModel.m4_22 MatrixModel.m4_23]; simp_eqv; reflexivity.
  - intros x y z GX GY GZ. apply fin_fd in GX, GY, GZ. intros ax [->|[->| ->]]; (apply eqv_feq; [|apply add_number; assumption]); unfold pt3_multiply_m, m4_translation, pt3_move_by; cbn [px py pz MatrixModel.m4_00 MatrixModel.m4_01 MatrixModel.m4_02 MatrixModel.m4_03 MatrixModel.m4_10 MatrixModel.m4_11 MatrixModel.m4_12 MatrixModel.m4_13 MatrixModel.m4_20 MatrixModel.m4_21 MatrixModel.m4_22 MatrixModel.m4_23]; simp_eqv; reflexivity.
  - intros x y z GX GY GZ. apply fin_fd in GX, GY, GZ. intros ax [->|[->| ->]]; (apply eqv_feq; [|apply mul_number; assumption]); unfold pt3_multiply_m, m4_scale; cbn [px py pz MatrixModel.m4_00 MatrixModel.m4_01 MatrixModel.m4_02 MatrixModel.m4_03 MatrixModel.m4_10 MatrixModel.m4_11 MatrixModel.m4_12 MatrixModel.m4_13 MatrixModel.m4_20 MatrixModel.m4_21 MatrixModel.m4_22 MatrixModel.m4_23]; simp_eqv; reflexivity.
Qed.
Print Assumptions C185_simple.
Theorem C185_simple_2d : forall p : pt2 F64, finite2 p ->
  (forall ax, axis2 ax -> feq (ax (pt2_multiply_m p m3_identity)) (ax p)) /\
  (forall x y, fin x -> fin y -> forall ax, axis2 ax -> feq (ax (pt2_multiply_m p (m3_translation x y))) (ax (mk2 (nadd (x2 p) x) (nadd (y2 p) y)))) /\
  (forall x y, fin x -> fin y -> forall ax, axis2 ax -> feq (ax (pt2_multiply_m p (m3_scale x y))) (ax (mk2 (nmul (x2 p) x) (nmul (y2 p) y)))).
Proof.
  intros p F. destruct (fin2_fd p F) as (X & Y). pose proof (proj2 X) as FX. pose proof (proj2 Y) as FY.
  assert (NN : forall v, fd v -> v <> S754_nan) by (intros v [_ H] ->; exact H).
  split; [|split].
  - intros ax [->| ->]; (apply eqv_feq; [|apply NN; assumption]); unfold pt2_multiply_m, m3_identity; cbn [x2 y2 MatrixModel.m3_00 MatrixModel.m3_01 MatrixModel.m3_02 MatrixModel.m3_10 MatrixModel.m3_11 MatrixModel.m3_12]; simp_eqv; reflexivity.
  - intros x y GX GY. apply fin_fd in GX, GY. intros ax [->| ->]; (apply eqv_feq; [|apply add_number; assumption]); unfold pt2_multiply_m, m3_translation; cbn [x2 y2 MatrixModel.m3_00 MatrixModel.m3_01 MatrixModel.m3_02 MatrixModel.m3_10 MatrixModel.m3_11 MatrixModel.m3_12]; simp_eqv; reflexivity.
  - intros x y GX GY. apply fin_fd in GX, GY. intros ax [->| ->]; (apply eqv_feq; [|apply mul_number; assumption]); unfold pt2_multiply_m, m3_scale; cbn [x2 y2 MatrixModel.m3_00 MatrixModel.m3_01 MatrixModel.m3_02 MatrixModel.m3_10 MatrixModel.m3_11 MatrixModel.m3_12]; simp_eqv; reflexivity.
Qed.
Print Assumptions C185_simple_2d.

(** A pipe with a scale and a translation scales first, then moves; building it loses no bit. *)
Theorem C185_pipe : forall (tr : Trig F64) (p : pt3 F64) x y z sx sy sz, finite3 p -> fin x -> fin y -> fin z -> fin sx -> fin sy -> fin sz ->
  let pipe := fst (pipe4_do tr (fst (pipe4_do tr pipe4_default (P4AddScale sx sy sz))) (P4AddTranslation x y z)) in
  forall ax, axis3 ax -> feq (ax (pt3_multiply_m p (pipe4_result pipe))) (ax (mk3 (nadd (nmul (px p) sx) x) (nadd (nmul (py p) sy) y) (nadd (nmul (pz p) sz) z))).
Proof.
  intros tr p x y z sx sy sz F X Y Z SX SY SZ pipe. destruct (fin3_fd p F) as (PX & PY & PZ). apply fin_fd in X, Y, Z, SX, SY, SZ.
  assert (M : meqv4 (pipe4_result pipe) (m4_scale_move sx sy sz x y z)).
  { unfold pipe, pipe4_result. cbn [fst pipe4_do p4_translation p4_rotation p4_scale p4_perspective p4_camtrans p4_camlook pipe4_default].
    apply meqv4_trans with (2 := m4_ts x y z sx sy sz X Y Z SX SY SZ). apply m4_mul_eqv; [|apply meqv4_refl].
    assert (FI : mfd4 m4_identity) by (repeat first [apply Forall_cons|apply Forall_nil]; first [exact fd_0|exact fd_1]).
    assert (II : meqv4 (m4_mul m4_identity m4_identity) m4_identity) by (apply m4_id_rF, FI).
    eapply meqv4_trans; [apply m4_mul_eqv; [|apply meqv4_refl]|apply m4_id_rF, fd_translation; assumption].
    eapply meqv4_trans; [apply m4_mul_eqv; [|apply meqv4_refl]|apply m4_id_lF, fd_translation; assumption].
    eapply meqv4_trans; [apply m4_mul_eqv; [exact II|apply meqv4_refl]|exact II]. }
  destruct (act4_eqv p _ _ M) as (A1 & A2 & A3). destruct (act4_sm p sx sy sz x y z (proj2 PX) (proj2 PY) (proj2 PZ)) as (B1 & B2 & B3).
  intros ax [->|[->| ->]]; (apply eqv_feq; [etransitivity; eassumption|apply muladd_number; assumption]).
Qed.
Print Assumptions C185_pipe.
Theorem C185_pipe_2d : forall (tr : Trig F64) (p : pt2 F64) x y sx sy, finite2 p -> fin x -> fin y -> fin sx -> fin sy ->
  let pipe := pipe3_do tr (pipe3_do tr pipe3_default (P3AddScale sx sy)) (P3AddTranslation x y) in
  forall ax, axis2 ax -> feq (ax (pt2_multiply_m p (pipe3_result pipe))) (ax (mk2 (nadd (nmul (x2 p) sx) x) (nadd (nmul (y2 p) sy) y))).
Proof.
  intros tr p x y sx sy F X Y SX SY pipe. destruct (fin2_fd p F) as (PX & PY). apply fin_fd in X, Y, SX, SY.
  assert (M : meqv3 (pipe3_result pipe) (m3_scale_move sx sy x y)).
  { unfold pipe, pipe3_result. cbn [pipe3_do p3_translation p3_rotation p3_scale pipe3_default].
    apply meqv3_trans with (2 := m3_ts x y sx sy X Y SX SY). apply m3_mul_eqv; [|apply meqv3_refl]. apply m3_id_rF.
    repeat first [apply Forall_cons|apply Forall_nil]; first [assumption|exact fd_0|exact fd_1]. }
  destruct (act3_eqv p _ _ M) as (A1 & A2). destruct (act3_sm p sx sy x y (proj2 PX) (proj2 PY)) as (B1 & B2).
  intros ax [->| ->]; (apply eqv_feq; [etransitivity; eassumption|apply muladd_number; assumption]).
Qed.
Print Assumptions C185_pipe_2d.

(** Any matrix: each coordinate is off by at most five roundings of the terms of its row. *)
Theorem C185_accuracy : forall (m : mat4 F64) (p : pt3 F64) i ax, finite3 p -> Forall fin (entries4 m) ->
  In (i, ax) [(0%nat, px); (1%nat, py); (2%nat, pz)] -> rowsum4 (realm4 m) (real3 p) i <= powerRZ 2 1000 ->
  fin (ax (pt3_multiply_m p m)) /\
  Rabs (fval (ax (pt3_multiply_m p m)) - row4 (realm4 m) (real3 p) i) <= 5 * powerRZ 2 (-53) * rowsum4 (realm4 m) (real3 p) i + 4 * powerRZ 2 (-1075).
Proof.
  intros m p i ax F M I. destruct (fin3_fd p F) as (PX & PY & PZ). rewrite !bp_powerRZ.
  assert (UR : bp (-53) = ur) by (change (-53)%Z with (-52 - 1)%Z; rewrite bp_half; unfold ur; lra).
  assert (ETA : bp (-1075) = eta) by (change (-1075)%Z with (-1074 - 1)%Z; rewrite bp_half; unfold eta; lra). rewrite UR, ETA.
  assert (FF : forall v, fd v -> fin v) by (intros v [D N]; split; [exact D|apply finite_f, N]).
  destruct m. unfold entries4 in M. cbn [MatrixModel.m4_00 MatrixModel.m4_01 MatrixModel.m4_02 MatrixModel.m4_03 MatrixModel.m4_10 MatrixModel.m4_11 MatrixModel.m4_12 MatrixModel.m4_13 MatrixModel.m4_20 MatrixModel.m4_21 MatrixModel.m4_22 MatrixModel.m4_23 MatrixModel.m4_30 MatrixModel.m4_31 MatrixModel.m4_32 MatrixModel.m4_33] in M.
  fa. repeat match goal with H : fin _ |- _ => apply fin_fd in H end. intros S.
  destruct I as [I|[I|[I|[]]]]; injection I as <- <-; match goal with |- fin (_ (pt3_multiply_m p ?M)) /\ _ => set (mm := M) in * end;
    (unshelve epose proof (row_acc (px p) (py p) (pz p) _ _ _ _ _ PX PY PZ _ _ _ _ eq_refl S) as [A B]; try assumption; split; [apply FF; exact A|exact B]).
Qed.
Print Assumptions C185_accuracy.

Lemma wh3 k p : (0 <= k)%Z -> grid3 0 k p -> wh (2 ^ k) (px p) (fval (px p)) /\ wh (2 ^ k) (py p) (fval (py p)) /\ wh (2 ^ k) (pz p) (fval (pz p)).
Proof. intros K (A & B & C). split; [|split]; apply wh_grid; assumption. Qed.
Definition wm4 (k : Z) (m : mat4 F64) : Prop := Forall (fun x => wh k x (fval x)) (entries4 m).
Lemma act_whole k l p m : wh k (px p) (fval (px p)) -> wh k (py p) (fval (py p)) -> wh k (pz p) (fval (pz p)) -> wm4 l m -> (0 <= k)%Z -> (0 <= l)%Z -> (3 * (k * l) + l <= 2 ^ 53)%Z ->
  real3 (pt3_multiply_m p m) = pt3_multiply_m (real3 p) (realm4 m) /\
  wh (3 * (k * l) + l) (px (pt3_multiply_m p m)) (fval (px (pt3_multiply_m p m))) /\ wh (3 * (k * l) + l) (py (pt3_multiply_m p m)) (fval (py (pt3_multiply_m p m))) /\ wh (3 * (k * l) + l) (pz (pt3_multiply_m p m)) (fval (pz (pt3_multiply_m p m))).
Proof.
  intros X Y Z M K L B. destruct m. unfold wm4, entries4 in M. cbn [MatrixModel.m4_00 MatrixModel.m4_01 MatrixModel.m4_02 MatrixModel.m4_03 MatrixModel.m4_10 MatrixModel.m4_11 MatrixModel.m4_12 MatrixModel.m4_13 MatrixModel.m4_20 MatrixModel.m4_21 MatrixModel.m4_22 MatrixModel.m4_23 MatrixModel.m4_30 MatrixModel.m4_31 MatrixModel.m4_32 MatrixModel.m4_33] in M. fa.
  assert (G : forall a b c d, wh l a (fval a) -> wh l b (fval b) -> wh l c (fval c) -> wh l d (fval d) ->
    wh (3 * (k * l) + l) (nadd (nadd (nadd (nmul (px p) a) (nmul (py p) b)) (nmul (pz p) c)) d) (fval (px p) * fval a + fval (py p) * fval b + fval (pz p) * fval c + fval d)).
  { intros a b c d A1 A2 A3 A4. assert (N : (0 <= k * l)%Z) by (apply Z.mul_nonneg_nonneg; assumption). replace (3 * (k * l) + l)%Z with (k * l + k * l + k * l + l)%Z by ring.
    apply wh_add; [|exact A4|lia]. apply wh_add; [|apply wh_mul; [exact Z|exact A3|lia]|lia]. apply wh_add; [apply wh_mul; [exact X|exact A1|lia]|apply wh_mul; [exact Y|exact A2|lia]|lia]. }
  unfold pt3_multiply_m, real3, realm4. cbn [px py pz MatrixModel.m4_00 MatrixModel.m4_01 MatrixModel.m4_02 MatrixModel.m4_03 MatrixModel.m4_10 MatrixModel.m4_11 MatrixModel.m4_12 MatrixModel.m4_13 MatrixModel.m4_20 MatrixModel.m4_21 MatrixModel.m4_22 MatrixModel.m4_23 MatrixModel.m4_30 MatrixModel.m4_31 MatrixModel.m4_32 MatrixModel.m4_33].
  match goal with |- mk3 (fval (nadd (nadd (nadd (nmul _ ?a) (nmul _ ?b)) (nmul _ ?c)) ?d)) (fval (nadd (nadd (nadd (nmul _ ?e) (nmul _ ?f)) (nmul _ ?g)) ?h)) (fval (nadd (nadd (nadd (nmul _ ?i) (nmul _ ?j)) (nmul _ ?k)) ?l)) = _ /\ _ =>
    assert (G1 := G a b c d ltac:(assumption) ltac:(assumption) ltac:(assumption) ltac:(assumption)); assert (G2 := G e f g h ltac:(assumption) ltac:(assumption) ltac:(assumption) ltac:(assumption)); assert (G3 := G i j k l ltac:(assumption) ltac:(assumption) ltac:(assumption) ltac:(assumption)) end.
  pose proof (proj2 (wh_val _ _ _ G1)) as E1. pose proof (proj2 (wh_val _ _ _ G2)) as E2. pose proof (proj2 (wh_val _ _ _ G3)) as E3.
  rewrite E1, E2, E3. split; [reflexivity|]. split; [exact G1|]. split; [exact G2|exact G3].
Qed.
Lemma mkm4_ext (a0 a1 a2 a3 a4 a5 a6 a7 a8 a9 a10 a11 a12 a13 a14 a15 b0 b1 b2 b3 b4 b5 b6 b7 b8 b9 b10 b11 b12 b13 b14 b15 : T RN) : a0 = b0 -> a1 = b1 -> a2 = b2 -> a3 = b3 -> a4 = b4 -> a5 = b5 -> a6 = b6 -> a7 = b7 -> a8 = b8 -> a9 = b9 -> a10 = b10 -> a11 = b11 -> a12 = b12 -> a13 = b13 -> a14 = b14 -> a15 = b15 -> @mkm4 RN a0 a1 a2 a3 a4 a5 a6 a7 a8 a9 a10 a11 a12 a13 a14 a15 = @mkm4 RN b0 b1 b2 b3 b4 b5 b6 b7 b8 b9 b10 b11 b12 b13 b14 b15.
Proof. intros. subst. reflexivity. Qed.
Lemma mul_whole k l a b : wm4 k a -> wm4 l b -> (0 <= k)%Z -> (0 <= l)%Z -> (4 * (k * l) <= 2 ^ 53)%Z -> wm4 (4 * (k * l)) (m4_mul a b) /\ realm4 (m4_mul a b) = m4_mul (realm4 a) (realm4 b).
Proof.
  intros A B K L BD.
  assert (G : forall x0 x1 x2 x3 y0 y1 y2 y3 : T F64, wh k x0 (fval x0) -> wh k x1 (fval x1) -> wh k x2 (fval x2) -> wh k x3 (fval x3) -> wh l y0 (fval y0) -> wh l y1 (fval y1) -> wh l y2 (fval y2) -> wh l y3 (fval y3) ->
    wh (4 * (k * l)) (nadd (nadd (nadd (nmul x0 y0) (nmul x1 y1)) (nmul x2 y2)) (nmul x3 y3)) (fval (nadd (nadd (nadd (nmul x0 y0) (nmul x1 y1)) (nmul x2 y2)) (nmul x3 y3))) /\
    fval (nadd (nadd (nadd (nmul x0 y0) (nmul x1 y1)) (nmul x2 y2)) (nmul x3 y3)) = fval x0 * fval y0 + fval x1 * fval y1 + fval x2 * fval y2 + fval x3 * fval y3).
  { intros x0 x1 x2 x3 y0 y1 y2 y3 A0 A1 A2 A3 B0 B1 B2 B3. assert (N : (0 <= k * l)%Z) by (apply Z.mul_nonneg_nonneg; assumption).
    assert (W : wh (4 * (k * l)) (nadd (nadd (nadd (nmul x0 y0) (nmul x1 y1)) (nmul x2 y2)) (nmul x3 y3)) (fval x0 * fval y0 + fval x1 * fval y1 + fval x2 * fval y2 + fval x3 * fval y3)).
    { replace (4 * (k * l))%Z with (k * l + k * l + k * l + k * l)%Z by ring. apply wh_add; [apply wh_add; [apply wh_add|..]|..]; first [lia|apply wh_mul; [assumption|assumption|lia]]. }
    pose proof (proj2 (wh_val _ _ _ W)) as E. rewrite E. split; [exact W|reflexivity]. }
  destruct a, b. unfold wm4, entries4 in A, B. cbn [MatrixModel.m4_00 MatrixModel.m4_01 MatrixModel.m4_02 MatrixModel.m4_03 MatrixModel.m4_10 MatrixModel.m4_11 MatrixModel.m4_12 MatrixModel.m4_13 MatrixModel.m4_20 MatrixModel.m4_21 MatrixModel.m4_22 MatrixModel.m4_23 MatrixModel.m4_30 MatrixModel.m4_31 MatrixModel.m4_32 MatrixModel.m4_33] in A, B. fa.
  unfold wm4, entries4, realm4, m4_mul. cbn [MatrixModel.m4_00 MatrixModel.m4_01 MatrixModel.m4_02 MatrixModel.m4_03 MatrixModel.m4_10 MatrixModel.m4_11 MatrixModel.m4_12 MatrixModel.m4_13 MatrixModel.m4_20 MatrixModel.m4_21 MatrixModel.m4_22 MatrixModel.m4_23 MatrixModel.m4_30 MatrixModel.m4_31 MatrixModel.m4_32 MatrixModel.m4_33].
  split.
  - repeat first [apply Forall_cons|apply Forall_nil]; apply G; assumption.
  - apply mkm4_ext; (eapply G; assumption).
Qed.
Lemma wm_grid m : whole4 m -> wm4 (2 ^ 10) m.
Proof. apply Forall_impl. intros x. apply wh_grid. lia. Qed.
(** With whole numbers of limited size nothing is rounded, so transforming by a product is transforming twice. *)
Theorem C185_whole : forall (a b : mat4 F64) (p : pt3 F64), grid3 0 20 p -> whole4 a -> whole4 b ->
  real3 (pt3_multiply_m p a) = pt3_multiply_m (real3 p) (realm4 a) /\ realm4 (m4_mul a b) = m4_mul (realm4 a) (realm4 b) /\
  (affine4 (realm4 b) -> forall ax, axis3 ax -> feq (ax (pt3_multiply_m p (m4_mul a b))) (ax (pt3_multiply_m (pt3_multiply_m p b) a))).
Proof.
  intros a b p P A B. destruct (wh3 20 p ltac:(lia) P) as (X & Y & Z). apply wm_grid in A, B.
  destruct (act_whole _ _ p a X Y Z A) as (E1 & _); [lia..|]. destruct (mul_whole _ _ a b A B) as [AB E2]; [lia..|].
  split; [exact E1|]. split; [exact E2|]. intros AF.
  destruct (act_whole _ _ p b X Y Z B) as (E3 & X3 & Y3 & Z3); [lia..|].
  destruct (act_whole _ _ _ a X3 Y3 Z3 A) as (E4 & X4 & Y4 & Z4); [lia..|].
  destruct (act_whole _ _ p _ X Y Z AB) as (E5 & X5 & Y5 & Z5); [lia..|].
  assert (EQ : real3 (pt3_multiply_m p (m4_mul a b)) = real3 (pt3_multiply_m (pt3_multiply_m p b) a)) by (rewrite E5, E4, E3, E2; apply m4_compose, AF).
  assert (VX := f_equal px EQ). assert (VY := f_equal py EQ). assert (VZ := f_equal pz EQ). cbn [px py pz real3] in VX, VY, VZ.
  apply wh_val in X4, Y4, Z4, X5, Y5, Z5. destruct X4 as [[] _], Y4 as [[] _], Z4 as [[] _], X5 as [[] _], Y5 as [[] _], Z5 as [[] _].
  intros ax [->|[->| ->]]; apply feq_val; assumption.
Qed.
Print Assumptions C185_whole.

(** The third of a number and three times it. *)
Definition third : T F64 := ndiv (fz 1) (fz 3).
Definition m_third : mat4 F64 := m4_scale third third third.
Definition m_three : mat4 F64 := m4_scale (fz 3) (fz 3) (fz 3).
(** In general transforming by a product differs from transforming twice, and products depend on their grouping. *)
Theorem C185_compose_refuted : exists (a b c : mat4 F64) (p : pt3 F64), finite3 p /\ Forall fin (entries4 a) /\ Forall fin (entries4 b) /\ affine4 (realm4 b) /\
  ~ feq (px (pt3_multiply_m p (m4_mul a b))) (px (pt3_multiply_m (pt3_multiply_m p b) a)) /\
  ~ feq (m4_00 (m4_mul (m4_mul a b) c)) (m4_00 (m4_mul a (m4_mul b c))).
Proof.
  exists m_three, m_third, (m4_scale (fz 7) (fz 1) (fz 1)), (fp3 7 0 0). split; [|split; [|split; [|split; [|split]]]].
  - intros ax [->|[->| ->]]; split; vm_compute; first [reflexivity|split; [discriminate|intros s K; discriminate]|exact I].
  - repeat first [apply Forall_cons|apply Forall_nil]; split; vm_compute; first [reflexivity|split; [discriminate|intros s K; discriminate]|exact I].
  - repeat first [apply Forall_cons|apply Forall_nil]; split; vm_compute; first [reflexivity|split; [discriminate|intros s K; discriminate]|exact I].
  - split; [reflexivity|]. split; [reflexivity|]. split; [reflexivity|]. exact fval_one.
  - vm_compute. discriminate.
  - vm_compute. discriminate.
Qed.
Print Assumptions C185_compose_refuted.

Lemma grid_lit_k k z : (0 <= k <= 50)%Z -> (Z.abs z <= 2 ^ k)%Z -> on_grid 0 k (fz z).
Proof.
  intros K Z. assert (L : (Z.abs z < 2 ^ 53)%Z) by (eapply Z.le_lt_trans; [exact Z|apply Z.pow_lt_mono_r; lia]). destruct (lit_int z L) as [F V].
  split; [apply double_lit|]. split; [apply finite_f, F|]. exists z. split; [exact Z|]. unfold fz. rewrite V. cbn [powerRZ]. ring.
Qed.
(** A quarter turn and a move, applied to a point of whole numbers. *)
Definition m_turn : mat4 F64 := mkm4 (fz 0) (fz (-1)) (fz 0) (fz 0) (fz 1) (fz 0) (fz 0) (fz 0) (fz 0) (fz 0) (fz 1) (fz 0) (fz 0) (fz 0) (fz 0) (fz 1).
Example C185_case : grid3 0 20 (fp3 5 6 7) /\ whole4 m_turn /\ whole4 (m4_translation (fz 10) (fz 20) (fz 30)) /\ affine4 (realm4 m_turn) /\
  pt3_multiply_m (fp3 5 6 7) (m4_mul (m4_translation (fz 10) (fz 20) (fz 30)) m_turn) = fp3 4 25 37 /\
  rowsum4 (realm4 m_turn) (real3 (fp3 5 6 7)) 0 = 6.
Proof.
  split; [|split; [|split; [|split; [|split]]]].
  - split; [|split]; apply grid_lit_k; vm_compute; first [discriminate|split; discriminate].
  - repeat first [apply Forall_cons|apply Forall_nil]; (apply (grid_lit_k 10); [lia|vm_compute; discriminate]).
  - repeat first [apply Forall_cons|apply Forall_nil]; (apply (grid_lit_k 10); [lia|vm_compute; discriminate]).
  - split; [reflexivity|]. split; [reflexivity|]. split; [reflexivity|]. exact fval_one.
  - vmeq.
  - assert (V : forall z, (Z.abs z < 2 ^ 53)%Z -> fval (fz z) = IZR z) by (intros z Z; apply (lit_int z Z)).
    unfold rowsum4, realm4, m_turn, entries4, real3. cbn [nth Nat.mul Nat.add px py pz fp3 MatrixModel.m4_00 MatrixModel.m4_01 MatrixModel.m4_02 MatrixModel.m4_03]. rewrite !V by reflexivity.
    rewrite !Rmult_0_r, !Rabs_R0. replace (6 * -1) with (-6) by ring. rewrite (Rabs_left (-6)) by lra. lra.
Qed.
