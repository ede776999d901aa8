(** Theorems about matrices, pipes, normalised vectors, center and set_size (C44-C47, C84-C86). *)
From Verif Require Import Base Num NumLemmas BBoxModel BBoxLemmas GeomSpec VecModel VecSpec VecLemmas MatrixModel MatrixSpec MatrixLemmas.
From Coq Require Import Reals Lra Psatz.
Local Open Scope R_scope.

(** *** C44: products *)
Theorem C44_product_entries :
  (forall a b i j, (i < 3)%nat -> (j < 3)%nat ->
     entry3 (m3_mul a b) i j = sum_to 3 (fun k => entry3 a i k * entry3 b k j)) /\
  (forall a b i j, (i < 4)%nat -> (j < 4)%nat ->
     entry4 (m4_mul a b) i j = sum_to 4 (fun k => entry4 a i k * entry4 b k j)).
Proof. split; [apply m3_entry|apply m4_entry]. Qed.
Print Assumptions C44_product_entries.

(** Multiplying by a number multiplies every entry. *)
Theorem C44_scalar_product :
  (forall a k i j, entry3 (m3_mul_num a k) i j = k * entry3 a i j) /\
  (forall a k i j, entry4 (m4_mul_num a k) i j = k * entry4 a i j).
Proof.
  split; intros a k i j.
  - destruct i as [|[|[|i]]], j as [|[|[|j]]]; cbn; try reflexivity; ring.
  - destruct i as [|[|[|[|i]]]], j as [|[|[|[|j]]]]; cbn; try reflexivity; ring.
Qed.
Print Assumptions C44_scalar_product.

Theorem C44_monoid :
  (forall a b c : mat3 RN, m3_mul (m3_mul a b) c = m3_mul a (m3_mul b c)) /\
  (forall a : mat3 RN, m3_mul m3_identity a = a /\ m3_mul a m3_identity = a) /\
  (forall a b c : mat4 RN, m4_mul (m4_mul a b) c = m4_mul a (m4_mul b c)) /\
  (forall a : mat4 RN, m4_mul m4_identity a = a /\ m4_mul a m4_identity = a).
Proof.
  repeat split; auto using m3_assoc, m3_id_l, m3_id_r, m4_assoc, m4_id_l, m4_id_r.
Qed.
Print Assumptions C44_monoid.

(** Transforming by a product is transforming by the right factor, then by the left one, as soon as
    the right factor is affine. *)
Theorem C44_product_composes :
  (forall (a b : mat3 RN) p, affine3 b -> pt2_multiply_m p (m3_mul a b) = pt2_multiply_m (pt2_multiply_m p b) a) /\
  (forall (a b : mat4 RN) p, affine4 b -> pt3_multiply_m p (m4_mul a b) = pt3_multiply_m (pt3_multiply_m p b) a).
Proof. split; intros; [apply m3_compose|apply m4_compose]; assumption. Qed.
Print Assumptions C44_product_composes.

(** Everything the library builds except `perspective` is affine, and products stay affine. *)
Theorem C44_affine_matrices :
  affine3 m3_identity /\ (forall x y, affine3 (m3_translation x y)) /\ (forall x y, affine3 (m3_scale x y)) /\
  (forall t r, affine3 (m3_rotation t r)) /\ (forall a b, affine3 a -> affine3 b -> affine3 (m3_mul a b)) /\
  affine4 m4_identity /\ (forall x y z, affine4 (m4_translation x y z)) /\ (forall x y z, affine4 (m4_scale x y z)) /\
  (forall t x y z, affine4 (m4_rotation t x y z)) /\ (forall t u r, affine4 (m4_rotation_axis t u r)) /\
  (forall t u m, m4_look_at t u = Ok m -> affine4 m) /\ (forall a b, affine4 a -> affine4 b -> affine4 (m4_mul a b)).
Proof.
  exact (conj affine_identity3 (conj affine_translation3 (conj affine_scale3 (conj affine_rotation3 (conj m3_affine_mul
    (conj affine_identity4 (conj affine_translation4 (conj affine_scale4 (conj affine_rotation4 (conj affine_axis4
    (conj affine_look m4_affine_mul))))))))))).
Qed.
Print Assumptions C44_affine_matrices.
Example C44_case : affine3 (m3_mul (@m3_translation RN 3 4) (@m3_scale RN 2 5)) /\
  pt2_multiply_m (rp2 1 1) (m3_mul (@m3_translation RN 3 4) (@m3_scale RN 2 5)) = rp2 5 9.
Proof.
  split; [apply m3_affine_mul; [apply affine_translation3|apply affine_scale3]|].
  rewrite m3_compose by apply affine_scale3. rewrite scale_act2, translation_act2. unfold rp2. cbn [x2 y2]. f_equal; toR; lra.
Qed.

(** Expected by analogy with homogeneous coordinates, but false: a projective matrix followed by
    another one is not the product, as transforming never divides by w. *)
Theorem C44_projective_compose_refuted :
  exists (a b : mat4 RN) p, ~ affine4 b /\ pt3_multiply_m p (m4_mul a b) <> pt3_multiply_m (pt3_multiply_m p b) a.
Proof.
  exists (@m4_translation RN 1 0 0), (m4_perspective RT 1 2 1), (rp3 0 0 1). split.
  - unfold affine4, m4_perspective. cbn [entry4 m4_30 m4_31 m4_32 m4_33]. rewrite R_n1, R_n0. intros (_ & _ & A & _). lra.
  - intros H. apply (f_equal px) in H. rewrite translation_act3 in H.
    unfold pt3_multiply_m, m4_mul, m4_translation, m4_perspective, rp3, RT in H.
    cbn -[n0 n1 n2 tan] in H. rewrite R_n0, R_n1, R_n2 in H. lra.
Qed.
Print Assumptions C44_projective_compose_refuted.

(** *** C45: rotations, translations, scales *)
Theorem C45_rotation_2d : forall r,
  isometry2 (fun p => pt2_multiply_m p (m3_rotation RT r)) /\
  (forall p, pt2_multiply_m p (m3_rotation RT r) = rp2 (x2 p * cos r - y2 p * sin r) (x2 p * sin r + y2 p * cos r)) /\
  (forall s, m3_mul (m3_rotation RT r) (m3_rotation RT s) = m3_rotation RT (r + s)) /\
  m3_rotation RT 0 = m3_identity.
Proof.
  intros r. split; [apply rotation2_iso|]. split; [apply rotation_act2|]. split; [apply rotation2_add|apply rotation2_0].
Qed.
Print Assumptions C45_rotation_2d.

(** Rodrigues' formula: rotation_axis turns by the angle around the axis, counterclockwise. *)
Theorem C45_rotation_axis : forall (u : pt3 RN) r, rsq3 u = 1 ->
  isometry3 (fun p => pt3_multiply_m p (m4_rotation_axis RT u r)) /\
  pt3_multiply_m u (m4_rotation_axis RT u r) = u /\
  (forall p, rdot3 u p = 0 -> pt3_multiply_m p (m4_rotation_axis RT u r) =
     rp3 (px p * cos r + px (rcross u p) * sin r) (py p * cos r + py (rcross u p) * sin r) (pz p * cos r + pz (rcross u p) * sin r)) /\
  (forall s, m4_mul (m4_rotation_axis RT u r) (m4_rotation_axis RT u s) = m4_rotation_axis RT u (r + s)) /\
  m4_rotation_axis RT u 0 = m4_identity.
Proof.
  intros u r U. split; [apply axis_iso; exact U|]. split; [|split; [|split]].
  - rewrite (axis_act RT) by reflexivity. change (rdot3 u u) with (rsq3 u). rewrite U. destruct u as [x y z]. unfold rcross, rp3. cbn.
    f_equal; toR; ring.
  - intros p P. rewrite (axis_act RT) by reflexivity. rewrite P. unfold rp3. f_equal; toR; ring.
  - intros s. apply axis_add. exact U.
  - apply axis_0.
Qed.
Print Assumptions C45_rotation_axis.
Example C45_axis_case : rsq3 (rp3 0 0 1) = 1 /\ rdot3 (rp3 0 0 1) (rp3 1 0 0) = 0 /\
  pt3_multiply_m (rp3 1 0 0) (m4_rotation_axis RT (rp3 0 0 1) (PI / 2)) = rp3 0 1 0.
Proof.
  split; [apply unit_z|]. assert (O : rdot3 (rp3 0 0 1) (rp3 1 0 0) = 0) by (unfold rdot3, rp3; cbn; lra). split; [exact O|].
  destruct (C45_rotation_axis (rp3 0 0 1) (PI / 2) unit_z) as (_ & _ & H & _). rewrite H by exact O.
  rewrite cos_PI2, sin_PI2. unfold rp3, rcross. cbn. f_equal; toR; lra.
Qed.

(** rotation(x, y, z) turns around the z axis first, then around y, then around x. *)
Theorem C45_rotation_3d : forall x y z,
  isometry3 (fun p => pt3_multiply_m p (m4_rotation RT x y z)) /\
  (forall p, pt3_multiply_m p (m4_rotation RT x y z) =
     pt3_multiply_m (pt3_multiply_m (pt3_multiply_m p (m4_rotation_axis RT (rp3 0 0 1) z)) (m4_rotation_axis RT (rp3 0 1 0) y))
                    (m4_rotation_axis RT (rp3 1 0 0) x)).
Proof. intros. split; [apply rotation3_iso|apply rotation_act3]. Qed.
Print Assumptions C45_rotation_3d.

Theorem C45_translation_scale :
  (forall (x y : R) (p : pt2 RN), pt2_multiply_m p (@m3_translation RN x y) = rp2 (x2 p + x) (y2 p + y)) /\
  (forall (x y : R) (p : pt2 RN), pt2_multiply_m p (@m3_scale RN x y) = rp2 (x2 p * x) (y2 p * y)) /\
  (forall (x y z : R) (p : pt3 RN), pt3_multiply_m p (@m4_translation RN x y z) = rp3 (px p + x) (py p + y) (pz p + z)) /\
  (forall (x y z : R) (p : pt3 RN), pt3_multiply_m p (@m4_scale RN x y z) = rp3 (px p * x) (py p * y) (pz p * z)) /\
  (forall p : pt2 RN, pt2_multiply_m p m3_identity = p) /\ (forall p : pt3 RN, pt3_multiply_m p m4_identity = p).
Proof.
  repeat apply conj; intros; [apply translation_act2|apply scale_act2|apply translation_act3|apply scale_act3|apply id_act2|apply id_act3].
Qed.
Print Assumptions C45_translation_scale.

(** *** C46: pipes.  For every number type, so for IEEE doubles and whatever sin, cos, tan the platform has. *)
Theorem C46_pipe3_history : forall (NM : Num) (tr : Trig NM) (h : list (pipe3_op NM)),
  pipe3_result (fold_left (pipe3_do tr) h pipe3_default) =
  m3_mul (m3_mul (latest sets3_translation m3_identity h) (latest (sets3_rotation tr) m3_identity h))
         (latest sets3_scale m3_identity h).
Proof.
  intros NM tr h.
  assert (G : forall p, fold_left (pipe3_do tr) h p =
     mkpipe3 (latest sets3_translation (p3_translation p) h) (latest (sets3_rotation tr) (p3_rotation p) h) (latest sets3_scale (p3_scale p) h)).
  { induction h as [|o h IH]; intros p; [destruct p; reflexivity|]. cbn [fold_left latest]. rewrite IH. destruct o; reflexivity. }
  rewrite G. reflexivity.
Qed.
Print Assumptions C46_pipe3_history.

Theorem C46_pipe4_history : forall (NM : Num) (tr : Trig NM) (h : list (pipe4_op NM)),
  pipe4_result (fold_left (fun p o => fst (pipe4_do tr p o)) h pipe4_default) =
  m4_mul (m4_mul (m4_mul (m4_mul (m4_mul
    (latest (sets4_perspective tr) m4_identity h) (latest sets4_look_at m4_identity h))
    (latest sets4_camera_translation m4_identity h)) (latest sets4_translation m4_identity h))
    (latest (sets4_rotation tr) m4_identity h)) (latest sets4_scale m4_identity h).
Proof.
  intros NM tr h.
  assert (G : forall p, fold_left (fun p o => fst (pipe4_do tr p o)) h p =
     mkpipe4 (latest sets4_translation (p4_translation p) h) (latest (sets4_rotation tr) (p4_rotation p) h) (latest sets4_scale (p4_scale p) h)
             (latest (sets4_perspective tr) (p4_perspective p) h) (latest sets4_camera_translation (p4_camtrans p) h) (latest sets4_look_at (p4_camlook p) h)).
  { induction h as [|o h IH]; intros p; [destruct p; reflexivity|]. cbn [fold_left latest]. rewrite IH.
    destruct o; try reflexivity. cbn [pipe4_do sets4_look_at]. destruct (m4_look_at target up); reflexivity. }
  rewrite G. reflexivity.
Qed.
Print Assumptions C46_pipe4_history.
(** A later call replaces an earlier one, removing brings back the identity, and the order of calls
    on different components does not matter. *)
Example C46_case : forall tr : Trig RN,
  pipe3_result (fold_left (pipe3_do tr) [@P3AddScale RN 2 3; @P3AddTranslation RN 1 1; @P3AddTranslation RN 5 6; @P3AddRotation RN 1; P3RemoveRotation] pipe3_default) =
  m3_mul (m3_mul (@m3_translation RN 5 6) m3_identity) (@m3_scale RN 2 3).
Proof. intros. rewrite C46_pipe3_history. reflexivity. Qed.

(** The result of the pipe scales, then rotates, then translates, then moves and turns the camera. *)
Theorem C46_pipes_act :
  (forall (h : list (pipe3_op RN)) p,
     pt2_multiply_m p (pipe3_result (fold_left (pipe3_do RT) h pipe3_default)) =
     pt2_multiply_m (pt2_multiply_m (pt2_multiply_m p (latest sets3_scale m3_identity h))
       (latest (sets3_rotation RT) m3_identity h)) (latest sets3_translation m3_identity h)) /\
  (forall (h : list (pipe4_op RN)) p,
     pt3_multiply_m p (pipe4_result (fold_left (fun p o => fst (pipe4_do RT p o)) h pipe4_default)) =
     pt3_multiply_m (pt3_multiply_m (pt3_multiply_m (pt3_multiply_m (pt3_multiply_m (pt3_multiply_m p
       (latest sets4_scale m4_identity h)) (latest (sets4_rotation RT) m4_identity h)) (latest sets4_translation m4_identity h))
       (latest sets4_camera_translation m4_identity h)) (latest sets4_look_at m4_identity h)) (latest (sets4_perspective RT) m4_identity h)).
Proof.
  assert (L : forall O A (P : A -> Prop) (f : O -> option A) h d, P d -> (forall o a, f o = Some a -> P a) -> P (latest f d h)).
  { intros O A P f h. induction h as [|o h IH]; intros d D F; cbn [latest]; [exact D|]. apply IH; [|exact F].
    destruct (f o) eqn:E; [apply (F o); exact E|exact D]. }
  split; intros h p.
  - rewrite C46_pipe3_history, !m3_compose; [reflexivity|..].
    + apply L; [apply affine_identity3|]. intros [] a; try discriminate; intros [= <-]; [apply affine_rotation3|apply affine_identity3].
    + apply L; [apply affine_identity3|]. intros [] a; try discriminate; intros [= <-]; [apply affine_scale3|apply affine_identity3].
  - rewrite C46_pipe4_history, !m4_compose; [reflexivity|..].
    + apply L; [apply affine_identity4|]. intros [] a; try discriminate; [cbn [sets4_look_at]; destruct (m4_look_at target up) eqn:E; try discriminate;
        intros [= <-]; apply (affine_look _ _ _ E)|intros [= <-]; apply affine_identity4].
    + apply L; [apply affine_identity4|]. intros [] a; try discriminate; intros [= <-]; [apply affine_translation4|apply affine_identity4].
    + apply L; [apply affine_identity4|]. intros [] a; try discriminate; intros [= <-]; [apply affine_translation4|apply affine_identity4].
    + apply L; [apply affine_identity4|]. intros [] a; try discriminate; intros [= <-]; [apply affine_rotation4|apply affine_axis4|apply affine_identity4].
    + apply L; [apply affine_identity4|]. intros [] a; try discriminate; intros [= <-]; [apply affine_scale4|apply affine_identity4].
Qed.
Print Assumptions C46_pipes_act.

(** *** C47: normalised vectors *)
Theorem C47_norm3 : forall a : pt3 RN,
  (norm3_new a = Err NormalizeVecWithoutLength <-> px a = 0 /\ py a = 0 /\ pz a = 0) /\
  (forall n, norm3_new a = Ok n -> rsq3 n = 1 /\ exists k, 0 < k /\ px a = k * px n /\ py a = k * py n /\ pz a = k * pz n) /\
  (norm3_new a = Err NormalizeVecWithoutLength \/ exists n, norm3_new a = Ok n).
Proof.
  intros a. split; [|split].
  - rewrite norm3_new_R, <- rsq3_zero. destruct (Req_EM_T (rsq3 a) 0); split; intros; try reflexivity; try discriminate; assumption || contradiction.
  - intros n. apply norm3_unit.
  - rewrite norm3_new_R. destruct (Req_EM_T (rsq3 a) 0); eauto.
Qed.
Print Assumptions C47_norm3.
Theorem C47_norm2 : forall a : pt2 RN,
  (norm2_new a = Err NormalizeVecWithoutLength <-> x2 a = 0 /\ y2 a = 0) /\
  (forall n, norm2_new a = Ok n -> rsq2 n = 1 /\ exists k, 0 < k /\ x2 a = k * x2 n /\ y2 a = k * y2 n) /\
  (norm2_new a = Err NormalizeVecWithoutLength \/ exists n, norm2_new a = Ok n).
Proof.
  intros a. split; [|split].
  - rewrite norm2_new_R, <- rsq2_zero. destruct (Req_EM_T (rsq2 a) 0); split; intros; try reflexivity; try discriminate; assumption || contradiction.
  - intros n. apply norm2_unit.
  - rewrite norm2_new_R. destruct (Req_EM_T (rsq2 a) 0); eauto.
Qed.
Print Assumptions C47_norm2.
Example C47_case : exists n, norm3_new (rp3 3 0 4) = Ok n /\ rsq3 n = 1.
Proof.
  destruct (C47_norm3 (rp3 3 0 4)) as (A & B & [C|[n C]]).
  - apply A in C. destruct C as (C & _). exfalso. cbn in C. lra.
  - exists n. split; [exact C|]. apply (B n C).
Qed.
(** Expected, but false of IEEE doubles: a non-zero vector can be normalised to a vector of length one.
    2^-700 is taken for zero, 2^700 gives the zero vector, NaN panics. *)
Theorem C47_norm_f64_refuted :
  norm3_new (mk3 (lit 1 (-700)) n0 n0 : pt3 F64) = Err NormalizeVecWithoutLength /\
  norm3_new (mk3 (lit 1 700) n0 n0 : pt3 F64) = Ok (mk3 n0 n0 n0) /\
  norm2_new (mk2 (lit 1 (-700)) n0 : pt2 F64) = Err NormalizeVecWithoutLength /\
  norm2_new (mk2 (lit 1 700) n0 : pt2 F64) = Ok (mk2 n0 n0) /\
  norm3_new (mk3 (SpecFloat.S754_nan : T F64) n0 n0) = Panic.
Proof. split; [vmeq|split; [vmeq|split; [vmeq|split; vmeq]]]. Qed.
Print Assumptions C47_norm_f64_refuted.

(** *** C84: set_size gives the bounding box the requested size (exact arithmetic).
    Fewer than 2^31 points: from_iterator counts in an i32, see C76. *)
Theorem C84_set_size : forall dbg (ps : list (pt3 RN)) sx sy sz b,
  (Z.of_nat (length ps) < 2 ^ 31)%Z -> 0 < sx -> 0 < sy -> 0 < sz ->
  bb3_from_iterator dbg ps = Ok b ->
  exists ps' b', pts3_set_size dbg ps sx sy sz = Ok ps' /\ length ps' = length ps /\
    bb3_from_iterator dbg ps' = Ok b' /\
    px (max3 b') - px (min3 b') = sx /\ py (max3 b') - py (min3 b') = sy /\ pz (max3 b') - pz (min3 b') = sz.
Proof.
  intros dbg ps sx sy sz b L X Y Z B.
  destruct (bb_pmap dbg ps b (fun x => x) (fun x => x) (fun x => x)) as (_ & HX & HY & HZ); try (intros ? ? ?; assumption); auto.
  assert (I : forall k, 0 < k -> incr (fun x => x * k)) by (intros k K x y; apply Rmult_lt_compat_r; exact K).
  assert (D : forall a lo hi, 0 < a -> lo < hi -> 0 < a / (hi - lo)) by (intros; apply Rdiv_lt_0_compat; lra).
  assert (F : forall a lo hi, lo < hi -> hi * (a / (hi - lo)) - lo * (a / (hi - lo)) = a) by (intros; field; lra).
  set (gx := fun x => x * (sx / (px (max3 b) - px (min3 b)))).
  set (gy := fun x => x * (sy / (py (max3 b) - py (min3 b)))).
  set (gz := fun x => x * (sz / (pz (max3 b) - pz (min3 b)))).
  exists (map (pmap gx gy gz) ps), (mkbb3 (pmap gx gy gz (min3 b)) (pmap gx gy gz (max3 b))).
  split; [|split; [apply map_length|split]].
  - unfold pts3_set_size, pts3_bb_maybe. rewrite B. cbn [obind]. unfold bb3_size_x, bb3_size_y, bb3_size_z. rewrite !size_R by assumption.
    cbn [obind]. f_equal. unfold pts3_transform. apply map_ext. intros p. rewrite scale_act3. reflexivity.
  - apply (bb_pmap dbg ps b gx gy gz); auto; apply I, D; assumption.
  - cbn [min3 max3]. unfold pmap, rp3. cbn [px py pz]. unfold gx, gy, gz. auto.
Qed.
Print Assumptions C84_set_size.
Lemma box_case dbg : exists b, bb3_from_iterator dbg [rp3 0 0 0; rp3 1 2 4] = Ok b.
Proof.
  rewrite bb3_from_spec by (cbn; lia). unfold fmin, fmax. cbn [map fold_left rp3 px py pz].
  assert (A : forall x : R, 0 < x -> (if @nltb RN x 0 then x else 0) = 0 /\ (if @ngtb RN x 0 then x else 0) = x).
  { intros x X. destruct (R_ltb_spec x 0), (R_gtb_spec x 0); split; lra. }
  destruct (A 1) as [A1 A2]; [lra|]. destruct (A 2) as [B1 B2]; [lra|]. destruct (A 4) as [C1 C2]; [lra|].
  cbn [T RN] in *. rewrite A1, A2, B1, B2, C1, C2. eexists. apply bb3_new_R. split; [reflexivity|]. cbn. lra.
Qed.
Example C84_case : forall dbg, exists ps', pts3_set_size dbg [rp3 0 0 0; rp3 1 2 4] 3 3 3 = Ok ps' /\ length ps' = 2%nat.
Proof.
  intros dbg. destruct (box_case dbg) as [b B].
  destruct (C84_set_size dbg [rp3 0 0 0; rp3 1 2 4] 3 3 3 b) as (ps' & b' & H & L & _); [cbn; lia|lra|lra|lra|exact B|eauto].
Qed.
(** Without a bounding box (fewer than two points, or flat in one direction) it does nothing. *)
Theorem C84_set_size_flat : forall NM dbg (ps : list (pt3 NM)) sx sy sz e,
  bb3_from_iterator dbg ps = Err e -> pts3_set_size dbg ps sx sy sz = Ok ps.
Proof. intros NM dbg ps sx sy sz e H. unfold pts3_set_size, pts3_bb_maybe. rewrite H. reflexivity. Qed.
Print Assumptions C84_set_size_flat.

(** *** C85: center moves the middle of the bounding box to the origin (exact arithmetic). *)
Theorem C85_center : forall dbg (ps : list (pt3 RN)) b,
  (Z.of_nat (length ps) < 2 ^ 31)%Z -> bb3_from_iterator dbg ps = Ok b ->
  exists v : pt3 RN, exists b',
    pts3_center dbg ps = Ok (map (fun p : pt3 RN => rp3 (px p + px v) (py p + py v) (pz p + pz v)) ps) /\
    bb3_from_iterator dbg (map (fun p : pt3 RN => rp3 (px p + px v) (py p + py v) (pz p + pz v)) ps) = Ok b' /\
    (forall ax, axis3 ax -> ax (min3 b') + ax (max3 b') = 0) /\
    (forall ax, axis3 ax -> ax (max3 b') - ax (min3 b') = ax (max3 b) - ax (min3 b)).
Proof.
  intros dbg ps b L B. set (c := bb3_center b). exists (rp3 (- px c) (- py c) (- pz c)).
  set (gx := fun x => x + - px c). set (gy := fun x => x + - py c). set (gz := fun x => x + - pz c).
  exists (mkbb3 (pmap gx gy gz (min3 b)) (pmap gx gy gz (max3 b))).
  split; [|split; [|split]].
  - unfold pts3_center, pts3_bb_maybe. rewrite B. reflexivity.
  - apply (bb_pmap dbg ps b gx gy gz); auto; intros x y; unfold gx, gy, gz; lra.
  - intros ? [-> | [-> | ->]]; unfold pmap, rp3, gx, gy, gz, c, bb3_center; cbn -[n2]; rewrite R_n2; lra.
  - intros ? [-> | [-> | ->]]; unfold pmap, rp3, gx, gy, gz; cbn; lra.
Qed.
Print Assumptions C85_center.
Example C85_case : forall dbg, exists ps', pts3_center dbg [rp3 0 0 0; rp3 1 2 4] = Ok ps' /\ length ps' = 2%nat.
Proof.
  intros dbg. destruct (box_case dbg) as [b B].
  destruct (C85_center dbg [rp3 0 0 0; rp3 1 2 4] b) as (v & b' & H & _); [cbn; lia|exact B|]. rewrite H. eexists. split; [reflexivity|reflexivity].
Qed.

(** *** C86: look_at *)
(** It fails exactly for the zero target, sends the target to the positive z axis at its distance. *)
Theorem C86_look_at_target : forall t up : pt3 RN,
  (m4_look_at t up = Err NormalizeVecWithoutLength <-> px t = 0 /\ py t = 0 /\ pz t = 0) /\
  (forall m, m4_look_at t up = Ok m -> pt3_multiply_m t m = rp3 0 0 (sqrt (rsq3 t))).
Proof.
  intros t up. split.
  - rewrite <- rsq3_zero. split.
    + unfold m4_look_at. rewrite normalized3_R. destruct (Req_EM_T (rsq3 t) 0); [auto|discriminate].
    + intros Z. unfold m4_look_at. rewrite normalized3_R. destruct (Req_EM_T (rsq3 t) 0); [reflexivity|contradiction].
  - intros m H. destruct (Req_EM_T (rsq3 t) 0) as [Z|Z].
    { unfold m4_look_at in H. rewrite normalized3_R in H. destruct (Req_EM_T (rsq3 t) 0); [discriminate|contradiction]. }
    destruct (look_at_R t up Z) as (n & N & (X & Y & W) & m' & E & A). rewrite E in H. apply Ok_inj in H; subst m'.
    rewrite A. rewrite dot_cross_r. set (l := sqrt (rsq3 t)) in *. unfold rp3. f_equal.
    + unfold rcross at 1. unfold rdot3, rp3. cbn [px py pz]. rewrite X, Y, W. toR; ring.
    + unfold rdot3. rewrite X, Y, W. transitivity (l * rsq3 n); [unfold rsq3, rdot3; toR; ring|]. rewrite N. toR; ring.
Qed.
Print Assumptions C86_look_at_target.
(** Expected of a camera matrix, but false: it keeps shapes.  It does so exactly if `up` and the target
    happen to span a unit square, because the first two rows are never normalised. *)
Theorem C86_look_at_isometry_iff : forall (t up : pt3 RN) m, m4_look_at t up = Ok m ->
  (isometry3 (fun p => pt3_multiply_m p m) <-> rsq3 (rcross up t) = 1).
Proof. apply look_iso. Qed.
Print Assumptions C86_look_at_isometry_iff.
Theorem C86_look_at_distorts_refuted : exists (t up : pt3 RN) m,
  rsq3 up = 1 /\ m4_look_at t up = Ok m /\ ~ isometry3 (fun p => pt3_multiply_m p m).
Proof.
  destruct (look_at_R (rp3 2 0 0) (rp3 0 0 1)) as (n & _ & _ & m & E & _).
  { unfold rsq3, rdot3, rp3. cbn. lra. }
  exists (rp3 2 0 0), (rp3 0 0 1), m. split; [apply unit_z|]. split; [exact E|].
  rewrite (look_iso _ _ _ E). unfold rsq3, rdot3, rcross, rp3. cbn. lra.
Qed.
Print Assumptions C86_look_at_distorts_refuted.
