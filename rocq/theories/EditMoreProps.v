(** Properties of turning, rebuilding, segments, ordering and resizing of shapes (C146-C150). *)
From Verif Require Import Base BaseLemmas Num NumLemmas SortSpec BBoxModel GeomSpec BBoxLemmas KdModel KdLemmas FilterModel VecModel VecSpec VecLemmas
  LineModel MatrixModel MatrixSpec MatrixLemmas FloatSpec FloatLemmas FloatBridge WrapModel ShapeModel CloudModel CloudSpec CloudLemmas NormalLemmas EditModel EditSpec EditLemmas.
From Coq Require Import Floats.SpecFloat Reals Lra Psatz Lia.
Local Open Scope R_scope.

(** ** C146: turning a position *)
(** In exact arithmetic the position is turned counterclockwise around the center by the angle, and no other position is; distances are kept. *)
Theorem C146_turned {A} (E : pos2 RN A) : lawful2 E -> forall a (r : R) (c : pt2 RN),
  turned c r (seen2 E a) (seen2 E (edit2_rotate E RT a r c)) /\
  (rad2 c (seen2 E a) <> 0 -> forall q, turned c r (seen2 E a) q -> q = seen2 E (edit2_rotate E RT a r c)) /\
  forall b, sqd2 (seen2 E (edit2_rotate E RT a r c)) (seen2 E (edit2_rotate E RT b r c)) = sqd2 (seen2 E a) (seen2 E b).
Proof.
  intros L a r c. unfold edit2_rotate. cbv zeta. rewrite (seen2_set E a) by exact L. pose proof (sin2_cos2 r) as SC. unfold Rsqr in SC.
  set (p := seen2 E a). change (g2x E a) with (x2 p). change (g2y E a) with (y2 p). destruct p as [x y] eqn:P, c as [u v]. cbn [x2 y2 RT ncos nsin nadd nsub nmul T RN].
  split; [|split].
  - unfold turned, rad2, dot_at, cross_at. cbn [x2 y2]. split; [|split].
    + replace ((x - u) * (x - u) + (y - v) * (y - v)) with ((sin r * sin r + cos r * cos r) * ((x - u) * (x - u) + (y - v) * (y - v))) by (rewrite SC; ring). ring.
    + ring.
    + ring.
  - intros N [a' b'] (H1 & H2 & H3). unfold rad2, dot_at, cross_at in *. cbn [x2 y2] in *.
    set (dx := x - u) in *. set (dy := y - v) in *. set (ex := a' - u) in *. set (ey := b' - v) in *.
    assert (X : (dx * dx + dy * dy) * ex = (dx * dx + dy * dy) * (cos r * dx - sin r * dy)).
    { transitivity (dx * (dx * ex + dy * ey) - dy * (dx * ey - dy * ex)); [ring|]. rewrite H2, H3. ring. }
    assert (Y : (dx * dx + dy * dy) * ey = (dx * dx + dy * dy) * (sin r * dx + cos r * dy)).
    { transitivity (dy * (dx * ex + dy * ey) + dx * (dx * ey - dy * ex)); [ring|]. rewrite H2, H3. ring. }
    apply Rmult_eq_reg_l in X, Y; try exact N. unfold ex, ey in X, Y. f_equal; toR; lra.
  - intros b. rewrite (seen2_set E b) by exact L. set (q := seen2 E b). change (g2x E b) with (x2 q). change (g2y E b) with (y2 q). destruct q as [x' y'].
    unfold sqd2. cbn [x2 y2].
    replace ((x - x') ^ 2 + (y - y') ^ 2) with ((sin r * sin r + cos r * cos r) * ((x - x') ^ 2 + (y - y') ^ 2)) by (rewrite SC; ring). ring.
Qed.
Print Assumptions C146_turned.
(** Turning twice adds the angles, turning back restores, turning around the origin is what the rotation matrix does, and shapes keep
    their size and stay aligned with the axes. *)
Theorem C146_compose (b : box2d RN) (p c : pt2 RN) (r s : R) :
  edit2_rotate pos2_box RT (edit2_rotate pos2_box RT b r c) s c = edit2_rotate pos2_box RT b (r + s) c /\
  edit2_rotate pos2_box RT (edit2_rotate pos2_box RT b r c) (- r) c = b /\
  edit2_rotate pos2_point RT p r (rp2 0 0) = pt2_multiply_m p (m3_rotation RT r) /\
  edit2_rotate pos2_point RT p (PI / 2) c = rp2 (x2 c - (y2 p - y2 c)) (y2 c + (x2 p - x2 c)) /\
  extent2 (edit2_rotate pos2_box RT b r c) = extent2 b.
Proof.
  assert (C : forall r s (b : box2d RN), edit2_rotate pos2_box RT (edit2_rotate pos2_box RT b r c) s c = edit2_rotate pos2_box RT b (r + s) c).
  { intros r' s' [[x y] sx sy]. destruct c as [u v]. unfold edit2_rotate, pos2_box, box2_at, pos2_point. cbn. do 2 f_equal; toR; rewrite ?sin_plus, ?cos_plus; ring. }
  split; [apply C|]. split.
  { rewrite C. replace (r + - r) with 0 by ring. destruct b as [[x y] sx sy], c as [u v]. unfold edit2_rotate, pos2_box, box2_at, pos2_point. cbn.
    rewrite sin_0, cos_0. do 2 f_equal; toR; ring. }
  split.
  { rewrite rotation_act2. destruct p as [x y]. unfold edit2_rotate, pos2_point. cbn. unfold rp2. f_equal; toR; ring. }
  split; [|reflexivity].
  destruct p as [x y], c as [u v]. unfold edit2_rotate, pos2_point. cbn. rewrite sin_PI2, cos_PI2. unfold rp2. f_equal; toR; ring.
Qed.
Print Assumptions C146_compose.
(** With f64 and any finite sine and cosine the center stays where it is. *)
Theorem C146_center (tr : Trig F64) (r : T F64) (c : pt2 F64) :
  (forall ax, axis2 ax -> is_double (ax c) /\ finite (ax c)) ->
  is_double (ncos tr r) /\ finite (ncos tr r) -> is_double (nsin tr r) /\ finite (nsin tr r) ->
  forall ax, axis2 ax -> feq (ax (edit2_rotate pos2_point tr c r c)) (ax c).
Proof.
  intros C [K1 K2] [S1 S2] ax A.
  destruct (C x2) as [X1 X2]; [unfold axis2; auto|]. destruct (C y2) as [Y1 Y2]; [unfold axis2; auto|].
  destruct (fine_fmt _ _ fine_0) as [F0 T0].
  assert (Self : forall x, is_double x -> f_finite x -> fine (nsub x x) 0).
  { intros x D F. assert (X : fine x (fval x)) by (repeat split; assumption). replace 0 with (fval x - fval x) by ring.
    apply fine_sub; auto; rewrite Rminus_diag_eq by reflexivity; assumption. }
  assert (Zero : forall k x, is_double k -> f_finite k -> fine x 0 -> fine (nmul k x) 0).
  { intros k x D F X. assert (Y : fine k (fval k)) by (repeat split; assumption). replace 0 with (fval k * 0) by ring.
    apply fine_mul; auto; rewrite Rmult_0_r; assumption. }
  assert (Pl : forall x y v, fine x v -> fine y 0 -> fine (nadd x y) v).
  { intros x y v X Y. destruct (fine_fmt _ _ X). replace v with (v + 0) by ring. apply fine_add; auto; rewrite Rplus_0_r; auto. }
  assert (Mi : forall x y v, fine x v -> fine y 0 -> fine (nsub x y) v).
  { intros x y v X Y. destruct (fine_fmt _ _ X). replace v with (v - 0) by ring. apply fine_sub; auto; rewrite Rminus_0_r; auto. }
  assert (FX : fine (x2 c) (fval (x2 c))) by (repeat split; assumption). assert (FY : fine (y2 c) (fval (y2 c))) by (repeat split; assumption).
  destruct A as [->| ->]; unfold edit2_rotate; cbn [pos2_point g2x g2y s2x s2y x2 y2].
  - destruct (Mi _ _ _ (Pl _ _ _ FX (Zero _ _ K1 K2 (Self _ X1 X2))) (Zero _ _ S1 S2 (Self _ Y1 Y2))) as (D & F & V). apply feq_val; assumption.
  - destruct (Pl _ _ _ (Pl _ _ _ FY (Zero _ _ S1 S2 (Self _ X1 X2))) (Zero _ _ K1 K2 (Self _ Y1 Y2))) as (D & F & V). apply feq_val; assumption.
Qed.
Print Assumptions C146_center.
Example C146_case : lawful2 (@pos2_box RN) /\ rad2 (rp2 1 1) (rp2 2 1) <> 0 /\ turned (rp2 1 1) (PI / 2) (rp2 2 1) (rp2 1 2) /\
  edit2_rotate pos2_point (mkTrig F64 (fun _ => fz 0) (fun _ => fz 1) (fun _ => fz 0)) (fp2 2 1) (fz 0) (fp2 1 1) = fp2 1 2.
Proof.
  split; [apply lawful_box2|]. unfold turned, rad2, dot_at, cross_at. cbn [x2 y2 rp2]. rewrite sin_PI2, cos_PI2.
  split; [lra|]. split; [lra|vmeq].
Qed.

(** ** C147: the building operations forget the size of a shape *)
(** new_from, multiply_m, normalized and center build a new object, so a box or sphere comes back with unit size, whatever it was;
    in particular transforming a box by the identity matrix does not give the box. *)
Theorem C147_size_lost {NM} (b : box3d NM) (s : sphere NM) (m : mat4 NM) (o : pt3 NM) :
  extent3 (build3_multiply_m pos3_box b m) = (n1, n1, n1) /\ extent3 (build3_center pos3_box b o) = (n1, n1, n1) /\
  extent3 (build3_new_from pos3_box (seen3 pos3_box b)) = (n1, n1, n1) /\
  (forall b', build3_normalized pos3_box b = Ok b' -> extent3 b' = (n1, n1, n1)) /\
  sph_radius (build3_multiply_m pos3_sphere s m) = n1 /\ sph_radius (build3_center pos3_sphere s o) = n1 /\
  sph_radius (build3_new_from pos3_sphere (seen3 pos3_sphere s)) = n1 /\
  (forall s', build3_normalized pos3_sphere s = Ok s' -> sph_radius s' = n1).
Proof.
  do 3 (split; [reflexivity|]). split.
  { intros b'. unfold build3_normalized. destruct (abs3 _); try discriminate. cbn [obind]. destruct (_ == _)%num; [discriminate|]. intros H. injection H as <-. reflexivity. }
  do 3 (split; [reflexivity|]).
  intros b'. unfold build3_normalized. destruct (abs3 _); try discriminate. cbn [obind]. destruct (_ == _)%num; [discriminate|]. intros H. injection H as <-. reflexivity.
Qed.
Print Assumptions C147_size_lost.
Theorem C147_identity (b : box3d RN) (s : sphere RN) :
  box_center (build3_multiply_m pos3_box b m4_identity) = box_center b /\
  (build3_multiply_m pos3_box b m4_identity = b <-> box_sx b = (1 : R) /\ box_sy b = (1 : R) /\ box_sz b = (1 : R)) /\
  (build3_multiply_m pos3_sphere s m4_identity = s <-> sph_radius s = (1 : R) /\ pz (sph_center s) = py (sph_center s)).
Proof.
  assert (I : forall b : box3d RN, box_center (build3_multiply_m pos3_box b m4_identity) = box_center b).
  { intros [[x y z] sx sy sz]. unfold build3_multiply_m. cbn -[n0 n1]. rewrite ?R_n0, ?R_n1. f_equal; toR; ring. }
  split; [apply I|]. split.
  - pose proof (I b) as J. destruct b as [c sx sy sz]. split.
    + intros H. apply (f_equal extent3) in H. unfold extent3 in H. cbn [build3_multiply_m new3 pos3_box box3_new box_sx box_sy box_sz] in H. unfold pos_one in H.
      rewrite R_n1 in H. injection H as <- <- <-. auto.
    + cbn [box_sx box_sy box_sz box_center] in *. intros (-> & -> & ->).
      destruct (build3_multiply_m pos3_box (mkbox3d c (1 : R) (1 : R) (1 : R)) m4_identity) as [c' x' y' z'] eqn:Q. cbn [box_center] in J.
      apply (f_equal extent3) in Q. unfold extent3 in Q. cbn [build3_multiply_m new3 pos3_box box3_new box_sx box_sy box_sz] in Q. unfold pos_one in Q. rewrite R_n1 in Q.
      injection Q as <- <- <-. rewrite J. reflexivity.
  - destruct s as [[x y z] r]. unfold build3_multiply_m. cbn -[n0 n1]. unfold sphere_new, pos_one. rewrite ?R_n0, ?R_n1. split.
    + intros H. injection H as _ _ H <-. split; [reflexivity|]. toR. cbn in H. lra.
    + intros [-> ->]. f_equal. f_equal; toR; ring.
Qed.
Print Assumptions C147_identity.
Example C147_case : build3_multiply_m pos3_box (mkbox3d (fp3 1 2 3) (fz 4) (fz 5) (fz 6)) m4_identity = mkbox3d (fp3 1 2 3) (fz 1) (fz 1) (fz 1) /\
  build3_normalized pos3_box (mkbox3d (fp3 2 0 0) (fz 4) (fz 5) (fz 6)) = Ok (mkbox3d (fp3 1 0 0) (fz 1) (fz 1) (fz 1)).
Proof. split; vmeq. Qed.

(** ** C148: segments *)
(** In exact arithmetic: the length is the distance of the ends, moving keeps it, the center of gravity is the middle, the bounding box is the
    span of the ends and exists exactly if they differ in every coordinate. *)
Theorem C148_segment3 dbg (s : seg (pt3 RN)) (x y z : R) :
  seg3_length s = sqrt (sqd3 (seg_start s) (seg_end s)) /\ seg3_length (seg3_move_by s x y z) = seg3_length s /\
  (exists c, seg3_cog s = Some c /\ middle3 (seg_start s) (seg_end s) c) /\
  ((forall ax, axis3 ax -> ax (seg_start s) <> ax (seg_end s)) -> exists b, seg3_bb dbg s = Ok b /\ forall ax, axis3 ax ->
      ax (min3 b) = Rmin (ax (seg_start s)) (ax (seg_end s)) /\ ax (max3 b) = Rmax (ax (seg_start s)) (ax (seg_end s))) /\
  ((exists ax, axis3 ax /\ ax (seg_start s) = ax (seg_end s)) -> seg3_bb dbg s = Err MinMaxEqual).
Proof.
  split; [apply dist_R|]. split.
  { unfold seg3_length. rewrite !dist_R. f_equal. unfold sqd3, seg3_move_by, pt3_move_by. cbn. ring. }
  split.
  { eexists. split; [reflexivity|]. rewrite center_3d_R. intros ax [->|[->| ->]]; cbn; lra. }
  split; [|apply seg3_bb_none].
  intros H. exists (span3 s). split; [apply seg3_bb_ok, H|]. intros ax [->|[->| ->]]; split; reflexivity.
Qed.
Print Assumptions C148_segment3.
Theorem C148_segment2 dbg (s : seg (pt2 RN)) (x y : R) :
  seg2_length s = sqrt (sqd2 (seg_start s) (seg_end s)) /\ seg2_length (seg2_move_by s x y) = seg2_length s /\
  (exists c, seg2_cog s = Some c /\ middle2 (seg_start s) (seg_end s) c) /\
  ((forall ax, axis2 ax -> ax (seg_start s) <> ax (seg_end s)) -> exists b, seg2_bb dbg s = Ok b /\ forall ax, axis2 ax ->
      ax (min2 b) = Rmin (ax (seg_start s)) (ax (seg_end s)) /\ ax (max2 b) = Rmax (ax (seg_start s)) (ax (seg_end s))) /\
  ((exists ax, axis2 ax /\ ax (seg_start s) = ax (seg_end s)) -> seg2_bb dbg s = Err MinMaxEqual).
Proof.
  split; [apply dist2_R|]. split.
  { unfold seg2_length. rewrite !dist2_R. unfold rdist2. f_equal. unfold sqd2, seg2_move_by, pt2_move_by. cbn. ring. }
  split.
  { eexists. split; [reflexivity|]. rewrite center_2d_R. intros ax [->| ->]; cbn; lra. }
  split; [|apply seg2_bb_none].
  intros H. exists (span2 s). split; [apply seg2_bb_ok, H|]. intros ax [->| ->]; split; reflexivity.
Qed.
Print Assumptions C148_segment2.
(** Scaling multiplies the length and keeps the middle if the ends differ in every coordinate; otherwise it does nothing, silently. *)
Theorem C148_scale3 dbg (s : seg (pt3 RN)) (f : R) : 0 < f ->
  ((forall ax, axis3 ax -> ax (seg_start s) <> ax (seg_end s)) -> exists t, seg3_scale dbg s f = Ok t /\
     seg3_length t = f * seg3_length s /\ seg3_cog t = seg3_cog s /\
     forall ax, axis3 ax -> ax (seg_end t) - ax (seg_start t) = f * (ax (seg_end s) - ax (seg_start s))) /\
  ((exists ax, axis3 ax /\ ax (seg_start s) = ax (seg_end s)) -> seg3_scale dbg s f = Ok s).
Proof.
  intros F. split.
  - intros H. unfold seg3_scale. rewrite seg3_bb_ok by exact H. rewrite span3_center. eexists. split; [reflexivity|].
    destruct s as [[x y z] [u v w]]. cbn [seg_start seg_end rp3 px py pz edit3_increase set_xyz pos3_point g3x g3y g3z s3x s3y s3z].
    split; [|split].
    + unfold seg3_length. rewrite !dist_R. cbn [seg_start seg_end].
      rewrite <- sqrt_scale by (try lra; unfold sqd3; repeat apply Rplus_le_le_0_compat; apply pow2_ge_0). f_equal.
      unfold sqd3. cbn [px py pz T RN nadd nsub nmul]. field.
    + unfold seg3_cog. cbn [seg_start seg_end]. rewrite !center_3d_R. unfold rp3. cbn [px py pz T RN nadd nsub nmul]. do 2 f_equal; toR; field.
    + intros ax [->|[->| ->]]; cbn; field.
  - intros H. unfold seg3_scale. rewrite seg3_bb_none by exact H. reflexivity.
Qed.
Print Assumptions C148_scale3.
Theorem C148_scale2 dbg (s : seg (pt2 RN)) (f : R) : 0 < f ->
  ((forall ax, axis2 ax -> ax (seg_start s) <> ax (seg_end s)) -> exists t, seg2_scale dbg s f = Ok t /\
     seg2_length t = f * seg2_length s /\ seg2_cog t = seg2_cog s /\
     forall ax, axis2 ax -> ax (seg_end t) - ax (seg_start t) = f * (ax (seg_end s) - ax (seg_start s))) /\
  ((exists ax, axis2 ax /\ ax (seg_start s) = ax (seg_end s)) -> seg2_scale dbg s f = Ok s).
Proof.
  intros F. split.
  - intros H. unfold seg2_scale. rewrite seg2_bb_ok by exact H. rewrite span2_center. eexists. split; [reflexivity|].
    destruct s as [[x y] [u v]]. cbn [seg_start seg_end rp2 x2 y2 edit2_increase set_xy pos2_point g2x g2y s2x s2y].
    split; [|split].
    + unfold seg2_length. rewrite !dist2_R. unfold rdist2. cbn [seg_start seg_end].
      rewrite <- sqrt_scale by (try lra; unfold sqd2; repeat apply Rplus_le_le_0_compat; apply pow2_ge_0). f_equal.
      unfold sqd2. cbn [x2 y2 T RN nadd nsub nmul]. field.
    + unfold seg2_cog. cbn [seg_start seg_end]. rewrite !center_2d_R. unfold rp2. cbn [x2 y2 T RN nadd nsub nmul]. do 2 f_equal; toR; field.
    + intros ax [->| ->]; cbn; field.
  - intros H. unfold seg2_scale. rewrite seg2_bb_none by exact H. reflexivity.
Qed.
Print Assumptions C148_scale2.
(** Transforming by a matrix that keeps distances keeps the length; an affine matrix sends the middle to the middle. *)
Theorem C148_transform (s : seg (pt3 RN)) (m : mat4 RN) :
  (isometry3 (fun p => pt3_multiply_m p m) -> seg3_length (seg3_transform s m) = seg3_length s) /\
  seg3_cog (seg3_transform s m) = Some (pt3_multiply_m (center_3d (seg_start s) (seg_end s)) m).
Proof.
  split.
  - intros I. unfold seg3_length. rewrite !dist_R. f_equal. apply I.
  - unfold seg3_cog, seg3_transform. cbn [seg_start seg_end]. rewrite !center_3d_R. unfold pt3_multiply_m, rp3. cbn. do 2 f_equal; toR; field.
Qed.
Print Assumptions C148_transform.
(** Moving a line or ray moves every point of it and keeps its direction. *)
Theorem C148_line (l : line3 RN) (x y z : R) : dir (line3_move_by l x y z) = dir l /\
  forall t : R, pt3_add (anchor (line3_move_by l x y z)) (norm3_mul (dir l) t) = pt3_move_by (pt3_add (anchor l) (norm3_mul (dir l) t)) x y z.
Proof.
  split; [reflexivity|]. intros t. destruct l as [[a b c] [d e f]]. unfold line3_move_by, pt3_add, norm3_mul, pt3_move_by. cbn. f_equal; toR; ring.
Qed.
Print Assumptions C148_line.
(** With f64 the middle of a finite segment can be infinite. *)
Theorem C148_middle_refuted : exists s : seg (pt3 F64), (forall ax, axis3 ax -> finite (ax (seg_start s)) /\ finite (ax (seg_end s))) /\
  seg3_cog s = Some (@mk3 F64 (S754_infinity false) (fz 0) (fz 0)).
Proof.
  exists (mkseg (@mk3 F64 (@lit F64 (-1) 1023) (fz 0) (fz 0)) (@mk3 F64 (@lit F64 1 1023) (fz 0) (fz 0))). split; [|vmeq].
  intros ax [->|[->| ->]]; split; vm_compute; reflexivity.
Qed.
Print Assumptions C148_middle_refuted.
Example C148_case : seg3_scale true (mkseg (fp3 0 0 0) (fp3 2 4 4)) (fz 3) = Ok (mkseg (fp3 (-2) (-4) (-4)) (fp3 4 8 8)) /\
  seg3_length (mkseg (fp3 0 0 0) (fp3 2 4 4)) = fz 6 /\
  seg3_scale true (mkseg (fp3 0 0 0) (fp3 2 4 0)) (fz 3) = Ok (mkseg (fp3 0 0 0) (fp3 2 4 0)) /\
  (forall ax, axis3 ax -> ax (rp3 0 0 0) <> ax (rp3 2 4 4)).
Proof. split; [vmeq|]. split; [vmeq|]. split; [vmeq|]. intros ax [->|[->| ->]]; cbn; lra. Qed.

(** ** C149: ordering of shapes *)
(** On shapes whose centers have no NaN, cmp is a total preorder - by the distance of the center from the origin alone. *)
Theorem C149_preorder :
  (forall l : list (sphere F64), Forall (fun s => number3 (sph_center s)) l -> cmp_ok sphere_cmp l /\
     forall a b, In a l -> In b l -> sphere_cmp a b = pt3_cmp (sph_center a) (sph_center b)) /\
  (forall l : list (box3d F64), Forall (fun s => number3 (box_center s)) l -> cmp_ok box3_cmp l /\
     forall a b, In a l -> In b l -> box3_cmp a b = pt3_cmp (box_center a) (box_center b)) /\
  (forall l : list (circle F64), Forall (fun s => number2 (cir_center s)) l -> cmp_ok circle_cmp l /\
     forall a b, In a l -> In b l -> circle_cmp a b = pt2_cmp (cir_center a) (cir_center b)) /\
  (forall l : list (box2d F64), Forall (fun s => number2 (box2_center s)) l -> cmp_ok box2_cmp l /\
     forall a b, In a l -> In b l -> box2_cmp a b = pt2_cmp (box2_center a) (box2_center b)).
Proof.
  assert (G : forall A (f : A -> T F64) (c : A -> A -> comparison) (rest : A -> A -> option comparison) l,
    Forall (fun a => number (f a)) l -> (forall a b, c a b = cmp_or_eq (or_else_cmp (ncmp (f a) (f b)) (rest a b))) ->
    (forall a b, In a l -> In b l -> c a b = cmp_or_eq (ncmp (f a) (f b))) /\ cmp_ok c l).
  { intros A f c rest l H E.
    assert (Q : forall a b, In a l -> In b l -> c a b = cmp_or_eq (ncmp (f a) (f b))).
    { intros a b Ia Ib. rewrite E. rewrite Forall_forall in H. destruct (num_cmp F64_laws (f a) (f b) (H a Ia) (H b Ib)) as [k ->]. reflexivity. }
    split; [exact Q|]. destruct (cmp_preorder F64_laws f l H) as [P1 P2]. split.
    - intros a b Ia Ib. rewrite !Q by assumption. apply P1; assumption.
    - intros a b d Ia Ib Id. rewrite !Q by assumption. apply P2; assumption. }
  split; [|split; [|split]]; intros l H.
  - destruct (G _ (fun s => sqr_dist_3d (mk3 n0 n0 n0) (sph_center s)) sphere_cmp (fun a b => ncmp (sph_radius a) (sph_radius b)) l) as [Q P].
    + eapply Forall_impl; [|exact H]. intros a N. apply origin3_num, N.
    + reflexivity.
    + split; [exact P|exact Q].
  - destruct (G _ (fun s => sqr_dist_3d (mk3 n0 n0 n0) (box_center s)) box3_cmp (fun a b => or_else_cmp (ncmp (box_sx a) (box_sx b))
      (or_else_cmp (ncmp (box_sy a) (box_sy b)) (ncmp (box_sz a) (box_sz b)))) l) as [Q P].
    + eapply Forall_impl; [|exact H]. intros a N. apply origin3_num, N.
    + reflexivity.
    + split; [exact P|exact Q].
  - destruct (G _ (fun s => sqr_dist_2d (mk2 n0 n0) (cir_center s)) circle_cmp (fun a b => ncmp (cir_radius a) (cir_radius b)) l) as [Q P].
    + eapply Forall_impl; [|exact H]. intros a N. apply origin2_num, N.
    + reflexivity.
    + split; [exact P|exact Q].
  - destruct (G _ (fun s => sqr_dist_2d (mk2 n0 n0) (box2_center s)) box2_cmp (fun a b => or_else_cmp (ncmp (box2_sx a) (box2_sx b)) (ncmp (box2_sy a) (box2_sy b))) l) as [Q P].
    + eapply Forall_impl; [|exact H]. intros a N. apply origin2_num, N.
    + reflexivity.
    + split; [exact P|exact Q].
Qed.
Print Assumptions C149_preorder.
(** So different shapes compare as equal, the two orders of a type contradict each other, and with a NaN it is no order at all. *)
Theorem C149_contracts_refuted :
  (exists a b : sphere F64, number3 (sph_center a) /\ number3 (sph_center b) /\ sphere_cmp a b = Eq /\ sphere_eq a b = false /\ sph_center a = sph_center b) /\
  (exists a b : sphere F64, number3 (sph_center a) /\ number3 (sph_center b) /\ sphere_cmp a b = Gt /\ sphere_partial_cmp a b = Some Lt) /\
  (exists a b : circle F64, number2 (cir_center a) /\ number2 (cir_center b) /\ circle_cmp a b = Gt /\ circle_partial_cmp a b = Some Lt) /\
  (exists a b : box3d F64, number3 (box_center a) /\ number3 (box_center b) /\ box3_cmp a b = Eq /\ box3_eq a b = false) /\
  (exists a b : box2d F64, number2 (box2_center a) /\ number2 (box2_center b) /\ box2_cmp a b = Eq /\ box2_eq a b = false) /\
  (exists a b c : sphere F64, sphere_cmp a b = Lt /\ sphere_cmp b c = Lt /\ sphere_cmp a c = Gt).
Proof.
  assert (N3 : forall x y z, number3 (fp3 x y z)) by (intros x y z ? [->|[->| ->]]; apply lit_num).
  assert (N2 : forall x y, number2 (fp2 x y)) by (intros x y ? [->| ->]; apply lit_num).
  split; [exists (mksphere (fp3 1 0 0) (fz 1)), (mksphere (fp3 1 0 0) (fz 2)); split; [apply N3|split; [apply N3|split; [vmeq|split; [vmeq|reflexivity]]]]|].
  split; [exists (mksphere (fp3 0 2 0) (fz 1)), (mksphere (fp3 1 0 0) (fz 1)); split; [apply N3|split; [apply N3|split; vmeq]]|].
  split; [exists (mkcircle (fp2 0 2) (fz 1)), (mkcircle (fp2 1 0) (fz 1)); split; [apply N2|split; [apply N2|split; vmeq]]|].
  split; [exists (mkbox3d (fp3 1 0 0) (fz 1) (fz 1) (fz 1)), (mkbox3d (fp3 0 1 0) (fz 2) (fz 3) (fz 4)); split; [apply N3|split; [apply N3|split; vmeq]]|].
  split; [exists (mkbox2d (fp2 1 0) (fz 1) (fz 1)), (mkbox2d (fp2 0 1) (fz 2) (fz 3)); split; [apply N2|split; [apply N2|split; vmeq]]|].
  exists (mksphere (fp3 2 0 0) (fz 1)), (mksphere (@mk3 F64 S754_nan S754_nan S754_nan) (fz 2)), (mksphere (fp3 1 0 0) (fz 3)).
  split; [vmeq|]. split; vmeq.
Qed.
Print Assumptions C149_contracts_refuted.
Example C149_case : Forall (fun s => number3 (sph_center s)) [mksphere (fp3 1 2 3) (fz 1); mksphere (fp3 3 2 2) (fz 9)] /\
  sphere_cmp (mksphere (fp3 1 2 3) (fz 9)) (mksphere (fp3 3 2 2) (fz 1)) = Lt.
Proof. split; [repeat constructor; intros ? [->|[->| ->]]; apply lit_num|vmeq]. Qed.

(** ** C150: resizing and moving shapes *)
(** In exact arithmetic the bounding box of a moved or scaled box is the moved or scaled bounding box; a scaled sphere or circle contains
    exactly the points whose distance from the center is within the multiplied radius. *)
Theorem C150_box (b : box3d RN) : 0 < box_sx b -> 0 < box_sy b -> 0 < box_sz b ->
  exists c, box3_bounding_box b = Ok c /\
    (forall x y z : R, box3_bounding_box (box3_move_by b x y z) = Ok (bb3_move_by c x y z)) /\
    (forall f : R, 0 < f -> box3_bounding_box (box3_scale b f) = bb3_scale c f).
Proof.
  destruct b as [[x y z] sx sy sz]. cbn [box_sx box_sy box_sz T RN]. intros X Y Z.
  assert (G : forall (u v w a b c : R), 0 < a -> 0 < b -> 0 < c -> box3_bounding_box (@mkbox3d RN (rp3 u v w) a b c) =
    Ok (mkbb3 (rp3 (u - a / 2) (v - b / 2) (w - c / 2)) (rp3 (u + a / 2) (v + b / 2) (w + c / 2)))).
  { intros u v w a b c A B C. unfold box3_bounding_box. cbn [box_center box_sx box_sy box_sz px py pz rp3]. rewrite R_n2. cbn [T RN nadd nsub ndiv].
    match goal with |- unwrap_res (bb3_new ?p ?q) = _ => assert (N : bb3_new p q = Ok (mkbb3 p q)) end.
    { apply bb3_new_R. cbn [px py pz]. repeat split; lra. }
    rewrite N. reflexivity. }
  eexists. split; [apply (G x y z sx sy sz); assumption|]. split.
  - intros a b c. unfold box3_move_by, box3_at, pt3_move_by. cbn [box_center box_sx box_sy box_sz px py pz].
    rewrite (G (x + a) (y + b) (z + c)) by assumption. unfold bb3_move_by, pt3_move_by, rp3. cbn. do 3 f_equal; toR; ring.
  - intros f F. unfold box3_scale, pos_mul. cbn [box_center box_sx box_sy box_sz].
    etransitivity; [apply (G x y z (sx * f) (sy * f) (sz * f)); apply Rmult_lt_0_compat; assumption|].
    unfold bb3_scale, bb3_size_x, bb3_size_y, bb3_size_z. cbn [min3 max3 rp3 px py pz]. rewrite !size_R by (cbn; lra). cbn [obind]. rewrite center3_R, R_nhalf.
    unfold rp3. cbn [min3 max3 px py pz T RN nadd nsub nmul]. do 3 f_equal; toR; field.
Qed.
Print Assumptions C150_box.
Theorem C150_ball (s : sphere RN) (c : circle RN) (f : R) : 0 < f ->
  (forall p, filter_sphere (sphere_scale s f) p = true <-> sqrt (sqd3 p (sph_center s)) <= f * sph_radius s) /\
  (forall p, filter_circle (circle_scale c f) p = true <-> sqrt (sqd2 p (cir_center c)) <= f * cir_radius c) /\
  sph_center (sphere_scale s f) = sph_center s /\ cir_center (circle_scale c f) = cir_center c.
Proof.
  intros F. split; [|split; [|split; reflexivity]].
  - intros p. unfold filter_sphere, sphere_scale, pos_mul. cbn [sph_center sph_radius]. rewrite dist_R.
    destruct (R_leb_spec (sqrt (sqd3 p (sph_center s))) (@nmul RN (sph_radius s) f)) as [L|L]; cbn in L; split; intros H; auto; try discriminate; cbn in *; lra.
  - intros p. unfold filter_circle, circle_scale, pos_mul. cbn [cir_center cir_radius]. rewrite dist2_R. unfold rdist2.
    destruct (R_leb_spec (sqrt (sqd2 p (cir_center c))) (@nmul RN (cir_radius c) f)) as [L|L]; cbn in L; split; intros H; auto; try discriminate; cbn in *; lra.
Qed.
Print Assumptions C150_ball.
(** With f64 the box made from a valid bounding box may have no bounding box: the conversion back panics. *)
Theorem C150_convert_refuted : exists (b : bb3 F64) (x : box3d F64), fvalid3 b /\ box3_of_bb b = Ok x /\ box3_bounding_box x = Panic.
Proof.
  exists (mkbb3 (@mk3 F64 (@lit F64 (2 ^ 52 + 1) 0) (fz 0) (fz 0)) (@mk3 F64 (@lit F64 (2 ^ 52 + 2) 0) (fz 1) (fz 1))),
    (mkbox3d (@mk3 F64 (@lit F64 (2 ^ 52 + 2) 0) nhalf nhalf) (fz 1) (fz 1) (fz 1)).
  split; [intros ax [->|[->| ->]]; vmeq|]. split; vmeq.
Qed.
Print Assumptions C150_convert_refuted.
(** And scaling by a positive factor can make a size zero, which the type of sizes excludes. *)
Theorem C150_scale_refuted : exists (b : box3d F64) (f : T F64), flt n0 (box_sx b) /\ flt n0 f /\ box_sx (box3_scale b f) = n0.
Proof.
  exists (mkbox3d (fp3 0 0 0) (@lit F64 1 (-600)) (fz 1) (fz 1)), (@lit F64 1 (-600)). split; [vmeq|]. split; vmeq.
Qed.
Print Assumptions C150_scale_refuted.
Example C150_case : box3_bounding_box (box3_move_by (mkbox3d (fp3 0 0 0) (fz 2) (fz 4) (fz 6)) (fz 1) (fz 1) (fz 1)) = Ok (mkbb3 (fp3 0 (-1) (-2)) (fp3 2 3 4)) /\
  filter_sphere (sphere_scale (mksphere (fp3 0 0 0) (fz 1)) (fz 3)) (fp3 0 3 0) = true /\
  filter_sphere (sphere_scale (mksphere (fp3 0 0 0) (fz 1)) (fz 3)) (fp3 0 4 0) = false.
Proof. split; [vmeq|]. split; vmeq. Qed.
