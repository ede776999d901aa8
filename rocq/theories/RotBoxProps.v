(** Boxes turned around the z axis (C153). *)
From Verif Require Import Base Num NumLemmas BBoxModel GeomSpec BBoxLemmas KdModel KdLemmas FilterModel VecModel VecSpec VecLemmas LineModel MatrixModel MatrixSpec MatrixLemmas CloudLemmas WrapModel ShapeModel ShapeSpec ShapeLemmas AngleLemmas NormalLemmas RotBoxSpec.
From Coq Require Import Floats.SpecFloat Reals Lra Lia.
Local Open Scope R_scope.

Lemma rot_made c sx sy sz (r : R) : exists u, ubox_from_z_rotation RT c sx sy sz (r : T RN) = Ok u /\
  u = mkubox c (rp3 (sin r) (cos r) 0) (rp3 0 0 1) sx sy sz.
Proof.
  unfold ubox_from_z_rotation. rewrite norm3_z_R'. cbn [obind].
  assert (E : rot2d RT (@mk3 RN n0 n1 n0) r = rp3 (sin r) (cos r) 0).
  { unfold rot2d, rp3. rewrite R_n0, R_n1. cbn [px py pz RT nsin ncos RN nneg T nsub nmul nadd]. rewrite sin_neg, cos_neg. f_equal; toR; ring. }
  rewrite E, norm3_new_unit.
  - eexists. split; reflexivity.
  - unfold rsq3, rdot3, rp3. cbn [px py pz]. pose proof (sin2_cos2 r) as H. unfold Rsqr in H. cbn [T RN] in *. lra.
Qed.

Lemma id_act (p : pt3 RN) : pt3_multiply_m p m4_identity = p.
Proof. destruct p as [x y z]. unfold pt3_multiply_m, m4_identity. cbn [px py pz m4_00 m4_01 m4_02 m4_03 m4_10 m4_11 m4_12 m4_13 m4_20 m4_21 m4_22 m4_23 m4_30 m4_31 m4_32 m4_33]. rewrite ?R_n0, ?R_n1. cbn [RN T nadd nsub nmul nneg ndiv]. f_equal; toR; field. Qed.

(** C153: new_from_z_rotation never panics; the box is the axis aligned one around the center, turned
    clockwise, and reaches the full sizes, not half of them, to both sides. *)
Theorem C153_corners : forall (c : pt3 RN) (sx sy sz r : R), 0 < sx -> 0 < sy -> 0 < sz ->
  exists u o, ubox_from_z_rotation RT c (sx : T RN) sy sz (r : T RN) = Ok u /\ proper_ubox u /\ sat_of_ubox u = Ok o /\ length (sat_points o) = 8%nat /\
    forall q, In q (sat_points o) <-> exists i j k, sign i /\ sign j /\ sign k /\
      forall ax, axis3 ax -> ax q = ax c + ax (clockwise r (rp3 (i * sx) (j * sy) (k * sz))).
Proof.
  intros c sx sy sz r X Y Z. destruct (rot_made c sx sy sz r) as (u & E & U). exists u. pose proof (sin2_cos2 r) as H. unfold Rsqr in H.
  assert (P : proper_ubox u).
  { subst u. unfold proper_ubox, rsq3, rdot3, rp3. cbn [ub_y ub_z ub_sx ub_sy ub_sz px py pz]. cbn [T RN] in *. repeat split; lra. }
  unfold sat_of_ubox. rewrite x_dir_proper by exact P. cbn [obind]. eexists. split; [exact E|]. split; [exact P|]. split; [reflexivity|]. split; [reflexivity|].
  cbn [sat_points]. subst u. unfold ubox_points. cbn [ub_center ub_y ub_z ub_sx ub_sy ub_sz].
  assert (B : forall (i j k : R) (q : pt3 RN), (forall ax, axis3 ax -> ax q = ax c + ax (clockwise r (rp3 (i * sx) (j * sy) (k * sz)))) <->
    q = @mk3 RN (px c + (i * sx * cos r + j * sy * sin r)) (py c + (j * sy * cos r - i * sx * sin r)) (pz c + k * sz)).
  { intros i j k [q1 q2 q3]. rewrite axis3_all. unfold clockwise, rp3. cbn [px py pz]. split.
    - intros (-> & -> & ->). reflexivity.
    - intros [= -> -> ->]. auto. }
  destruct c as [c1 c2 c3]. cbn [px py pz] in B. intros q.
  assert (M : forall a b c a' b' c' : R, a = a' -> b = b' -> c = c' -> @mk3 RN a b c = @mk3 RN a' b' c') by (intros; subst; reflexivity).
  unfold pt3_sub, pt3_add, pt3_mul, rcross, rp3. cbn [px py pz T RN nadd nsub nmul In].
  split.
  - intros Q. destruct Q as [Q|[Q|[Q|[Q|[Q|[Q|[Q|[Q|Q]]]]]]]]; [..|destruct Q].
    all: [> exists 1, (-1), 1|exists 1, (-1), (-1)|exists 1, 1, (-1)|exists 1, 1, 1|exists (-1), (-1), 1|exists (-1), (-1), (-1)|exists (-1), 1, (-1)|exists (-1), 1, 1].
    all: unfold sign; split; [auto|]; split; [auto|]; split; [auto|]; apply B; rewrite <- Q; apply M; toR; ring.
  - intros (i & j & k & I & J & K & Q). apply B in Q. subst q.
    assert (L : forall (A : Prop) (a b c a' b' c' : R), (a = a' /\ b = b' /\ c = c') \/ A -> @mk3 RN a b c = @mk3 RN a' b' c' \/ A) by (intros A ? ? ? ? ? ? [(-> & -> & ->)|?]; auto).
    destruct I as [-> | ->], J as [-> | ->], K as [-> | ->].
    all: repeat first [left; apply M; toR; ring | right].
Qed.
Print Assumptions C153_corners.
Example C153_case : proper_ubox (@mkubox RN (rp3 1 2 3) (rp3 (sin 1) (cos 1) 0) (rp3 0 0 1) 1 2 3).
Proof. unfold proper_ubox, rsq3, rdot3, rp3. cbn [ub_y ub_z ub_sx ub_sy ub_sz px py pz]. pose proof (sin2_cos2 1) as H. unfold Rsqr in H. cbn [T RN] in *. repeat split; lra. Qed.

(** Half a turn gives the same corners. *)
Theorem C153_half_turn : forall (c : pt3 RN) (sx sy sz r : R), 0 < sx -> 0 < sy -> 0 < sz ->
  exists u u' o o', ubox_from_z_rotation RT c (sx : T RN) sy sz (r : T RN) = Ok u /\ ubox_from_z_rotation RT c (sx : T RN) sy sz (r + PI) = Ok u' /\
    sat_of_ubox u = Ok o /\ sat_of_ubox u' = Ok o' /\ forall q, In q (sat_points o) <-> In q (sat_points o').
Proof.
  intros c sx sy sz r X Y Z. destruct (C153_corners c sx sy sz r X Y Z) as (u & o & E & _ & O & _ & H). destruct (C153_corners c sx sy sz (r + PI) X Y Z) as (u' & o' & E' & _ & O' & _ & H').
  exists u, u', o, o'. split; [exact E|]. split; [exact E'|]. split; [exact O|]. split; [exact O'|]. intros q. rewrite H, H'. unfold clockwise. rewrite neg_sin, neg_cos.
  split; intros (i & j & k & I & J & K & Q); exists (- i), (- j), k; unfold sign in *; (split; [lra|]); (split; [lra|]); (split; [lra|]); intros ax A; rewrite (Q ax A); revert A; intros [->|[->| ->]]; unfold rp3; cbn [px py pz]; toR; ring.
Qed.
Print Assumptions C153_half_turn.

(** It turns the other way round than the rotation matrices do: the y direction is the one they give for
    the opposite angle, and not the one for the angle itself unless the sine of it is 0. *)
Theorem C153_counterclockwise_refuted : forall (c : pt3 RN) (sx sy sz r : R), exists u, ubox_from_z_rotation RT c (sx : T RN) sy sz (r : T RN) = Ok u /\
  ub_y u = pt3_multiply_m (rp3 0 1 0) (m4_rotation RT (0 : T RN) 0 (- r)) /\
  ((sin r <> 0)%R -> ub_y u <> pt3_multiply_m (rp3 0 1 0) (m4_rotation RT (0 : T RN) 0 r)).
Proof.
  assert (A : forall r : R, pt3_multiply_m (rp3 0 1 0) (m4_rotation RT (0 : T RN) 0 r) = rp3 (- sin r) (cos r) 0).
  { intros r. rewrite rotation_act3, !axis_0, !id_act. rewrite (axis_act RT) by reflexivity. unfold rcross, rdot3, rp3. cbn [px py pz]. f_equal; toR; ring. }
  intros c sx sy sz r. destruct (rot_made c sx sy sz r) as (u & E & U). exists u. split; [exact E|]. subst u. cbn [ub_y]. rewrite !A, sin_neg, cos_neg. split.
  - unfold rp3. f_equal. toR; ring.
  - intros N H. apply (f_equal (@px RN)) in H. cbn [px rp3] in H. cbn [T RN] in H. lra.
Qed.
Print Assumptions C153_counterclockwise_refuted.
Example C153_turn_case : sin (PI / 2) <> 0. Proof. rewrite sin_PI2. lra. Qed.

(** With f64 the unwrap marked as safe panics whenever the sine or cosine is not a number, which is what
    the platform gives for infinite rotations. *)
Theorem C153_panics : forall (tr : Trig F64) c sx sy sz r, nsin tr (nneg r) = S754_nan \/ ncos tr (nneg r) = S754_nan ->
  ubox_from_z_rotation tr c sx sy sz r = Panic.
Proof.
  intros tr c sx sy sz r H. unfold ubox_from_z_rotation. destruct norm3_z_F as (z & ->). cbn [obind].
  assert (S1 : forall x : T F64, nsub x (nmul n1 (S754_nan : T F64)) = S754_nan) by (intros []; reflexivity).
  assert (S2 : forall x : T F64, nadd x (nmul n1 (S754_nan : T F64)) = S754_nan) by (intros []; reflexivity).
  assert (N : norm3_new (rot2d tr (@mk3 F64 n0 n1 n0) r) = Panic).
  { unfold norm3_new. rewrite abs3_nan; [reflexivity|]. unfold rot2d, numbers3, number. cbn [px py pz]. intros (A & B & C). destruct H as [H|H]; rewrite H in *.
    - apply A, S1.
    - apply B, S2. }
  rewrite N. reflexivity.
Qed.
Print Assumptions C153_panics.
