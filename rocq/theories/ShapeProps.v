(** Properties of shapes and colliders. *)
From Verif Require Import Base Num NumLemmas BBoxModel GeomSpec BBoxLemmas KdModel KdLemmas FilterModel VecModel VecSpec VecLemmas LineModel MatrixModel MatrixSpec MatrixLemmas WrapModel FloatSpec FloatBridge WrapLemmas ShapeModel ShapeSpec ShapeLemmas.
From Coq Require Import Floats.SpecFloat Reals Lra Lia.
Local Open Scope R_scope.

(** ** C49: z() of a sphere *)
(** z() of every Sphere and FilterSphere is the y coordinate, although position_nd(2) is z. *)
Theorem C49_sphere_z_is_y : forall (NM : Num) (s : sphere NM),
  pz (sphere_pt s) = py (sph_center s) /\ pz (filter_sphere_pt s) = py (sph_center s) /\
  px (sphere_pt s) = px (sph_center s) /\ py (sphere_pt s) = py (sph_center s) /\
  sphere_position_nd s 2 = Some (pz (sph_center s)) /\
  forall x y z : T NM, sphere_pt (sphere_new x y z) = mk3 x y y.
Proof. intros. repeat split. Qed.
Print Assumptions C49_sphere_z_is_y.
(** Hence any function reading the coordinates sees a point off the center unless y = z. *)
Theorem C49_distance_to_own_center : forall s : sphere RN,
  dist_3d (sphere_pt s) (sph_center s) = Rabs (py (sph_center s) - pz (sph_center s)) /\
  (sphere_pt s = sph_center s <-> py (sph_center s) = pz (sph_center s)).
Proof.
  intros [[x y z] r]. split.
  - rewrite dist_R. unfold sphere_pt, sph_x, sph_y, sph_z, sqd3. cbn [px py pz sph_center T RN].
    rewrite <- sqrt_Rsqr_abs. f_equal. unfold Rsqr. ring.
  - unfold sphere_pt, sph_x, sph_y, sph_z. cbn [px py pz sph_center]. split; [intros [= H]; exact H|intros ->; reflexivity].
Qed.
Print Assumptions C49_distance_to_own_center.
Example C49_case : pz (sphere_pt (sphere_new (fz 1) (fz 2) (fz 3))) = fz 2. Proof. vmeq. Qed.

(** ** C89: bounding boxes of shapes *)
(** Exact arithmetic: the boxes are what the shapes occupy. *)
Theorem C89_sphere_box_exact : forall s : sphere RN, 0 < sph_radius s -> exists b, sphere_bounding_box s = Ok b /\
  (forall p, sqd3 p (sph_center s) <= sph_radius s * sph_radius s -> closed3 b p) /\
  (forall ax, axis3 ax -> exists p q, sqd3 p (sph_center s) = sph_radius s * sph_radius s /\
     sqd3 q (sph_center s) = sph_radius s * sph_radius s /\ ax p = ax (min3 b) /\ ax q = ax (max3 b)).
Proof.
  intros [[x y z] r] RP. cbn [sph_radius sph_center T RN] in *. unfold sphere_bounding_box. cbn [sph_radius sph_center px py pz].
  match goal with |- context [unwrap_res (bb3_new ?a ?b)] => assert (G : bb3_new a b = Ok (mkbb3 a b)) end.
  { apply bb3_new_R. cbn [px py pz T RN nadd nsub]. repeat split; lra. }
  rewrite G. eexists. split; [reflexivity|]. split.
  - intros [u v w]. unfold sqd3. cbn [px py pz T RN]. intros H.
    assert (K : forall d e f : R, d ^ 2 + e ^ 2 + f ^ 2 <= r * r -> - r <= d <= r) by (intros; nra).
    intros ax [->|[->| ->]]; cbn [min3 max3 px py pz nadd nsub T RN].
    + specialize (K (u - x) (v - y) (w - z)). lra.
    + specialize (K (v - y) (u - x) (w - z)). lra.
    + specialize (K (w - z) (u - x) (v - y)). lra.
  - intros ax [->|[->| ->]]; cbn [min3 max3 px py pz nadd nsub T RN].
    + exists (rp3 (x - r) y z), (rp3 (x + r) y z). unfold sqd3. cbn [px py pz rp3]. repeat split; toR; ring.
    + exists (rp3 x (y - r) z), (rp3 x (y + r) z). unfold sqd3. cbn [px py pz rp3]. repeat split; toR; ring.
    + exists (rp3 x y (z - r)), (rp3 x y (z + r)). unfold sqd3. cbn [px py pz rp3]. repeat split; toR; ring.
Qed.
Print Assumptions C89_sphere_box_exact.
(** A bounding box turned into a Box3D has the bounding box it came from, and the Box3D is the
    region of points with coordinates at most half a size away from the center. *)
Theorem C89_box_exact : (forall b : bb3 RN, valid3 b -> exists x, box3_of_bb b = Ok x /\ box3_bounding_box x = Ok b) /\
  forall x : box3d RN, 0 < box_sx x -> 0 < box_sy x -> 0 < box_sz x -> exists b, box3_bounding_box x = Ok b /\
    min3 b = box3_min_p x /\ max3 b = box3_max_p x /\
    forall p, closed3 b p <-> Rabs (px p - px (box_center x)) <= box_sx x / 2 /\
      Rabs (py p - py (box_center x)) <= box_sy x / 2 /\ Rabs (pz p - pz (box_center x)) <= box_sz x / 2.
Proof.
  split.
  - intros b V. unfold valid3 in V. rewrite axis3_all in V. destruct V as (V1 & V2 & V3).
    unfold box3_of_bb, bb3_size_x, bb3_size_y, bb3_size_z. rewrite !size_R by assumption. cbn [obind].
    eexists. split; [reflexivity|]. unfold box3_bounding_box, bb3_center. cbn [box_center box_sx box_sy box_sz px py pz].
    destruct b as [[x0 y0 z0] [x1 y1 z1]]. cbn [min3 max3 px py pz] in *. rewrite R_n2. cbn [T RN nadd nsub ndiv] in *.
    match goal with |- context [unwrap_res (bb3_new ?a ?b)] => assert (G : bb3_new a b = Ok (mkbb3 (rp3 x0 y0 z0) (rp3 x1 y1 z1))) end.
    { apply bb3_new_R. cbn [px py pz T RN]. split; [|repeat split; lra]. unfold rp3. f_equal; f_equal; toR; lra. }
    rewrite G. reflexivity.
  - intros [[x y z] sx sy sz] X Y Z. cbn [box_center box_sx box_sy box_sz px py pz T RN] in *.
    unfold box3_bounding_box, box3_min_p, box3_max_p. cbn [box_center box_sx box_sy box_sz px py pz]. rewrite R_n2, R_nhalf.
    cbn [T RN nadd nsub nmul ndiv] in *.
    match goal with |- context [unwrap_res (bb3_new ?a ?b)] => assert (G : bb3_new a b = Ok (mkbb3 a b)) end.
    { apply bb3_new_R. cbn [px py pz T RN]. repeat split; lra. }
    rewrite G. eexists. split; [reflexivity|]. split; [cbn [min3]; f_equal; toR; lra|]. split; [cbn [max3]; f_equal; toR; lra|].
    intros [u v w]. unfold closed3. rewrite axis3_all. cbn [min3 max3 px py pz T RN].
    assert (K : forall a b s : R, (b - s / 2 <= a <= b + s / 2) <-> Rabs (a - b) <= s / 2).
    { intros a b s. split; [intros; apply Rabs_le; lra|]. intros H. pose proof (Rle_abs (a - b)). pose proof (Rle_abs (- (a - b))). rewrite Rabs_Ropp in *. lra. }
    rewrite !K. reflexivity.
Qed.
Print Assumptions C89_box_exact.
(** Doubles: the unwraps marked safe panic exactly when subtracting and adding the radius (or
    half the size) gives the same double on some axis. *)
Theorem C89_sphere_box_panics : forall s : sphere F64,
  (forall ax, axis3 ax -> is_double (ax (sph_center s)) /\ finite (ax (sph_center s))) ->
  is_double (sph_radius s) -> flt n0 (sph_radius s) ->
  if_panics (sphere_bounding_box s)
    (exists ax, axis3 ax /\ feq (ax (sph_center s) - sph_radius s)%num (ax (sph_center s) + sph_radius s)%num)
    (fun b => forall ax, axis3 ax -> ax (min3 b) = (ax (sph_center s) - sph_radius s)%num /\ ax (max3 b) = (ax (sph_center s) + sph_radius s)%num).
Proof.
  intros [c r] C D P. cbn [sph_radius sph_center] in *. unfold sphere_bounding_box. cbn [sph_radius sph_center].
  match goal with |- if_panics (unwrap_res (bb3_new ?a ?b)) _ _ => pose proof (new3_le_panics a b) as H end.
  assert (L : forall ax, axis3 ax -> fle (nsub (ax c) r) (nadd (ax c) r)).
  { intros ax A. destruct (C ax A). apply sym_le; auto using pos_nn. }
  lapply H; [clear H; intros H|intros ? [->|[->| ->]]; cbn [px py pz]; apply L; unfold axis3; auto].
  destruct (unwrap_res _) as [b|e|]; cbn [if_panics] in *; auto.
  - destruct H as [H ->]. split; [|intros ? [->|[->| ->]]; cbn [px py pz min3 max3]; auto].
    intros (ax & A & E). apply H. exists ax. split; auto. destruct A as [->|[->| ->]]; auto.
  - destruct H as (ax & A & E). exists ax. split; auto. destruct A as [->|[->| ->]]; auto.
Qed.
Print Assumptions C89_sphere_box_panics.
Theorem C89_circle_box_panics : forall s : circle F64,
  (forall ax, axis2 ax -> is_double (ax (cir_center s)) /\ finite (ax (cir_center s))) ->
  is_double (cir_radius s) -> flt n0 (cir_radius s) ->
  if_panics (circle_bounding_box s)
    (exists ax, axis2 ax /\ feq (ax (cir_center s) - cir_radius s)%num (ax (cir_center s) + cir_radius s)%num)
    (fun b => forall ax, axis2 ax -> ax (min2 b) = (ax (cir_center s) - cir_radius s)%num /\ ax (max2 b) = (ax (cir_center s) + cir_radius s)%num).
Proof.
  intros [c r] C D P. cbn [cir_radius cir_center] in *. unfold circle_bounding_box. cbn [cir_radius cir_center].
  match goal with |- if_panics (unwrap_res (bb2_new ?a ?b)) _ _ => pose proof (new2_le_panics a b) as H end.
  assert (L : forall ax, axis2 ax -> fle (nsub (ax c) r) (nadd (ax c) r)).
  { intros ax A. destruct (C ax A). apply sym_le; auto using pos_nn. }
  lapply H; [clear H; intros H|intros ? [->| ->]; cbn [x2 y2]; apply L; unfold axis2; auto].
  destruct (unwrap_res _) as [b|e|]; cbn [if_panics] in *; auto.
  - destruct H as [H ->]. split; [|intros ? [->| ->]; cbn [x2 y2 min2 max2]; auto].
    intros (ax & A & E). apply H. exists ax. split; auto. destruct A as [->| ->]; auto.
  - destruct H as (ax & A & E). exists ax. split; auto. destruct A as [->| ->]; auto.
Qed.
Print Assumptions C89_circle_box_panics.
Theorem C89_box_box_panics : forall x : box3d F64,
  (forall ax, axis3 ax -> is_double (ax (box_center x)) /\ finite (ax (box_center x))) ->
  is_double (box_sx x) -> is_double (box_sy x) -> is_double (box_sz x) ->
  flt n0 (box_sx x) -> flt n0 (box_sy x) -> flt n0 (box_sz x) ->
  if_panics (box3_bounding_box x)
    (feq (px (box_center x) - box_sx x / n2)%num (px (box_center x) + box_sx x / n2)%num \/
     feq (py (box_center x) - box_sy x / n2)%num (py (box_center x) + box_sy x / n2)%num \/
     feq (pz (box_center x) - box_sz x / n2)%num (pz (box_center x) + box_sz x / n2)%num)
    (fun b => fvalid3 b).
Proof.
  intros [c sx sy sz] C D1 D2 D3 P1 P2 P3. cbn [box_center box_sx box_sy box_sz] in *. unfold box3_bounding_box. cbn [box_center box_sx box_sy box_sz].
  match goal with |- if_panics (unwrap_res (bb3_new ?a ?b)) _ _ => pose proof (new3_le_panics a b) as H end.
  assert (L : forall ax s, axis3 ax -> is_double s -> flt n0 s -> fle (nsub (ax c) (ndiv s n2)) (nadd (ax c) (ndiv s n2))).
  { intros ax s A D P. destruct (C ax A). destruct (half_nn s D P). apply sym_le; auto. }
  assert (M : forall ax, axis3 ax -> fle (ax (mk3 (nsub (px c) (ndiv sx n2)) (nsub (py c) (ndiv sy n2)) (nsub (pz c) (ndiv sz n2))))
      (ax (mk3 (nadd (px c) (ndiv sx n2)) (nadd (py c) (ndiv sy n2)) (nadd (pz c) (ndiv sz n2))))).
  { intros ? [->|[->| ->]]; cbn [px py pz]; apply L; unfold axis3; auto. }
  specialize (H M).
  destruct (unwrap_res _) as [b|e|]; cbn [if_panics] in *; auto.
  - destruct H as [H ->]. split.
    + intros [E|[E|E]]; apply H; [exists px|exists py|exists pz]; split; auto; unfold axis3; auto.
    + intros ax A. cbn [min3 max3]. specialize (M ax A). unfold fle, SFleb in M. unfold flt, SFltb.
      destruct (SFcompare _ _) as [[]|] eqn:E; try discriminate M; auto. exfalso. apply H. exists ax. split; auto. unfold feq, SFeqb. rewrite E. reflexivity.
  - destruct H as (ax & [->|[->| ->]] & E); auto.
Qed.
Print Assumptions C89_box_box_panics.
(** A sphere of the default radius one, far enough from the origin, and a tiny box panic. *)
Theorem C89_unwrap_refuted : (exists s : sphere F64, s = sphere_new (fz (2^54)) (fz 0) (fz 0) /\ sphere_bounding_box s = Panic) /\
  (exists x : box3d F64, flt n0 (box_sx x) /\ flt n0 (box_sy x) /\ flt n0 (box_sz x) /\ box_center x = fp3 0 0 0 /\ box3_bounding_box x = Panic).
Proof.
  split.
  - eexists. split; [reflexivity|vmeq].
  - exists (mkbox3d (fp3 0 0 0) (@lit F64 1 (-1074)) (fz 1) (fz 1)). split; [vmeq|]. split; [vmeq|]. split; [vmeq|]. split; [reflexivity|vmeq].
Qed.
Print Assumptions C89_unwrap_refuted.
Example C89_case : sphere_bounding_box (sphere_new (fz 1) (fz 2) (fz 3)) = Ok (mkbb3 (fp3 0 1 2) (fp3 2 3 4)) /\
  box3_bounding_box (mkbox3d (fp3 0 0 0) (fz 2) (fz 4) (fz 6)) = Ok (mkbb3 (fp3 (-1) (-2) (-3)) (fp3 1 2 3)).
Proof. split; vmeq. Qed.

(** ** C50: unaligned boxes *)
(** The corners used for collisions all lie outside the bounding box of the same object. *)
Theorem C50_corners_outside : forall u : ubox RN, proper_ubox u -> exists o b,
  sat_of_ubox u = Ok o /\ ubox_bounding_box u = Ok b /\ length (sat_points o) = 8%nat /\
  forall q, In q (sat_points o) -> ~ closed3 b q.
Proof.
  intros u P. pose proof P as (Y & Z & D & SX & SY & SZ). unfold sat_of_ubox. rewrite x_dir_proper by auto.
  destruct (ubox_bb_R u SX SY SZ) as (E & M1 & M2). cbv zeta in E. rewrite E. eexists _, _. split; [reflexivity|]. split; [reflexivity|].
  split; [reflexivity|]. cbn [sat_points]. intros q Q C. apply closed_cube in C; [|lra].
  destruct (cross_perp (ub_y u) (ub_z u)) as [C1 C2].
  rewrite (corner_each u _ q C1 C2 D Q) in C. rewrite Y, Z in C.
  change (rcross (ub_z u) (ub_y u)) with (cross3 (ub_z u) (ub_y u)) in C. rewrite (cross_unit _ _ Y Z D) in C. cbn [T RN] in *. nra.
Qed.
Print Assumptions C50_corners_outside.
(** Even when the public directions are not perpendicular some corner is outside. *)
Theorem C50_some_corner_outside : forall u : ubox RN, rsq3 (ub_y u) = 1 -> rsq3 (ub_z u) = 1 ->
  0 < ub_sx u -> 0 < ub_sy u -> 0 < ub_sz u -> exists o b q,
  sat_of_ubox u = Ok o /\ ubox_bounding_box u = Ok b /\ In q (sat_points o) /\ ~ closed3 b q.
Proof.
  intros u Y Z SX SY SZ. unfold sat_of_ubox, ubox_x_dir. destruct (norm3_or_z_R (cross3 (ub_z u) (ub_y u))) as (x & -> & X).
  destruct (ubox_bb_R u SX SY SZ) as (E & M1 & M2). cbv zeta in E. rewrite E. eexists _, _.
  set (bb := mkbb3 _ _). cbn [obind].
  assert (G : exists q, In q (ubox_points u x) /\ 3 * (1 / 2 * max_size u * (1 / 2 * max_size u)) < sqd3 (ub_center u) q).
  { pose proof (corner_sum u x) as S. rewrite X, Y, Z in S.
    assert (N : forall l : list R, (forall v, In v l -> v <= 3 * (1 / 2 * max_size u * (1 / 2 * max_size u))) -> fold_right Rplus 0 l <= INR (length l) * (3 * (1 / 2 * max_size u * (1 / 2 * max_size u)))).
    { induction l as [|v l IH]; intros H; [cbn; lra|]. cbn [fold_right length]. rewrite S_INR. specialize (IH (fun v I => H v (or_intror I))). specialize (H v (or_introl eq_refl)). lra. }
    destruct (Classical_Prop.classic (exists q, In q (ubox_points u x) /\ 3 * (1 / 2 * max_size u * (1 / 2 * max_size u)) < sqd3 (ub_center u) q)) as [H|H]; auto.
    exfalso. specialize (N (map (sqd3 (ub_center u)) (ubox_points u x))).
    assert (I8 : INR (length (map (sqd3 (ub_center u)) (ubox_points u x))) = 8) by (cbn; lra).
    rewrite I8 in N. rewrite S in N. lapply N; [cbn [T RN] in *; nra|]. intros v V. apply in_map_iff in V. destruct V as (q & <- & Q).
    apply Rnot_lt_le. intros L. apply H. eauto. }
  destruct G as (q & Q & L). exists q. split; [reflexivity|]. split; [reflexivity|]. split; [exact Q|].
  intros C. apply closed_cube in C; [|lra]. lra.
Qed.
Print Assumptions C50_some_corner_outside.
(** A collision is reported for two boxes that are apart by a third of their size. *)
Theorem C50_apart_boxes_collide_refuted : exists (a b : bb3 F64) (u : ubox F64),
  fvalid3 a /\ fvalid3 b /\ ubox_from_bb b = Ok u /\ flt (px (max3 a)) (px (min3 b)) /\
  collider_collides (CAABB a) (CBox u) = Ok true.
Proof.
  exists (mkbb3 (fp3 0 0 0) (fp3 3 3 3)), (mkbb3 (fp3 4 0 0) (fp3 7 3 3)),
    (mkubox (@mk3 F64 (lit 11 (-1)) (lit 3 (-1)) (lit 3 (-1))) (fp3 0 1 0) (fp3 0 0 1) (fz 3) (fz 3) (fz 3)).
  split; [intros ? [->|[->| ->]]; vmeq|]. split; [intros ? [->|[->| ->]]; vmeq|]. split; [vmeq|]. split; vmeq.
Qed.
Print Assumptions C50_apart_boxes_collide_refuted.
Example C50_case : proper_ubox (@mkubox RN (rp3 1 2 3) (rp3 0 1 0) (rp3 0 0 1) 1 2 3).
Proof. unfold proper_ubox, rsq3, rdot3, rp3. cbn. repeat split; lra. Qed.

(** ** C51: separating axes *)
(** "No collision" is right: the convex hulls of the points are disjoint. *)
Theorem C51_sat_separates : forall (a b : sat_object RN) p, sat_collide a b = false ->
  ~ (in_hull (sat_points a) p /\ in_hull (sat_points b) p).
Proof. intros a b p F [A B]. exact (separates a b p F A B). Qed.
Print Assumptions C51_sat_separates.
(** Swapping the arguments never changes the answer, in any arithmetic. *)
Theorem C51_sat_symmetric : forall (NM : Num) (a b : sat_object NM), sat_collide a b = sat_collide b a.
Proof. intros. apply collide_sym. Qed.
Print Assumptions C51_sat_symmetric.
(** Colliders of all three kinds always get an answer, "no" means that they share no point, and
    the order does not matter. *)
Theorem C51_colliders : forall a b : collider RN, proper a -> proper b -> exists r,
  collider_collides a b = Ok r /\ collider_collides b a = Ok r /\ (r = false -> ~ meet a b).
Proof.
  intros a b PA PB.
  assert (C : (exists x y, a = CAABB x /\ b = CAABB y) \/ (forall x y, a = CAABB x -> b = CAABB y -> False)).
  { destruct a, b; try (right; intros; discriminate). left. eauto. }
  destruct C as [(x & y & -> & ->)|N].
  - cbn [collider_collides proper] in *. destruct (collides3_R x y PA PB) as (r & E & I), (collides3_R y x PB PA) as (r' & E' & I').
    assert (r = r'). { destruct r, r'; auto; exfalso.
      - destruct (proj1 I eq_refl) as (p & A & B). assert (false = true) by (apply I'; exists p; auto). discriminate.
      - destruct (proj1 I' eq_refl) as (p & A & B). assert (false = true) by (apply I; exists p; auto). discriminate. }
    subst r'. exists r. split; [exact E|]. split; [exact E'|]. intros -> (p & H). assert (false = true) by (apply I; exists p; exact H). discriminate.
  - destruct (collides_sat a b PA PB N) as (oa & ob & EA & EB & E).
    destruct (collides_sat b a PB PA ltac:(intros x y H1 H2; exact (N y x H2 H1))) as (ob' & oa' & EB' & EA' & E').
    rewrite EA in EA'. rewrite EB in EB'. apply Ok_inj in EA', EB'. subst oa' ob'.
    exists (sat_collide oa ob). split; [exact E|]. split; [rewrite E', collide_sym; reflexivity|].
    intros F (p & H). destruct (sat_of_spec a PA) as (o1 & F1 & S1), (sat_of_spec b PB) as (o2 & F2 & S2).
    rewrite EA in F1. rewrite EB in F2. apply Ok_inj in F1, F2. subst o1 o2.
    apply (separates oa ob p F).
    + apply S1. destruct a, b; try (exfalso; eapply N; reflexivity); apply H.
    + apply S2. destruct a, b; try (exfalso; eapply N; reflexivity); apply H.
Qed.
Print Assumptions C51_colliders.
(** For two axis aligned boxes the test is exact (touching counts, unlike collides_with). *)
Theorem C51_sat_aabb_exact : forall a b : bb3 RN, valid3 a -> valid3 b -> exists oa ob,
  sat_of_bb a = Ok oa /\ sat_of_bb b = Ok ob /\
  (sat_collide oa ob = true <-> exists p, closed3 a p /\ closed3 b p).
Proof.
  intros a b VA VB. rewrite !sat_of_bb_R. eexists _, _. split; [reflexivity|]. split; [reflexivity|]. split.
  - intros H. rewrite collide_forallb in H. cbn [sat_axes app forallb] in H. rewrite !andb_true_iff in H.
    destruct H as (H1 & H2 & H3 & _). apply negb_true_iff in H1, H2, H3.
    assert (K : forall ax u, axis3 ax -> (forall p, rdot3 p u = ax p) ->
       sat_apart (mksat (bb3_corners a) [rp3 1 0 0; rp3 0 1 0; rp3 0 0 1]) (mksat (bb3_corners b) [rp3 1 0 0; rp3 0 1 0; rp3 0 0 1]) u = false ->
       ax (min3 b) <= ax (max3 a) /\ ax (min3 a) <= ax (max3 b)).
    { intros ax u A U X. unfold sat_apart in X. cbn [sat_points] in X.
      destruct (range_R u (bb3_corners a)) as (mna & mxa & EA & BA & (pa & IA & ->) & (qa & JA & ->)); [discriminate|].
      destruct (range_R u (bb3_corners b)) as (mnb & mxb & EB & BB & (pb & IB & ->) & (qb & JB & ->)); [discriminate|].
      rewrite EA, EB in X. apply orb_false_iff in X. destruct X as [X1 X2].
      destruct (R_ltb_spec (rdot3 qa u) (rdot3 pb u)) as [L|L]; [discriminate|]. destruct (R_ltb_spec (rdot3 qb u) (rdot3 pa u)) as [L'|L']; [discriminate|].
      rewrite !U in *.
      assert (Q : forall (c : bb3 RN) p, valid3 c -> In p (bb3_corners c) -> ax (min3 c) <= ax p <= ax (max3 c)).
      { clear - A. intros c p V I. specialize (V ax A). unfold bb3_corners in I. cbn [In] in I.
        repeat (destruct I as [<-|I]; [destruct A as [->|[->| ->]]; cbn [px py pz T RN] in *; lra|]). destruct I. }
      pose proof (Q a qa VA JA). pose proof (Q b pb VB IB). pose proof (Q a pa VA IA). pose proof (Q b qb VB JB). cbn [T RN] in *. lra. }
    destruct (K px (rp3 1 0 0) ltac:(left; auto) ltac:(intros [x y z]; unfold rdot3, rp3; cbn; toR; ring) H1).
    destruct (K py (rp3 0 1 0) ltac:(right; left; auto) ltac:(intros [x y z]; unfold rdot3, rp3; cbn; toR; ring) H2).
    destruct (K pz (rp3 0 0 1) ltac:(right; right; auto) ltac:(intros [x y z]; unfold rdot3, rp3; cbn; toR; ring) H3).
    exists (rp3 (Rmax (px (min3 a)) (px (min3 b))) (Rmax (py (min3 a)) (py (min3 b))) (Rmax (pz (min3 a)) (pz (min3 b)))).
    unfold valid3, closed3 in *. rewrite axis3_all in VA, VB. destruct VA as (A1 & A2 & A3), VB as (B1 & B2 & B3).
    assert (M : forall x y : R, x <= Rmax x y /\ y <= Rmax x y) by (intros; split; [apply Rmax_l|apply Rmax_r]).
    split; rewrite axis3_all; cbn [px py pz rp3 T RN] in *; repeat split; try apply M; apply Rmax_lub; cbn [T RN] in *; lra.
  - intros (p & A & B). destruct (sat_collide _ _) eqn:F; auto. exfalso.
    refine (separates _ _ p F _ _); cbn [sat_points]; apply hull_bb; auto.
Qed.
Print Assumptions C51_sat_aabb_exact.
(** "Collision" may be wrong: the triangle lies beyond the plane x + y = 21 and the box before
    it, yet the test reports a collision (the directions of pairs of edges are not tried). *)
Theorem C51_false_positive_refuted : exists (b : bb3 F64) (t : tri F64),
  b = mkbb3 (fp3 (-10) (-10) (-10)) (fp3 10 10 10) /\ tri_new false (tri_a t) (tri_b t) (tri_c t) = Ok t /\
  (forall p, In p (bb3_corners b) -> flt (px p + py p)%num (fz 21)) /\
  (forall p, In p [tri_a t; tri_b t; tri_c t] -> flt (fz 21) (px p + py p)%num) /\
  collider_collides (CAABB b) (CFace t) = Ok true.
Proof.
  exists (mkbb3 (fp3 (-10) (-10) (-10)) (fp3 10 10 10)), (mktri (fp3 32 (-10) 0) (fp3 (-10) 32 0) (fp3 21 21 10)).
  split; [reflexivity|]. split; [vmeq|]. split; [|split; [|vmeq]].
  - intros p I. unfold bb3_corners in I. cbn [In] in I. repeat (destruct I as [<-|I]; [vmeq|]). destruct I.
  - intros p I. cbn [In] in I. repeat (destruct I as [<-|I]; [vmeq|]). destruct I.
Qed.
Print Assumptions C51_false_positive_refuted.
Example C51_case : proper (CAABB (mkbb3 (rp3 0 0 0) (rp3 1 1 1))) /\ proper (CFace (mktri (rp3 0 0 0) (rp3 1 0 0) (rp3 0 1 0))) /\
  collider_collides (CAABB (mkbb3 (fp3 0 0 0) (fp3 1 1 1))) (CFace (mktri (fp3 5 5 5) (fp3 6 5 7) (fp3 5 6 7))) = Ok false /\
  collider_collides (CAABB (mkbb3 (fp3 0 0 0) (fp3 1 1 1))) (CAABB (mkbb3 (fp3 1 0 0) (fp3 2 1 1))) = Ok false.
Proof.
  split; [intros ? [->|[->| ->]]; cbn; lra|]. split; [exact I|]. split; vmeq.
Qed.

(** ** C90: triangles *)
(** A triangle is accepted exactly if its corners differ in every coordinate, so every axis
    aligned one is refused; accepted ones always have a bounding box. *)
Theorem C90_tri_new : forall (dbg : bool) (a b c : pt3 F64), number3 a -> number3 b -> number3 c ->
  match tri_new dbg a b c with
  | Ok t => t = mktri a b c /\ (forall ax, axis3 ax -> differ [ax a; ax b; ax c]) /\
            exists bb, tri_bounding_box dbg t = Ok bb /\ forall ax, axis3 ax ->
              is_min (ax (min3 bb)) [ax a; ax b; ax c] /\ is_max (ax (max3 bb)) [ax a; ax b; ax c]
  | Err e => e = TriFace3DNotSpanningVolume /\ exists ax, axis3 ax /\ ~ differ [ax a; ax b; ax c]
  | Panic => False
  end.
Proof.
  intros dbg a b c A B C.
  assert (O : from3_outcome [a; b; c] (bb3_from_iterator dbg [a; b; c])).
  { apply from3_spec; [auto|cbn; lia]. }
  unfold tri_new, tri_bounding_box. destruct (bb3_from_iterator dbg [a; b; c]) as [bb|e|] eqn:E; cbn [from3_outcome] in O.
  - destruct O as [_ O]. cbn [tri_a tri_b tri_c map] in *. rewrite E. split; [reflexivity|]. split; [intros ax X; apply O, X|].
    exists bb. split; [reflexivity|]. intros ax X. destruct (O ax X) as (O1 & O2 & _). auto.
  - split; [reflexivity|]. destruct e; try contradiction; [apply O|cbn in O; lia].
  - exact O.
Qed.
Print Assumptions C90_tri_new.
Example C90_case : tri_new false (fp3 0 0 5) (fp3 1 0 5) (fp3 0 1 5) = Err TriFace3DNotSpanningVolume /\
  number3 (fp3 0 0 5) /\ tri_new false (fp3 0 0 5) (fp3 1 0 5) (fp3 0 1 6) = Ok (mktri (fp3 0 0 5) (fp3 1 0 5) (fp3 0 1 6)).
Proof. split; [vmeq|]. split; [|vmeq]. intros ? [->|[->| ->]]; vm_compute; discriminate. Qed.
