(** More properties of boxes (C50, C89). *)
From Verif Require Import Base Num NumLemmas BBoxModel GeomSpec BBoxLemmas KdModel KdLemmas FilterModel VecModel VecSpec VecLemmas LineModel MatrixModel MatrixSpec MatrixLemmas CloudLemmas WrapModel ShapeModel ShapeSpec ShapeLemmas VecModel.
From Coq Require Import Reals Lra Lia.
Local Open Scope R_scope.

(** The bounding box of a Box2D is the region with the given center and sizes; min_p and max_p are its
    corners. *)
Theorem C89_box2_exact : (forall b : bb2 RN, valid2 b -> exists x, box2_of_bb b = Ok x /\ box2_bounding_box x = Ok b) /\
  forall x : box2d RN, 0 < box2_sx x -> 0 < box2_sy x -> exists b, box2_bounding_box x = Ok b /\
    min2 b = box2_min_p x /\ max2 b = box2_max_p x /\
    forall p, closed2 b p <-> Rabs (x2 p - x2 (box2_center x)) <= box2_sx x / 2 /\ Rabs (y2 p - y2 (box2_center x)) <= box2_sy x / 2.
Proof.
  split.
  - intros b V. assert (V1 : x2 (min2 b) < x2 (max2 b)) by (apply V; left; reflexivity). assert (V2 : y2 (min2 b) < y2 (max2 b)) by (apply V; right; reflexivity).
    unfold box2_of_bb, bb2_size_x, bb2_size_y. rewrite !size_R by assumption. cbn [obind].
    eexists. split; [reflexivity|]. unfold box2_bounding_box, bb2_center. cbn [box2_center box2_sx box2_sy x2 y2].
    destruct b as [[x0 y0] [x1 y1]]. cbn [min2 max2 x2 y2] in *. rewrite R_n2. cbn [T RN nadd nsub ndiv] in *.
    match goal with |- context [unwrap_res (bb2_new ?a ?b)] => assert (G : bb2_new a b = Ok (mkbb2 (rp2 x0 y0) (rp2 x1 y1))) end.
    { apply bb2_new_R. cbn [x2 y2 T RN]. split; [|split; lra]. unfold rp2. f_equal; f_equal; toR; lra. }
    rewrite G. reflexivity.
  - intros [[x y] sx sy] X Y. cbn [box2_center box2_sx box2_sy x2 y2 T RN] in *.
    unfold box2_bounding_box, box2_min_p, box2_max_p. cbn [box2_center box2_sx box2_sy x2 y2]. rewrite R_n2, R_nhalf.
    cbn [T RN nadd nsub nmul ndiv] in *.
    match goal with |- context [unwrap_res (bb2_new ?a ?b)] => assert (G : bb2_new a b = Ok (mkbb2 a b)) end.
    { apply bb2_new_R. cbn [x2 y2 T RN]. repeat split; lra. }
    rewrite G. eexists. split; [reflexivity|]. split; [cbn [min2]; f_equal; toR; lra|]. split; [cbn [max2]; f_equal; toR; lra|].
    intros [u v].
    assert (K : forall a b s : R, (b - s / 2 <= a <= b + s / 2) <-> Rabs (a - b) <= s / 2).
    { intros a b s. split; [intros; apply Rabs_le; lra|]. intros H. pose proof (Rle_abs (a - b)). pose proof (Rle_abs (- (a - b))). rewrite Rabs_Ropp in *. lra. }
    cbn [x2 y2]. rewrite <- !K. split.
    + intros C. split; [exact (C x2 (or_introl eq_refl))|exact (C y2 (or_intror eq_refl))].
    + intros [C1 C2] ax [->| ->]; assumption.
Qed.
Print Assumptions C89_box2_exact.
Example C89_box2_case : valid2 (mkbb2 (rp2 0 1) (rp2 2 5)). Proof. intros ax [->| ->]; cbn [min2 max2 x2 y2 rp2]; lra. Qed.

(** A BoxUnaligned3D made from a bounding box reaches the full size of it, twice what it should, from
    the common center in every direction. *)
Theorem C50_from_bb_twice_the_size_refuted : forall b : bb3 RN, valid3 b -> exists u o, ubox_from_bb b = Ok u /\ sat_of_ubox u = Ok o /\ length (sat_points o) = 8%nat /\
  forall q, In q (sat_points o) -> forall ax, axis3 ax ->
    Rabs (ax q - (ax (min3 b) + ax (max3 b)) / 2) = ax (max3 b) - ax (min3 b).
Proof.
  intros b V. assert (V1 : px (min3 b) < px (max3 b)) by (apply V; left; reflexivity). assert (V2 : py (min3 b) < py (max3 b)) by (apply V; right; left; reflexivity).
  assert (V3 : pz (min3 b) < pz (max3 b)) by (apply V; right; right; reflexivity).
  unfold ubox_from_bb. rewrite norm3_y_R, norm3_z_R'. cbn [obind]. unfold bb3_size_x, bb3_size_y, bb3_size_z. rewrite !size_R by assumption. cbn [obind].
  eexists _, _. split; [reflexivity|]. unfold sat_of_ubox. rewrite x_dir_proper.
  2: { unfold proper_ubox, rsq3, rdot3. cbn [ub_y ub_z ub_sx ub_sy ub_sz px py pz rp3]. cbn [T RN] in *. repeat split; try lra. }
  split; [reflexivity|]. split; [reflexivity|]. cbn [sat_points ubox_points ub_center ub_y ub_z ub_sx ub_sy ub_sz].
  destruct b as [[x0 y0 z0] [x1 y1 z1]]. unfold bb3_center. cbn [min3 max3 px py pz] in *.
  assert (K : forall d s : R, d = s \/ d = - s -> 0 < s -> Rabs d = s).
  { intros d s [->| ->] P; [|rewrite Rabs_Ropp]; apply Rabs_pos_eq; lra. }
  intros q Q. cbn [In] in Q.
  destruct Q as [Q|[Q|[Q|[Q|[Q|[Q|[Q|[Q|Q]]]]]]]]; [..|destruct Q].
  all: rewrite <- Q; unfold pt3_add, pt3_sub, pt3_mul, rcross, rp3; cbn [ub_center ub_y ub_z ub_sx ub_sy ub_sz px py pz]; intros ax [->|[->| ->]]; cbn [px py pz]; rewrite ?R_n2; cbn [T RN nadd nsub nmul ndiv] in *.
  all: apply K; [|lra]; first [left; field|right; field].
Qed.
Print Assumptions C50_from_bb_twice_the_size_refuted.
(** Moving it moves all its corners by the given amounts. *)
Theorem C50_move : forall (u : ubox RN) x y z o, sat_of_ubox u = Ok o ->
  exists o', sat_of_ubox (ubox_move_by u x y z) = Ok o' /\ sat_axes o' = sat_axes o /\
    sat_points o' = map (fun q : pt3 RN => @mk3 RN (px q + x) (py q + y) (pz q + z)) (sat_points o).
Proof.
  intros u x y z o H. unfold sat_of_ubox in *. change (ubox_x_dir (ubox_move_by u x y z)) with (ubox_x_dir u). destruct (ubox_x_dir u) as [d| |]; try discriminate. cbn [obind] in *.
  apply Ok_inj in H. subst o. eexists. split; [reflexivity|]. split; [reflexivity|]. cbn [sat_points]. destruct u as [[cx cy cz] [y1 y2 y3] [z1 z2 z3] sx sy sz], d as [d1 d2 d3].
  unfold ubox_points, ubox_move_by, pt3_move_by. cbn [map ub_center ub_y ub_z ub_sx ub_sy ub_sz pt3_add pt3_sub pt3_mul px py pz].
  assert (M : forall a b c a' b' c' : R, a = a' -> b = b' -> c = c' -> @mk3 RN a b c = @mk3 RN a' b' c') by (intros; subst; reflexivity).
  cbn [T RN nadd nsub nmul]. change (T RN) with R in *.
  do 8 (apply (f_equal2 cons); [apply M; unfold pt3_sub, pt3_add, pt3_mul; cbn [px py pz RN nadd nsub nmul]; toR; ring|]). reflexivity.
Qed.
Print Assumptions C50_move.
Example C50_move_case : valid3 (mkbb3 (rp3 0 0 0) (rp3 1 2 3)). Proof. intros ax [->|[->| ->]]; cbn [min3 max3 px py pz rp3]; lra. Qed.
