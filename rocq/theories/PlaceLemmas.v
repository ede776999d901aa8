From Verif Require Import Base BaseLemmas Num NumLemmas BBoxModel BBoxLemmas VecModel VecSpec VecLemmas GeomSpec MatrixModel MatrixSpec MatrixLemmas
  OcModel PathModel CloudModel CloudSpec CloudLemmas MeshModel HalfEdgeModel StlModel PlaceModel PlaceSpec.
From Coq Require Import Reals Lra Psatz.
Local Open Scope R_scope.

(** ** The net *)
Lemma net_map {NM} (m : mesh (pt3 NM)) g : same_net m (Mesh (map g (pc m)) (topology m)).
Proof.
  unfold same_net, num_vertices, num_faces, face_vertex_ids, vertex. cbn [pc topology]. unfold lenN. rewrite map_length.
  do 3 (split; [reflexivity|]). intros v. rewrite !nthN_nth_error. rewrite nth_error_map. destruct (nth_error (pc m) (N.to_nat v)); cbn; split; intros; congruence.
Qed.
Lemma net_refl {P} (m : mesh P) : same_net m m.
Proof. unfold same_net. intuition reflexivity. Qed.
Lemma net_trans {P} (a b c : mesh P) : same_net a b -> same_net b c -> same_net a c.
Proof.
  intros (A1 & A2 & A3 & A4) (B1 & B2 & B3 & B4). split; [congruence|]. split; [congruence|]. split; [intros f; rewrite B3; apply A3|].
  intros v. rewrite B4. apply A4.
Qed.
Lemma place_map {NM} dbg (m m' : mesh (pt3 NM)) o : place dbg m o = Ok m' -> exists g, m' = Mesh (map g (pc m)) (topology m).
Proof.
  destruct o as [x y z|f|t]; cbn [place].
  - intros [= <-]. eexists. reflexivity.
  - unfold mesh_scale, pc3_scale. destruct (bb3_from_iterator dbg (pc m)) as [b|e|]; cbn [obind]; [intros [= <-]; eexists; reflexivity| |discriminate].
    intros [= <-]. exists (fun p => p). rewrite map_id. reflexivity.
  - intros [= <-]. eexists. reflexivity.
Qed.
Lemma place_all_map {NM} dbg os : forall m m' : mesh (pt3 NM), place_all dbg m os = Ok m' -> exists g, m' = Mesh (map g (pc m)) (topology m).
Proof.
  induction os as [|o r IH]; intros m m'; cbn [place_all].
  - intros [= <-]. exists (fun p => p). rewrite map_id. destruct m. reflexivity.
  - destruct (place dbg m o) as [m1|e|] eqn:E; cbn [obind]; [|discriminate..]. intros H. apply place_map in E. destruct E as (g1 & ->).
    apply IH in H. destruct H as (g2 & ->). exists (fun p => g2 (g1 p)). cbn [pc topology]. rewrite map_map. reflexivity.
Qed.
Lemma pass1_net {P Q} (m : mesh P) (m' : mesh Q) : topology m' = topology m -> forall n i st, he_pass1 m' n i st = he_pass1 m n i st.
Proof.
  intros T. induction n as [|n IH]; intros i st; [reflexivity|]. cbn [he_pass1]. unfold face_vertex_ids. rewrite T.
  match goal with |- obind ?x _ = _ => destruct x as [o| |] end; cbn [obind]; [|reflexivity..]. destruct o as [[[a b] c]|]; [|apply IH]. destruct st. apply IH.
Qed.
Lemma he_net {P Q} (m : mesh P) (m' : mesh Q) : topology m' = topology m -> he_new m' = he_new m.
Proof. intros T. unfold he_new, num_faces. rewrite T, (pass1_net m m' T). reflexivity. Qed.

(** ** Matrices *)
(** The matrix with the last row of an affine map. *)
Definition fixrow (t : mat4 RN) : mat4 RN :=
  @mkm4 RN (m4_00 t) (m4_01 t) (m4_02 t) (m4_03 t) (m4_10 t) (m4_11 t) (m4_12 t) (m4_13 t) (m4_20 t) (m4_21 t) (m4_22 t) (m4_23 t) (0:R) (0:R) (0:R) (1:R).
Lemma fixrow_affine t : affine4 (fixrow t).
Proof. unfold affine4. cbn. auto. Qed.
Lemma fixrow_act t p : pt3_multiply_m p (fixrow t) = pt3_multiply_m p t.
Proof. reflexivity. Qed.
Lemma fixrow_det t : det_linear (fixrow t) = det_linear t.
Proof. reflexivity. Qed.
Lemma det_mul a b : affine4 b -> det_linear (m4_mul a b) = det_linear a * det_linear b.
Proof.
  destruct a, b. unfold affine4. cbn [entry4]. intros (A & B & C & D). unfold det_linear, m4_mul. cbn in *. subst. ring.
Qed.
(** What a placement does to points: a matrix whose determinant is the mirroring up to a factor above zero. *)
Definition acts (m m' : mesh (pt3 RN)) (d : R) : Prop :=
  exists t k, affine4 t /\ 0 < k /\ det_linear t = k * d /\ m' = mesh_transform m t.
Definition scale_about (c : pt3 RN) (f : R) : mat4 RN :=
  @mkm4 RN f (0:R) (0:R) (px c - f * px c : R) (0:R) f (0:R) (py c - f * py c : R) (0:R) (0:R) f (pz c - f * pz c : R) (0:R) (0:R) (0:R) (1:R).
Lemma transform_id (m : mesh (pt3 RN)) : mesh_transform m m4_identity = m.
Proof.
  unfold mesh_transform, pts3_transform. rewrite (map_ext _ (fun p => p)); [rewrite map_id; destruct m; reflexivity|]. apply id_act3.
Qed.
Lemma det_id : det_linear m4_identity = 1.
Proof. unfold det_linear, m4_identity. mcbn. ring. Qed.
Lemma id_affine : affine4 m4_identity.
Proof. unfold affine4, m4_identity. mcbn. auto. Qed.
Lemma place_acts dbg (m m' : mesh (pt3 RN)) o : scales_ok [o] -> place dbg m o = Ok m' -> acts m m' (mirroring [o]).
Proof.
  intros S. destruct o as [x y z|f|t]; cbn [place mirroring].
  - intros [= <-]. exists (m4_translation x y z), 1. split; [unfold affine4, m4_translation; mcbn; auto|].
    split; [lra|]. split; [unfold det_linear, m4_translation; mcbn; ring|].
    unfold mesh_move_by, mesh_transform, pc3_move_by, pts3_transform. f_equal. apply map_ext. intros p. rewrite translation_act3. reflexivity.
  - assert (F : 0 < f) by (apply S; left; reflexivity). unfold mesh_scale, pc3_scale. destruct (bb3_from_iterator dbg (pc m)) as [b|e|]; cbn [obind]; [| |discriminate].
    + intros [= <-]. exists (scale_about (bb3_center b) f), (f * f * f). split; [unfold affine4; cbn; auto|]. split; [apply Rmult_lt_0_compat; [apply Rmult_lt_0_compat|]; assumption|].
      split; [unfold det_linear; cbn; ring|]. unfold mesh_transform, pts3_transform. f_equal. apply map_ext. intros p.
      unfold increase_distance3, pt3_multiply_m, scale_about. generalize (bb3_center b). intros c. cbn. f_equal; toR; ring.
    + intros [= <-]. exists m4_identity, 1. split; [apply id_affine|]. split; [lra|]. split; [rewrite det_id; ring|].
      rewrite transform_id. destruct m. reflexivity.
  - intros [= <-]. exists (fixrow t), 1. split; [apply fixrow_affine|]. split; [lra|]. split; [rewrite fixrow_det; ring|]. reflexivity.
Qed.
Lemma place_all_acts dbg os : forall m m' : mesh (pt3 RN), scales_ok os -> place_all dbg m os = Ok m' -> acts m m' (mirroring os).
Proof.
  induction os as [|o r IH]; intros m m' S; cbn [place_all].
  - intros [= <-]. exists m4_identity, 1. split; [apply id_affine|]. split; [lra|]. split; [rewrite det_id; cbn; ring|]. symmetry. apply transform_id.
  - destruct (place dbg m o) as [m1|e|] eqn:E; cbn [obind]; [|discriminate..]. intros H.
    apply place_acts in E; [|intros f [->|[]]; apply S; left; reflexivity]. apply IH in H; [|intros f K; apply S; right; exact K].
    destruct E as (t1 & k1 & A1 & K1 & D1 & ->), H as (t2 & k2 & A2 & K2 & D2 & ->).
    exists (m4_mul t2 t1), (k2 * k1). split; [|split; [apply Rmult_lt_0_compat; assumption|split]].
    + apply m4_affine_mul; assumption.
    + rewrite det_mul by exact A1. rewrite D1, D2. destruct o; cbn [mirroring]; ring.
    + unfold mesh_transform, pts3_transform. cbn [pc topology]. f_equal. rewrite map_map. apply map_ext. intros p. symmetry. apply m4_compose. exact A1.
Qed.

(** ** Normals *)
Definition cr (a b c : pt3 RN) : pt3 RN := cross3 (conn a b) (conn b c).
Lemma cr_side t a b c q : rdot3 (cr (pt3_multiply_m a t) (pt3_multiply_m b t) (pt3_multiply_m c t))
    (rp3 (px (pt3_multiply_m q t) - px (pt3_multiply_m a t)) (py (pt3_multiply_m q t) - py (pt3_multiply_m a t)) (pz (pt3_multiply_m q t) - pz (pt3_multiply_m a t)))
  = det_linear t * rdot3 (cr a b c) (rp3 (px q - px a) (py q - py a) (pz q - pz a)).
Proof. destruct t, a, b, c, q. unfold rdot3, cr, cross3, conn, det_linear, pt3_multiply_m, rp3. cbn. ring. Qed.
Lemma cr_cof t a b c : let n := cr a b c in let n' := cr (pt3_multiply_m a t) (pt3_multiply_m b t) (pt3_multiply_m c t) in
  px n' = (m4_11 t * m4_22 t - m4_12 t * m4_21 t) * px n + (m4_12 t * m4_20 t - m4_10 t * m4_22 t) * py n + (m4_10 t * m4_21 t - m4_11 t * m4_20 t) * pz n /\
  py n' = (m4_21 t * m4_02 t - m4_22 t * m4_01 t) * px n + (m4_22 t * m4_00 t - m4_20 t * m4_02 t) * py n + (m4_20 t * m4_01 t - m4_21 t * m4_00 t) * pz n /\
  pz n' = (m4_01 t * m4_12 t - m4_02 t * m4_11 t) * px n + (m4_02 t * m4_10 t - m4_00 t * m4_12 t) * py n + (m4_00 t * m4_11 t - m4_01 t * m4_10 t) * pz n.
Proof. destruct t, a, b, c. unfold cr, cross3, conn, pt3_multiply_m. cbn. repeat split; toR; ring. Qed.
Lemma cr_flat t a b c : rsq3 (cr a b c) = 0 -> rsq3 (cr (pt3_multiply_m a t) (pt3_multiply_m b t) (pt3_multiply_m c t)) = 0.
Proof.
  intros H. apply rsq3_zero in H. destruct H as (X & Y & Z). apply rsq3_zero. destruct (cr_cof t a b c) as (A & B & C). rewrite A, B, C, X, Y, Z.
  repeat split; toR; ring.
Qed.
Lemma cr_sharp t a b c : det_linear t <> 0 -> rsq3 (cr a b c) <> 0 -> rsq3 (cr (pt3_multiply_m a t) (pt3_multiply_m b t) (pt3_multiply_m c t)) <> 0.
Proof.
  intros D S Z. apply rsq3_zero in Z. destruct Z as (X & Y & Z).
  set (n := cr a b c) in *. pose proof (cr_side t a b c (rp3 (px a + px n) (py a + py n) (pz a + pz n))) as E. fold n in E.
  unfold rdot3 at 1 in E. rewrite X, Y, Z in E. cbn [rp3 px py pz] in E.
  assert (rsq3 n = 0); [|contradiction]. apply (Rmult_eq_reg_l (det_linear t)); [|exact D]. rewrite Rmult_0_r. unfold rsq3, rdot3 in *. cbn [rp3 px py pz] in E.
  etransitivity; [|etransitivity; [symmetry; exact E|ring]]. f_equal. ring.
Qed.
Lemma transform_faces {NM} (m : mesh (pt3 NM)) t f :
  face_vertices (mesh_transform m t) f = match face_vertices m f with
    | Ok (Some (a, b, c)) => Ok (Some (pt3_multiply_m a t, pt3_multiply_m b t, pt3_multiply_m c t)) | r => r end.
Proof.
  unfold face_vertices, face_vertex_ids, vertex, mesh_transform, pts3_transform. cbn [pc topology].
  match goal with |- obind ?x _ = _ => destruct x as [o| |] end; cbn [obind]; [|reflexivity..]. destruct o as [[[a b] c]|]; [|reflexivity].
  rewrite !nthN_nth_error, !nth_error_map. destruct (nth_error (pc m) (N.to_nat a)), (nth_error (pc m) (N.to_nat b)), (nth_error (pc m) (N.to_nat c)); reflexivity.
Qed.

(** ** Centers *)
Lemma total_lin (ps : list (pt3 RN)) (a b c d : R) :
  total (map (fun p : pt3 RN => px p * a + py p * b + pz p * c + d) ps) = total (map (@px RN) ps) * a + total (map (@py RN) ps) * b + total (map (@pz RN) ps) * c + INR (length ps) * d.
Proof.
  induction ps as [|p r IH]; [cbn; ring|]. cbn [length]. rewrite S_INR. unfold total in *. cbn [map fold_right]. rewrite IH. ring.
Qed.
Lemma cog_transform (ps : list (pt3 RN)) t : pc3_cog (pts3_transform ps t) = option_map (fun p => pt3_multiply_m p t) (pc3_cog ps).
Proof.
  destruct (pc3_cog ps) as [c|] eqn:E; cbn [option_map]; [|destruct ps; [reflexivity|discriminate]].
  destruct (pc3_cog (pts3_transform ps t)) as [c'|] eqn:E'; [|destruct ps; discriminate].
  pose proof (cog3_R _ _ E) as G. pose proof (cog3_R _ _ E') as G'. unfold pts3_transform in G'. rewrite map_length in G'.
  assert (N : INR (length ps) <> 0) by (destruct ps; [discriminate|]; apply not_0_INR; discriminate).
  assert (X := G (@px RN) (or_introl eq_refl)). assert (Y := G (@py RN) (or_intror (or_introl eq_refl))). assert (Z := G (@pz RN) (or_intror (or_intror eq_refl))).
  f_equal. destruct c' as [x' y' z']. unfold pt3_multiply_m.
  pose proof (G' (@px RN) (or_introl eq_refl)) as X'. pose proof (G' (@py RN) (or_intror (or_introl eq_refl))) as Y'. pose proof (G' (@pz RN) (or_intror (or_intror eq_refl))) as Z'.
  rewrite map_map in X', Y', Z'. cbn [px py pz pt3_multiply_m] in X', Y', Z'.
  rewrite X, Y, Z. f_equal; (etransitivity; [eassumption|]); (etransitivity; [apply (f_equal (fun s => s / INR (length ps))); apply total_lin|]); toR; cbn; field; exact N.
Qed.
