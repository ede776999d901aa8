(** Theorems about moving, scaling and transforming meshes (C190). *)
From Verif Require Import Base BaseLemmas Num NumLemmas BBoxModel BBoxLemmas VecModel VecSpec VecLemmas GeomSpec MatrixModel MatrixSpec MatrixLemmas
  OcModel PathModel CloudModel CloudSpec CloudLemmas MeshModel HalfEdgeModel StlModel PlaceModel PlaceSpec PlaceLemmas ShapeLemmas FloatLemmas.
From Coq Require Import Floats.SpecFloat Reals Lra Psatz.
Local Open Scope R_scope.

(** Any history of moves, scalings and transformations of any mesh keeps the faces and the number of vertices, and every
    vertex goes where one function of its position takes it (in any arithmetic). *)
Theorem C190_net : forall (NM : Num) dbg os (m m' : mesh (pt3 NM)), place_all dbg m os = Ok m' ->
  same_net m m' /\ exists g, forall v, vertex m' v = option_map g (vertex m v).
Proof.
  intros NM dbg os m m' H. apply place_all_map in H. destruct H as (g & ->). split; [apply net_map|]. exists g. intros v.
  unfold vertex. cbn [pc]. rewrite !nthN_nth_error. apply nth_error_map.
Qed.
Print Assumptions C190_net.

(** The half edges of the mesh placed anew are those from before; scaling a searchable mesh gives the searchable mesh
    of the scaled mesh. *)
Theorem C190_searchable : forall (NM : Num) dbg os (m m' : mesh (pt3 NM)) s, smesh_new m = Ok s -> place_all dbg m os = Ok m' ->
  smesh_new m' = Ok (SMesh m' (smesh_he s)) /\
  (forall f, smesh_scale dbg (SMesh m' (smesh_he s)) f = obind (mesh_scale dbg m' f) smesh_new) /\
  num_edges (SMesh m' (smesh_he s)) = num_edges s /\ (forall f, edges_of_face (SMesh m' (smesh_he s)) f = edges_of_face s f).
Proof.
  intros NM dbg os m m' s N H. apply place_all_map in H. destruct H as (g & ->). unfold smesh_new in *.
  rewrite (he_net m (Mesh (map g (pc m)) (topology m)) eq_refl). destruct (he_new m) as [h|e|] eqn:E; cbn [obind] in *; [|discriminate..]. injection N as <-. cbn [smesh_he smesh_mesh].
  split; [reflexivity|]. split; [|split; reflexivity]. intros f. unfold smesh_scale. cbn [smesh_mesh].
  destruct (mesh_scale dbg (Mesh (map g (pc m)) (topology m)) f) as [m2|e|] eqn:E2; cbn [obind]; [|reflexivity..].
  assert (T : topology m2 = topology m).
  { unfold mesh_scale in E2. destruct (pc3_scale _ _ _); cbn [obind] in E2; [|discriminate..]. injection E2 as <-. reflexivity. }
  rewrite (he_net m m2 T), E. reflexivity.
Qed.
Print Assumptions C190_searchable.

(** In real arithmetic: the center of gravity of the vertices moves along, and what was in front of a face is in front of
    it afterwards, or behind it if the matrices mirror; faces without a normal stay without one. *)
Theorem C190_sides : forall dbg os (m m' : mesh (pt3 RN)), scales_ok os -> place_all dbg m os = Ok m' ->
  exists g, (forall v, vertex m' v = option_map g (vertex m v)) /\
    mesh_center_of_gravity m' = option_map g (mesh_center_of_gravity m) /\
    forall f, match mesh_face_normal m f with
      | Ok n => mirroring os <> 0 -> exists n' k, mesh_face_normal m' f = Ok n' /\ 0 < k /\
          forall a b c q, face_vertices m f = Ok (Some (a, b, c)) ->
            face_vertices m' f = Ok (Some (g a, g b, g c)) /\ side n' (g a) (g q) = k * mirroring os * side n a q
      | r => mesh_face_normal m' f = r
      end.
Proof.
  intros dbg os m m' S H. apply place_all_acts in H; [|exact S]. destruct H as (t & k & A & K & D & ->).
  exists (fun p => pt3_multiply_m p t). split; [|split].
  - intros v. unfold vertex, mesh_transform, pts3_transform. cbn [pc]. rewrite !nthN_nth_error. apply nth_error_map.
  - apply cog_transform.
  - intros f. unfold mesh_face_normal. rewrite transform_faces. destruct (face_vertices m f) as [[[[a b] c]|]|e|]; cbn [obind]; [|reflexivity..].
    unfold corners_normal. fold (cr a b c). fold (cr (pt3_multiply_m a t) (pt3_multiply_m b t) (pt3_multiply_m c t)).
    rewrite (norm3_new_R (cr a b c)). destruct (Req_EM_T (rsq3 (cr a b c)) 0) as [F|F].
    + rewrite norm3_new_R. destruct (Req_EM_T _ 0) as [F'|F']; [reflexivity|]. elim F'. apply cr_flat. exact F.
    + intros M. assert (Dt : det_linear t <> 0) by (rewrite D; apply Rmult_integral_contrapositive; split; [lra|exact M]).
      pose proof (cr_sharp t a b c Dt F) as F'. rewrite norm3_new_R. destruct (Req_EM_T _ 0) as [Z|_]; [contradiction|].
      set (w := cr a b c) in *. set (w' := cr (pt3_multiply_m a t) (pt3_multiply_m b t) (pt3_multiply_m c t)) in *.
      pose proof (rsq3_nonneg w). pose proof (rsq3_nonneg w'). assert (P : 0 < rsq3 w) by lra. assert (P' : 0 < rsq3 w') by lra.
      destruct (inv_sqrt_sq _ P) as [Q _], (inv_sqrt_sq _ P') as [Q' _]. pose proof (sqrt_lt_R0 _ P) as U.
      eexists. exists (1 / sqrt (rsq3 w') * k * sqrt (rsq3 w)). split; [reflexivity|]. split; [apply Rmult_lt_0_compat; [apply Rmult_lt_0_compat|]; assumption|].
      intros a0 b0 c0 q E. injection E as <- <- <-. split; [reflexivity|].
      pose proof (cr_side t a b c q) as E. fold w w' in E. rewrite D in E. unfold side. set (l' := 1 / sqrt (rsq3 w')) in *.
      transitivity (l' * (k * mirroring os * rdot3 w (rp3 (px q - px a) (py q - py a) (pz q - pz a)))).
      * rewrite <- E. unfold rdot3. cbn [px py pz]. generalize (pt3_multiply_m q t) (pt3_multiply_m a t). intros u v. unfold rp3. cbn [px py pz]. ring.
      * unfold rdot3, rp3. cbn [px py pz]. generalize (px q) (py q) (pz q) (px a) (py a) (pz a) (px w) (py w) (pz w). intros. cbn in *. field. lra.
Qed.
Print Assumptions C190_sides.

(** The box around a mesh is that of all its vertices, used by a face or not. *)
Theorem C190_box : forall dbg (m : mesh (pt3 F64)), Forall number3 (pc m) -> (Z.of_nat (length (pc m)) < 2 ^ 31)%Z ->
  exists r, from3_outcome (pc m) r /\ mesh_bounding_box_maybe dbg m = Ok match r with Ok b => Some b | _ => None end.
Proof.
  intros dbg m F L. exists (bb3_from_iterator dbg (pc m)). pose proof (from3_spec dbg (pc m) F L) as H. split; [exact H|].
  unfold mesh_bounding_box_maybe, pts3_bb_maybe. destruct (bb3_from_iterator dbg (pc m)); [reflexivity..|destruct H].
Qed.
Print Assumptions C190_box.

(** A mesh in a plane parallel to two axes has no box, and scaling it does nothing at all. *)
Theorem C190_flat_scale_refuted : forall dbg (m : mesh (pt3 F64)) f ax, Forall number3 (pc m) -> (Z.of_nat (length (pc m)) < 2 ^ 31)%Z ->
  axis3 ax -> ~ differ (map ax (pc m)) -> mesh_bounding_box_maybe dbg m = Ok None /\ mesh_scale dbg m f = Ok m.
Proof.
  intros dbg m f ax F L A D. pose proof (from3_spec dbg (pc m) F L) as H. unfold mesh_bounding_box_maybe, pts3_bb_maybe, mesh_scale, pc3_scale.
  destruct (bb3_from_iterator dbg (pc m)) as [b|e|]; cbn [from3_outcome] in H.
  - exfalso. apply D. apply H. exact A.
  - destruct m. split; reflexivity.
  - destruct H.
Qed.
Print Assumptions C190_flat_scale_refuted.
Example C190_flat_scale_case : let m := @Mesh (pt3 F64) [fp3 0 0 5; fp3 4 0 5; fp3 0 4 5] [0; 1; 2]%N in
  Forall number3 (pc m) /\ ~ differ (map (@pz F64) (pc m)) /\ mesh_scale true m (fz 2) = Ok m.
Proof.
  cbv zeta. split; [cbn [pc]; do 3 (apply Forall_cons; [intros ? [->|[->| ->]]; apply lit_num|]); apply Forall_nil|]. split; [|vmeq]. intros (u & v & U & V & H). cbn in U, V.
  repeat destruct U as [<-|U]; try destruct U; repeat destruct V as [<-|V]; try destruct V; vm_compute in H; discriminate.
Qed.

(** A mirrored face looks the other way. *)
Example C190_case :
  let m := @Mesh (pt3 RN) [rp3 0 0 0; rp3 1 0 0; rp3 0 1 0] [0; 1; 2]%N in
  let t := @mkm4 RN (-1:R) (0:R) (0:R) (0:R) (0:R) (1:R) (0:R) (0:R) (0:R) (0:R) (1:R) (0:R) (0:R) (0:R) (0:R) (1:R) in
  let os := [PTransform t; @PMove RN (1:R) (2:R) (3:R)] in
  mirroring os = -1 /\ scales_ok os /\ (exists m', place_all true m os = Ok m') /\ mesh_face_normal m 0 = Ok (rp3 0 0 1) /\ mesh_face_normal (mesh_transform m t) 0 = Ok (rp3 0 0 (-1)).
Proof.
  cbv zeta. split; [unfold det_linear; cbn; unfold det_linear; cbn; ring|]. split; [intros f [H|[H|[]]]; discriminate|]. split; [eexists; reflexivity|].
  assert (U : forall k : R, k * k = 1 -> rsq3 (rp3 0 0 k) = 1) by (intros k H; unfold rsq3, rdot3, rp3; cbn; lra).
  split.
  - etransitivity; [|apply (norm3_new_unit (rp3 0 0 1)); apply U; ring]. unfold mesh_face_normal. cbn [face_vertices]. change (face_vertices _ 0) with (@Ok ErrorKind _ (Some (rp3 0 0 0, rp3 1 0 0, rp3 0 1 0))).
    cbn [obind]. unfold corners_normal. f_equal. unfold cross3, conn, rp3. cbn. f_equal; toR; ring.
  - etransitivity; [|apply (norm3_new_unit (rp3 0 0 (-1))); apply U; ring]. unfold mesh_face_normal. rewrite transform_faces. change (face_vertices _ 0) with (@Ok ErrorKind _ (Some (rp3 0 0 0, rp3 1 0 0, rp3 0 1 0))).
    cbn [obind]. unfold corners_normal. f_equal. unfold cross3, conn, rp3, pt3_multiply_m. cbn. f_equal; toR; ring.
Qed.

(** In doubles a move can collapse a face: its normal is gone, and moving back does not bring the shape back. *)
Theorem C190_move_refuted : exists (m m' m2 : mesh (pt3 F64)) n, Forall number3 (pc m) /\
  mesh_face_normal m 0 = Ok n /\ place_all true m [PMove (fz (2 ^ 60)) (fz 0) (fz 0)] = Ok m' /\
  mesh_face_normal m' 0 = Err NormalizeVecWithoutLength /\
  place_all true m' [PMove (fz (- 2 ^ 60)) (fz 0) (fz 0)] = Ok m2 /\ vertex m2 1 <> vertex m 1 /\
  mesh_face_normal m2 0 = Err NormalizeVecWithoutLength.
Proof.
  pose (m := @Mesh (pt3 F64) [fp3 0 0 0; fp3 1 0 0; fp3 0 1 0] [0; 1; 2]%N).
  exists m, (mesh_move_by m (fz (2 ^ 60)) (fz 0) (fz 0)), (mesh_move_by (mesh_move_by m (fz (2 ^ 60)) (fz 0) (fz 0)) (fz (- 2 ^ 60)) (fz 0) (fz 0)), (@mk3 F64 (fz 0) (S754_zero true) (fz 1)).
  split; [cbn [pc]; do 3 (apply Forall_cons; [intros ? [->|[->| ->]]; apply lit_num|]); apply Forall_nil|]. split; [vmeq|]. split; [reflexivity|]. split; [vmeq|]. split; [reflexivity|]. split; [|vmeq].
  intros H. apply (f_equal (fun o : option (pt3 F64) => match o with Some p => neqb (px p) (fz 1) | None => true end)) in H.
  assert (A : (match vertex m 1 with Some p => neqb (px p) (fz 1) | None => true end) = true) by vmeq.
  assert (B : (match vertex (mesh_move_by (mesh_move_by m (fz (2 ^ 60)) (fz 0) (fz 0)) (fz (- 2 ^ 60)) (fz 0) (fz 0)) 1 with Some p => neqb (px p) (fz 1) | None => true end) = false) by vmeq.
  congruence.
Qed.
Print Assumptions C190_move_refuted.
