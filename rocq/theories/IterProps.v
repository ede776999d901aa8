(** Iterators over files after their end (C171), for readers of every kind. *)
From Verif Require Import Base Num GeomSpec MatrixModel MeshModel IoModel IoSpec IoProps ByteModel PlyModel ScanModel ScannerModel StlModel ReaderModel IterModel IterSpec.
Open Scope nat_scope.

(** A state in which nothing comes and nothing changes. *)
Definition dead {S E A} (next : S -> option (outcome E A) * S) (s : S) : Prop := next s = (None, s).
Lemma dead_after {S E A} (next : S -> option (outcome E A) * S) s n : dead next s -> fst (next (after_calls next n s)) = None.
Proof. intros D. induction n as [|n IH]; cbn [after_calls]; [unfold dead in D; rewrite D; reflexivity|]. unfold dead in D. rewrite D. exact IH. Qed.
Lemma ends_by_dead {S E A} (next : S -> option (outcome E A) * S) : (forall s, fst (next s) = None -> dead next (snd (next s))) -> ends_for_good next.
Proof. intros H s n N. apply dead_after, H, N. Qed.
Lemma stops_by_dead {S E A} (next : S -> option (outcome E A) * S) : (forall s e, fst (next s) = Some (Err e) -> dead next (snd (next s))) -> stops_on_error next.
Proof. intros H s n e N. apply dead_after, (H s e), N. Qed.
(** Both at once. *)
Definition stays {S E A} (next : S -> option (outcome E A) * S) : Prop :=
  forall s, fst (next s) = None \/ (exists e, fst (next s) = Some (Err e)) -> dead next (snd (next s)).
Lemma stays_both {S E A} (next : S -> option (outcome E A) * S) : stays next -> ends_for_good next /\ stops_on_error next.
Proof. intros H. split; [apply ends_by_dead|apply stops_by_dead]; intros; apply H; eauto. Qed.
Lemma stays_simple {S E A} (next : S -> option (outcome E A) * S) : stays next -> stays (simple_next next).
Proof.
  intros H s O. unfold dead, simple_next in *. specialize (H s). destruct (next s) as [r s'] eqn:N. cbn [fst snd] in *.
  rewrite H; [reflexivity|]. destruct O as [O|[e O]]; destruct r as [[a|x|]|]; cbn in O; try discriminate; eauto.
Qed.
Ltac finish := unfold dead; cbn [fst snd] in *; try reflexivity; match goal with H : _ \/ (exists _, _) |- _ => destruct H as [H|[? H]]; discriminate H end.

Lemma xy_stays {A} minimum (point : ascii -> bytes -> outcome XyError A) : stays (xy_next_from minimum point).
Proof.
  intros s O. unfold xy_next_from in *. destruct (xyr_done s) eqn:D; [unfold dead; cbn [snd]; rewrite D; reflexivity|].
  destruct (fetch_from (xyr_read s)) as [[line|] read]; [|finish].
  destruct (xy_delimiter minimum (xyr_delim s) line) as [d|e|]; [|finish|finish]. destruct (point d line); finish.
Qed.
Lemma line_stays {S E A} (step : S -> bytes -> line_step S E A) : stays (line_next_from step).
Proof.
  intros s O. unfold line_next_from in *. destruct (lr_done s) eqn:D; [unfold dead; cbn [snd]; rewrite D; reflexivity|].
  assert (K : forall n read i o, let x := line_loop_from step n read i o in (fst x = None \/ exists e, fst x = Some (Err e)) -> lr_done (snd x) = true).
  { clear. induction n as [|n IH]; intros read i o; cbn [line_loop_from]; [reflexivity|]. destruct (fetch_from read) as [[line|] read']; [|reflexivity].
    destruct (step o line) as [s1|[a|e|] s1|s1]; try reflexivity; [apply IH|]. cbn. intros [H|[e H]]; discriminate H. }
  specialize (K _ _ _ _ O). unfold dead. rewrite K. reflexivity.
Qed.
Lemma psl_stays : stays psl_next_from.
Proof.
  intros s O. unfold psl_next_from in *. destruct (pslr_done s) eqn:D; [unfold dead; cbn [snd]; rewrite D; reflexivity|].
  destruct (if pslr_init s then _ else _) as [s1|e|]; [|finish|finish]. destruct (psl_counts_from s1) as [s2|e|]; [|finish|finish].
  destruct (pslr_points s2 =? 0)%Z; [finish|]. cbn zeta in *. destruct (psl_point_from _) as [[p r]|e|]; finish.
Qed.
Lemma stl_ascii_stays ft : stays (stl_ascii_next_from ft).
Proof.
  intros s O. unfold stl_ascii_next_from in *. destruct (sar_done s) eqn:D; [unfold dead; cbn [snd]; rewrite D; reflexivity|].
  destruct (if sar_header s then _ else _) as [s1|e|]; [|finish|finish]. destruct (read_stl_facet_from _ _ _) as [[[f r] i]|w|]; [finish| |finish].
  destruct (info_error w); finish.
Qed.
Lemma stl_binary_stays : stays stl_binary_next_from.
Proof.
  intros s O. unfold stl_binary_next_from in *. destruct (sbr_done s) eqn:D; [unfold dead; cbn [snd]; rewrite D; reflexivity|].
  destruct (negb (sbr_header s)).
  - destruct (obind _ _) as [[n r]|e|]; [|finish|finish]. destruct (_ <? n)%N; finish.
  - destruct (_ <? _)%N; [|finish]. destruct (value_from _ _ _ _) as [[f r]|e|]; finish.
Qed.
Lemma ascii_points_stays ft v : stays (ascii_points_next_from ft v).
Proof.
  intros s O. unfold ascii_points_next_from in *. destruct (ar_done s) eqn:D; [unfold dead; cbn [snd]; rewrite D; reflexivity|].
  cbn zeta in *. destruct (_ <? _)%N; [destruct (fetch_from (ar_read s)) as [[line|] read]; [destruct (ascii_vertex ft v line); finish|]|]; destruct (negb _); finish.
Qed.
Lemma ascii_faces_stays f : stays (ascii_faces_next_from f).
Proof.
  intros s O. unfold ascii_faces_next_from in *. destruct (ar_done s) eqn:D; [unfold dead; cbn [snd]; rewrite D; reflexivity|].
  cbn zeta in *. destruct (_ <? _)%N; [destruct (fetch_from (ar_read s)) as [[line|] read]; [destruct (collect_index_line line); finish|]|]; finish.
Qed.
Lemma binary_stays {A} count (fetch : reader -> outcome PlyError (A * reader)) : stays (binary_next_from count fetch).
Proof.
  intros s O. unfold binary_next_from in *. destruct (br_done s) eqn:D; [unfold dead; cbn [snd]; rewrite D; reflexivity|].
  destruct (_ <? _)%N; [destruct (fetch (br_read s)) as [[a r]|e|]|]; finish.
Qed.
Lemma las_stays file : stays (las_next file).
Proof.
  intros [read d current head] O. unfold las_next in *. destruct d; [reflexivity|]. destruct head as [h|].
  - destruct (_ <? _)%N; [destruct (las_fetch h read) as [[p r]|e|]|]; finish.
  - destruct (obind _ _) as [h|e|]; finish.
Qed.
(** An iterator over points and then faces. *)
Lemma mesh_ends {S E} (points : S -> option (outcome E (pt3 F64)) * S) (faces : S -> option (outcome E face3) * S) switch :
  stays faces -> forall s, fst (mesh_next points faces switch s) = None -> dead (mesh_next points faces switch) (snd (mesh_next points faces switch s)).
Proof.
  intros H. assert (G : forall s, let x := (let (r, f) := faces s in (map_item MFace r, IFaces f)) in fst x = None -> dead (mesh_next points faces switch) (snd x)).
  { intros s. specialize (H s). destruct (faces s) as [r f] eqn:N. cbn [fst snd] in *. intros O. unfold dead, mesh_next.
    destruct r as [[a|e|]|]; cbn in O; try discriminate O. rewrite H by auto. reflexivity. }
  intros [p|f]; cbn [mesh_next]; [|apply G]. destruct (points p) as [[r|] p']; [|apply G]. destruct r; discriminate.
Qed.

(** ** None stays None *)
Theorem C171_ends ft : ends_for_good (xy_next_from 1 (xy_point ft)) /\ ends_for_good (xy_next_from 2 (xyz_point ft)) /\
  ends_for_good (line_next_from (obj_points_step ft)) /\ ends_for_good (line_next_from (obj_mesh_step ft)) /\
  ends_for_good (line_next_from (off_points_step ft)) /\ ends_for_good (line_next_from (off_mesh_step ft)) /\
  ends_for_good (line_next_from (pts_step ft)) /\ ends_for_good (line_next_from (gcode_step ft)) /\
  ends_for_good (ptx_next_from ft) /\ ends_for_good psl_next_from /\ (forall file, ends_for_good (las_next file)) /\
  ends_for_good (stl_next ft) /\ ends_for_good (ply_points_next ft) /\ ends_for_good (ply_mesh_next ft).
Proof.
  repeat (split; [first [apply stays_both, xy_stays|apply stays_both, line_stays|apply stays_both, psl_stays|intros file; apply stays_both, las_stays|idtac]|]).
  - apply ends_by_dead. intros [r d i todo must m]. unfold ptx_next_from. destruct d; [reflexivity|]. destruct (todo =? 0)%N.
    + destruct (fetch_from r) as [[line|] r']; [|reflexivity]. destruct (obind _ _); discriminate.
    + destruct (ptx_fetch_from i r) as [[line r']|e|]; discriminate.
  - apply ends_by_dead. intros [s|s]; cbn [stl_next].
    + pose proof (stl_ascii_stays ft s) as K. destruct (stl_ascii_next_from ft s) as [x s'] eqn:N. cbn [fst snd] in *. intros ->. unfold dead in *. cbn [stl_next]. rewrite K by auto. reflexivity.
    + pose proof (stl_binary_stays s) as K. destruct (stl_binary_next_from s) as [x s'] eqn:N. cbn [fst snd] in *. intros ->. unfold dead in *. cbn [stl_next]. rewrite K by auto. reflexivity.
  - apply ends_by_dead. intros [[n|] v s|[n|] en v s]; cbn [ply_points_next]; try discriminate.
    + pose proof (ascii_points_stays ft v s) as K. destruct (ascii_points_next_from ft v s) as [x s'] eqn:N. cbn [fst snd] in *. intros O. unfold dead in *. cbn [ply_points_next].
      rewrite K; [reflexivity|]. destruct x as [[]|]; cbn in O; try discriminate; auto.
    + pose proof (stays_simple _ (binary_stays (vd_count v) (binary_vertex_from en v)) s) as K. destruct (simple_next _ s) as [x s'] eqn:N. cbn [fst snd] in *. intros O. unfold dead in *. cbn [ply_points_next].
      rewrite K; [reflexivity|]. destruct x as [[]|]; cbn in O; try discriminate; auto.
  - apply ends_by_dead. intros [[[d n]|] v f s|[[d n]|] en v f s]; cbn [ply_mesh_next]; try discriminate.
    + pose proof (mesh_ends (ascii_points_next_from ft v) (ascii_faces_next_from f) (fun s => mkar (ar_read s) false 0 (ar_line s)) (ascii_faces_stays f) s) as K.
      fold (ascii_mesh_next_from ft v f) in K. destruct (ascii_mesh_next_from ft v f s) as [x s'] eqn:N. cbn [fst snd] in *. intros O. unfold dead in *. cbn [ply_mesh_next].
      rewrite K; [reflexivity|]. destruct x as [[]|]; cbn in O; try discriminate; auto.
    + pose proof (mesh_ends (binary_next_from (vd_count v) (binary_vertex_from en v)) (binary_next_from (fd_count f) (binary_face_from en f)) (fun s => mkbr (br_read s) false 0) (binary_stays _ _) s) as K.
      fold (binary_mesh_next_from en v f) in K. unfold simple_next. destruct (binary_mesh_next_from en v f s) as [x s'] eqn:N. cbn [fst snd] in *. intros O. unfold dead in *. cbn [ply_mesh_next]. unfold simple_next.
      rewrite K; [reflexivity|]. destruct x as [[]|]; cbn in O; try discriminate; auto.
Qed.
Print Assumptions C171_ends.

(** ** After an error there is nothing more *)
Theorem C171_stops ft : stops_on_error (xy_next_from 1 (xy_point ft)) /\ stops_on_error (xy_next_from 2 (xyz_point ft)) /\
  stops_on_error (line_next_from (obj_points_step ft)) /\ stops_on_error (line_next_from (obj_mesh_step ft)) /\
  stops_on_error (line_next_from (off_points_step ft)) /\ stops_on_error (line_next_from (off_mesh_step ft)) /\
  stops_on_error (line_next_from (pts_step ft)) /\ stops_on_error (line_next_from (gcode_step ft)) /\
  stops_on_error psl_next_from /\ (forall file, stops_on_error (las_next file)) /\
  stops_on_error (stl_next ft) /\ stops_on_error (ply_points_next ft).
Proof.
  repeat (split; [first [apply stays_both, xy_stays|apply stays_both, line_stays|apply stays_both, psl_stays|intros file; apply stays_both, las_stays|idtac]|]).
  - apply stops_by_dead. intros [s|s] e; cbn [stl_next].
    + pose proof (stl_ascii_stays ft s) as K. destruct (stl_ascii_next_from ft s) as [x s'] eqn:N. cbn [fst snd] in *. intros ->. unfold dead in *. cbn [stl_next]. rewrite K by eauto. reflexivity.
    + pose proof (stl_binary_stays s) as K. destruct (stl_binary_next_from s) as [x s'] eqn:N. cbn [fst snd] in *. intros ->. unfold dead in *. cbn [stl_next]. rewrite K by eauto. reflexivity.
  - apply stops_by_dead. intros [[n|] v s|[n|] en v s] e; cbn [ply_points_next]; try discriminate.
    + pose proof (ascii_points_stays ft v s) as K. destruct (ascii_points_next_from ft v s) as [x s'] eqn:N. cbn [fst snd] in *. intros O. unfold dead in *. cbn [ply_points_next].
      rewrite K; [reflexivity|]. destruct x as [[]|]; cbn in O; try discriminate; eauto.
    + pose proof (stays_simple _ (binary_stays (vd_count v) (binary_vertex_from en v)) s) as K. destruct (simple_next _ s) as [x s'] eqn:N. cbn [fst snd] in *. intros O. unfold dead in *. cbn [ply_points_next].
      rewrite K; [reflexivity|]. destruct x as [[]|]; cbn in O; try discriminate; eauto.
Qed.
Print Assumptions C171_stops.

(** ** ... except for ptx files: the points after a broken one still come *)
Theorem C171_ptx_refuted : ~ stops_on_error (ptx_next_from demo) /\ exists file, answers (ptx_next_from demo) 6 (mkptxr [Chunk file] false 0 0 false m4_identity) =
  [Some (Ok (DReserve 3)); Some (Ok (DData (fp3 1 2 3))); Some (Err (WLine 12 (str "4 5") PtxPoint)); Some (Ok (DData (fp3 7 8 9))); None; None].
Proof.
  assert (X : exists file, answers (ptx_next_from demo) 6 (mkptxr [Chunk file] false 0 0 false m4_identity) =
    [Some (Ok (DReserve 3)); Some (Ok (DData (fp3 1 2 3))); Some (Err (WLine 12 (str "4 5") PtxPoint)); Some (Ok (DData (fp3 7 8 9))); None; None]).
  { exists (unlines (map str ["3"; "1"; "0 0 0"; "1 0 0"; "0 1 0"; "0 0 1"; "1 0 0 0"; "0 1 0 0"; "0 0 1 0"; "0 0 0 1"; "1 2 3 0"; "4 5"; "7 8 9 0"]%string)). vmeq. }
  split; [|exact X]. intros S. destruct X as [file X].
  set (s := mkptxr [Chunk file] false 0 0 false m4_identity) in X. cbn [answers] in X. destruct (ptx_next_from demo s) as [x1 s1] eqn:E1. destruct (ptx_next_from demo s1) as [x2 s2] eqn:E2.
  destruct (ptx_next_from demo s2) as [x3 s3] eqn:E3. destruct (ptx_next_from demo s3) as [x4 s4] eqn:E4. injection X as -> -> -> -> _.
  specialize (S s2 0 (WLine 12 (str "4 5") PtxPoint)). cbn [after_calls] in S. rewrite E3 in S. cbn [fst snd] in S. rewrite E4 in S. specialize (S eq_refl). discriminate S.
Qed.
Print Assumptions C171_ptx_refuted.

(** ** ... and for meshes in ply files: after a broken vertex the next line is taken for a face *)
Theorem C171_ply_refuted : ~ stops_on_error (ply_mesh_next demo) /\ exists file s, ply_mesh_iterator [Chunk file] = Ok s /\ answers (ply_mesh_next demo) 5 s =
  [Some (Ok (PReserve 3 1)); Some (Err (WLine 10 (str "1 2") InvalidVertex)); Some (Ok (PItem (MFace (4, 5, 6)%N))); None; None].
Proof.
  set (h := unlines (map str ["ply"; "format ascii 1.0"; "element vertex 3"; "property float x"; "property float y"; "property float z"; "element face 1"; "property list uchar uint vertex_indices"; "end_header"; "1 2"; "3 4 5 6"; "7 8 9"; "3 0 1 2"]%string)).
  assert (X : exists s, ply_mesh_iterator [Chunk h] = Ok s /\ answers (ply_mesh_next demo) 5 s =
    [Some (Ok (PReserve 3 1)); Some (Err (WLine 10 (str "1 2") InvalidVertex)); Some (Ok (PItem (MFace (4, 5, 6)%N))); None; None]).
  { eexists. split; [vm_compute; reflexivity|]. vm_compute. reflexivity. }
  split; [|exists h; exact X]. intros S. destruct X as (s & _ & X).
  cbn [answers] in X. destruct (ply_mesh_next demo s) as [x1 s1] eqn:E1. destruct (ply_mesh_next demo s1) as [x2 s2] eqn:E2.
  destruct (ply_mesh_next demo s2) as [x3 s3] eqn:E3. destruct (ply_mesh_next demo s3) as [x4 s4] eqn:E4. injection X as -> -> -> _ _.
  specialize (S s1 0 (WLine 10 (str "1 2") InvalidVertex)). cbn [after_calls] in S. rewrite E2 in S. cbn [fst snd] in S. rewrite E3 in S. specialize (S eq_refl). discriminate S.
Qed.
Print Assumptions C171_ply_refuted.

(** A reader that fails once and would then go on: the first point comes, then nothing, although a second line could be read. *)
Example C171_case : let r := [Chunk (str "1 2 3" ++ [nl]); Failure; Chunk (str "4 5 6" ++ [nl])] in
  answers (xy_next_from 2 (xyz_point demo)) 4 (mkxyr r false 0 None) = [Some (Ok (fp3 1 2 3)); None; None; None] /\
  answers (xy_next_from 2 (xyz_point demo)) 3 (mkxyr [Chunk (str "1 2" ++ [nl] ++ str "4 5 6" ++ [nl])] false 0 None) = [Some (Err (WLine 1 (str "1 2") EstimateDelimiter)); None; None].
Proof. split; vmeq. Qed.
