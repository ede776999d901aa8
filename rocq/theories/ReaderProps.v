(** Readers that hand over their data in pieces and readers that fail. *)
From Verif Require Import Base BaseLemmas Num GeomSpec MatrixModel MeshModel MeshSpec MeshLemmas IoModel IoSpec IoLemmas IoProps ByteModel ByteSpec PlyModel PlySpec PlyLemmas PlyProps ScanModel ScanProps ScannerModel ScannerProps StlModel StlSpec StlProps CutSpec CutLemmas CutLemmas2 CutProps ReaderModel ReaderSpec ReaderLemmas ReaderLemmas2 ReaderLemmas3 ReaderLemmas4.
Open Scope nat_scope.

(** ** C162 how the data arrives does not matter *)
Theorem C162_text : forall ft k r, steady r ->
  load_xyz_from ft k r = load_xyz ft k (sent r) /\ load_xy_from ft k r = load_xy ft k (sent r) /\
  load_obj_mesh_from ft k r = load_obj_mesh ft k (sent r) /\ load_obj_points_from ft k r = load_obj_points ft k (sent r) /\
  load_off_mesh_from ft k r = load_off_mesh ft k (sent r) /\ load_off_points_from ft k r = load_off_points ft k (sent r) /\
  load_pts_from ft k r = load_pts ft k (sent r) /\ load_gcode_points_from ft k r = load_gcode_points ft k (sent r) /\ load_ptx_from ft k r = load_ptx ft k (sent r).
Proof.
  intros ft k r S. pose proof (steady_offers r S) as O. split; [exact (xy_load_sim _ _ _ k _ _ O)|]. split; [exact (xy_load_sim _ _ _ k _ _ O)|]. split; [exact (line_fold_sim _ _ _ k _ _ _ _ O)|]. split; [exact (line_load_sim _ _ k _ _ _ O)|].
  split; [exact (line_fold_sim _ _ _ k _ _ _ _ O)|]. split; [exact (line_fold_sim _ _ _ k _ _ _ _ O)|]. split; [exact (line_fold_sim _ _ _ k _ _ _ _ O)|]. split; [exact (line_load_sim _ _ k _ _ _ O)|]. exact (ptx_load_sim _ ft k _ _ O).
Qed.
Print Assumptions C162_text.
Theorem C162_ply : forall ft k r, steady r -> load_ply_mesh_from ft k r = load_ply_mesh ft k (sent r) /\ load_ply_points_from ft k r = load_ply_points ft k (sent r).
Proof. intros ft k r S. split; [apply load_ply_mesh_steady|apply load_ply_points_steady]; exact S. Qed.
Print Assumptions C162_ply.
Theorem C162_stl : forall ft same k fmt r m ns, steady r ->
  load_stl_triplets_from ft k fmt r = load_stl_triplets ft k fmt (sent r) /\ load_stl_mesh_duped_from ft k fmt r m ns = load_stl_mesh_duped ft k fmt (sent r) m ns /\
  load_stl_mesh_unique_from ft same k fmt r m ns = load_stl_mesh_unique ft same k fmt (sent r) m ns.
Proof.
  intros ft same k fmt r m ns S. unfold load_stl_triplets_from, load_stl_mesh_duped_from, load_stl_mesh_unique_from. rewrite (stl_items_steady ft k fmt r S). repeat split; reflexivity.
Qed.
Print Assumptions C162_stl.
Theorem C162_psl : forall k r, steady r -> load_psl_from k r = load_psl k (sent r).
Proof. intros k r S. apply (psl_load_sim [] ended_nil). rewrite <- (app_nil_r r) at 1. apply holds_steady. exact S. Qed.
Print Assumptions C162_psl.
(** An empty chunk is the end for the loop that asks for more: the rest is not lost for the next one. *)
Theorem C162_empty_refuted : exists r, load_xyz_from demo 100 r <> load_xyz demo 100 (sent r) /\ ~ In Failure r.
Proof. exists [Chunk (str "1 2 3"); Chunk []; Chunk [nl]]. split; [intros H; apply (f_equal (option_map (fun x => length (fst x)))) in H; vm_compute in H; discriminate|]. intros [H|[H|[H|[]]]]; discriminate. Qed.
Example C162_case : let r := [Chunk (str "1 "); Interrupted; Chunk (str "2 3" ++ [nl] ++ str "4"); Chunk (str " 5 6" ++ [nl])] in
  steady r /\ sent r = str "1 2 3" ++ [nl] ++ str "4 5 6" ++ [nl] /\ load_xyz_from demo 100 r = Some ([fp3 1 2 3; fp3 4 5 6], Ok tt) /\
  load_psl_from 3 (map (fun c => Chunk [c]) psl_example) = Some ([fp3 1 2 3], Ok tt) /\
  load_ply_mesh_from demo 1000 (map (fun c => Chunk [c]) cut_case) = Some (case_mesh2, Ok tt).
Proof. cbn zeta. split; [repeat constructor; discriminate|]. split; [reflexivity|]. split; [vmeq|]. split; vmeq. Qed.

(** ** C163 what is loaded of a reader that fails *)
(** The text loaders load exactly what they would load of a file with the complete lines before the
    failure: the beginning of a line is dropped, the failure is the end of the file. *)
Theorem C163_text : forall ft k b whole r, breaks_after b r -> whole_lines b whole ->
  load_xyz_from ft k r = load_xyz ft k whole /\ load_xy_from ft k r = load_xy ft k whole /\
  load_obj_mesh_from ft k r = load_obj_mesh ft k whole /\ load_obj_points_from ft k r = load_obj_points ft k whole /\
  load_off_mesh_from ft k r = load_off_mesh ft k whole /\ load_off_points_from ft k r = load_off_points ft k whole /\
  load_pts_from ft k r = load_pts ft k whole /\ load_gcode_points_from ft k r = load_gcode_points ft k whole /\ load_ptx_from ft k r = load_ptx ft k whole.
Proof.
  intros ft k b whole r (r1 & r2 & -> & S & B) W. pose proof (broken_offers (fun _ => True) b whole r1 r2 S B W I) as O. split; [exact (xy_load_sim _ _ _ k _ _ O)|]. split; [exact (xy_load_sim _ _ _ k _ _ O)|]. split; [exact (line_fold_sim _ _ _ k _ _ _ _ O)|]. split; [exact (line_load_sim _ _ k _ _ _ O)|].
  split; [exact (line_fold_sim _ _ _ k _ _ _ _ O)|]. split; [exact (line_fold_sim _ _ _ k _ _ _ _ O)|]. split; [exact (line_fold_sim _ _ _ k _ _ _ _ O)|]. split; [exact (line_load_sim _ _ k _ _ _ O)|]. exact (ptx_load_sim _ ft k _ _ O).
Qed.
Print Assumptions C163_text.
Theorem C163_ply : forall ft k b whole r, breaks_for_good b r -> whole_lines b whole ->
  (load_ply_mesh_from ft k r = load_ply_mesh ft k whole \/ load_ply_mesh_from ft k r = load_ply_mesh ft k b) /\
  (load_ply_points_from ft k r = load_ply_points ft k whole \/ load_ply_points_from ft k r = load_ply_points ft k b).
Proof. intros ft k b whole r B W. split; [apply load_ply_mesh_broken|apply load_ply_points_broken]; assumption. Qed.
Print Assumptions C163_ply.
Theorem C163_stl_text : forall ft same k fmt b whole r m ns, breaks_after b r -> whole_lines b whole -> 5 < length whole -> fmt = StlAscii \/ (fmt = StlAuto /\ prefix (str "solid") b) ->
  load_stl_triplets_from ft k fmt r = load_stl_triplets ft k fmt whole /\ load_stl_mesh_duped_from ft k fmt r m ns = load_stl_mesh_duped ft k fmt whole m ns /\
  load_stl_mesh_unique_from ft same k fmt r m ns = load_stl_mesh_unique ft same k fmt whole m ns.
Proof.
  intros ft same k fmt b whole r m ns B W L F. unfold load_stl_triplets_from, load_stl_mesh_duped_from, load_stl_mesh_unique_from. rewrite (stl_items_broken_ascii ft k fmt b whole r B W); [repeat split; reflexivity| |].
  - intros Z. apply (f_equal (@length _)) in Z. rewrite skipn_length in Z. cbn in Z. lia.
  - destruct F as [F|[F (c & ->)]]; [left; exact F|right; split; [exact F|reflexivity]].
Qed.
Print Assumptions C163_stl_text.
Theorem C163_binary : forall ft same k fmt b r m ns, breaks_after b r ->
  load_psl_from k r = load_psl k b /\
  (binary_stl fmt b -> load_stl_triplets_from ft k fmt r = load_stl_triplets ft k fmt b /\ load_stl_mesh_duped_from ft k fmt r m ns = load_stl_mesh_duped ft k fmt b m ns /\
     load_stl_mesh_unique_from ft same k fmt r m ns = load_stl_mesh_unique ft same k fmt b m ns).
Proof.
  intros ft same k fmt b r m ns B. split.
  - destruct B as (r1 & r2 & -> & S & <-). apply (psl_load_sim _ (ended_fail r2)). apply holds_steady. exact S.
  - intros F. unfold load_stl_triplets_from, load_stl_mesh_duped_from, load_stl_mesh_unique_from. rewrite (stl_items_broken_binary ft k fmt b r B); [repeat split; reflexivity|].
    destruct F as [F|[F N]]; [left; exact F|right; split; [exact F|]]. intros E. apply N. exists (skipn 5 b). transitivity (firstn 5 b ++ skipn 5 b); [symmetry; apply firstn_skipn|]. f_equal. exact E.
Qed.
Print Assumptions C163_binary.
Example C163_case : let r := [Chunk (str "1 2 3" ++ [nl] ++ str "4 5"); Interrupted; Chunk (str " 6"); Failure; Chunk (str "7" ++ [nl])] in
  breaks_after (str "1 2 3" ++ [nl] ++ str "4 5 6") r /\ whole_lines (str "1 2 3" ++ [nl] ++ str "4 5 6") (str "1 2 3" ++ [nl]) /\ load_xyz_from demo 100 r = Some ([fp3 1 2 3], Ok tt) /\
  load_psl_from 1000 [Chunk (firstn 300 psl_example); Failure; Chunk (skipn 300 psl_example)] = Some ([], Err PslAccessFile) /\
  load_stl_triplets_from demo 1000 StlAuto [Chunk (str "solid x"); Failure; Chunk [nl]] = Some ([], [], Err (WIndex 0 StlAccessFile)).
Proof.
  cbn zeta. split; [exists [Chunk (str "1 2 3" ++ [nl] ++ str "4 5"); Interrupted; Chunk (str " 6")], [Chunk (str "7" ++ [nl])]; split; [reflexivity|]; split; [repeat constructor; discriminate|reflexivity]|].
  split; [exists (str "4 5 6"); split; [reflexivity|]; split; [vm_compute; intuition discriminate|right; exists (str "1 2 3"); reflexivity]|]. split; [vmeq|]. split; vmeq.
Qed.

(** ** C164 failures the text loaders do not report *)
(** Whatever file the reader holds, and wherever it fails: if the file can be loaded, so can the part
    before the failure, without any error, and the elements after it are missing. *)
Theorem C164_xyz : forall ft k b r file ps, breaks_after b r -> prefix b file -> load_xyz ft k file = Some (ps, Ok tt) -> exists ps', load_xyz_from ft k r = Some (ps', Ok tt) /\ prefix ps' ps.
Proof. intros ft k b r file ps B P H. exact (xy_quiet _ _ k b r file ps B P H). Qed.
Print Assumptions C164_xyz.
Theorem C164_xy : forall ft k b r file ps, breaks_after b r -> prefix b file -> load_xy ft k file = Some (ps, Ok tt) -> exists ps', load_xy_from ft k r = Some (ps', Ok tt) /\ prefix ps' ps.
Proof. intros ft k b r file ps B P H. exact (xy_quiet _ _ k b r file ps B P H). Qed.
Print Assumptions C164_xy.
Theorem C164_obj_points : forall ft k b r file ps, breaks_after b r -> prefix b file -> load_obj_points ft k file = Some (ps, Ok tt) -> exists ps', load_obj_points_from ft k r = Some (ps', Ok tt) /\ prefix ps' ps.
Proof. intros ft k b r file ps B P H. exact (line_quiet _ k b r file _ ps B P H). Qed.
Print Assumptions C164_obj_points.
Theorem C164_gcode : forall ft k b r file ps, breaks_after b r -> prefix b file -> load_gcode_points ft k file = Some (ps, Ok tt) -> exists ps', load_gcode_points_from ft k r = Some (ps', Ok tt) /\ prefix ps' ps.
Proof. intros ft k b r file ps B P H. exact (line_quiet _ k b r file _ ps B P H). Qed.
Print Assumptions C164_gcode.
Theorem C164_off_points : forall ft k b r file ps, breaks_after b r -> prefix b file -> load_off_points ft k file = Some (ps, Ok tt) -> exists ps', load_off_points_from ft k r = Some (ps', Ok tt) /\ prefix ps' ps.
Proof. intros ft k b r file ps B P H. destruct (line_quiet_fold _ push_data (@prefix (pt3 F64)) prefix_refl prefix_trans push_data_grows k b r file _ [] ps B P H) as (m & F & _ & G). exists m. auto. Qed.
Print Assumptions C164_off_points.
Theorem C164_pts : forall ft k b r file ps, breaks_after b r -> prefix b file -> load_pts ft k file = Some (ps, Ok tt) -> exists ps', load_pts_from ft k r = Some (ps', Ok tt) /\ prefix ps' ps.
Proof. intros ft k b r file ps B P H. destruct (line_quiet_fold _ push_data (@prefix (pt3 F64)) prefix_refl prefix_trans push_data_grows k b r file _ [] ps B P H) as (m & F & _ & G). exists m. auto. Qed.
Print Assumptions C164_pts.
Theorem C164_obj_mesh : forall ft k b r file m, breaks_after b r -> prefix b file -> load_obj_mesh ft k file = Some (m, Ok tt) ->
  exists m' s' s, load_obj_mesh_from ft k r = Some (m', Ok tt) /\ shows m' s' /\ shows m s /\ mesh_prefix s' s.
Proof.
  intros ft k b r file m B P H. destruct (line_quiet_fold _ (mesh_add ObjInvalidMeshIndices) mgrows mgrows_refl mgrows_trans (mesh_add_grows ObjInvalidMeshIndices) k b r file _ mesh_empty m B P H) as (m' & F & G1 & G2).
  destruct (exact_shows m' m G1 G2) as (s' & s & S' & S & M). exists m', s', s. auto.
Qed.
Print Assumptions C164_obj_mesh.
Theorem C164_off_mesh : forall ft k b r file m, breaks_after b r -> prefix b file -> load_off_mesh ft k file = Some (m, Ok tt) ->
  exists m' s' s, load_off_mesh_from ft k r = Some (m', Ok tt) /\ shows m' s' /\ shows m s /\ mesh_prefix s' s.
Proof.
  intros ft k b r file m B P H. destruct (line_quiet_fold _ off_add mgrows mgrows_refl mgrows_trans off_add_grows k b r file _ mesh_empty m B P H) as (m' & F & G1 & G2).
  destruct (exact_shows m' m G1 G2) as (s' & s & S' & S & M). exists m', s', s. auto.
Qed.
Print Assumptions C164_off_mesh.
(** Text .stl files, once the first line was read: facets are missing without an error. *)
Theorem C164_stl : forall ft k fmt b r file ps ns title rest, breaks_after b r -> prefix b file -> b = title ++ [nl] ++ rest -> 5 <= length title -> fmt = StlAscii \/ (fmt = StlAuto /\ prefix (str "solid") file) ->
  load_stl_triplets ft k fmt file = Some (ps, ns, Ok tt) -> exists ps' ns', load_stl_triplets_from ft k fmt r = Some (ps', ns', Ok tt) /\ prefix ps' ps /\ prefix ns' ns.
Proof.
  intros ft k fmt b r file ps ns title rest B P E L F H. unfold load_stl_triplets in H. destruct (stl_items ft k fmt file) as [[is x]|] eqn:I; [|discriminate]. injection H as <- <- ->.
  destruct (stl_quiet ft k fmt b r file is B P (ex_intro _ title (ex_intro _ rest (conj E L))) F I) as (is' & J & G). unfold load_stl_triplets_from. rewrite J. eexists. eexists. split; [reflexivity|]. split; apply prefix_flat_map; exact G.
Qed.
Print Assumptions C164_stl.
(** The error for a failed access never comes from these loaders, whatever the reader does. *)
Theorem C164_never : forall ft k r,
  (forall ps o, load_xyz_from ft k r = Some (ps, o) -> error_of o <> Some XyAccessFile) /\ (forall ps o, load_xy_from ft k r = Some (ps, o) -> error_of o <> Some XyAccessFile) /\
  (forall m o, load_obj_mesh_from ft k r = Some (m, o) -> error_of o <> Some ObjAccessFile) /\ (forall ps o, load_obj_points_from ft k r = Some (ps, o) -> error_of o <> Some ObjAccessFile) /\
  (forall m o, load_off_mesh_from ft k r = Some (m, o) -> error_of o <> Some OffAccessFile) /\ (forall ps o, load_off_points_from ft k r = Some (ps, o) -> error_of o <> Some OffAccessFile) /\
  (forall ps o, load_pts_from ft k r = Some (ps, o) -> error_of o <> Some PtsAccessFile) /\ (forall ps o, load_gcode_points_from ft k r = Some (ps, o) -> error_of o <> Some GcodeAccessFile).
Proof.
  intros ft k r. split; [|split; [|split; [|split; [|split; [|split; [|split]]]]]]; intros ps o H.
  - apply (load_never XyAccessFile) in H; [exact H|apply xyz_point_never].
  - apply (load_never XyAccessFile) in H; [exact H|apply xy_point_never].
  - apply (fold_never ObjAccessFile) in H; [exact H| |apply mesh_add_never; discriminate]. intros s x. apply line_next_never, obj_mesh_never.
  - apply (load_never ObjAccessFile) in H; [exact H|]. intros s x. apply line_next_never, obj_points_never.
  - apply (fold_never OffAccessFile) in H; [exact H| |apply off_add_never]. intros s x. apply line_next_never, off_mesh_never.
  - apply (fold_never OffAccessFile) in H; [exact H| |apply push_data_never]. intros s x. apply line_next_never, off_points_never.
  - apply (fold_never PtsAccessFile) in H; [exact H| |apply push_data_never]. intros s x. apply line_next_never, pts_never.
  - apply (load_never GcodeAccessFile) in H; [exact H|]. intros s x. apply line_next_never, gcode_never.
Qed.
Print Assumptions C164_never.
Example C164_case : let r := [Chunk (unlines (firstn 9 off_file)); Failure; Chunk (unlines (skipn 9 off_file))] in
  breaks_after (unlines (firstn 9 off_file)) r /\ prefix (unlines (firstn 9 off_file)) (unlines off_file) /\
  load_off_mesh_from demo 200 r = Some (Mesh [fp3 0 0 0; fp3 1 0 0; fp3 0 1 0; fp3 1 1 0] [], Ok tt) /\ load_off_mesh_from demo 200 r <> load_off_mesh demo 200 (unlines off_file) /\
  load_xyz_from demo 100 [Failure] = Some ([], Ok tt) /\
  load_stl_triplets_from demo 1000 StlAuto [Chunk (firstn 130 case_text); Failure] = Some ([], [], Ok tt).
Proof.
  cbn zeta. split; [exists [Chunk (unlines (firstn 9 off_file))], [Chunk (unlines (skipn 9 off_file))]; split; [reflexivity|]; split; [repeat constructor; vm_compute; discriminate|cbn [sent flat_map]; apply app_nil_r]|].
  split; [exists (unlines (skipn 9 off_file)); vm_compute; reflexivity|]. split; [vmeq|]. split; [intros H; apply (f_equal (option_map (fun x => length (topology (fst x))))) in H; vm_compute in H; discriminate|]. split; vmeq.
Qed.

(** ** C165 failures the binary loaders report *)
(** Nothing wrong is loaded before the failure, and no error means that nothing is missing. *)
Theorem C165_psl : forall k k' b r file ps o ps' o', breaks_after b r -> prefix b file -> load_psl k file = Some (ps, o) -> load_psl_from k' r = Some (ps', o') -> prefix ps' ps /\ (o' = Ok tt -> ps' = ps /\ o = Ok tt).
Proof.
  intros k k' b r file ps o ps' o' B P H H'. destruct (C163_binary demo (fun _ _ => true) k' StlBinary b r mesh_empty [] B) as [E _]. rewrite E in H'. exact (C159_psl k k' b file ps o ps' o' P H H').
Qed.
Print Assumptions C165_psl.
Lemma binary_stl_part fmt b file : prefix b file -> binary_stl fmt file -> binary_stl fmt b.
Proof. intros P [F|[F N]]; [left; exact F|right; split; [exact F|]]. intros Q. apply N. exact (prefix_trans _ _ _ Q P). Qed.
Theorem C165_stl_triplets : forall ft fmt k k' b r file ps ns o ps' ns' o', breaks_after b r -> prefix b file -> binary_stl fmt file -> load_stl_triplets ft k fmt file = Some (ps, ns, o) -> load_stl_triplets_from ft k' fmt r = Some (ps', ns', o') ->
  prefix ps' ps /\ prefix ns' ns /\ length ps' = 3 * length ns' /\ (o' = Ok tt -> ps' = ps /\ ns' = ns /\ o = Ok tt).
Proof.
  intros ft fmt k k' b r file ps ns o ps' ns' o' B P F H H'. destruct (C163_binary ft (fun _ _ => true) k' fmt b r mesh_empty [] B) as [_ E]. destruct (E (binary_stl_part _ _ _ P F)) as (E1 & _). rewrite E1 in H'.
  destruct (C160_triplets ft fmt k k' b file ps ns o ps' ns' o' P H H') as (A1 & A2 & A3). split; [exact A1|]. split; [exact A2|]. split; [exact A3|]. exact (C159_stl_triplets ft fmt k k' b file ps ns o ps' ns' o' P F H H').
Qed.
Print Assumptions C165_stl_triplets.
Theorem C165_stl_meshes : forall ft same fmt k k' b r file, breaks_after b r -> prefix b file -> binary_stl fmt file ->
  (forall m ns o m' ns' o', load_stl_mesh_duped ft k fmt file mesh_empty [] = Some (m, ns, o) -> load_stl_mesh_duped_from ft k' fmt r mesh_empty [] = Some (m', ns', o') ->
     (prefix ns' ns /\ exists s' s, shows m' s' /\ shows m s /\ mesh_prefix s' s) /\ (o' = Ok tt -> m' = m /\ o = Ok tt)) /\
  (forall m ns o m' ns' o', load_stl_mesh_unique ft same k fmt file mesh_empty [] = Some (m, ns, o) -> load_stl_mesh_unique_from ft same k' fmt r mesh_empty [] = Some (m', ns', o') ->
     (prefix ns' ns /\ exists s' s, shows m' s' /\ shows m s /\ mesh_prefix s' s) /\ (o' = Ok tt -> m' = m /\ o = Ok tt)).
Proof.
  intros ft same fmt k k' b r file B P F. destruct (C163_binary ft same k' fmt b r mesh_empty [] B) as [_ E]. destruct (E (binary_stl_part _ _ _ P F)) as (_ & E2 & E3). rewrite E2, E3. split; intros m ns o m' ns' o' H H'.
  - split; [exact (C160_duped ft fmt k k' b file m ns o m' ns' o' P H H')|exact (C159_stl_duped ft fmt k k' b file m ns o m' ns' o' P F H H')].
  - split; [exact (C160_unique ft same fmt k k' b file m ns o m' ns' o' P H H')|exact (C159_stl_unique ft same fmt k k' b file m ns o m' ns' o' P F H H')].
Qed.
Print Assumptions C165_stl_meshes.
Lemma whole_prefix b whole file : whole_lines b whole -> prefix b file -> prefix whole file.
Proof. intros (t & -> & _) (c & ->). exists (t ++ c). symmetry. apply app_assoc. Qed.
Theorem C165_ply_points : forall ft k k' b r file ps o ps' o', breaks_for_good b r -> prefix b file -> binary_ply file -> load_ply_points ft k file = Some (ps, o) -> load_ply_points_from ft k' r = Some (ps', o') ->
  prefix ps' ps /\ (o = Ok tt -> o' = Ok tt -> ps' = ps).
Proof.
  intros ft k k' b r file ps o ps' o' B P F H H'. destruct (whole_exists b) as (w & W). destruct (load_ply_points_broken ft k' b w r B W) as [E|E]; rewrite E in H'.
  - exact (C159_ply_points ft k k' w file ps o ps' o' (whole_prefix _ _ _ W P) F H H').
  - exact (C159_ply_points ft k k' b file ps o ps' o' P F H H').
Qed.
Print Assumptions C165_ply_points.
Theorem C165_ply_mesh : forall ft k k' b r file m o m' o', breaks_for_good b r -> prefix b file -> binary_ply file -> load_ply_mesh ft k file = Some (m, o) -> load_ply_mesh_from ft k' r = Some (m', o') ->
  (exists s' s, shows m' s' /\ shows m s /\ mesh_prefix s' s) /\ (o = Ok tt -> o' = Ok tt -> m' = m).
Proof.
  intros ft k k' b r file m o m' o' B P F H H'. destruct (whole_exists b) as (w & W). destruct (load_ply_mesh_broken ft k' b w r B W) as [E|E]; rewrite E in H'.
  - exact (C159_ply_mesh ft k k' w file m o m' o' (whole_prefix _ _ _ W P) F H H').
  - exact (C159_ply_mesh ft k k' b file m o m' o' P F H H').
Qed.
Print Assumptions C165_ply_mesh.
(** A reader that fails before the last byte of a saved binary .ply file: an error, always. *)
Theorem C165_saved : forall ft pr m s colors calls b r k, shows m s -> faces_ok s -> Forall double3 (svs s) -> (lenN (svs s) < 2 ^ 32)%N -> fits (lenN (svs s)) (lenN (sfs s)) -> colors_ok s colors ->
  save_ply_binary pr m colors = Ok calls -> breaks_for_good b r -> cut_short b (all_bytes calls) -> length b < k ->
  exists m' e s', load_ply_mesh_from ft k r = Some (m', Err e) /\ shows m' s' /\ mesh_prefix s' (MSpec (map (stored3 pr) (svs s)) (sfs s)).
Proof.
  intros ft pr m s colors calls b r k SH OK P V32 FI C SV B CUT L. destruct (whole_exists b) as (w & W). destruct (load_ply_mesh_broken ft k b w r B W) as [E|E]; rewrite E.
  - apply (C161_saved ft pr m s colors calls w k SH OK P V32 FI C SV).
    + destruct W as (t & -> & _), CUT as (z & -> & Z). exists (t ++ z). split; [symmetry; apply app_assoc|]. intros Q. apply Z. exact (proj2 (app_eq_nil _ _ Q)).
    + destruct W as (t & -> & _). rewrite app_length in L. lia.
  - exact (C161_saved ft pr m s colors calls b k SH OK P V32 FI C SV CUT L).
Qed.
Print Assumptions C165_saved.
Example C165_case : let r := [Chunk (firstn 100 cut_case); Interrupted; Chunk (firstn 200 (skipn 100 cut_case)); Failure] in
  breaks_for_good (firstn 300 cut_case) r /\ cut_short (firstn 300 cut_case) cut_case /\ load_ply_mesh_from demo 1000 r = Some (Mesh [fp3 0 0 0] [], Err (WNone PlyAccessFile)) /\
  load_stl_triplets_from demo 1000 StlAuto [Chunk (case_header 2 ++ case_record ++ firstn 49 case_record); Failure; Chunk (skipn 49 case_record)] = Some (record_points case_record, [fp3 0 0 1], Err (WNone StlAccessFile)).
Proof.
  cbn zeta. split; [exists [Chunk (firstn 100 cut_case); Interrupted; Chunk (firstn 200 (skipn 100 cut_case))], []; split; [reflexivity|]; split; [repeat constructor; vm_compute; discriminate|]; split; [vm_compute; reflexivity|constructor]|].
  split; [exists (skipn 300 cut_case); split; [vm_compute; reflexivity|vm_compute; discriminate]|]. split; vmeq.
Qed.
