(** Files that end too early. *)
From Verif Require Import Base BaseLemmas Num GeomSpec MeshModel MeshSpec MeshLemmas IoModel IoSpec IoLemmas IoProps ByteModel ByteSpec PlyModel PlySpec PlyLemmas PlyTotalLemmas PlySaveLemmas PlyProps ScanModel ScanProps ScannerModel ScannerProps LasProps StlModel StlSpec StlProps CutSpec CutLemmas CutLemmas2 CutLemmas3 CutLemmas4 CutLemmas5.
Open Scope nat_scope.

(** ** C158 files of lines *)
(** Whatever the file and wherever it is cut: what is loaded of the part is a beginning of what is loaded of
    the whole file, followed by at most one other element. *)
Theorem C158_xyz : forall ft k k' part file ps r ps' r', prefix part file -> load_xyz ft k file = Some (ps, r) -> load_xyz ft k' part = Some (ps', r') -> prefix_and_one ps' ps.
Proof. intros ft k k' part file ps r ps' r'. unfold load_xyz, xyz_iter. apply xy_cut. Qed.
Print Assumptions C158_xyz.
Theorem C158_xy : forall ft k k' part file ps r ps' r', prefix part file -> load_xy ft k file = Some (ps, r) -> load_xy ft k' part = Some (ps', r') -> prefix_and_one ps' ps.
Proof. intros ft k k' part file ps r ps' r'. unfold load_xy, xy_iter. apply xy_cut. Qed.
Print Assumptions C158_xy.
Theorem C158_obj_points : forall ft k k' part file ps r ps' r', prefix part file -> load_obj_points ft k file = Some (ps, r) -> load_obj_points ft k' part = Some (ps', r') -> prefix_and_one ps' ps.
Proof. intros ft k k' part file ps r ps' r'. apply load_line_cut. Qed.
Print Assumptions C158_obj_points.
Theorem C158_off_points : forall ft k k' part file ps r ps' r', prefix part file -> load_off_points ft k file = Some (ps, r) -> load_off_points ft k' part = Some (ps', r') -> prefix_and_one ps' ps.
Proof. intros ft k k' part file ps r ps' r'. apply data_line_cut. Qed.
Print Assumptions C158_off_points.
Theorem C158_pts : forall ft k k' part file ps r ps' r', prefix part file -> load_pts ft k file = Some (ps, r) -> load_pts ft k' part = Some (ps', r') -> prefix_and_one ps' ps.
Proof. intros ft k k' part file ps r ps' r'. apply data_line_cut. Qed.
Print Assumptions C158_pts.
Theorem C158_ptx : forall ft k k' part file ps r ps' r', prefix part file -> load_ptx ft k file = Some (ps, r) -> load_ptx ft k' part = Some (ps', r') -> prefix_and_one ps' ps.
Proof. intros ft k k' part file ps r ps' r'. apply ptx_cut. Qed.
Print Assumptions C158_ptx.
Theorem C158_gcode : forall ft k k' part file ps r ps' r', prefix part file -> load_gcode_points ft k file = Some (ps, r) -> load_gcode_points ft k' part = Some (ps', r') -> prefix_and_one ps' ps.
Proof. intros ft k k' part file ps r ps' r'. apply load_line_cut. Qed.
Print Assumptions C158_gcode.
Theorem C158_ply_points : forall ft k k' part file ps r ps' r', prefix part file -> load_ply_points ft k file = Some (ps, r) -> load_ply_points ft k' part = Some (ps', r') -> prefix_and_one ps' ps.
Proof. intros ft k k' part file ps r ps' r' P H H'. apply (ply_points_cut ft k k' part file ps r ps' r' P H H'). Qed.
Print Assumptions C158_ply_points.
Theorem C158_obj_mesh : forall ft k k' part file m r m' r', prefix part file -> load_obj_mesh ft k file = Some (m, r) -> load_obj_mesh ft k' part = Some (m', r') ->
  exists s' s, shows m' s' /\ shows m s /\ mesh_prefix_and_one s' s.
Proof. intros ft k k' part file m r m' r'. apply obj_mesh_cut. Qed.
Print Assumptions C158_obj_mesh.
Theorem C158_off_mesh : forall ft k k' part file m r m' r', prefix part file -> load_off_mesh ft k file = Some (m, r) -> load_off_mesh ft k' part = Some (m', r') ->
  exists s' s, shows m' s' /\ shows m s /\ mesh_prefix_and_one s' s.
Proof. intros ft k k' part file m r m' r'. apply off_mesh_cut. Qed.
Print Assumptions C158_off_mesh.
Theorem C158_ply_mesh : forall ft k k' part file m r m' r', prefix part file -> load_ply_mesh ft k file = Some (m, r) -> load_ply_mesh ft k' part = Some (m', r') ->
  exists s' s, shows m' s' /\ shows m s /\ mesh_prefix_and_one s' s.
Proof. intros ft k k' part file m r m' r' P H H'. destruct (ply_mesh_cut ft k k' part file m r m' r' P H H') as (s' & s & A & B & C & _). exists s', s. auto. Qed.
Print Assumptions C158_ply_mesh.
(** The other element can be wrong, without an error: a point that is nowhere in the file, a face that is
    nowhere in the file. *)
Theorem C158_point_refuted : exists part file ps ps', prefix part file /\ load_xyz demo 100 file = Some (ps, Ok tt) /\ load_xyz demo 100 part = Some (ps', Ok tt) /\ ~ prefix ps' ps.
Proof.
  exists (str "1 2 3" ++ [nl] ++ str "4 5 67"), (str "1 2 3" ++ [nl] ++ str "4 5 678" ++ [nl]), [fp3 1 2 3; fp3 4 5 678], [fp3 1 2 3; fp3 4 5 6]. split; [eexists; reflexivity|]. split; [vmeq|]. split; [vmeq|].
  intros [c E]. injection E as E. discriminate.
Qed.
Theorem C158_face_refuted : exists part file m m', prefix part file /\ load_obj_mesh demo 100 file = Some (m, Ok tt) /\ load_obj_mesh demo 100 part = Some (m', Ok tt) /\
  (exists s', shows m' s' /\ In (0, 1, 2)%N (sfs s')) /\ (exists s, shows m s /\ ~ In (0, 1, 2)%N (sfs s)).
Proof.
  pose (vs := repeat (fp3 0 0 0) 30).
  exists (unlines (repeat (str "v 0 0 0") 30) ++ str "f 1 2 30"), (unlines (repeat (str "v 0 0 0") 30 ++ [str "f 1 2 30"])), (Mesh vs [0; 1; 29]%N), (Mesh vs [0; 1; 2]%N).
  split; [exists [nl]; vm_compute; reflexivity|]. split; [vmeq|]. split; [vmeq|]. split.
  - exists (MSpec vs [(0, 1, 2)]%N). split; [|left; reflexivity]. apply abs_shows; [split; reflexivity|]. intros a b c [H|[]]. injection H as <- <- <-. repeat split; try discriminate; unfold in_range; cbn; lia.
  - exists (MSpec vs [(0, 1, 29)]%N). split; [|intros [H|[]]; discriminate]. apply abs_shows; [split; reflexivity|]. intros a b c [H|[]]. injection H as <- <- <-. repeat split; try discriminate; unfold in_range; cbn; lia.
Qed.
Example C158_case : load_xyz demo 100 (str "1 2 3" ++ [nl] ++ str "4 5") = Some ([fp3 1 2 3], Err (WLine 2 (str "4") XyVertex)) /\
  load_off_mesh demo 200 (unlines (firstn 9 off_file)) = Some (Mesh [fp3 0 0 0; fp3 1 0 0; fp3 0 1 0; fp3 1 1 0] [], Ok tt) /\
  load_gcode_points demo 200 (str "G1 X1 Y2" ++ [nl] ++ str "G1 X34") = Some ([fp3 1 2 0; fp3 3 2 0], Ok tt) /\
  load_pts demo 200 (unlines (map str ["2"; "1 2 3"]%string) ++ str "4 5 67") = Some ([fp3 1 2 3; fp3 4 5 6], Ok tt).
Proof. split; [vmeq|]. split; [vmeq|]. split; vmeq. Qed.

(** ** C159 files of bytes *)
(** Nothing wrong is loaded of a part of a binary file, and a part that loads without error is loaded as the
    whole file. *)
Theorem C159_ply_points : forall ft k k' part file ps r ps' r', prefix part file -> binary_ply file -> load_ply_points ft k file = Some (ps, r) -> load_ply_points ft k' part = Some (ps', r') ->
  prefix ps' ps /\ (r = Ok tt -> r' = Ok tt -> ps' = ps).
Proof. intros ft k k' part file ps r ps' r' P (en & rest & B) H H'. apply (ply_points_cut ft k k' part file ps r ps' r' P H H'). rewrite B. apply binary_ply_header. Qed.
Print Assumptions C159_ply_points.
Theorem C159_ply_mesh : forall ft k k' part file m r m' r', prefix part file -> binary_ply file -> load_ply_mesh ft k file = Some (m, r) -> load_ply_mesh ft k' part = Some (m', r') ->
  (exists s' s, shows m' s' /\ shows m s /\ mesh_prefix s' s) /\ (r = Ok tt -> r' = Ok tt -> m' = m).
Proof.
  intros ft k k' part file m r m' r' P (en & rest & B) H H'. destruct (ply_mesh_cut ft k k' part file m r m' r' P H H') as (s' & s & S1 & S2 & _ & C). destruct C as [C1 C2]; [rewrite B; apply binary_ply_header|]. split; [exists s', s; auto|exact C2].
Qed.
Print Assumptions C159_ply_mesh.
Theorem C159_psl : forall k k' part file ps r ps' r', prefix part file -> load_psl k file = Some (ps, r) -> load_psl k' part = Some (ps', r') -> prefix ps' ps /\ (r' = Ok tt -> ps' = ps /\ r = Ok tt).
Proof. exact psl_cut. Qed.
Print Assumptions C159_psl.
Theorem C159_las : forall k k' part file ps r ps' r', prefix part file -> load_las k file = Some (ps, r) -> load_las k' part = Some (ps', r') -> prefix ps' ps /\ (r' = Ok tt -> ps' = ps /\ r = Ok tt).
Proof. exact las_cut. Qed.
Print Assumptions C159_las.
Lemma binary_stl_ok ft k fmt part file is : prefix part file -> binary_stl fmt file -> stl_items ft k fmt part = Some (is, Ok tt) -> binary_stl_file fmt file.
Proof.
  intros P B H. unfold stl_items, stl_is_ascii in H. unfold binary_stl_file, stl_is_ascii. destruct (take_bytes 5 part) as [[b q]|] eqn:T; [|discriminate]. destruct (take_mono _ _ _ _ _ P T) as (q' & T' & _). rewrite T'. exists q'. do 2 f_equal.
  destruct B as [-> | [-> N]]; [reflexivity|]. destruct (bytes_eqb b (str "solid")) eqn:E; [|reflexivity]. exfalso. apply N. apply bytes_same in E. subst b. unfold take_bytes in T'. destruct (length file <? 5); [discriminate|]. injection T' as E _.
  exists (skipn 5 file). transitivity (firstn 5 file ++ skipn 5 file); [symmetry; apply firstn_skipn|]. f_equal. exact E.
Qed.
Theorem C159_stl_triplets : forall ft fmt k k' part file ps ns r ps' ns' r', prefix part file -> binary_stl fmt file -> load_stl_triplets ft k fmt file = Some (ps, ns, r) -> load_stl_triplets ft k' fmt part = Some (ps', ns', r') ->
  r' = Ok tt -> ps' = ps /\ ns' = ns /\ r = Ok tt.
Proof.
  intros ft fmt k k' part file ps ns r ps' ns' r' P B H H' E. apply (stl_triplets_cut ft fmt k k' part file ps ns r ps' ns' r' P H H'); [|exact E]. unfold load_stl_triplets in H'. destruct (stl_items ft k' fmt part) as [[is x]|] eqn:I; [|discriminate]. injection H' as _ _ ->. subst r'. exact (binary_stl_ok _ _ _ _ _ _ P B I).
Qed.
Print Assumptions C159_stl_triplets.
Theorem C159_stl_duped : forall ft fmt k k' part file m ns r m' ns' r', prefix part file -> binary_stl fmt file -> load_stl_mesh_duped ft k fmt file mesh_empty [] = Some (m, ns, r) -> load_stl_mesh_duped ft k' fmt part mesh_empty [] = Some (m', ns', r') ->
  r' = Ok tt -> m' = m /\ r = Ok tt.
Proof.
  intros ft fmt k k' part file m ns r m' ns' r' P B H H' E. apply (stl_duped_cut ft fmt k k' part file m ns r m' ns' r' P H H'); [|exact E]. unfold load_stl_mesh_duped in H'. destruct (stl_items ft k' fmt part) as [[is x]|] eqn:I; [|discriminate]. injection H' as _ ->. subst r'. exact (binary_stl_ok _ _ _ _ _ _ P B I).
Qed.
Print Assumptions C159_stl_duped.
Theorem C159_stl_unique : forall ft same fmt k k' part file m ns r m' ns' r', prefix part file -> binary_stl fmt file -> load_stl_mesh_unique ft same k fmt file mesh_empty [] = Some (m, ns, r) -> load_stl_mesh_unique ft same k' fmt part mesh_empty [] = Some (m', ns', r') ->
  r' = Ok tt -> m' = m /\ r = Ok tt.
Proof.
  intros ft same fmt k k' part file m ns r m' ns' r' P B H H' E. apply (stl_unique_cut ft same fmt k k' part file m ns r m' ns' r' P H H'); [|exact E]. unfold load_stl_mesh_unique in H'. destruct (stl_items ft k' fmt part) as [[is x]|] eqn:I; [|discriminate].
  destruct (fold_left (unique_step same) is (mesh_empty, [], [])) as [[m1 mp] ns1]. injection H' as _ _ ->. subst r'. exact (binary_stl_ok _ _ _ _ _ _ P B I).
Qed.
Print Assumptions C159_stl_unique.
Example C159_case : binary_stl StlAuto (case_header 2 ++ case_record ++ case_record) /\ load_stl_triplets demo 1000 StlAuto (case_header 2 ++ case_record ++ firstn 49 case_record) = Some (record_points case_record, [fp3 0 0 1], Err (WNone StlAccessFile)) /\
  load_las 500 (firstn 402 (las_example 1 4 14 2 0 las_records)) = Some ([mk3 (lit 21 (-1)) (fz 21) (lit 63 (-1))], Err LasAccessFile) /\
  load_psl 3 psl_example = Some ([fp3 1 2 3], Ok tt) /\ load_psl 3 (firstn 200 psl_example) = Some ([], Err PslAccessFile) /\ binary_ply (bytes_of (save_ply_binary P64 case_mesh2 None)).
Proof.
  split; [right; split; [reflexivity|]; intros [c E]; vm_compute in E; discriminate|]. split; [vmeq|]. split; [vmeq|]. split; [vmeq|]. split; [vmeq|]. exists Big. eexists (skipn 33 (bytes_of (save_ply_binary P64 case_mesh2 None))). vm_compute. reflexivity.
Qed.

(** ** C160 stl files *)
(** The facets loaded of a part of a .stl file of any kind are the first facets of the whole file, all of
    them complete. *)
Theorem C160_triplets : forall ft fmt k k' part file ps ns r ps' ns' r', prefix part file -> load_stl_triplets ft k fmt file = Some (ps, ns, r) -> load_stl_triplets ft k' fmt part = Some (ps', ns', r') ->
  prefix ps' ps /\ prefix ns' ns /\ length ps' = 3 * length ns'.
Proof. intros ft fmt k k' part file ps ns r ps' ns' r' P H H'. destruct (stl_triplets_cut ft fmt k k' part file ps ns r ps' ns' r' P H H') as (A & B & C & _). auto. Qed.
Print Assumptions C160_triplets.
Theorem C160_duped : forall ft fmt k k' part file m ns r m' ns' r', prefix part file -> load_stl_mesh_duped ft k fmt file mesh_empty [] = Some (m, ns, r) -> load_stl_mesh_duped ft k' fmt part mesh_empty [] = Some (m', ns', r') ->
  prefix ns' ns /\ exists s' s, shows m' s' /\ shows m s /\ mesh_prefix s' s.
Proof. intros ft fmt k k' part file m ns r m' ns' r' P H H'. destruct (stl_duped_cut ft fmt k k' part file m ns r m' ns' r' P H H') as (A & B & _). auto. Qed.
Print Assumptions C160_duped.
Theorem C160_unique : forall ft same fmt k k' part file m ns r m' ns' r', prefix part file -> load_stl_mesh_unique ft same k fmt file mesh_empty [] = Some (m, ns, r) -> load_stl_mesh_unique ft same k' fmt part mesh_empty [] = Some (m', ns', r') ->
  prefix ns' ns /\ exists s' s, shows m' s' /\ shows m s /\ mesh_prefix s' s.
Proof. intros ft same fmt k k' part file m ns r m' ns' r' P H H'. destruct (stl_unique_cut ft same fmt k k' part file m ns r m' ns' r' P H H') as (A & B & _). auto. Qed.
Print Assumptions C160_unique.
(** That facets are missing is not always an error. *)
Theorem C160_noticed_refuted : exists part file ps ns ps' ns', prefix part file /\ load_stl_triplets demo 1000 StlAuto file = Some (ps, ns, Ok tt) /\ load_stl_triplets demo 1000 StlAuto part = Some (ps', ns', Ok tt) /\ length ns' < length ns.
Proof.
  exists (concat (firstn 14 (raw_lines case_text))), case_text, [fp3 0 0 0; fp3 2 0 0; fp3 0 3 0; fp3 0 0 0; fp3 0 3 0; fp3 0 0 4; fp3 2 0 0; fp3 0 0 0; fp3 0 0 4], [fp3 0 0 1; fp3 1 0 0; fp3 0 1 0], [fp3 0 0 0; fp3 2 0 0; fp3 0 3 0], [fp3 0 0 1].
  split; [exists (concat (skipn 14 (raw_lines case_text))); vm_compute; reflexivity|]. split; [vmeq|]. split; [vmeq|]. cbn. lia.
Qed.
Example C160_case : load_stl_triplets demo 1000 StlAuto (firstn 90 case_text) = Some ([], [], Err (WLine 5 [] StlVertex)) /\ load_stl_triplets demo 1000 StlAuto (firstn 107 case_text) = Some ([], [], Ok tt) /\
  load_stl_triplets demo 1000 StlAuto (firstn 200 case_text) = Some ([fp3 0 0 0; fp3 2 0 0; fp3 0 3 0], [fp3 0 0 1], Err (WLine 11 (str "        vertex 0") StlVertex)).
Proof. split; [vmeq|]. split; vmeq. Qed.

(** ** C161 saved binary files *)
(** Every byte counts: a part of a binary .ply file is never loaded without error, and nothing wrong is
    loaded. *)
Theorem C161_mesh : forall ft en comments nv ps d rows pts fs frows part k m r, header_ok comments nv ps (Some d) -> straight (coord_order ps) -> typed ps -> nv = lenN rows -> d_count d = lenN fs -> fits nv (lenN fs) ->
  Forall2 (binary_row en ps) rows pts -> Forall2 (binary_face_row en d) fs frows -> faces_ok (MSpec pts fs) ->
  cut_short part (unlines (header_lines (FBinary en) comments nv ps (Some d)) ++ concat (map (fun row => concat row) rows) ++ concat frows) -> load_ply_mesh ft k part = Some (m, r) ->
  r <> Ok tt /\ exists s, shows m s /\ mesh_prefix s (MSpec pts fs).
Proof.
  intros ft en cs nv ps d rows pts fs frows part k m r H ST T NV NF R F FF OK (z & E & Z) L. split.
  - destruct (straight_typed ps ST T) as (c1 & c2 & c3 & CO & D1 & D2 & D3 & TW & O). exact (short_mesh en cs ps c1 c2 c3 CO D1 D2 D3 O ft nv d rows pts fs frows part z k m r H NV NF F FF E Z L).
  - destruct (C62_binary_mesh ft en cs nv ps d rows pts fs frows [] (S (length rows + length fs)) H ST T NV NF R F FF OK (le_n _)) as (m0 & L0 & S0). rewrite app_nil_r, E in L0.
    assert (B : binary_ply (part ++ z)). { rewrite <- E. exists en. unfold header_lines. rewrite unlines_app. eexists. rewrite <- app_assoc. reflexivity. }
    destruct (C159_ply_mesh ft _ k part (part ++ z) m0 (Ok tt) m r (ex_intro _ z eq_refl) B L0 L) as ((s' & s & S1 & S2 & P) & _). destruct (fits_bound _ _ R) as (_ & _ & B3). rewrite (shows_same m0 (MSpec pts fs) s S0 S2 B3) in P. exists s'. auto.
Qed.
Print Assumptions C161_mesh.
Theorem C161_points : forall ft en comments nv ps d rows pts part k l r, header_ok comments nv ps d -> straight (coord_order ps) -> typed ps -> nv = lenN rows -> (24 * nv < 2 ^ 63)%N -> Forall2 (binary_row en ps) rows pts ->
  cut_short part (unlines (header_lines (FBinary en) comments nv ps d) ++ concat (map (fun row => concat row) rows)) -> load_ply_points ft k part = Some (l, r) -> r <> Ok tt /\ prefix l pts.
Proof.
  intros ft en cs nv ps d rows pts part k l r H ST T NV R F (z & E & Z) L. split.
  - destruct (straight_typed ps ST T) as (c1 & c2 & c3 & CO & D1 & D2 & D3 & TW & O). exact (short_points en cs ps c1 c2 c3 CO D1 D2 D3 O ft nv d rows pts part z k l r H NV F E Z L).
  - pose proof (C62_binary_points ft en cs nv ps d rows pts [] (S (length rows)) H ST T NV R F (le_n _)) as L0. rewrite app_nil_r, E in L0.
    assert (B : binary_ply (part ++ z)). { rewrite <- E. exists en. unfold header_lines. rewrite unlines_app. eexists. rewrite <- app_assoc. reflexivity. }
    apply (C159_ply_points ft _ k part (part ++ z) pts (Ok tt) l r (ex_intro _ z eq_refl) B L0 L).
Qed.
Print Assumptions C161_points.
(** What is left of a saved mesh is loaded up to the cut and answered with an error. *)
Theorem C161_saved : forall ft pr m s colors calls part k, shows m s -> faces_ok s -> Forall double3 (svs s) -> (lenN (svs s) < 2 ^ 32)%N -> fits (lenN (svs s)) (lenN (sfs s)) -> colors_ok s colors ->
  save_ply_binary pr m colors = Ok calls -> cut_short part (all_bytes calls) -> length part < k ->
  exists m' e s', load_ply_mesh ft k part = Some (m', Err e) /\ shows m' s' /\ mesh_prefix s' (MSpec (map (stored3 pr) (svs s)) (sfs s)).
Proof.
  intros ft pr m s colors calls part k SH OK P V32 FI C SV CUT L. destruct (fits_bound _ _ FI) as (B1 & B2 & B3). assert (B : (3 * N.of_nat (length (sfs s)) < 2 ^ 64)%N) by (unfold lenN in B3; exact B3).
  rewrite (save_binary_ok m s colors SH B C) in SV. injection SV as <-. pose proof SH as (NV & _ & NF & _). unfold binary_calls in *. rewrite NV, NF in *.
  set (colored := is_colored colors) in *. set (zc := with_colors (svs s) colors) in *. fold (lenN (svs s)) in *. fold (lenN (sfs s)) in *.
  assert (E : forall x, all_bytes (WriteAll x :: flat_map (vertex_calls pr) zc ++ flat_map face_calls (sfs s)) = x ++ concat (map (fun r => concat r) (map (row_bytes pr) zc)) ++ concat (map (fun f => all_bytes (face_calls f)) (sfs s))).
  { intros x. unfold all_bytes at 1. cbn [flat_map call_bytes]. fold (all_bytes (flat_map (vertex_calls pr) zc ++ flat_map face_calls (sfs s))). rewrite all_bytes_app, !all_bytes_flat, map_map, !flat_map_concat_map. f_equal. f_equal. f_equal. apply map_ext.
    intros y. unfold row_bytes, all_bytes. apply flat_map_concat_map. }
  rewrite E in *. change "uint8 uint32"%string with ("uint8" ++ " " ++ "uint32")%string in *. change (match pr with P32 => "float" | P64 => "double" end)%string with (coord_word pr) in *.
  rewrite (header_text_eq (FBinary Big) _ _ _ _ (coord_type pr)) in * by reflexivity.
  assert (ZL : length zc = length (svs s)) by (apply with_colors_length; exact C). assert (ZF : map fst zc = svs s) by (apply with_colors_fst; exact C).
  set (ps := coord_props (coord_type pr) (str (coord_word pr)) colored) in *.
  assert (H : header_ok [saved_comment] (lenN (svs s)) ps (Some (save_decl (lenN (sfs s)) "uint8" "uint32"))) by (apply header_saved; [assumption|assumption|destruct pr; cbn; auto|destruct pr; cbn; auto|cbn; auto|cbn; auto]).
  assert (R : Forall2 (binary_row Big ps) (map (row_bytes pr) zc) (map (stored3 pr) (svs s))).
  { rewrite <- ZF. assert (Q : forall x, In x zc -> (pr = P64 -> double3 (fst x)) /\ colored = match snd x with Some _ => true | None => false end).
    { intros x I. split; [|apply (colored_all (svs s)), I]. intros _. rewrite Forall_forall in P. apply P. rewrite <- ZF. apply in_map, I. }
    clear -Q. unfold ps. induction zc as [|x zc IH]; constructor; [|apply IH; intros y I; apply Q; right; exact I]. apply saved_binary_row; apply (Q x); left; reflexivity. }
  assert (FR : Forall2 (binary_face_row Big (save_decl (lenN (sfs s)) "uint8" "uint32")) (sfs s) (map (fun f => all_bytes (face_calls f)) (sfs s))).
  { assert (Q : forall f, In f (sfs s) -> (let '(a, b, c) := f in a < 2 ^ 32 /\ b < 2 ^ 32 /\ c < 2 ^ 32)%N).
    { intros [[a b] c] I. destruct (OK a b c I) as (RA & RB & RC & _). unfold in_range, lenN in *. lia. }
    generalize (lenN (sfs s)) as nf. clear -Q. intros nf. induction (sfs s) as [|f fs IH]; constructor; [apply saved_binary_face, Q; left; reflexivity|apply IH; intros g I; apply Q; right; exact I]. }
  assert (ORD : coord_order ps = [name_of CX; name_of CY; name_of CZ]) by apply order_saved.
  destruct (mesh_any ft part) as (m' & r & ANY & _). specialize (ANY k L).
  destruct (C161_mesh ft Big [saved_comment] (lenN (svs s)) ps (save_decl (lenN (sfs s)) "uint8" "uint32") (map (row_bytes pr) zc) (map (stored3 pr) (svs s)) (sfs s) (map (fun f => all_bytes (face_calls f)) (sfs s)) part k m' r) as (NO & s' & S1 & S2).
  - exact H.
  - left. rewrite ORD. reflexivity.
  - right. rewrite ORD. reflexivity.
  - rewrite map_lenN. unfold lenN. rewrite ZL. reflexivity.
  - reflexivity.
  - exact FI.
  - exact R.
  - exact FR.
  - intros a b c I. destruct (OK a b c I) as (RA & RB & RC & N). unfold in_range in *. cbn [svs]. rewrite map_length. repeat split; try assumption; apply N.
  - exact CUT.
  - exact ANY.
  - destruct r as [[]|e|]; [contradiction|exists m', e, s'; auto|]. exfalso. destruct CUT as (z & EZ & Z).
    assert (X : load_header h_start 0 (raw_lines part) <> Panic /\ forall fmt v f ls i, load_header h_start 0 (raw_lines part) = Ok (mkheader fmt v (Some f), ls, i) -> (reserve 24 (vd_count v) && reserve 8 (w64 (3 * fd_count f)))%bool = true).
    { destruct (split_part _ _ _ _ EZ) as [(y & E1 & Y)|(b & -> & E1)].
      - split; [apply (saved_header_np (FBinary Big) (lenN (svs s)) (coord_type pr) (str (coord_word pr)) colored (lenN (sfs s)) part y); try assumption; destruct pr; cbn; auto|].
        intros fmt v f ls i HH. exfalso. exact (short_header (FBinary Big) _ _ ps _ CX CY CZ part y H ORD ltac:(discriminate) ltac:(discriminate) ltac:(discriminate) E1 Y _ HH).
      - destruct (file_header (FBinary Big) _ _ ps _ CX CY CZ b H ORD ltac:(discriminate) ltac:(discriminate) ltac:(discriminate)) as (l & o & _ & _ & _ & _ & _ & _ & LH). rewrite LH. split; [discriminate|]. intros fmt v f ls i HH. injection HH as _ <- <- _ _. cbn [vd_count lay_data fd_count decl_data save_decl d_count]. apply reserve_ok, FI. }
    destruct X as [X1 X2]. destruct (mesh_panic _ _ _ _ ANY) as [Q|(fmt & v & f & ls & i & Q & Q')]; [exact (X1 Q)|]. rewrite (X2 _ _ _ _ _ Q) in Q'. discriminate.
Qed.
Print Assumptions C161_saved.
(** A part of a correct file that was not saved by the library can panic: here the header ends after
    "property float xn", of which the last letter is dropped, leaving a fourth coordinate. *)
Definition cut_props : list prop := map (fun n => mkprop PFloat (str "float") (str n)) ["x"; "y"; "z"; "xn"]%string.
Theorem C161_panic_refuted : exists part rest, header_ok [] 0 cut_props None /\ part ++ rest = unlines (header_lines (FBinary Little) [] 0 cut_props None) /\ load_ply_points demo 100 (part ++ rest) = Some ([], Ok tt) /\ load_ply_points demo 100 part = Some ([], Panic).
Proof.
  exists (unlines (map str ["ply"; "format binary_little_endian 1.0"; "element vertex 0"; "property float x"; "property float y"; "property float z"]%string) ++ str "property float xn"), ([nl] ++ str "end_header" ++ [nl]).
  split. { split; [constructor|]. split; [reflexivity|]. split; [repeat constructor; try discriminate; left; reflexivity|]. split; [|exact I]. intros p I _. cbn in I. repeat destruct I as [<- | I]; try (left; reflexivity). destruct I. }
  split; [vm_compute; reflexivity|]. split; vmeq.
Qed.
Definition cut_case : bytes := bytes_of (save_ply_binary P64 case_mesh2 (Some case_colors)).
Example C161_case : cut_short (firstn 352 cut_case) cut_case /\ load_ply_mesh demo 1000 cut_case = Some (case_mesh2, Ok tt) /\
  load_ply_mesh demo 1000 (firstn 352 cut_case) = Some (Mesh [fp3 0 0 0; fp3 2 0 0; fp3 0 (-3) 0] [], Err (WNone PlyAccessFile)) /\ load_ply_mesh demo 1000 (firstn 300 cut_case) = Some (Mesh [fp3 0 0 0] [], Err (WNone PlyAccessFile)) /\
  forallb (fun i => match load_ply_mesh demo 1000 (firstn i cut_case) with Some (_, Err _) => true | _ => false end) (seq 0 (length cut_case)) = true.
Proof. split; [exists (skipn 352 cut_case); split; [vm_compute; reflexivity|vm_compute; discriminate]|]. split; [vmeq|]. split; [vmeq|]. split; [vmeq|]. vm_compute. reflexivity. Qed.
