(** Theorems about the line based formats. *)
From Verif Require Import Base BaseLemmas Num GeomSpec VecModel MeshModel MeshSpec MeshLemmas MatrixLemmas IoModel IoSpec IoLemmas PlyModel PlySpec PlyLemmas PlyTotalLemmas ScanModel ScanSpec ScanLemmas ObjOffLemmas GcodeLemmas.
From Coq Require Import Lia ZifyBool ZifyNat ZifyN.
Local Open Scope nat_scope.

(** Tactics for the concrete cases. *)
Ltac is_line_now := split; [concrete_line|exists []; rewrite app_nil_r; split; [reflexivity|split; [constructor|reflexivity]]].
Ltac read_line := eexists; split; [is_line_now|].
Ltac point_now := eexists; split; [apply blank_words; reflexivity|]; eexists _, _, _, _; split; [reflexivity|]; repeat split; vmeq.

(** ** C70 obj *)
(** Every line is a vertex line, a face line or something else, and faces come after their vertices: the
    mesh has exactly these vertices and faces. *)
Theorem C70_mesh : forall ft ls os k, Forall2 (reads (obj_line ft)) ls os -> ordered os -> length (unlines ls) < k ->
  exists m, load_obj_mesh ft k (unlines ls) = Some (m, Ok tt) /\ shows m (MSpec (obj_vertices os) (obj_faces os)).
Proof.
  intros ft ls os k F O K. destruct (reads_split _ _ _ F) as (ts & L & R). destruct (obj_all os O) as (m & B & _ & Sh). exists m. split; [|exact Sh].
  exact (scan_ok _ _ ls ts tt _ tt _ m k L (obj_runs ft ts os R) B K).
Qed.
Print Assumptions C70_mesh.
(** For the points it does not matter what is in the other lines. *)
Theorem C70_points : forall ft ls pss k, Forall2 (reads (obj_point_line ft)) ls pss -> length (unlines ls) < k -> load_obj_points ft k (unlines ls) = Some (concat pss, Ok tt).
Proof.
  intros ft ls pss k F K. destruct (reads_split _ _ _ F) as (ts & L & R). unfold load_obj_points. rewrite load_fold. exact (scan_ok _ _ ls ts tt _ tt [] (concat pss) k L (obj_points_runs ft ts pss R) (folds_push _ []) K).
Qed.
Print Assumptions C70_points.
(** A face with a number that is 0, too big or there twice is reported; what came before is kept. *)
Theorem C70_indices : forall ft ls os l a b c rest k, Forall2 (reads (obj_line ft)) ls os -> ordered os -> (lenN (obj_vertices os) < 2 ^ 64)%N ->
  reads (obj_line ft) l (Some (OFace a b c)) -> ~ face_fine (lenN (obj_vertices os)) a b c -> Forall is_line rest -> length (unlines (ls ++ l :: rest)) < k ->
  exists m, load_obj_mesh ft k (unlines (ls ++ l :: rest)) = Some (m, Err (WNone ObjInvalidMeshIndices)) /\ shows m (MSpec (obj_vertices os) (obj_faces os)).
Proof.
  intros ft ls os l a b c rest k F O N (t & LT & OL) NF LR K. destruct (reads_split _ _ _ F) as (ts & L & R). destruct (obj_all os O) as (m & B & A & Sh). exists m. split; [|exact Sh].
  inversion OL as [| r a' b' c' C E1 E2|]; subst.
  refine (scan_body _ _ ls ts tt _ tt _ m k l _ rest (MFace (minus_one a, minus_one b, minus_one c)) tt m (Err (WNone ObjInvalidMeshIndices)) L (obj_runs ft ts os R) B LT LR K _ _ _).
  - unfold obj_mesh_step. rewrite f_not_v, starts_app, (face_ok r a b c C). reflexivity.
  - apply (add_face_bad _ m (obj_spec os) _ _ _ A). intros X. apply NF. exact (range_fine os a b c N X).
  - discriminate.
Qed.
Print Assumptions C70_indices.
Fixpoint ordb (n : N) (os : list (option obj_item)) : bool :=
  match os with
  | [] => true
  | Some (OVertex _) :: os => ordb (n + 1) os
  | Some (OFace a b c) :: os => (1 <=? a) && (a <=? n) && (1 <=? b) && (b <=? n) && (1 <=? c) && (c <=? n) && negb (a =? b) && negb (a =? c) && negb (b =? c) && ordb n os
  | None :: os => ordb n os
  end%N.
Lemma ordb_ok os : ordb 0 os = true -> ordered os.
Proof.
  intros H bf a b c af ->. assert (G : forall n, ordb n (bf ++ Some (OFace a b c) :: af) = true -> face_fine (n + lenN (obj_vertices bf)) a b c).
  { clear H. induction bf as [|[[p|x y z]|] bf IH]; intros n H; cbn [app ordb obj_vertices] in *.
    - unfold lenN, face_fine. cbn [length]. lia.
    - specialize (IH _ H). unfold lenN in *. cbn [length]. replace (n + N.of_nat (Datatypes.S (length (obj_vertices bf))))%N with (n + 1 + N.of_nat (length (obj_vertices bf)))%N by lia. exact IH.
    - apply IH. lia.
    - apply IH, H. }
  exact (G 0%N H).
Qed.
Definition obj_file : list bytes := map str ["# made by hand"; "v 0 0 0"; "v 1 0 0"; "vn 0 0 1"; "v	0 0 0"; "v 0 1 0 7"; "f 1/1/1 2//3 3"; "f 3 1 2 9"]%string.
Definition obj_items : list (option obj_item) := [None; Some (OVertex (fp3 0 0 0)); Some (OVertex (fp3 1 0 0)); None; None; Some (OVertex (fp3 0 1 0)); Some (OFace 1 2 3); Some (OFace 3 1 2)].
Example C70_case : Forall2 (reads (obj_line demo)) obj_file obj_items /\ ordered obj_items /\
  load_obj_mesh demo 200 (unlines obj_file) = Some (Mesh [fp3 0 0 0; fp3 1 0 0; fp3 0 1 0] [0; 1; 2; 2; 0; 1]%N, Ok tt) /\ load_obj_points demo 200 (unlines obj_file) = Some ([fp3 0 0 0; fp3 1 0 0; fp3 0 1 0], Ok tt) /\
  load_obj_mesh demo 200 (unlines (obj_file ++ [str "f 1 0 2"; str "v 5 5 5"])) = Some (Mesh [fp3 0 0 0; fp3 1 0 0; fp3 0 1 0] [0; 1; 2; 2; 0; 1]%N, Err (WNone ObjInvalidMeshIndices)).
Proof.
  split; [|split; [apply ordb_ok; reflexivity|split; [vmeq|split; vmeq]]].
  assert (C : forall w d r n, w = d ++ r -> ~ In "/"%char d -> (r = [] \/ exists s, r = "/"%char :: s) -> usize_of d = Some n -> corner w n) by (intros w d r n ? ? ? ?; exists d, r; auto).
  unfold obj_file, obj_items. repeat apply Forall2_cons; [..|apply Forall2_nil]; read_line.
  - apply OlOther; intros r H; discriminate H.
  - apply (OlVertex demo (str "0 0 0")). point_now.
  - apply (OlVertex demo (str "1 0 0")). point_now.
  - apply OlOther; intros r H; discriminate H.
  - apply OlOther; intros r H; discriminate H.
  - apply (OlVertex demo (str "0 1 0 7")). point_now.
  - apply (OlFace demo (str "1/1/1 2//3 3")). eexists _, _, _, _. split; [apply blank_words; reflexivity|]. rewrite !corner_iff. repeat split; vm_compute; reflexivity.
  - apply (OlFace demo (str "3 1 2 9")). eexists _, _, _, _. split; [apply blank_words; reflexivity|]. rewrite !corner_iff. repeat split; vm_compute; reflexivity.
Qed.

(** ** C105 polygons *)
(** A line with more than three corners gives one triangle only; the other corners are lost without an error. *)
Theorem C105_polygon : forall ft ls os l u v w rest a b c k, Forall2 (reads (obj_line ft)) ls os -> ordered os -> (exists r, line_of l (str "f " ++ r) /\ spells blank r (u :: v :: w :: rest)) ->
  corner u a -> corner v b -> corner w c -> face_fine (lenN (obj_vertices os)) a b c -> length (unlines (ls ++ [l])) < k ->
  exists m, load_obj_mesh ft k (unlines (ls ++ [l])) = Some (m, Ok tt) /\ shows m (MSpec (obj_vertices os) (obj_faces os ++ [(a - 1, b - 1, c - 1)%N])).
Proof.
  intros ft ls os l u v w rest a b c k F O (r & L & Sp) A B C FF K.
  assert (F' : Forall2 (reads (obj_line ft)) (ls ++ [l]) (os ++ [Some (OFace a b c)])).
  { apply Forall2_app; [exact F|]. constructor; [|constructor]. exists (str "f " ++ r). split; [exact L|]. apply OlFace. exists u, v, w, rest. auto. }
  assert (O' : ordered (os ++ [Some (OFace a b c)])).
  { intros bf x y z af E. destruct af as [|y' af] using rev_ind.
    - apply app_inj_tail in E as (-> & E). injection E as -> -> ->. exact FF.
    - clear IHaf. rewrite app_comm_cons, app_assoc in E. apply app_inj_tail in E as (E & _). exact (O bf x y z af E). }
  destruct (C70_mesh ft _ _ k F' O' K) as (m & H & Sh). exists m. split; [exact H|]. rewrite obj_vertices_app, obj_faces_app, app_nil_r in Sh. exact Sh.
Qed.
Print Assumptions C105_polygon.
Example C105_case : load_obj_mesh demo 200 (unlines (map str ["v 0 0 0"; "v 1 0 0"; "v 1 1 0"; "v 0 1 0"; "f 1 2 3 4"]%string)) = Some (Mesh [fp3 0 0 0; fp3 1 0 0; fp3 1 1 0; fp3 0 1 0] [0; 1; 2]%N, Ok tt).
Proof. vmeq. Qed.

(** ** C71 off *)
(** [hs], [vs] and [fs] are the lines with content: the OFF line and the counts, the vertices, the faces.
    Comments and empty lines may be anywhere, and the number of faces announced does not matter. *)
Theorem C71_mesh : forall ft ls ts hs vs fs nv nf ps fcs k, Forall2 line_of ls ts -> filter content ts = hs ++ vs ++ fs -> off_header hs nv nf -> fits nv nf ->
  Forall2 (point_text ft) vs ps -> lenN ps = nv -> Forall2 face_text3 fs fcs -> faces_ok (MSpec ps fcs) -> length (unlines ls) < k ->
  exists m, load_off_mesh ft k (unlines ls) = Some (m, Ok tt) /\ shows m (MSpec ps fcs).
Proof.
  intros ft ls ts hs vs fs nv nf ps fcs k L FI H FT V NV F OK K. destruct (off_folds nv nf ps fcs FT OK) as (m & B & _ & Sh). exists m. split; [|exact Sh].
  exact (scan_ok _ _ ls ts _ _ _ _ m k L (off_mesh_run ft ts hs vs fs nv nf ps fcs FI H V F (or_introl NV)) B K).
Qed.
Print Assumptions C71_mesh.
(** For the points only the first count matters, and nothing after the last vertex is looked at. *)
Theorem C71_points : forall ft ls ts r c vs nv ps rest k, Forall2 line_of ls ts -> filter content ts = (str "OFF" ++ r) :: c :: vs -> count_text c nv -> (24 * nv < 2 ^ 63)%N -> Forall2 (point_text ft) vs ps -> lenN ps = nv ->
  Forall is_line rest -> length (unlines (ls ++ rest)) < k -> load_off_points ft k (unlines (ls ++ rest)) = Some (ps, Ok tt).
Proof.
  intros ft ls ts r c vs nv ps rest k L FI CT FT V NV LR K. pose proof (off_points_run ft ts r c vs nv ps FI CT V ltac:(lia)) as R.
  assert (B : folds (E := with_line OffError) push_data [] (DReserve nv :: map DData ps) ps) by (econstructor; [apply push_reserve; unfold lenN; cbn [length]; lia|exact (push_datas ps [])]).
  assert (RT : exists rts, Forall2 line_of rest rts).
  { clear K. induction LR as [|x rest X LR (rts & IH)]; [exists []; constructor|]. exists (trim_line (x ++ [nl]) :: rts). constructor; [split; [exact X|apply trim_line_spec]|exact IH]. }
  destruct RT as (rts & RT). unfold load_off_points.
  assert (G : forall ls ts l, Forall2 line_of ls ts -> forall rest rts, Forall2 line_of rest rts -> runs (off_points_step ft) off_start ts l (mkoff true (Some nv) (lenN ps)) -> folds (E := with_line OffError) push_data [] l ps -> length (unlines (ls ++ rest)) < k -> fold_loop (line_next (off_points_step ft)) push_data k (line_new (unlines (ls ++ rest)) off_start) [] = Some (ps, Ok tt)).
  { clear - NV. intros ls ts l L rest rts RT. revert ls ts l L. induction RT as [|x t rest rts X RT IH]; intros ls ts l L R B K.
    - rewrite app_nil_r in *. exact (scan_ok _ _ ls ts _ _ _ _ ps k L R B K).
    - destruct (content t) eqn:C.
      + eapply (scan_stop _ _ ls ts off_start l _ [] ps k x t rest); [exact L|exact R|exact B|exact X| |exact K|].
        * clear - RT. induction RT as [|a b rest rts H RT IH]; constructor; [apply H|exact IH].
        * unfold off_points_step. rewrite content_pass by (exact C || reflexivity). cbn [off_counts off_added]. destruct (N.ltb_spec (lenN ps) nv); [lia|]. reflexivity.
      + assert (E : ls ++ x :: rest = (ls ++ [x]) ++ rest) by (rewrite <- app_assoc; reflexivity). rewrite E in *. apply (IH (ls ++ [x]) (ts ++ [t]) l); [apply Forall2_app; [exact L|repeat constructor; apply X]| |exact B|exact K].
        rewrite <- (app_nil_r l). eapply runs_app; [exact R|]. eapply RSkip; [|constructor]. unfold off_points_step. rewrite not_content by exact C. reflexivity. }
  exact (G ls ts _ L rest rts RT R B K).
Qed.
Print Assumptions C71_points.
(** A face that is no triangle is reported with its line. *)
Theorem C71_not_triangle : forall ft ls ts hs vs fs nv nf ps fcs l t w ws rest k, Forall2 line_of ls ts -> filter content ts = hs ++ vs ++ fs -> off_header hs nv nf -> fits nv nf ->
  Forall2 (point_text ft) vs ps -> lenN ps = nv -> Forall2 face_text3 fs fcs -> faces_ok (MSpec ps fcs) ->
  line_of l t -> content t = true -> spells blank t (w :: ws) -> w <> str "3" -> Forall is_line rest -> length (unlines (ls ++ l :: rest)) < k ->
  exists m, load_off_mesh ft k (unlines (ls ++ l :: rest)) = Some (m, Err (WLine (lenN ls + 1) t OffFaceVertexCount)) /\ shows m (MSpec ps fcs).
Proof.
  intros ft ls ts hs vs fs nv nf ps fcs l t w ws rest k L FI H FT V NV F OK LT CT Sp NW LR K. destruct (off_folds nv nf ps fcs FT OK) as (m & B & _ & Sh). exists m. split; [|exact Sh].
  eapply (scan_err _ _ ls ts _ _ _ _ m k l t rest OffFaceVertexCount _ L (off_mesh_run ft ts hs vs fs nv nf ps fcs FI H V F (or_introl NV)) B LT LR K).
  unfold off_mesh_step. rewrite content_pass by (exact CT || reflexivity). cbn [off_counts off_added]. destruct (N.ltb_spec (lenN ps) nv); [lia|]. unfold off_face. apply blank_words in Sp. rewrite Sp.
  assert (E : bytes_eqb w (str "3") = false); [|rewrite E; reflexivity].
  destruct (bytes_eqb w (str "3")) eqn:E; [|reflexivity]. destruct NW. clear - E. cbn [str list_ascii_of_string] in *. destruct w as [|a [|b w]]; cbn [bytes_eqb] in E; [discriminate| |destruct (Ascii.eqb a "3"); discriminate]. destruct (Ascii.eqb_spec a "3"%char); [subst; reflexivity|discriminate].
Qed.
Print Assumptions C71_not_triangle.
(** So is a face with an index that is too big or there twice. *)
Theorem C71_indices : forall ft ls ts hs vs fs nv nf ps fcs l t a b c rest k, Forall2 line_of ls ts -> filter content ts = hs ++ vs ++ fs -> off_header hs nv nf -> fits nv nf ->
  Forall2 (point_text ft) vs ps -> lenN ps = nv -> Forall2 face_text3 fs fcs -> faces_ok (MSpec ps fcs) ->
  line_of l t -> content t = true -> face_text3 t (a, b, c) -> ~ faces_ok (MSpec ps [(a, b, c)]) -> Forall is_line rest -> length (unlines (ls ++ l :: rest)) < k ->
  exists m, load_off_mesh ft k (unlines (ls ++ l :: rest)) = Some (m, Err (WNone OffInvalidMeshIndices)) /\ shows m (MSpec ps fcs).
Proof.
  intros ft ls ts hs vs fs nv nf ps fcs l t a b c rest k L FI H FT V NV F OK LT CT FX NB LR K. destruct (off_folds nv nf ps fcs FT OK) as (m & B & A & Sh). exists m. split; [|exact Sh].
  eapply (scan_body _ _ ls ts _ _ _ _ m k l t rest _ _ m (Err (WNone OffInvalidMeshIndices)) L (off_mesh_run ft ts hs vs fs nv nf ps fcs FI H V F (or_introl NV)) B LT LR K).
  - unfold off_mesh_step. rewrite content_pass by (exact CT || reflexivity). cbn [off_counts off_added]. destruct (N.ltb_spec (lenN ps) nv); [lia|]. rewrite (off_face_ok t _ FX). reflexivity.
  - cbn [off_add]. apply (add_face_bad _ m _ _ _ _ A). intros X. apply NB. intros a' b' c' [I|[]]. injection I as <- <- <-. exact X.
  - discriminate.
Qed.
Print Assumptions C71_indices.
Definition off_file : list bytes := map str ["# made by hand"; "OFF"; ""; "4 2 0"; "0 0 0"; "1 0 0"; "# more"; "0 1 0"; "1 1 0 "; "3 0 1 2"; ""; "3 1 3 2 255 0 0"]%string.
Definition off_ts : list bytes := map str ["# made by hand"; "OFF"; ""; "4 2 0"; "0 0 0"; "1 0 0"; "# more"; "0 1 0"; "1 1 0"; "3 0 1 2"; ""; "3 1 3 2 255 0 0"]%string.
Example C71_case : Forall2 line_of off_file off_ts /\ filter content off_ts = map str ["OFF"; "4 2 0"]%string ++ map str ["0 0 0"; "1 0 0"; "0 1 0"; "1 1 0"]%string ++ map str ["3 0 1 2"; "3 1 3 2 255 0 0"]%string /\
  off_header (map str ["OFF"; "4 2 0"]%string) 4 2 /\ Forall2 (point_text demo) (map str ["0 0 0"; "1 0 0"; "0 1 0"; "1 1 0"]%string) [fp3 0 0 0; fp3 1 0 0; fp3 0 1 0; fp3 1 1 0] /\
  Forall2 face_text3 (map str ["3 0 1 2"; "3 1 3 2 255 0 0"]%string) [(0, 1, 2); (1, 3, 2)]%N /\
  load_off_mesh demo 200 (unlines off_file) = Some (Mesh [fp3 0 0 0; fp3 1 0 0; fp3 0 1 0; fp3 1 1 0] [0; 1; 2; 1; 3; 2]%N, Ok tt) /\
  load_off_points demo 200 (unlines off_file) = Some ([fp3 0 0 0; fp3 1 0 0; fp3 0 1 0; fp3 1 1 0], Ok tt) /\
  load_off_mesh demo 200 (unlines (off_file ++ [str "4 0 1 3 2"])) = Some (Mesh [fp3 0 0 0; fp3 1 0 0; fp3 0 1 0; fp3 1 1 0] [0; 1; 2; 1; 3; 2]%N, Err (WLine 13 (str "4 0 1 3 2") OffFaceVertexCount)) /\
  load_off_mesh demo 200 (unlines (off_file ++ [str "3 0 1 4"])) = Some (Mesh [fp3 0 0 0; fp3 1 0 0; fp3 0 1 0; fp3 1 1 0] [0; 1; 2; 1; 3; 2]%N, Err (WNone OffInvalidMeshIndices)).
Proof.
  split; [|split; [reflexivity|]].
  { unfold off_file, off_ts. repeat apply Forall2_cons; [..|apply Forall2_nil]; try is_line_now. split; [concrete_line|]. exists [space]. split; [reflexivity|]. split; [repeat constructor|reflexivity]. }
  split; [exists [], (str "4 2 0"); split; [reflexivity|]; eexists _, _, _; split; [apply blank_words; reflexivity|split; reflexivity]|].
  split; [cbn [map]; repeat apply Forall2_cons; [..|apply Forall2_nil]; point_now|].
  split; [cbn [map]; repeat apply Forall2_cons; [..|apply Forall2_nil]; eexists _, _, _, _; (split; [apply blank_words; reflexivity|]); repeat split; reflexivity|].
  repeat split; vmeq.
Qed.

(** ** C73 pts *)
(** The lines that are not empty are the blocks one after the other. *)
Theorem C73_blocks : forall ft ls ts bs pss k, Forall2 line_of ls ts -> filter nonempty ts = concat bs -> Forall2 (fun b ps => pts_lines ft (lenN ps) b ps) bs pss -> (24 * lenN (concat pss) < 2 ^ 63)%N -> length (unlines ls) < k ->
  load_pts ft k (unlines ls) = Some (concat pss, Ok tt).
Proof.
  intros ft ls ts bs pss k L FI B FT K. assert (C : Forall (fun t => nonempty t = true) (filter nonempty ts)) by (apply Forall_forall; intros t I; apply filter_In in I; apply I). rewrite FI in C.
  destruct (pts_blocks_run ft bs pss B C (mkpts None 0) (or_introl (conj eq_refl eq_refl))) as (s' & R & _).
  refine (scan_ok _ _ ls ts _ _ s' [] (concat pss) k L _ (pts_folds pss [] ltac:(unfold lenN in *; cbn [length]; lia)) K).
  apply (runs_filter _ nonempty); [intros s [|c t] H; [reflexivity|discriminate]|]. rewrite FI. exact R.
Qed.
Print Assumptions C73_blocks.
Definition pts_file : list bytes := map str [""; "2"; "1 2 3 100 0 0 0"; ""; "4 5 6"; "0"; "1 points"; "	7 8 9"]%string.
Example C73_case : Forall2 line_of pts_file pts_file /\ filter nonempty pts_file = concat (map (map str) [["2"; "1 2 3 100 0 0 0"; "4 5 6"]; ["0"]; ["1 points"; "	7 8 9"]]%string) /\
  Forall2 (fun b ps => pts_lines demo (lenN ps) b ps) (map (map str) [["2"; "1 2 3 100 0 0 0"; "4 5 6"]; ["0"]; ["1 points"; "	7 8 9"]]%string) [[fp3 1 2 3; fp3 4 5 6]; []; [fp3 7 8 9]] /\
  load_pts demo 200 (unlines pts_file) = Some ([fp3 1 2 3; fp3 4 5 6; fp3 7 8 9], Ok tt).
Proof.
  split; [unfold pts_file; repeat apply Forall2_cons; [..|apply Forall2_nil]; is_line_now|]. split; [reflexivity|]. split; [|vmeq].
  cbn [map]. repeat apply Forall2_cons; [..|apply Forall2_nil]; eexists _, _; (split; [reflexivity|]); (split; [eexists _, _; split; [apply blank_words; reflexivity|reflexivity]|]); repeat apply Forall2_cons; try apply Forall2_nil; point_now.
Qed.

(** ** C104 files that are cut off *)
(** Missing vertices, missing faces and missing points go unnoticed. *)
Theorem C104_off_vertices : forall ft ls ts hs vs nv nf ps k, Forall2 line_of ls ts -> filter content ts = hs ++ vs -> off_header hs nv nf -> fits nv nf -> Forall2 (point_text ft) vs ps -> (lenN ps < nv)%N -> length (unlines ls) < k ->
  (exists m, load_off_mesh ft k (unlines ls) = Some (m, Ok tt) /\ shows m (MSpec ps [])) /\ load_off_points ft k (unlines ls) = Some (ps, Ok tt).
Proof.
  intros ft ls ts hs vs nv nf ps k L FI H FT V NV K. split.
  - destruct (off_folds nv nf ps [] FT ltac:(intros a b c [])) as (m & B & _ & Sh). exists m. split; [|exact Sh].
    refine (scan_ok _ _ ls ts _ _ _ _ m k L (off_mesh_run ft ts hs vs [] nv nf ps [] _ H V (Forall2_nil _) (or_intror (conj _ eq_refl))) B K); [rewrite app_nil_r; exact FI|lia].
  - destruct H as (r & c & -> & CT). assert (C1 : count_text c nv) by (destruct CT as (v & f & rest & Sp & U & _); exists v, (f :: rest); auto).
    assert (B : folds (E := with_line OffError) push_data [] (DReserve nv :: map DData ps) ps) by (econstructor; [apply push_reserve; destruct FT; unfold lenN; cbn [length]; lia|exact (push_datas ps [])]).
    exact (scan_ok _ _ ls ts _ _ _ _ ps k L (off_points_run ft ts r c vs nv ps FI C1 V ltac:(lia)) B K).
Qed.
Print Assumptions C104_off_vertices.
Theorem C104_off_faces : forall ft ls ts hs vs fs nv nf ps fcs k, Forall2 line_of ls ts -> filter content ts = hs ++ vs ++ fs -> off_header hs nv nf -> fits nv nf ->
  Forall2 (point_text ft) vs ps -> lenN ps = nv -> Forall2 face_text3 fs fcs -> faces_ok (MSpec ps fcs) -> lenN fcs <> nf -> length (unlines ls) < k ->
  exists m, load_off_mesh ft k (unlines ls) = Some (m, Ok tt) /\ shows m (MSpec ps fcs).
Proof. intros ft ls ts hs vs fs nv nf ps fcs k L FI H FT V NV F OK _ K. exact (C71_mesh ft ls ts hs vs fs nv nf ps fcs k L FI H FT V NV F OK K). Qed.
Print Assumptions C104_off_faces.
Theorem C104_pts : forall ft ls ts bs pss b n ps k, Forall2 line_of ls ts -> filter nonempty ts = concat bs ++ b -> Forall2 (fun b ps => pts_lines ft (lenN ps) b ps) bs pss -> pts_lines ft n b ps -> (lenN ps < n)%N ->
  (24 * (lenN (concat pss) + n) < 2 ^ 63)%N -> length (unlines ls) < k -> load_pts ft k (unlines ls) = Some (concat pss ++ ps, Ok tt).
Proof.
  intros ft ls ts bs pss b n ps k L FI B LB NP FT K. assert (C : Forall (fun t => nonempty t = true) (filter nonempty ts)) by (apply Forall_forall; intros t I; apply filter_In in I; apply I). rewrite FI in C. apply Forall_app in C as (C1 & C2).
  destruct (pts_blocks_run ft bs pss B C1 (mkpts None 0) (or_introl (conj eq_refl eq_refl))) as (s' & R & FR).
  pose proof (pts_lines_run ft n b ps s' LB C2 FR ltac:(lia)) as R2.
  refine (scan_ok _ _ ls ts _ (_ ++ _) _ [] _ k L _ _ K).
  - apply (runs_filter _ nonempty); [intros s [|c t] H; [reflexivity|discriminate]|]. rewrite FI. eapply runs_app; eassumption.
  - eapply folds_app; [apply pts_folds; unfold lenN in *; cbn [length]; lia|]. econstructor; [apply push_reserve; exact FT|apply push_datas].
Qed.
Print Assumptions C104_pts.
Example C104_case : load_off_mesh demo 200 (unlines (firstn 7 off_file)) = Some (Mesh [fp3 0 0 0; fp3 1 0 0] [], Ok tt) /\ load_off_mesh demo 200 (unlines (firstn 10 off_file)) = Some (Mesh [fp3 0 0 0; fp3 1 0 0; fp3 0 1 0; fp3 1 1 0] [0; 1; 2]%N, Ok tt) /\
  load_off_points demo 200 (unlines (firstn 7 off_file)) = Some ([fp3 0 0 0; fp3 1 0 0], Ok tt) /\ load_pts demo 200 (unlines (firstn 3 pts_file)) = Some ([fp3 1 2 3], Ok tt).
Proof. repeat split; vmeq. Qed.

(** ** C106 counts in the OFF line *)
(** Whatever follows OFF in its line is ignored. *)
Theorem C106_ignored : forall ft pre pts r r' l l' rest k, Forall2 line_of pre pts -> Forall (fun t => content t = false) pts -> line_of l (str "OFF" ++ r) -> line_of l' (str "OFF" ++ r') -> Forall is_line rest ->
  load_off_mesh ft k (unlines (pre ++ l :: rest)) = load_off_mesh ft k (unlines (pre ++ l' :: rest)) /\ load_off_points ft k (unlines (pre ++ l :: rest)) = load_off_points ft k (unlines (pre ++ l' :: rest)).
Proof.
  intros ft pre pts r r' l l' rest k L C H H' LR. destruct (lines_trim pre pts L) as (LP & TP & _).
  assert (G : forall l r, line_of l (str "OFF" ++ r) ->
    load_off_mesh ft k (unlines (pre ++ l :: rest)) = fold_loop (line_next (off_mesh_step ft)) off_add k (mkls (map (fun l => l ++ [nl]) rest) false (lenN pts + 1) (mkoff true None 0)) mesh_empty /\
    load_off_points ft k (unlines (pre ++ l :: rest)) = fold_loop (line_next (off_points_step ft)) push_data k (mkls (map (fun l => l ++ [nl]) rest) false (lenN pts + 1) (mkoff true None 0)) []).
  { clear l l' r r' H H'. intros l r H. unfold load_off_mesh, load_off_points, line_new. pose proof (raw_unlines (pre ++ l :: rest) [] ltac:(apply Forall_app; split; [exact LP|constructor; [apply H|exact LR]])) as RU. rewrite app_nil_r in RU. rewrite RU. cbn [raw_lines]. rewrite app_nil_r.
    assert (E : map (fun l => l ++ [nl]) (pre ++ l :: rest) = map (fun l => l ++ [nl]) (pre ++ [l]) ++ map (fun l => l ++ [nl]) rest) by (rewrite <- map_app, <- app_assoc; reflexivity). rewrite E.
    assert (T : map trim_line (map (fun l => l ++ [nl]) (pre ++ [l])) = pts ++ [str "OFF" ++ r]).
    { rewrite map_app. etransitivity; [apply map_app|]. apply f_equal2; [exact TP|]. cbn [map]. apply f_equal2; [exact (line_trim _ _ H)|reflexivity]. }
    replace (lenN pts + 1)%N with (0 + lenN (pts ++ [str "OFF" ++ r]))%N by (rewrite lenN_app; unfold lenN; cbn [length]; lia). split.
    - refine (fold_runs (off_mesh_step ft) off_add off_start _ [] _ _ _ _ 0%N mesh_empty mesh_empty k T (FNil _ _)). change (@nil face_data_reserve) with ((@nil face_data_reserve) ++ []). eapply (runs_app _ _ _ _ off_start).
      + clear - C. induction C as [|t pts N C IH]; [constructor|]. eapply RSkip; [unfold off_mesh_step; rewrite not_content by exact N; reflexivity|exact IH].
      + eapply RSkip; [unfold off_mesh_step; rewrite (off_not_skip _ r eq_refl); reflexivity|constructor].
    - refine (fold_runs (off_points_step ft) push_data off_start _ [] _ _ _ _ 0%N [] [] k T (FNil _ _)). change (@nil (data_reserve (pt3 F64))) with ((@nil (data_reserve (pt3 F64))) ++ []). eapply (runs_app _ _ _ _ off_start).
      + clear - C. induction C as [|t pts N C IH]; [constructor|]. eapply RSkip; [unfold off_points_step; rewrite not_content by exact N; reflexivity|exact IH].
      + eapply RSkip; [unfold off_points_step; rewrite (off_not_skip _ r eq_refl); reflexivity|constructor]. }
  destruct (G l r H) as (-> & ->). destruct (G l' r' H') as (-> & ->). split; reflexivity.
Qed.
Print Assumptions C106_ignored.
(** So a file with the counts there, which the format allows, is not read. *)
Theorem C106_counts_refuted : exists ls, ls = map str ["OFF 3 1 0"; "0 0 0"; "1 0 0"; "0 1 0"; "3 0 1 2"]%string /\
  load_off_mesh demo 200 (unlines ls) = Some (mesh_empty, Err (WLine 3 (str "1 0 0") OffFaceVertexCount)) /\ load_off_points demo 200 (unlines ls) = Some ([], Ok tt).
Proof. eexists. split; [reflexivity|]. split; vmeq. Qed.
Print Assumptions C106_counts_refuted.
Example C106_case : load_off_mesh demo 200 (unlines (map str ["OFF binary"; "3 1 0"; "0 0 0"; "1 0 0"; "0 1 0"; "3 0 1 2"]%string)) = Some (Mesh [fp3 0 0 0; fp3 1 0 0; fp3 0 1 0] [0; 1; 2]%N, Ok tt).
Proof. vmeq. Qed.

(** ** C69 gcode *)
(** The points are the positions visited, for every program in which each line is of one of the kinds. *)
Theorem C69_positions : forall ft ls cs k, Forall2 (reads (gline ft)) ls cs -> length (unlines ls) < k -> load_gcode_points ft k (unlines ls) = Some (positions Absolute (mk3 n0 n0 n0) cs, Ok tt).
Proof.
  intros ft ls cs k F K. destruct (reads_split _ _ _ F) as (ts & L & R). unfold load_gcode_points. rewrite load_fold. exact (scan_ok _ _ ls ts gcode_start _ _ [] _ k L (gcode_runs ft ts cs R gcode_start) (folds_push _ []) K).
Qed.
Print Assumptions C69_positions.
(** A coordinate that is no number is reported with its line, after the positions before it. *)
Theorem C69_error : forall ft ls cs l d r ws x y z c w more rest k, Forall2 (reads (gline ft)) ls cs -> line_of l ("G"%char :: d :: space :: r) -> In d (str "123") ->
  spells is_space r (ws ++ (c :: w) :: more) -> axes ft ws x y z -> (forall v, ~ In (";"%char :: v) ws) -> w <> [] -> f64_of ft w = None ->
  (c = "X"%char /\ x = None) \/ (c = "Y"%char /\ y = None) \/ (c = "Z"%char /\ z = None) -> Forall is_line rest -> length (unlines (ls ++ l :: rest)) < k ->
  load_gcode_points ft k (unlines (ls ++ l :: rest)) = Some (positions Absolute (mk3 n0 n0 n0) cs, Err (WLine (lenN ls + 1) ("G"%char :: d :: space :: r) GcodeCommand)).
Proof.
  intros ft ls cs l d r ws x y z c w more rest k F LT D Sp A NC NW NF MI LR K. destruct (reads_split _ _ _ F) as (ts & L & R). unfold load_gcode_points. rewrite load_fold.
  eapply (scan_err _ _ ls ts gcode_start _ _ [] _ k l _ rest GcodeCommand _ L (gcode_runs ft ts cs R gcode_start) (folds_push _ []) LT LR K).
  pose proof (command_bad ft r ws x y z c w more Sp A NC NW NF MI) as CB. destruct r as [|c3 r]; [apply space_words in Sp; destruct ws; discriminate Sp|].
  unfold gcode_step. change (Ascii.eqb "G" "G") with true. rewrite (Ascii.eqb_refl space). assert (DD : (Ascii.eqb d "1" || Ascii.eqb d "2" || Ascii.eqb d "3")%char = true) by (cbn in D; destruct D as [<-|[<-|[<-|[]]]]; reflexivity). cbn [andb]. rewrite DD.
  unfold gcode_move. rewrite CB. reflexivity.
Qed.
Print Assumptions C69_error.
Definition gcode_file : list bytes := map str ["; a part"; "G1 X1 Y2 F100"; "G1 Z3 ; up X9"; "G1 F200"; "G91 ; relative"; "G2  X1 E5 Z1"; "G92 X0"; "G90 x"; "G3 Y5"]%string.
Definition gcode_cmds : list gcmd := [GOther; GMove (Some (fz 1)) (Some (fz 2)) None; GMove None None (Some (fz 3)); GMove None None None; GMode Relative; GMove (Some (fz 1)) None (Some (fz 1)); GSet (Some (fz 0)) None None; GMode Absolute; GMove None (Some (fz 5)) None].
Ltac axes_now := repeat first [apply AxEnd | apply AxComment | apply AxX; [discriminate|vmeq|] | apply AxY; [discriminate|vmeq|] | apply AxZ; [discriminate|vmeq|]
  | apply AxOther; [discriminate|first [left; reflexivity|right; concrete_line]|]].
Example C69_case : Forall2 (reads (gline demo)) gcode_file gcode_cmds /\
  load_gcode_points demo 200 (unlines gcode_file) = Some ([fp3 1 2 0; fp3 1 2 3; fp3 2 2 4; fp3 0 2 4; fp3 0 5 4], Ok tt) /\ positions Absolute (mk3 n0 n0 n0) gcode_cmds = [fp3 1 2 0; fp3 1 2 3; fp3 2 2 4; fp3 0 2 4; fp3 0 5 4] /\
  load_gcode_points demo 200 (unlines (gcode_file ++ [str "G1 X2 Yfoo"; str "G1 X3"])) = Some ([fp3 1 2 0; fp3 1 2 3; fp3 2 2 4; fp3 0 2 4; fp3 0 5 4], Err (WLine 10 (str "G1 X2 Yfoo") GcodeCommand)).
Proof.
  split; [|split; [vmeq|split; vmeq]]. unfold gcode_file, gcode_cmds. cbn [map]. repeat apply Forall2_cons; [..|apply Forall2_nil]; read_line.
  - apply GlOther; intros d r D H; discriminate H.
  - eapply (GlMove demo "1"%char (str "X1 Y2 F100")); [cbn; auto|apply space_words; reflexivity|cbn; axes_now].
  - eapply (GlMove demo "1"%char (str "Z3 ; up X9")); [cbn; auto|apply space_words; reflexivity|cbn; axes_now].
  - eapply (GlMove demo "1"%char (str "F200")); [cbn; auto|apply space_words; reflexivity|cbn; axes_now].
  - apply (GlRelative demo (str "; relative")).
  - eapply (GlMove demo "2"%char (str " X1 E5 Z1")); [cbn; auto|apply space_words; reflexivity|cbn; axes_now].
  - eapply (GlSet demo (str "X0")); [apply space_words; reflexivity|cbn; axes_now].
  - apply (GlAbsolute demo (str "x")).
  - eapply (GlMove demo "3"%char (str "Y5")); [cbn; auto|apply space_words; reflexivity|cbn; axes_now].
Qed.

(** ** C68 bare mode lines *)
(** A line with nothing but G90, G91 or G92 changes nothing, whatever the rest of the program is. *)
Theorem C68_bare : forall ft ls1 l ls2 t k, Forall is_line ls1 -> Forall is_line ls2 -> line_of l t -> In t (map str ["G90"; "G91"; "G92"]%string) -> length (unlines (ls1 ++ l :: ls2)) < k ->
  exists ps r r', load_gcode_points ft k (unlines (ls1 ++ ls2)) = Some (ps, r) /\ load_gcode_points ft k (unlines (ls1 ++ l :: ls2)) = Some (ps, r') /\ (r = Ok tt <-> r' = Ok tt).
Proof.
  intros ft ls1 l ls2 t k F1 F2 L I K. apply (without_effect (gcode_step ft) gcode_start ls1 l ls2 t k); [|exact F1|exact F2|exact L|exact K]. intros s. cbn in I. destruct I as [<-|[<-|[<-|[]]]]; reflexivity.
Qed.
Print Assumptions C68_bare.
(** So two relative moves by 1 end at 1, not at 2. *)
Theorem C68_refuted : exists ls, ls = map str ["G91"; "G1 X1"; "G1 X1"]%string /\ load_gcode_points demo 100 (unlines ls) = Some ([fp3 1 0 0; fp3 1 0 0], Ok tt) /\
  positions Absolute (mk3 n0 n0 n0) [GMode Relative; GMove (Some (fz 1)) None None; GMove (Some (fz 1)) None None] = [fp3 1 0 0; fp3 2 0 0].
Proof. eexists. split; [reflexivity|]. split; vmeq. Qed.
Print Assumptions C68_refuted.
Example C68_case : line_of (str "G91 ") (str "G91") /\ load_gcode_points demo 100 (unlines [str "G1 X1"; str "G91 "; str "G1 X1"]) = Some ([fp3 1 0 0; fp3 1 0 0], Ok tt) /\ load_gcode_points demo 100 (unlines [str "G1 X1"; str "G91 ;"; str "G1 X1"]) = Some ([fp3 1 0 0; fp3 2 0 0], Ok tt).
Proof. split; [split; [concrete_line|exists [space]; split; [reflexivity|split; [repeat constructor|reflexivity]]]|]. split; vmeq. Qed.

(** ** C107 rapid moves *)
(** Moves written as G0, G00, G01 or with a line number in front are ignored. *)
Definition other_move (t : bytes) : Prop := exists r, In t (map (fun p => str p ++ r) ["G0 "; "G00 "; "G01 "; "G02 "; "G03 "; "N"; "g1 "; " G1 "]%string).
Theorem C107_ignored : forall ft ls1 l ls2 t k, Forall is_line ls1 -> Forall is_line ls2 -> line_of l t -> other_move t -> length (unlines (ls1 ++ l :: ls2)) < k ->
  exists ps r r', load_gcode_points ft k (unlines (ls1 ++ ls2)) = Some (ps, r) /\ load_gcode_points ft k (unlines (ls1 ++ l :: ls2)) = Some (ps, r') /\ (r = Ok tt <-> r' = Ok tt).
Proof.
  intros ft ls1 l ls2 t k F1 F2 L (r & I) K. apply (without_effect (gcode_step ft) gcode_start ls1 l ls2 t k); [|exact F1|exact F2|exact L|exact K]. intros s. cbn [map] in I.
  repeat (destruct I as [<-|I]; [|]); try contradiction; unfold gcode_step; cbn [str list_ascii_of_string app]; destruct r as [|? [|? [|? ?]]]; reflexivity.
Qed.
Print Assumptions C107_ignored.
Theorem C107_refuted : exists ls, ls = map str ["G0 X5"; "G91 ;"; "G1 X1"]%string /\ load_gcode_points demo 100 (unlines ls) = Some ([fp3 1 0 0], Ok tt) /\
  positions Absolute (mk3 n0 n0 n0) [GMove (Some (fz 5)) None None; GMode Relative; GMove (Some (fz 1)) None None] = [fp3 5 0 0; fp3 6 0 0].
Proof. eexists. split; [reflexivity|]. split; vmeq. Qed.
Print Assumptions C107_refuted.
Example C107_case : other_move (str "G0 X5 Y1") /\ load_gcode_points demo 100 (unlines [str "G1 X1"; str "G0 X5 Y1"; str "G1 Z1"]) = Some ([fp3 1 0 0; fp3 1 0 1], Ok tt).
Proof. split; [exists (str "X5 Y1"); cbn; auto|vmeq]. Qed.
