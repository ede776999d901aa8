(** Theorems about the line based formats: bad lines, arbitrary files, and what comes after the end. *)
From Verif Require Import Base BaseLemmas Num GeomSpec VecModel MeshModel MeshSpec MeshLemmas MatrixLemmas IoModel IoSpec IoLemmas PlyModel PlySpec PlyLemmas PlyTotalLemmas ScanModel ScanSpec ScanLemmas ObjOffLemmas GcodeLemmas ScanProps.
From Coq Require Import Lia ZifyBool ZifyNat ZifyN.
Local Open Scope nat_scope.

(** ** C101 bad lines *)
(** A bad line is reported with its number and its text, whatever follows; everything before it is kept. *)
Theorem C101_obj : forall ft ls os l t e rest k, Forall2 (reads (obj_line ft)) ls os -> ordered os -> line_of l t ->
  (exists r, t = str "v " ++ r /\ (forall p, ~ point_text ft r p) /\ e = ObjVertex) \/ (exists r, t = str "f " ++ r /\ (forall a b c, ~ corners r a b c) /\ e = ObjFace) ->
  Forall is_line rest -> length (unlines (ls ++ l :: rest)) < k ->
  exists m, load_obj_mesh ft k (unlines (ls ++ l :: rest)) = Some (m, Err (WLine (lenN ls + 1) t e)) /\ shows m (MSpec (obj_vertices os) (obj_faces os)).
Proof.
  intros ft ls os l t e rest k F O LT BAD LR K. destruct (reads_split _ _ _ F) as (ts & L & R). destruct (obj_all os O) as (m & B & A & Sh). exists m. split; [|exact Sh].
  eapply (scan_err _ _ ls ts tt _ tt _ m k l t rest e _ L (obj_runs ft ts os R) B LT LR K). unfold obj_mesh_step.
  destruct BAD as [(r & -> & N & ->)|(r & -> & N & ->)].
  - rewrite starts_app, (vertex_err ft r N). reflexivity.
  - rewrite f_not_v, starts_app, (face_err r N). reflexivity.
Qed.
Print Assumptions C101_obj.
(** The points loader does not see bad faces. *)
Theorem C101_obj_points : forall ft ls pss l r rest k, Forall2 (reads (obj_point_line ft)) ls pss -> line_of l (str "v " ++ r) -> (forall p, ~ point_text ft r p) -> Forall is_line rest -> length (unlines (ls ++ l :: rest)) < k ->
  load_obj_points ft k (unlines (ls ++ l :: rest)) = Some (concat pss, Err (WLine (lenN ls + 1) (str "v " ++ r) ObjVertex)).
Proof.
  intros ft ls pss l r rest k F LT N LR K. destruct (reads_split _ _ _ F) as (ts & L & R). unfold load_obj_points. rewrite load_fold.
  eapply (scan_err _ _ ls ts tt _ tt [] (concat pss) k l _ rest ObjVertex _ L (obj_points_runs ft ts pss R) (folds_push _ []) LT LR K). unfold obj_points_step. rewrite starts_app, (vertex_err ft r N). reflexivity.
Qed.
Print Assumptions C101_obj_points.
(** The line with the counts. *)
Theorem C101_off_counts : forall ft ls ts r l t e rest k, Forall2 line_of ls ts -> filter content ts = [str "OFF" ++ r] -> line_of l t -> content t = true ->
  ((forall n, ~ count_text t n) /\ e = OffVertexCount) \/ ((exists n, count_text t n) /\ (forall nv nf, ~ counts_text t nv nf) /\ e = OffFaceCount) ->
  Forall is_line rest -> length (unlines (ls ++ l :: rest)) < k ->
  load_off_mesh ft k (unlines (ls ++ l :: rest)) = Some (mesh_empty, Err (WLine (lenN ls + 1) t e)) /\
  (e = OffVertexCount -> load_off_points ft k (unlines (ls ++ l :: rest)) = Some ([], Err (WLine (lenN ls + 1) t e))).
Proof.
  intros ft ls ts r l t e rest k L FI LT CT BAD LR K.
  assert (PS : forall C, off_pass (mkoff true (None : option C) 0) t = None) by (intros C; apply content_pass; [exact CT|reflexivity]).
  assert (C1 : content (str "OFF" ++ r) = true) by (destruct (content (str "OFF" ++ r)) eqn:E; [reflexivity|]; assert (I : In (str "OFF" ++ r) (filter content ts)) by (rewrite FI; left; reflexivity); apply filter_In in I; destruct I; congruence).
  split; [|intros EV].
  - eapply (scan_err (off_mesh_step ft) off_add ls ts off_start [] (mkoff true None 0) mesh_empty mesh_empty k l t rest e _ L); [| constructor |exact LT|exact LR|exact K|].
    + apply (runs_filter _ content); [intros s x H; unfold off_mesh_step; rewrite not_content by exact H; reflexivity|]. rewrite FI. eapply RSkip; [|constructor]. unfold off_mesh_step. rewrite (off_not_skip _ r eq_refl). reflexivity.
    + unfold off_mesh_step. rewrite PS. cbn [off_counts]. assert (G : off_two_counts t = Err e); [|rewrite G; reflexivity]. unfold off_two_counts.
      destruct BAD as [(N & ->)|((n & N) & NC & ->)]; [rewrite (count_err _ t N); reflexivity|]. destruct N as (w & ws & Sp & U). pose proof Sp as Sp'. apply blank_words in Sp. rewrite Sp. unfold next_count. cbn [next_usize]. rewrite U. cbn [ok_or obind].
      destruct ws as [|v ws]; [reflexivity|]. cbn [next_usize]. destruct (usize_of v) as [nf|] eqn:V; [|reflexivity]. destruct (NC n nf). exists w, v, ws. auto.
  - assert (N : forall n, ~ count_text t n) by (destruct BAD as [(N & _)|(_ & _ & E)]; [exact N|congruence]).
    eapply (scan_err (off_points_step ft) push_data ls ts off_start [] (mkoff true None 0) [] [] k l t rest e _ L); [| constructor |exact LT|exact LR|exact K|].
    + apply (runs_filter _ content); [intros s x H; unfold off_points_step; rewrite not_content by exact H; reflexivity|]. rewrite FI. eapply RSkip; [|constructor]. unfold off_points_step. rewrite (off_not_skip _ r eq_refl). reflexivity.
    + unfold off_points_step. rewrite PS. cbn [off_counts]. rewrite (count_err _ t N), EV. reflexivity.
Qed.
Print Assumptions C101_off_counts.
(** A vertex. *)
Theorem C101_off_vertex : forall ft ls ts hs vs nv nf ps l t rest k, Forall2 line_of ls ts -> filter content ts = hs ++ vs -> off_header hs nv nf -> fits nv nf -> Forall2 (point_text ft) vs ps -> (lenN ps < nv)%N ->
  line_of l t -> content t = true -> (forall p, ~ point_text ft t p) -> Forall is_line rest -> length (unlines (ls ++ l :: rest)) < k ->
  (exists m, load_off_mesh ft k (unlines (ls ++ l :: rest)) = Some (m, Err (WLine (lenN ls + 1) t OffVertex)) /\ shows m (MSpec ps [])) /\
  load_off_points ft k (unlines (ls ++ l :: rest)) = Some (ps, Err (WLine (lenN ls + 1) t OffVertex)).
Proof.
  intros ft ls ts hs vs nv nf ps l t rest k L FI H FT V NV LT CT N LR K. split.
  - destruct (off_folds nv nf ps [] FT ltac:(intros a b c [])) as (m & B & _ & Sh). exists m. split; [|exact Sh].
    eapply (scan_err _ _ ls ts _ _ _ _ m k l t rest OffVertex _ L (off_mesh_run ft ts hs vs [] nv nf ps [] ltac:(rewrite app_nil_r; exact FI) H V (Forall2_nil _) (or_intror (conj (N.lt_le_incl _ _ NV) eq_refl))) B LT LR K).
    unfold off_mesh_step. rewrite content_pass by (exact CT || reflexivity). cbn [off_counts off_added]. destruct (N.ltb_spec (lenN ps) nv); [|lia]. unfold off_vertex. rewrite (point_err ft OffVertex t N). reflexivity.
  - destruct H as (r & c & -> & CC). assert (C1 : count_text c nv) by (destruct CC as (v & f & more & Sp & U & _); exists v, (f :: more); auto).
    assert (B : folds (E := with_line OffError) push_data [] (DReserve nv :: map DData ps) ps) by (econstructor; [apply push_reserve; destruct FT; unfold lenN; cbn [length]; lia|exact (push_datas ps [])]).
    eapply (scan_err _ _ ls ts _ _ _ _ ps k l t rest OffVertex _ L (off_points_run ft ts r c vs nv ps FI C1 V ltac:(lia)) B LT LR K).
    unfold off_points_step. rewrite content_pass by (exact CT || reflexivity). cbn [off_counts off_added]. destruct (N.ltb_spec (lenN ps) nv); [|lia]. unfold off_vertex. rewrite (point_err ft OffVertex t N). reflexivity.
Qed.
Print Assumptions C101_off_vertex.
(** A face that starts like a triangle. *)
Theorem C101_off_face : forall ft ls ts hs vs fs nv nf ps fcs l t ws rest k, Forall2 line_of ls ts -> filter content ts = hs ++ vs ++ fs -> off_header hs nv nf -> fits nv nf ->
  Forall2 (point_text ft) vs ps -> lenN ps = nv -> Forall2 face_text3 fs fcs -> faces_ok (MSpec ps fcs) ->
  line_of l t -> content t = true -> spells blank t (str "3" :: ws) -> (forall f, ~ face_text3 t f) -> Forall is_line rest -> length (unlines (ls ++ l :: rest)) < k ->
  exists m, load_off_mesh ft k (unlines (ls ++ l :: rest)) = Some (m, Err (WLine (lenN ls + 1) t OffFace)) /\ shows m (MSpec ps fcs).
Proof.
  intros ft ls ts hs vs fs nv nf ps fcs l t ws rest k L FI H FT V NV F OK LT CT Sp NF LR K. destruct (off_folds nv nf ps fcs FT OK) as (m & B & _ & Sh). exists m. split; [|exact Sh].
  eapply (scan_err _ _ ls ts _ _ _ _ m k l t rest OffFace _ L (off_mesh_run ft ts hs vs fs nv nf ps fcs FI H V F (or_introl NV)) B LT LR K).
  unfold off_mesh_step. rewrite content_pass by (exact CT || reflexivity). cbn [off_counts off_added]. destruct (N.ltb_spec (lenN ps) nv); [lia|].
  assert (G : off_face t = Err OffFace); [|rewrite G; reflexivity]. unfold off_face. pose proof Sp as Sp'. apply blank_words in Sp. rewrite Sp. change (bytes_eqb (str "3") (str "3")) with true. unfold next_count.
  destruct ws as [|u ws]; [reflexivity|]. cbn [next_usize]. destruct (usize_of u) as [a|] eqn:U1; [|reflexivity]. cbn [ok_or obind].
  destruct ws as [|v ws]; [reflexivity|]. cbn [next_usize]. destruct (usize_of v) as [b|] eqn:U2; [|reflexivity]. cbn [ok_or obind].
  destruct ws as [|w ws]; [reflexivity|]. cbn [next_usize]. destruct (usize_of w) as [c|] eqn:U3; [|reflexivity]. destruct (NF (a, b, c)). exists u, v, w, ws. auto.
Qed.
Print Assumptions C101_off_face.
(** pts: the line is the first of a block or a point. *)
Theorem C101_pts_count : forall ft ls ts bs pss l t rest k, Forall2 line_of ls ts -> filter nonempty ts = concat bs -> Forall2 (fun b ps => pts_lines ft (lenN ps) b ps) bs pss -> (24 * lenN (concat pss) < 2 ^ 63)%N ->
  line_of l t -> t <> [] -> (forall n, ~ count_text t n) -> Forall is_line rest -> length (unlines (ls ++ l :: rest)) < k ->
  load_pts ft k (unlines (ls ++ l :: rest)) = Some (concat pss, Err (WLine (lenN ls + 1) t PtsVertexCount)).
Proof.
  intros ft ls ts bs pss l t rest k L FI B FT LT NE N LR K. assert (C : Forall (fun t => nonempty t = true) (filter nonempty ts)) by (apply Forall_forall; intros x I; apply filter_In in I; apply I). rewrite FI in C.
  destruct (pts_blocks_run ft bs pss B C (mkpts None 0) (or_introl (conj eq_refl eq_refl))) as (s' & R & FR).
  eapply (scan_err _ _ ls ts _ _ s' [] (concat pss) k l t rest PtsVertexCount _ L); [| |exact LT|exact LR|exact K|].
  - apply (runs_filter _ nonempty); [intros s [|c x] H; [reflexivity|discriminate]|]. rewrite FI. exact R.
  - exact (pts_folds pss [] ltac:(unfold lenN in *; cbn [length]; lia)).
  - unfold pts_step. destruct t as [|c t]; [congruence|]. cbn [bytes_eqb]. pose proof (count_err PtsVertexCount _ N) as E. destruct FR as [(-> & ->)|(n & -> & LE)]; [|destruct (N.ltb_spec (pts_added s') n); [lia|]]; unfold pts_block; rewrite E; reflexivity.
Qed.
Print Assumptions C101_pts_count.
Theorem C101_pts_vertex : forall ft ls ts bs pss b n ps l t rest k, Forall2 line_of ls ts -> filter nonempty ts = concat bs ++ b -> Forall2 (fun b ps => pts_lines ft (lenN ps) b ps) bs pss -> pts_lines ft n b ps -> (lenN ps < n)%N -> (24 * (lenN (concat pss) + n) < 2 ^ 63)%N ->
  line_of l t -> t <> [] -> (forall p, ~ point_text ft t p) -> Forall is_line rest -> length (unlines (ls ++ l :: rest)) < k ->
  load_pts ft k (unlines (ls ++ l :: rest)) = Some (concat pss ++ ps, Err (WLine (lenN ls + 1) t PtsVertex)).
Proof.
  intros ft ls ts bs pss b n ps l t rest k L FI B LB NP FT LT NE N LR K. assert (C : Forall (fun t => nonempty t = true) (filter nonempty ts)) by (apply Forall_forall; intros x I; apply filter_In in I; apply I). rewrite FI in C. apply Forall_app in C as (C1 & C2).
  destruct (pts_blocks_run ft bs pss B C1 (mkpts None 0) (or_introl (conj eq_refl eq_refl))) as (s' & R & FR). pose proof (pts_lines_run ft n b ps s' LB C2 FR ltac:(lia)) as R2.
  eapply (scan_err _ _ ls ts _ (_ ++ _) _ [] _ k l t rest PtsVertex _ L); [| |exact LT|exact LR|exact K|].
  - apply (runs_filter _ nonempty); [intros s [|c x] H; [reflexivity|discriminate]|]. rewrite FI. eapply runs_app; eassumption.
  - eapply folds_app; [apply pts_folds; unfold lenN in *; cbn [length]; lia|]. econstructor; [apply push_reserve; exact FT|apply push_datas].
  - unfold pts_step. destruct t as [|c t]; [congruence|]. cbn [bytes_eqb pts_n pts_added]. destruct (N.ltb_spec (lenN ps) n); [|lia]. rewrite (point_err ft PtsVertex _ N). reflexivity.
Qed.
Print Assumptions C101_pts_vertex.
Example C101_case : load_obj_mesh demo 100 (unlines (map str ["v 1 2 3"; "# x"; "v 1 2"; "v 4 5 6"]%string)) = Some (Mesh [fp3 1 2 3] [], Err (WLine 3 (str "v 1 2") ObjVertex)) /\
  load_obj_mesh demo 100 (unlines (map str ["v 1 2 3"; "f 1 2 /3 "; "v 4 5 6"]%string)) = Some (Mesh [fp3 1 2 3] [], Err (WLine 2 (str "f 1 2 /3") ObjFace)) /\
  load_obj_points demo 100 (unlines (map str ["v 1 2 3"; "f 1 2 /3"; "v 4 5"]%string)) = Some ([fp3 1 2 3], Err (WLine 3 (str "v 4 5") ObjVertex)) /\
  load_off_mesh demo 100 (unlines (map str ["OFF"; "3"]%string)) = Some (mesh_empty, Err (WLine 2 (str "3") OffFaceCount)) /\
  load_off_mesh demo 100 (unlines (map str ["OFF"; "3 1"; "1 2 3"; "4 5"]%string)) = Some (Mesh [fp3 1 2 3] [], Err (WLine 4 (str "4 5") OffVertex)) /\
  load_off_mesh demo 100 (unlines (map str ["OFF"; "1 1"; "1 2 3"; "3 0 0"]%string)) = Some (Mesh [fp3 1 2 3] [], Err (WLine 4 (str "3 0 0") OffFace)) /\
  load_pts demo 100 (unlines (map str ["1"; "1 2 3"; "x"]%string)) = Some ([fp3 1 2 3], Err (WLine 3 (str "x") PtsVertexCount)) /\
  load_pts demo 100 (unlines (map str ["3"; "1 2 3"; ""; "1 x 3"]%string)) = Some ([fp3 1 2 3], Err (WLine 4 (str "1 x 3") PtsVertex)).
Proof. repeat split; vmeq. Qed.

(** ** C102 arbitrary files *)
(** Every file is read to an end without a panic; whatever is read of a mesh is a valid mesh. *)
Theorem C102_obj_mesh : forall ft file, exists m r, (forall k, length file < k -> load_obj_mesh ft k file = Some (m, r)) /\ r <> Panic /\ exists s, shows m s /\ faces_ok s.
Proof.
  intros ft file. destruct (fold_total (line_next (obj_mesh_step ft)) (mesh_add ObjInvalidMeshIndices) (fun s => length (ls_read s)) valid (line_next_less _) (line_next_np _ (obj_mesh_np ft)) (mesh_add_valid ObjInvalidMeshIndices) (length file) (line_new file tt) mesh_empty
    (raw_count file) ltac:(exists (MSpec [] []); split; [split; reflexivity|intros a b c []])) as (m & r & (s & A & F) & NP & H).
  exists m, r. split; [exact H|]. split; [exact NP|]. exists s. split; [apply abs_shows; assumption|exact F].
Qed.
Print Assumptions C102_obj_mesh.
Theorem C102_obj_points : forall ft file, exists ps r, (forall k, length file < k -> load_obj_points ft k file = Some (ps, r)) /\ r <> Panic.
Proof.
  intros ft file. destruct (load_total (line_next (obj_points_step ft)) (fun s => length (ls_read s)) (line_next_less _) (line_next_np _ (obj_points_np ft)) (length file) (line_new file tt) [] (raw_count file)) as (ps & r & NP & H). exists ps, r. auto.
Qed.
Print Assumptions C102_obj_points.
Theorem C102_gcode : forall ft file, exists ps r, (forall k, length file < k -> load_gcode_points ft k file = Some (ps, r)) /\ r <> Panic.
Proof.
  intros ft file. destruct (load_total (line_next (gcode_step ft)) (fun s => length (ls_read s)) (line_next_less _) (line_next_np _ (gcode_np ft)) (length file) (line_new file gcode_start) [] (raw_count file)) as (ps & r & NP & H). exists ps, r. auto.
Qed.
Print Assumptions C102_gcode.
(** off and pts panic only if a line of the file announces more elements than a vector can hold. *)
Definition off_excessive (file : bytes) : Prop := exists l nv nf, In l (raw_lines file) /\ counts_text (trim_line l) nv nf /\ (2 ^ 63 <= 24 * nv \/ 2 ^ 63 <= 8 * ((3 * nf) mod 2 ^ 64))%N.
Definition count_excessive (file : bytes) (n0 : N) : Prop := exists l n, In l (raw_lines file) /\ count_text (trim_line l) n /\ (2 ^ 63 <= 24 * (n0 + n))%N.
Lemma count_inv {E} (e : E) t n ws : next_count e (to_words t) = Ok (n, ws) -> exists w, spells blank t (w :: ws) /\ usize_of w = Some n.
Proof.
  unfold next_count. destruct (to_words t) as [|w ws'] eqn:W; [discriminate|]. cbn [next_usize]. destruct (usize_of w) as [n'|] eqn:U; [|discriminate]. cbn [ok_or]. intros X. injection X as -> ->. exists w. split; [apply blank_words; exact W|exact U].
Qed.
Lemma counts_inv t nv nf : off_two_counts t = Ok (nv, nf) -> counts_text t nv nf.
Proof.
  unfold off_two_counts. destruct (next_count OffVertexCount (to_words t)) as [(n, ws)|e|] eqn:A; [|discriminate|discriminate]. destruct (count_inv _ _ _ _ A) as (w & Sp & U). cbn [obind]. unfold next_count. destruct ws as [|v ws]; [discriminate|]. cbn [next_usize].
  destruct (usize_of v) as [m|] eqn:V; [|discriminate]. cbn [ok_or obind]. intros X. injection X as -> ->. exists w, v, ws. auto.
Qed.
Theorem C102_off_mesh : forall ft file, exists m r, (forall k, length file < k -> load_off_mesh ft k file = Some (m, r)) /\ (r = Panic -> off_excessive file) /\ exists s, shows m s /\ faces_ok s.
Proof.
  intros ft file.
  (* only the first element reserves *)
  set (P := fun x => match x with FReserve nv nf => exists l, In l (raw_lines file) /\ counts_text (trim_line l) nv nf | FItem _ => True end).
  assert (ST : forall s raw a s', In raw (raw_lines file) -> off_mesh_step ft s (trim_line raw) = LItem (Ok a) s' -> P a).
  { intros s raw a s' I. unfold off_mesh_step. destruct (off_pass s (trim_line raw)); [discriminate|]. destruct (off_counts s) as [(nv, nf)|].
    - destruct (_ <? _)%N; [unfold off_vertex; destruct (three_f64 _ _ _)|destruct (off_face _)]; cbn [omap]; intros X; try discriminate X; injection X as <- <-; exact Logic.I.
    - destruct (off_two_counts (trim_line raw)) as [(nv, nf)|e|] eqn:C; intros X; try discriminate X. injection X as <- <-. exists raw. split; [exact I|apply counts_inv, C]. }
  assert (VE : valid mesh_empty) by (exists (MSpec [] []); split; [split; reflexivity|intros a b c []]).
  destruct (fold_total2 (line_next (off_mesh_step ft)) off_add (fun s => length (ls_read s))
    (fun s => incl (ls_read s) (raw_lines file)) valid P (line_next_less _) (line_next_np _ (off_mesh_np ft)) (line_next_items _ _ P ST)
    ltac:(intros m [nv nf|x] V _; [exact V|exact (proj1 (mesh_add_valid OffInvalidMeshIndices m x V))]) (length file) (line_new file off_start) mesh_empty (raw_count file) VE ltac:(intros x X; exact X))
    as (m & r & (s & A & F) & PN & H).
  exists m, r. split; [exact H|]. split; [|exists s; split; [apply abs_shows; assumption|exact F]].
  (* the reservation happens on the empty mesh *)
  intros ->. specialize (H (Datatypes.S (length file)) ltac:(lia)).
  assert (G : forall k s m0, (off_counts (ls_own s) = None -> m0 = mesh_empty) -> incl (ls_read s) (raw_lines file) -> forall m', fold_loop (line_next (off_mesh_step ft)) off_add k s m0 = Some (m', Panic) -> valid m0 -> off_excessive file).
  { clear - ST. induction k as [|k IH]; intros s m0 E0 J m' H V; [discriminate|]. cbn [fold_loop] in H. destruct (line_next (off_mesh_step ft) s) as [[[a|e|]|] s'] eqn:N; try discriminate.
    - destruct (line_next_items _ (raw_lines file) _ ST s a s' J N) as (J' & Pa).
      assert (CN : match a with FReserve _ _ => off_counts (ls_own s) = None | FItem _ => True end /\ off_counts (ls_own s') <> None).
      { clear - N. unfold line_next in N. destruct (ls_done s); [discriminate|]. revert N. generalize (ls_line s) (ls_own s). induction (ls_read s) as [|l ls IH]; intros i o N; cbn [line_loop] in N; [discriminate|].
        unfold off_mesh_step at 1 in N. destruct (off_pass o (trim_line l)) as [o'|] eqn:OP.
        - assert (CO : off_counts o' = off_counts o) by (unfold off_pass in OP; destruct (_ && _); [injection OP as <-; reflexivity|]; destruct (_ || _); [injection OP as <-; reflexivity|discriminate]). rewrite <- CO. exact (IH _ _ N).
        - destruct (off_counts o) as [(nv, nf)|] eqn:CO.
          + destruct (_ <? _)%N; [unfold off_vertex in N; destruct (three_f64 _ _ _)|destruct (off_face _)]; cbn [omap at_line] in N; try discriminate N; injection N as <- <-; cbn [ls_own off_counts]; (split; [exact I|congruence]).
          + destruct (off_two_counts _) as [(nv, nf)|e|]; cbn [at_line] in N; try discriminate N. injection N as <- <-. cbn [ls_own off_counts]. split; [reflexivity|discriminate]. }
      destruct CN as (CN & CS). destruct (off_add m0 a) as (m1, [[]|e|]) eqn:O; try discriminate.
      + apply (IH s' m1 ltac:(congruence) J' m' H). destruct a as [nv nf|x]; [cbn [off_add] in O; injection O as <- _; exact V|]. cbn [off_add] in O. pose proof (mesh_add_valid OffInvalidMeshIndices m0 x V) as (W & _). rewrite O in W. exact W.
      + destruct a as [nv nf|x].
        * rewrite (E0 CN) in O. cbn [off_add pc topology mesh_empty] in O. destruct Pa as (l & I & C). exists l, nv, nf. split; [exact I|]. split; [exact C|].
          destruct (reserve 24 _) eqn:R1; [destruct (reserve 8 _) eqn:R2; [discriminate O|]|]; [right; apply not_reserve in R2; exact R2|left; apply not_reserve in R1; exact R1].
        * cbn [off_add] in O. destruct (mesh_add_valid OffInvalidMeshIndices m0 x V) as (_ & NP). rewrite O in NP. destruct (NP eq_refl).
    - pose proof (line_next_np _ (off_mesh_np ft) s) as NP. rewrite N in NP. destruct (NP eq_refl). }
  exact (G _ (line_new file off_start) mesh_empty ltac:(reflexivity) ltac:(intros x X; exact X) m H VE).
Qed.
Print Assumptions C102_off_mesh.
(** For the points loaders: more than the vector can hold in addition to the points already there. *)
Lemma push_any {S E} (step : S -> bytes -> line_step S E (data_reserve (pt3 F64))) own file : (forall s t s', step s t <> LItem Panic s') ->
  (forall s t n s', step s t = LItem (Ok (DReserve n)) s' -> count_text t n) ->
  exists ps r, (forall k, length file < k -> fold_loop (line_next step) push_data k (line_new file own) [] = Some (ps, r)) /\ (r = Panic -> count_excessive file (lenN ps)).
Proof.
  intros NP CN.
  destruct (fold_total2 (line_next step) (push_data (E := with_line E)) (fun s => length (ls_read s)) (fun s => incl (ls_read s) (raw_lines file)) (fun _ => True)
    (fun x => match x with DReserve n => exists l, In l (raw_lines file) /\ count_text (trim_line l) n | DData _ => True end) (line_next_less _) (line_next_np _ NP)
    ltac:(apply line_next_items; intros s raw [n|p] s' I X; [exists raw; split; [exact I|exact (CN _ _ _ _ X)]|exact Logic.I]) ltac:(auto) (length file) (line_new file own) [] (raw_count file) I ltac:(intros x X; exact X)) as (ps & r & _ & PN & H).
  exists ps, r. split; [exact H|]. intros ->. destruct (PN eq_refl) as ([n|p] & m1 & Pa & _ & B); [|discriminate B]. cbn [push_data] in B. destruct (reserve 24 _) eqn:R; [discriminate B|]. injection B as <-. destruct Pa as (l & I & C). exists l, n. split; [exact I|]. split; [exact C|apply not_reserve, R].
Qed.
Theorem C102_off_points : forall ft file, exists ps r, (forall k, length file < k -> load_off_points ft k file = Some (ps, r)) /\ (r = Panic -> count_excessive file (lenN ps)).
Proof.
  intros ft file. apply push_any; [apply off_points_np|]. intros s t n s'. unfold off_points_step. destruct (off_pass s t); [discriminate|]. destruct (off_counts s) as [m|].
  - destruct (_ <? _)%N; [|discriminate]. unfold off_vertex. destruct (three_f64 _ _ _); discriminate.
  - destruct (next_count _ _) as [(m, ws)|e|] eqn:C; try discriminate. intros X. injection X as -> _. destruct (count_inv _ _ _ _ C) as (w & Sp & U). exists w, ws. auto.
Qed.
Print Assumptions C102_off_points.
Theorem C102_pts : forall ft file, exists ps r, (forall k, length file < k -> load_pts ft k file = Some (ps, r)) /\ (r = Panic -> count_excessive file (lenN ps)).
Proof.
  intros ft file. apply push_any; [apply pts_np|]. intros s t n s'. assert (B : forall a, pts_block a s t = LItem (Ok (DReserve n)) s' -> count_text t n).
  { intros a. unfold pts_block. destruct (next_count _ _) as [(m, ws)|e|] eqn:C; try discriminate. intros X. injection X as -> _. destruct (count_inv _ _ _ _ C) as (w & Sp & U). exists w, ws. auto. }
  unfold pts_step. destruct (bytes_eqb t []); [discriminate|]. destruct (pts_n s); [|apply B]. destruct (_ <? _)%N; [|apply B]. destruct (three_f64 _ _ _); discriminate.
Qed.
Print Assumptions C102_pts.
(** And such files do make them panic. *)
Theorem C102_panics : exists f g, load_off_mesh demo 100 f = Some (mesh_empty, Panic) /\ load_off_points demo 100 f = Some ([], Panic) /\ load_pts demo 100 g = Some ([fp3 1 2 3], Panic).
Proof. exists (unlines (map str ["OFF"; "384307168202282326 0"]%string)), (unlines (map str ["1"; "1 2 3"; "384307168202282325"]%string)). repeat split; vmeq. Qed.
Print Assumptions C102_panics.
Example C102_case : load_obj_mesh demo 100 (str "garbage") = Some (mesh_empty, Ok tt) /\ load_off_mesh demo 100 (str "garbage in") = Some (mesh_empty, Err (WLine 1 (str "garbage i") OffVertexCount)) /\
  load_off_points demo 100 (unlines (map str ["OFF"; "384307168202282325 0"]%string)) = Some ([], Ok tt).
Proof. repeat split; vmeq. Qed.

(** ** C103 after the end *)
(** Once there was no element or an error, there are no more elements. *)
Definition fused {S E A} (next : S -> option (outcome E A) * S) : Prop :=
  forall s r s', next s = (r, s') -> (forall a, r <> Some (Ok a)) -> next s' = (None, s').
Lemma line_fused {S E A} (step : S -> bytes -> line_step S E A) : fused (line_next step).
Proof.
  intros s r s' N NO. unfold line_next in N. destruct (ls_done s) eqn:D; [injection N as <- <-; unfold line_next; rewrite D; reflexivity|].
  assert (DN : ls_done s' = true); [|unfold line_next; rewrite DN; reflexivity].
  revert N. generalize (ls_line s) (ls_own s). induction (ls_read s) as [|l ls IH]; intros i o N; cbn [line_loop] in N; [injection N as <- <-; reflexivity|].
  destruct (step o (trim_line l)) as [s1|[a|e|] s1|s1]; [exact (IH _ _ N)|..]; injection N as <- <-; try reflexivity. destruct (NO a). reflexivity.
Qed.
Lemma xy_fused {A} minimum point : fused (xy_next (A := A) minimum point).
Proof.
  intros s r s' N NO. unfold xy_next in N. destruct (xy_done s) eqn:D; [injection N as <- <-; unfold xy_next; rewrite D; reflexivity|].
  assert (DN : xy_done s' = true); [|unfold xy_next; rewrite DN; reflexivity].
  destruct (next_line (xy_read s)) as [(line, read)|]; [|injection N as <- <-; reflexivity]. destruct (xy_delimiter _ _ _) as [d|e|].
  - destruct (point d line) as [p|e|]; injection N as <- <-; [destruct (NO p); reflexivity|reflexivity|reflexivity].
  - injection N as <- <-. reflexivity.
  - injection N as <- <-. reflexivity.
Qed.
Theorem C103_fused : forall ft, fused (xy_iter ft) /\ fused (xyz_iter ft) /\ fused (line_next (obj_points_step ft)) /\ fused (line_next (obj_mesh_step ft)) /\ fused (line_next (off_points_step ft)) /\ fused (line_next (off_mesh_step ft)) /\
  fused (line_next (pts_step ft)) /\ fused (line_next (gcode_step ft)).
Proof. intros ft. repeat (split; [first [apply line_fused|apply xy_fused]|]). apply line_fused. Qed.
Print Assumptions C103_fused.
Example C103_case : let s := line_new (unlines (map str ["v 1 2"; "v 1 2 3"]%string)) tt in
  exists s', line_next (obj_points_step demo) s = (Some (Err (WLine 1 (str "v 1 2") ObjVertex)), s') /\ ls_read s' = [str "v 1 2 3" ++ [nl]] /\ line_next (obj_points_step demo) s' = (None, s').
Proof. eexists. split; [reflexivity|]. split; reflexivity. Qed.
