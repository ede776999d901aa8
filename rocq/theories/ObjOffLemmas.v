(** Proofs about .obj, .off and .pts. *)
From Verif Require Import Base BaseLemmas Num GeomSpec VecModel MeshModel MeshSpec MeshLemmas MatrixLemmas IoModel IoSpec IoLemmas PlyModel PlySpec PlyLemmas PlyTotalLemmas ScanModel ScanSpec ScanLemmas.
From Coq Require Import Lia ZifyBool ZifyNat ZifyN.
Local Open Scope nat_scope.

Lemma reads_split {O} (R : bytes -> O -> Prop) ls os : Forall2 (reads R) ls os -> exists ts, Forall2 line_of ls ts /\ Forall2 R ts os.
Proof. induction 1 as [|l o ls os (t & L & H) F (ts & A & B)]; [exists []; split; constructor|]. exists (t :: ts). split; constructor; assumption. Qed.

(** ** obj *)
Definition obj_raw (o : option obj_item) : list mesh_item :=
  match o with None => [] | Some (OVertex p) => [MPoint p] | Some (OFace a b c) => [MFace (minus_one a, minus_one b, minus_one c)] end.
Lemma slash_iff c : (c = "/"%char) <-> Ascii.eqb c "/"%char = true. Proof. rewrite Ascii.eqb_eq. reflexivity. Qed.
Lemma corner_ok w n : corner w n -> usize_of (until_bytes w "/"%char) = Some n.
Proof.
  intros (d & r & -> & N & R & U). unfold until_bytes.
  destruct (split_word (fun c => c = "/"%char) _ slash_iff d r) as (ws & E & _).
  - apply Forall_forall. intros c I ->. exact (N I).
  - destruct R as [->|(s & ->)]; [left; reflexivity|right; eauto].
  - rewrite E. exact U.
Qed.
Lemma until_split w : exists r, w = until_bytes w "/"%char ++ r /\ ~ In "/"%char (until_bytes w "/"%char) /\ (r = [] \/ exists s, r = "/"%char :: s).
Proof.
  unfold until_bytes. induction w as [|c w (r & E & N & R)]; [exists []; cbn; auto|]. cbn [split_on]. destruct (Ascii.eqb_spec c "/"%char) as [->|D].
  - exists ("/"%char :: w). cbn [hd app In]. split; [reflexivity|]. split; [intros []|right; eauto].
  - pose proof (split_ne (fun c => Ascii.eqb c "/"%char) w) as NE. destruct (split_on (fun c => Ascii.eqb c "/"%char) w) as [|v vs]; [congruence|]. cbn [hd] in *. exists r. cbn [app In]. split; [rewrite <- E; reflexivity|]. split; [|exact R].
    intros [H|H]; [congruence|exact (N H)].
Qed.
Lemma corner_iff w n : corner w n <-> usize_of (until_bytes w "/"%char) = Some n.
Proof. split; [apply corner_ok|]. intros U. destruct (until_split w) as (r & E & N & R). exists (until_bytes w "/"%char), r. auto. Qed.
Lemma v_blank : ~ blank "v"%char. Proof. intros [H|H]; discriminate. Qed.
Lemma f_blank : ~ blank "f"%char. Proof. intros [H|H]; discriminate. Qed.
Lemma v_words r : to_words (str "v " ++ r) = str "v" :: to_words r. Proof. exact (words_prefix "v"%char r v_blank). Qed.
Lemma f_words r : to_words (str "f " ++ r) = str "f" :: to_words r. Proof. exact (words_prefix "f"%char r f_blank). Qed.
Lemma vertex_ok ft r p : point_text ft r p -> obj_vertex ft (str "v " ++ r) = Ok p.
Proof. intros H. unfold obj_vertex. rewrite v_words. apply point_ok, H. Qed.
Lemma vertex_err ft r : (forall p, ~ point_text ft r p) -> obj_vertex ft (str "v " ++ r) = Err ObjVertex.
Proof. intros H. unfold obj_vertex. rewrite v_words. apply point_err, H. Qed.
Lemma face_ok r a b c : corners r a b c -> obj_face (str "f " ++ r) = Ok (minus_one a, minus_one b, minus_one c).
Proof.
  intros (u & v & w & rest & Sp & A & B & C). apply blank_words in Sp. apply corner_iff in A, B, C. unfold obj_face. rewrite f_words, Sp. cbn [obj_index]. rewrite A. cbn [obind obj_index]. rewrite B. cbn [obind obj_index]. rewrite C. reflexivity.
Qed.
Lemma face_err r : (forall a b c, ~ corners r a b c) -> obj_face (str "f " ++ r) = Err ObjFace.
Proof.
  intros N. unfold obj_face. rewrite f_words. pose proof (proj2 (blank_words r _) eq_refl) as Sp. destruct (to_words r) as [|u us] eqn:W; [reflexivity|]. cbn [obj_index].
  destruct (usize_of (until_bytes u "/"%char)) as [a|] eqn:A; [|reflexivity]. cbn [obind]. destruct us as [|v us]; [reflexivity|]. cbn [obj_index].
  destruct (usize_of (until_bytes v "/"%char)) as [b|] eqn:B; [|reflexivity]. cbn [obind]. destruct us as [|w us]; [reflexivity|]. cbn [obj_index].
  destruct (usize_of (until_bytes w "/"%char)) as [c|] eqn:C; [|reflexivity]. destruct (N a b c). exists u, v, w, us. rewrite !corner_iff. auto.
Qed.
Lemma f_not_v r : starts_with (str "v ") (str "f " ++ r) = false. Proof. reflexivity. Qed.
Lemma obj_runs ft ts os : Forall2 (obj_line ft) ts os -> runs (obj_mesh_step ft) tt ts (flat_map obj_raw os) tt.
Proof.
  induction 1 as [|t o ts os L F IH]; [constructor|]. cbn [flat_map]. destruct L as [r p P|r a b c C|t V Fc]; cbn [obj_raw app].
  - eapply RItem; [|exact IH]. unfold obj_mesh_step. rewrite starts_app, (vertex_ok ft r p P). reflexivity.
  - eapply RItem; [|exact IH]. unfold obj_mesh_step. rewrite f_not_v, starts_app, (face_ok r a b c C). reflexivity.
  - eapply RSkip; [|exact IH]. unfold obj_mesh_step. rewrite (starts_no _ _ V), (starts_no _ _ Fc). reflexivity.
Qed.
Lemma obj_points_runs ft ts os : Forall2 (obj_point_line ft) ts os -> runs (obj_points_step ft) tt ts (concat os) tt.
Proof.
  induction 1 as [|t o ts os L F IH]; [constructor|]. cbn [concat]. destruct L as [r p P|t V]; cbn [app].
  - eapply RItem; [|exact IH]. unfold obj_points_step. rewrite starts_app, (vertex_ok ft r p P). reflexivity.
  - eapply RSkip; [|exact IH]. unfold obj_points_step. rewrite (starts_no _ _ V). reflexivity.
Qed.
Lemma obj_vertices_app a b : obj_vertices (a ++ b) = obj_vertices a ++ obj_vertices b.
Proof. induction a as [|[[p|x y z]|] a IH]; cbn [app obj_vertices]; [reflexivity|rewrite IH; reflexivity|exact IH|exact IH]. Qed.
Lemma obj_faces_app a b : obj_faces (a ++ b) = obj_faces a ++ obj_faces b.
Proof. induction a as [|[[p|x y z]|] a IH]; cbn [app obj_faces]; [reflexivity|exact IH|rewrite IH; reflexivity|exact IH]. Qed.
Lemma minus_pos n : (1 <= n)%N -> minus_one n = (n - 1)%N.
Proof. intros H. unfold minus_one. destruct (N.eqb_spec n 0); [lia|reflexivity]. Qed.
(** Adding a face that is fine, and one that is not. *)
Lemma add_face_fine {E} (e : E) m s a b c : abs_ok m s -> in_range s a /\ in_range s b /\ in_range s c /\ a <> b /\ a <> c /\ b <> c ->
  exists m', mesh_add e m (MFace (a, b, c)) = (m', Ok tt) /\ abs_ok m' (MSpec (svs s) (sfs s ++ [(a, b, c)])).
Proof.
  intros (A & B) (R1 & R2 & R3 & N1 & N2 & N3). unfold in_range in *. cbn [mesh_add]. unfold try_add_connection. rewrite A. unfold lenN.
  destruct (N.leb_spec (N.of_nat (length (svs s))) a); [lia|]. destruct (N.leb_spec (N.of_nat (length (svs s))) b); [lia|]. destruct (N.leb_spec (N.of_nat (length (svs s))) c); [lia|].
  destruct (N.eqb_spec a b); [congruence|]. destruct (N.eqb_spec a c); [congruence|]. destruct (N.eqb_spec b c); [congruence|]. cbn [orb].
  eexists. split; [reflexivity|]. split; cbn [pc topology svs sfs]; [reflexivity|]. rewrite B, flat_app, <- !app_assoc. reflexivity.
Qed.
Lemma add_face_bad {E} (e : E) m (s : mspec (pt3 F64)) a b c : abs_ok m s -> ~ (in_range s a /\ in_range s b /\ in_range s c /\ a <> b /\ a <> c /\ b <> c) ->
  mesh_add e m (MFace (a, b, c)) = (m, Err (WNone e)).
Proof.
  intros (A & B) N. unfold in_range in *. cbn [mesh_add]. unfold try_add_connection. rewrite A. unfold lenN.
  destruct (N.leb_spec (N.of_nat (length (svs s))) a); [reflexivity|]. destruct (N.leb_spec (N.of_nat (length (svs s))) b); [reflexivity|]. destruct (N.leb_spec (N.of_nat (length (svs s))) c); [reflexivity|].
  destruct (N.eqb_spec a b); [reflexivity|]. destruct (N.eqb_spec a c); [reflexivity|]. destruct (N.eqb_spec b c); [reflexivity|]. destruct N. repeat (split; [assumption|]). assumption.
Qed.
Definition obj_spec (os : list (option obj_item)) : mspec (pt3 F64) := MSpec (obj_vertices os) (obj_faces os).
Lemma fine_range os a b c : face_fine (lenN (obj_vertices os)) a b c -> let s := obj_spec os in
  in_range s (minus_one a) /\ in_range s (minus_one b) /\ in_range s (minus_one c) /\ minus_one a <> minus_one b /\ minus_one a <> minus_one c /\ minus_one b <> minus_one c.
Proof. intros (A & B & C & N1 & N2 & N3). cbn. unfold in_range. cbn [svs obj_spec]. unfold lenN in *. rewrite !minus_pos by lia. lia. Qed.
Lemma range_fine os a b c : (lenN (obj_vertices os) < 2 ^ 64)%N -> let s := obj_spec os in
  in_range s (minus_one a) /\ in_range s (minus_one b) /\ in_range s (minus_one c) /\ minus_one a <> minus_one b /\ minus_one a <> minus_one c /\ minus_one b <> minus_one c -> face_fine (lenN (obj_vertices os)) a b c.
Proof.
  intros L. cbn. unfold in_range. cbn [svs obj_spec]. unfold face_fine, lenN in *. unfold minus_one.
  destruct (N.eqb_spec a 0), (N.eqb_spec b 0), (N.eqb_spec c 0); lia.
Qed.
Lemma ordered_ok os : ordered os -> faces_ok (obj_spec os).
Proof.
  intros O a b c I. cbn [sfs obj_spec] in I.
  assert (H : exists before x y z after, os = before ++ Some (OFace x y z) :: after /\ (a, b, c) = (x - 1, y - 1, z - 1)%N).
  { clear O. induction os as [|[[p|x y z]|] os IH]; cbn [obj_faces] in I; [destruct I| | |].
    - destruct (IH I) as (bf & x & y & z & af & -> & E). exists (Some (OVertex p) :: bf), x, y, z, af. auto.
    - destruct I as [I|I]; [exists [], x, y, z, os; auto|]. destruct (IH I) as (bf & x' & y' & z' & af & -> & E). exists (Some (OFace x y z) :: bf), x', y', z', af. auto.
    - destruct (IH I) as (bf & x & y & z & af & -> & E). exists (None :: bf), x, y, z, af. auto. }
  destruct H as (bf & x & y & z & af & E & F). injection F as -> -> ->. specialize (O bf x y z af E). subst os. unfold in_range. cbn [svs obj_spec]. rewrite obj_vertices_app, app_length.
  destruct O as (A & B & C & N1 & N2 & N3). unfold lenN in *. lia.
Qed.
Lemma obj_folds : forall os pre m, abs_ok m (obj_spec pre) -> ordered (pre ++ os) -> exists m', folds (mesh_add ObjInvalidMeshIndices) m (flat_map obj_raw os) m' /\ abs_ok m' (obj_spec (pre ++ os)).
Proof.
  induction os as [|o os IH]; intros pre m A O; [exists m; rewrite app_nil_r; split; [constructor|exact A]|].
  assert (EQ : pre ++ o :: os = (pre ++ [o]) ++ os) by (rewrite <- app_assoc; reflexivity). rewrite EQ in *. cbn [flat_map].
  assert (K : exists m1, folds (mesh_add ObjInvalidMeshIndices) m (obj_raw o) m1 /\ abs_ok m1 (obj_spec (pre ++ [o]))).
  { destruct o as [[p|a b c]|]; cbn [obj_raw].
    - exists (fst (add_vertex m p)). split; [econstructor; [reflexivity|constructor]|]. destruct A as (A & B). unfold obj_spec. rewrite obj_vertices_app, obj_faces_app. cbn [obj_vertices obj_faces]. split; cbn [add_vertex fst pc topology svs sfs]; [rewrite A; reflexivity|rewrite B, app_nil_r; reflexivity].
    - rewrite <- app_assoc in O. specialize (O pre a b c os eq_refl). destruct (add_face_fine ObjInvalidMeshIndices m _ _ _ _ A (fine_range pre a b c O)) as (m1 & B & A1). exists m1. split; [econstructor; [exact B|constructor]|].
      unfold obj_spec. rewrite obj_vertices_app, obj_faces_app. cbn [obj_vertices obj_faces]. rewrite app_nil_r. cbn [svs sfs obj_spec] in A1. destruct O as ((? & ?) & (? & ?) & (? & ?) & _). rewrite !minus_pos in A1 by assumption. exact A1.
    - exists m. split; [constructor|]. unfold obj_spec. rewrite obj_vertices_app, obj_faces_app. cbn [obj_vertices obj_faces]. rewrite !app_nil_r. exact A. }
  destruct K as (m1 & F1 & A1). destruct (IH (pre ++ [o]) m1 A1 O) as (m' & F & A'). exists m'. split; [eapply folds_app; eassumption|exact A'].
Qed.
Lemma empty_abs : abs_ok (mesh_empty : mesh (pt3 F64)) (MSpec [] []). Proof. split; reflexivity. Qed.
Lemma obj_all os : ordered os -> exists m', folds (mesh_add ObjInvalidMeshIndices) mesh_empty (flat_map obj_raw os) m' /\ abs_ok m' (obj_spec os) /\ shows m' (obj_spec os).
Proof. intros O. destruct (obj_folds os [] mesh_empty empty_abs O) as (m' & F & A). exists m'. split; [exact F|]. split; [exact A|]. apply abs_shows; [exact A|apply ordered_ok, O]. Qed.

(** ** lines that are passed over *)
Lemma runs_filter {S E A} (step : S -> bytes -> line_step S E A) (keep : bytes -> bool) : (forall s t, keep t = false -> step s t = LSkip s) -> forall ts s l s', runs step s (filter keep ts) l s' -> runs step s ts l s'.
Proof.
  intros H. induction ts as [|t ts IH]; intros s l s' R; [exact R|]. cbn [filter] in R. destruct (keep t) eqn:K.
  - inversion R; subst; [eapply RSkip|eapply RItem]; eauto.
  - eapply RSkip; [apply H, K|]. apply IH, R.
Qed.

(** ** off *)
Lemma not_content {C} (s : off_state C) t : content t = false -> off_pass s t = Some s.
Proof.
  intros H. unfold off_pass. destruct t as [|c t]; [rewrite Bool.andb_false_r; reflexivity|]. cbn [content] in H. apply Bool.negb_false_iff in H. apply Ascii.eqb_eq in H. subst c.
  change (starts_with (str "OFF") ("#"%char :: t)) with false. rewrite Bool.andb_false_r. reflexivity.
Qed.
Lemma content_pass {C} (s : off_state C) t : content t = true -> off_seen s = true -> off_pass s t = None.
Proof.
  intros H Se. unfold off_pass. rewrite Se. cbn [negb andb]. destruct t as [|c t]; [discriminate|]. cbn [content] in H. apply Bool.negb_true_iff in H. cbn [bytes_eqb orb].
  unfold starts_with. cbn [strip_prefix str list_ascii_of_string]. rewrite Ascii.eqb_sym, H. reflexivity.
Qed.
Lemma counts_ok t nv nf : counts_text t nv nf -> off_two_counts t = Ok (nv, nf).
Proof. intros (v & f & rest & Sp & V & F). apply blank_words in Sp. unfold off_two_counts. rewrite Sp. unfold next_count. cbn [next_usize]. rewrite V. cbn [ok_or obind]. cbn [next_usize]. rewrite F. reflexivity. Qed.
Lemma off_face_ok t f : face_text3 t f -> off_face t = Ok f.
Proof.
  destruct f as [[a b] c]. intros (u & v & w & rest & Sp & A & B & C). apply blank_words in Sp. unfold off_face. rewrite Sp. cbn [bytes_eqb str list_ascii_of_string]. rewrite Ascii.eqb_refl. cbn [andb]. unfold next_count.
  cbn [next_usize]. rewrite A. cbn [ok_or obind next_usize]. rewrite B. cbn [ok_or obind next_usize]. rewrite C. reflexivity.
Qed.
Lemma off_vertices_run ft nv nf vs ps : Forall2 (point_text ft) vs ps -> Forall (fun t => content t = true) vs -> forall n, (n + lenN ps <= nv)%N ->
  runs (off_mesh_step ft) (mkoff true (Some (nv, nf)) n) vs (map (fun p => FItem (MPoint p)) ps) (mkoff true (Some (nv, nf)) (n + lenN ps)).
Proof.
  induction 1 as [|t p vs ps P F IH]; intros C n L; [cbn [map]; unfold lenN; cbn [length]; rewrite N.add_0_r; constructor|]. inversion C as [|? ? C1 C2]; subst. cbn [map]. unfold lenN in *. cbn [length] in *.
  eapply RItem.
  - unfold off_mesh_step. rewrite content_pass by (exact C1 || reflexivity). cbn [off_counts off_added off_seen]. destruct (N.ltb_spec n nv); [|lia]. unfold off_vertex. rewrite (point_ok ft OffVertex t p P). reflexivity.
  - specialize (IH C2 (n + 1)%N ltac:(lia)). replace (n + N.of_nat (Datatypes.S (length ps)))%N with (n + 1 + N.of_nat (length ps))%N by lia. exact IH.
Qed.
Lemma off_faces_run ft nv nf fs fcs n : Forall2 face_text3 fs fcs -> Forall (fun t => content t = true) fs -> (nv <= n)%N ->
  runs (off_mesh_step ft) (mkoff true (Some (nv, nf)) n) fs (map (fun f => FItem (MFace f)) fcs) (mkoff true (Some (nv, nf)) n).
Proof.
  intros F C L. induction F as [|t f fs fcs P F IH]; [constructor|]. inversion C as [|? ? C1 C2]; subst. cbn [map]. eapply RItem; [|apply IH, C2].
  unfold off_mesh_step. rewrite content_pass by (exact C1 || reflexivity). cbn [off_counts off_added off_seen]. destruct (N.ltb_spec n nv); [lia|]. rewrite (off_face_ok t f P). reflexivity.
Qed.
Lemma off_not_skip {C} t r : t = str "OFF" ++ r -> off_pass (C := C) off_start t = Some (mkoff true None 0).
Proof. intros ->. unfold off_pass. rewrite starts_app. reflexivity. Qed.
Lemma off_header_run ft hs nv nf : off_header hs nv nf -> Forall (fun t => content t = true) hs -> runs (off_mesh_step ft) off_start hs [FReserve nv nf] (mkoff true (Some (nv, nf)) 0).
Proof.
  intros (r & c & -> & CT) C. inversion C as [|? ? C1 C2]; subst. inversion C2 as [|? ? C3 C4]; subst. eapply RSkip; [unfold off_mesh_step; rewrite (off_not_skip _ r eq_refl); reflexivity|].
  eapply RItem; [|constructor]. unfold off_mesh_step. rewrite content_pass by (exact C3 || reflexivity). cbn [off_counts off_added off_seen]. rewrite (counts_ok c nv nf CT). reflexivity.
Qed.
Lemma off_mesh_run ft ts hs vs fs nv nf ps fcs : filter content ts = hs ++ vs ++ fs -> off_header hs nv nf -> Forall2 (point_text ft) vs ps -> Forall2 face_text3 fs fcs -> (lenN ps = nv \/ (lenN ps <= nv)%N /\ fcs = []) ->
  runs (off_mesh_step ft) off_start ts (FReserve nv nf :: map (fun p => FItem (MPoint p)) ps ++ map (fun f => FItem (MFace f)) fcs) (mkoff true (Some (nv, nf)) (lenN ps)).
Proof.
  intros FI H V F L. apply (runs_filter _ content); [intros s t K; unfold off_mesh_step; rewrite not_content by exact K; reflexivity|].
  assert (C : Forall (fun t => content t = true) (filter content ts)) by (apply Forall_forall; intros t I; apply filter_In in I; apply I). rewrite FI in *. apply Forall_app in C as (C1 & C2). apply Forall_app in C2 as (C2 & C3).
  change (FReserve nv nf :: ?l) with ([FReserve nv nf] ++ l). eapply runs_app; [apply off_header_run; assumption|].
  pose proof (off_vertices_run ft nv nf vs ps V C2 0%N ltac:(lia)) as R. rewrite N.add_0_l in R. eapply runs_app; [exact R|].
  destruct L as [L|(L & ->)]; [apply off_faces_run; [exact F|exact C3|lia]|]. inversion F; subst. constructor.
Qed.
Lemma fits_reserve nv nf : fits nv nf -> forall m, m = (mesh_empty : mesh (pt3 F64)) -> off_add m (FReserve nv nf) = (m, Ok tt).
Proof.
  intros (A & B) m ->. cbn [off_add mesh_empty pc topology]. unfold reserve, lenN. cbn [length]. change (N.of_nat 0) with 0%N. rewrite !N.add_0_l.
  assert (W : w64 (3 * nf) = (3 * nf)%N) by (unfold w64; apply N.mod_small; lia). rewrite W. destruct (N.ltb_spec (24 * nv) (2 ^ 63)); [|lia]. destruct (N.ltb_spec (8 * (3 * nf)) (2 ^ 63)); [reflexivity|lia].
Qed.
Lemma off_add_points ps : forall m, folds off_add m (map (fun p => FItem (MPoint p)) ps) (Mesh (pc m ++ ps) (topology m)).
Proof. induction ps as [|p ps IH]; intros m; [rewrite app_nil_r; destruct m; constructor|]. cbn [map]. econstructor; [reflexivity|]. specialize (IH (fst (add_vertex m p))). cbn [add_vertex fst pc topology] in *. rewrite <- app_assoc in IH. exact IH. Qed.
Lemma off_add_faces vs fs : forall gs m, (forall a b c, In (a, b, c) fs -> let s := MSpec vs gs in in_range s a /\ in_range s b /\ in_range s c /\ a <> b /\ a <> c /\ b <> c) -> abs_ok m (MSpec vs gs) ->
  exists m', folds off_add m (map (fun f => FItem (MFace f)) fs) m' /\ abs_ok m' (MSpec vs (gs ++ fs)).
Proof.
  induction fs as [|[[a b] c] fs IH]; intros gs m R A; [exists m; rewrite app_nil_r; split; [constructor|exact A]|].
  destruct (add_face_fine OffInvalidMeshIndices m _ a b c A (R a b c (or_introl eq_refl))) as (m1 & B & A1). cbn [svs sfs] in A1.
  destruct (IH (gs ++ [(a, b, c)]) m1) as (m' & F & A'); [intros x y z I; exact (R x y z (or_intror I))|exact A1|]. exists m'. rewrite <- app_assoc in A'. split; [|exact A']. cbn [map]. econstructor; [exact B|exact F].
Qed.
Lemma off_folds nv nf ps fcs : fits nv nf -> faces_ok (MSpec ps fcs) -> exists m', folds off_add mesh_empty (FReserve nv nf :: map (fun p => FItem (MPoint p)) ps ++ map (fun f => FItem (MFace f)) fcs) m' /\ abs_ok m' (MSpec ps fcs) /\ shows m' (MSpec ps fcs).
Proof.
  intros FT OK. destruct (off_add_faces ps fcs [] (Mesh ps [])) as (m' & F & A); [exact OK|split; reflexivity|]. exists m'. split; [|split; [exact A|apply abs_shows; [exact A|exact OK]]].
  econstructor; [apply fits_reserve; [exact FT|reflexivity]|]. eapply folds_app; [apply (off_add_points ps mesh_empty)|exact F].
Qed.

(** points of an off file *)
Lemma off_points_vertices ft nv vs ps : Forall2 (point_text ft) vs ps -> Forall (fun t => content t = true) vs -> forall n, (n + lenN ps <= nv)%N ->
  runs (off_points_step ft) (mkoff true (Some nv) n) vs (map DData ps) (mkoff true (Some nv) (n + lenN ps)).
Proof.
  induction 1 as [|t p vs ps P F IH]; intros C n L; [cbn [map]; unfold lenN; cbn [length]; rewrite N.add_0_r; constructor|]. inversion C as [|? ? C1 C2]; subst. cbn [map]. unfold lenN in *. cbn [length] in *.
  eapply RItem.
  - unfold off_points_step. rewrite content_pass by (exact C1 || reflexivity). cbn [off_counts off_added off_seen]. destruct (N.ltb_spec n nv); [|lia]. unfold off_vertex. rewrite (point_ok ft OffVertex t p P). reflexivity.
  - specialize (IH C2 (n + 1)%N ltac:(lia)). replace (n + N.of_nat (Datatypes.S (length ps)))%N with (n + 1 + N.of_nat (length ps))%N by lia. exact IH.
Qed.
Lemma off_points_run ft ts r c vs nv ps : filter content ts = (str "OFF" ++ r) :: c :: vs -> count_text c nv -> Forall2 (point_text ft) vs ps -> (lenN ps <= nv)%N ->
  runs (off_points_step ft) off_start ts (DReserve nv :: map DData ps) (mkoff true (Some nv) (lenN ps)).
Proof.
  intros FI CT V L. apply (runs_filter _ content); [intros s t K; unfold off_points_step; rewrite not_content by exact K; reflexivity|].
  assert (C : Forall (fun t => content t = true) (filter content ts)) by (apply Forall_forall; intros t I; apply filter_In in I; apply I). rewrite FI in *. inversion C as [|? ? C1 C2]; subst. inversion C2 as [|? ? C3 C4]; subst.
  eapply RSkip; [unfold off_points_step; rewrite (off_not_skip _ r eq_refl); reflexivity|]. eapply RItem.
  - unfold off_points_step. rewrite content_pass by (exact C3 || reflexivity). cbn [off_counts off_added off_seen]. destruct (count_ok OffVertexCount c nv CT) as (ws & E). rewrite E. reflexivity.
  - pose proof (off_points_vertices ft nv vs ps V C4 0%N ltac:(lia)) as R. rewrite N.add_0_l in R. exact R.
Qed.
Lemma push_datas {E} ps : forall acc, folds (E := E) push_data acc (map DData ps) (acc ++ ps).
Proof. induction ps as [|p ps IH]; intros acc; [rewrite app_nil_r; constructor|]. cbn [map]. econstructor; [reflexivity|]. specialize (IH (acc ++ [p])). rewrite <- app_assoc in IH. exact IH. Qed.
Lemma push_reserve {E} acc n : (24 * (lenN acc + n) < 2 ^ 63)%N -> push_data (E := E) acc (DReserve n) = (acc, Ok tt).
Proof. intros H. cbn [push_data]. unfold reserve. apply N.ltb_lt in H. rewrite H. reflexivity. Qed.

(** ** pts *)
Lemma pts_points_run ft n vs ps : Forall2 (point_text ft) vs ps -> Forall (fun t => nonempty t = true) vs -> forall k, (k + lenN ps <= n)%N ->
  runs (pts_step ft) (mkpts (Some n) k) vs (map DData ps) (mkpts (Some n) (k + lenN ps)).
Proof.
  induction 1 as [|t p vs ps P F IH]; intros C k L; [cbn [map]; unfold lenN; cbn [length]; rewrite N.add_0_r; constructor|]. inversion C as [|? ? C1 C2]; subst. cbn [map]. unfold lenN in *. cbn [length] in *.
  eapply RItem.
  - unfold pts_step. destruct t as [|b t]; [discriminate|]. cbn [bytes_eqb pts_n pts_added]. destruct (N.ltb_spec k n); [|lia]. rewrite (point_ok ft PtsVertex _ p P). reflexivity.
  - specialize (IH C2 (k + 1)%N ltac:(lia)). replace (k + N.of_nat (Datatypes.S (length ps)))%N with (k + 1 + N.of_nat (length ps))%N by lia. exact IH.
Qed.
(** A state in which the next line starts a block. *)
Definition pts_fresh (s : pts_state) : Prop := (pts_n s = None /\ pts_added s = 0%N) \/ exists n, pts_n s = Some n /\ (n <= pts_added s)%N.
Lemma pts_lines_run ft n b ps s : pts_lines ft n b ps -> Forall (fun t => nonempty t = true) b -> pts_fresh s -> (lenN ps <= n)%N -> runs (pts_step ft) s b (DReserve n :: map DData ps) (mkpts (Some n) (lenN ps)).
Proof.
  intros (c & vs & -> & CT & V) C FR L. inversion C as [|? ? C1 C2]; subst. eapply RItem.
  - unfold pts_step. destruct c as [|x c]; [discriminate|]. cbn [bytes_eqb]. destruct (count_ok PtsVertexCount _ n CT) as (ws & E).
    destruct FR as [(-> & ->)|(m & -> & LE)]; [unfold pts_block; rewrite E; reflexivity|]. destruct (N.ltb_spec (pts_added s) m); [lia|]. unfold pts_block. rewrite E. reflexivity.
  - pose proof (pts_points_run ft n vs ps V C2 0%N ltac:(lia)) as R. rewrite N.add_0_l in R. exact R.
Qed.
Lemma pts_blocks_run ft bs pss : Forall2 (fun b ps => pts_lines ft (lenN ps) b ps) bs pss -> Forall (fun t => nonempty t = true) (concat bs) -> forall s, pts_fresh s ->
  exists s', runs (pts_step ft) s (concat bs) (flat_map (fun ps => DReserve (lenN ps) :: map DData ps) pss) s' /\ pts_fresh s'.
Proof.
  induction 1 as [|b ps bs pss P F IH]; intros C s FR; [exists s; split; [constructor|exact FR]|]. cbn [concat] in *. apply Forall_app in C as (C1 & C2).
  pose proof (pts_lines_run ft _ b ps s P C1 FR ltac:(lia)) as R. destruct (IH C2 (mkpts (Some (lenN ps)) (lenN ps))) as (s' & R' & FR'); [right; exists (lenN ps); cbn; split; [reflexivity|lia]|].
  exists s'. split; [|exact FR']. cbn [flat_map]. eapply runs_app; eassumption.
Qed.
Lemma pts_folds {E} pss : forall acc, (24 * (lenN acc + lenN (concat pss)) < 2 ^ 63)%N -> folds (E := E) push_data acc (flat_map (fun ps => DReserve (lenN ps) :: map DData ps) pss) (acc ++ concat pss).
Proof.
  induction pss as [|ps pss IH]; intros acc L; [rewrite app_nil_r; constructor|]. cbn [flat_map concat] in *. rewrite lenN_app in L. cbn [app]. econstructor; [apply push_reserve; lia|].
  eapply folds_app; [apply push_datas|]. specialize (IH (acc ++ ps)). rewrite <- app_assoc in IH. apply IH. rewrite lenN_app. lia.
Qed.
