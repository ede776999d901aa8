(** Lemmas about loading .stl files that end too early. *)
From Verif Require Import Base BaseLemmas Num GeomSpec VecModel MeshModel MeshSpec MeshLemmas IoModel IoSpec IoLemmas ByteModel ByteLemmas PlyModel PlyLemmas MeshAlgoModel ScanModel ScanLemmas StlModel CutSpec CutLemmas CutLemmas2.
Open Scope nat_scope.

(** ** Lines starting with a word *)
Lemma trim_start_spec s : exists ws, s = ws ++ trim_start s /\ Forall (fun c => c = space \/ c = tab) ws.
Proof.
  induction s as [|c s IH]; [exists []; split; [reflexivity|constructor]|]. cbn [trim_start]. destruct (Ascii.eqb c space) eqn:E1; [|destruct (Ascii.eqb c tab) eqn:E2]; cbn [orb].
  - destruct IH as (ws & E & F). exists (c :: ws). apply Ascii.eqb_eq in E1. split; [cbn [app]; rewrite <- E; reflexivity|constructor; auto].
  - destruct IH as (ws & E & F). exists (c :: ws). apply Ascii.eqb_eq in E2. split; [cbn [app]; rewrite <- E; reflexivity|constructor; auto].
  - exists []. split; [reflexivity|constructor].
Qed.
Lemma trim_start_app ws s : Forall (fun c => c = space \/ c = tab) ws -> trim_start (ws ++ s) = trim_start s.
Proof. induction 1 as [|c ws [-> | ->] F IH]; [reflexivity|exact IH|exact IH]. Qed.
(** A line starting with a word does so, whatever is added to it. *)
Lemma starts_more w a c p q : str w = a ++ [c] -> is_whitespace c = false -> (forall x, trim_start (str w ++ x) = str w ++ x) -> starts_with (str w) (trim_start (trim_line p)) = true -> starts_with (str w) (trim_start (trim_line (p ++ q))) = true.
Proof.
  intros W C K H. apply starts_iff in H. destruct H as [r H]. destruct p as [|p0 p1]; [change (trim_line []) with (@nil ascii) in H; cbn [trim_start] in H; destruct (str w); [destruct a; discriminate|discriminate]|].
  destruct (trim_line_part (p0 :: p1)) as (x & X & E); [discriminate|]. remember (p0 :: p1) as p eqn:EP. destruct (trim_start_spec (trim_line p)) as (ws & E2 & F). rewrite H in E2.
  assert (EQ : p ++ q = ((ws ++ a) ++ [c]) ++ (r ++ x ++ q)). { rewrite E at 1. rewrite E2, W. rewrite <- !app_assoc. reflexivity. }
  rewrite EQ. destruct (trim_keep (ws ++ a) c (r ++ x ++ q) C) as [y Y]. { intros Z. apply app_eq_nil in Z. destruct Z as [_ Z]. apply app_eq_nil in Z. destruct Z as [Z _]. exact (X Z). }
  rewrite Y. rewrite <- !app_assoc. rewrite trim_start_app by exact F. rewrite app_assoc, <- W. rewrite K. apply starts_app.
Qed.
Lemma endfacet_more p q : starts_with (str "endfacet") (trim_start (trim_line p)) = true -> starts_with (str "endfacet") (trim_start (trim_line (p ++ q))) = true.
Proof. apply (starts_more "endfacet" (str "endface") "t"%char); [reflexivity|reflexivity|]. intros x. reflexivity. Qed.

(** ** The ASCII format *)
Lemma keyword_ok w e i ls u ls' j : stl_keyword w e i ls = Ok (u, ls', j) -> exists l, ls = l :: ls' /\ (j = i + 1)%N /\ starts_with (str w) (trim_start (trim_line l)) = true.
Proof. unfold stl_keyword, stl_line. destruct ls as [|l ls]; cbn [next_line obind]; [discriminate|]. destruct (starts_with (str w) (trim_start (trim_line l))) eqn:S; [|discriminate]. intros H. injection H as _ <- <-. exists l. auto. Qed.
Lemma keyword_run w e i l ls : starts_with (str w) (trim_start (trim_line l)) = true -> stl_keyword w e i (l :: ls) = Ok (tt, ls, (i + 1)%N).
Proof. intros S. unfold stl_keyword, stl_line. cbn [next_line obind]. rewrite S. reflexivity. Qed.
Lemma vertex_ok ft i ls p ls' j : stl_vertex_line ft i ls = Ok (p, ls', j) -> exists l, ls = l :: ls' /\ forall r, stl_vertex_line ft i (l :: r) = Ok (p, r, j).
Proof.
  unfold stl_vertex_line, stl_line. destruct ls as [|l ls]; cbn [next_line obind]; [discriminate|]. destruct (at_line (i + 1) (trim_line l) (ok_or (read_stl_vertex ft (trim_line l)) StlVertex)) as [q|e|] eqn:A; cbn [obind]; try discriminate.
  intros H. injection H as <- <- <-. exists l. split; [reflexivity|]. intros r. cbn [next_line obind]. rewrite A. reflexivity.
Qed.
(** A facet takes seven lines; only how the last one starts matters. *)
Lemma facet_ok ft i ls f ls' j : read_stl_facet ft i ls = Ok (f, ls', j) -> exists l1 l2 l3 l4 l5 l6 l7, ls = l1 :: l2 :: l3 :: l4 :: l5 :: l6 :: l7 :: ls' /\ starts_with (str "endfacet") (trim_start (trim_line l7)) = true /\
  forall x r, starts_with (str "endfacet") (trim_start (trim_line x)) = true -> read_stl_facet ft i (l1 :: l2 :: l3 :: l4 :: l5 :: l6 :: x :: r) = Ok (f, r, j).
Proof.
  unfold read_stl_facet. intros H. destruct ls as [|l1 ls]; [discriminate|]. cbn [stl_line next_line obind] in H. cbn zeta in H.
  destruct (starts_with (str "endsolid") (trim_start (trim_line l1))) eqn:S1; [discriminate|]. destruct (negb (starts_with (str "facet") (trim_start (trim_line l1)))) eqn:S2; [discriminate|].
  destruct (stl_keyword "outer loop" Loop (i + 1) ls) as [[[u1 ls1] i1]|e|] eqn:K1; cbn [obind] in H; try discriminate. destruct (keyword_ok _ _ _ _ _ _ _ K1) as (l2 & -> & -> & W1).
  destruct (stl_vertex_line ft (i + 1 + 1) ls1) as [[[a ls2] i2]|e|] eqn:V1; cbn [obind] in H; try discriminate. destruct (vertex_ok _ _ _ _ _ _ V1) as (l3 & -> & R1).
  destruct (stl_vertex_line ft i2 ls2) as [[[b ls3] i3]|e|] eqn:V2; cbn [obind] in H; try discriminate. destruct (vertex_ok _ _ _ _ _ _ V2) as (l4 & -> & R2).
  destruct (stl_vertex_line ft i3 ls3) as [[[c ls4] i4]|e|] eqn:V3; cbn [obind] in H; try discriminate. destruct (vertex_ok _ _ _ _ _ _ V3) as (l5 & -> & R3).
  destruct (stl_keyword "endloop" EndLoop i4 ls4) as [[[u2 ls5] i5]|e|] eqn:K2; cbn [obind] in H; try discriminate. destruct (keyword_ok _ _ _ _ _ _ _ K2) as (l6 & -> & -> & W2).
  destruct (stl_keyword "endfacet" EndFacet (i4 + 1) ls5) as [[[u3 ls6] i6]|e|] eqn:K3; cbn [obind] in H; try discriminate. destruct (keyword_ok _ _ _ _ _ _ _ K3) as (l7 & -> & -> & W3).
  injection H as <- <- <-. exists l1, l2, l3, l4, l5, l6, l7. split; [reflexivity|]. split; [exact W3|]. intros x r WX.
  unfold stl_line at 1. cbn [next_line obind]. rewrite S1, S2. rewrite (keyword_run _ _ _ _ _ W1). cbn [obind]. rewrite R1. cbn [obind]. rewrite R2. cbn [obind]. rewrite R3. cbn [obind]. rewrite (keyword_run _ _ _ _ _ W2). cbn [obind]. rewrite (keyword_run _ _ _ _ _ WX). reflexivity.
Qed.
(** The lines of a file that was cut and those of the file. *)
Definition torn (a b : list bytes) : Prop := exists c t r, a = c ++ t /\ b = c ++ r /\ (t = [] \/ exists p q r', t = [p] /\ r = (p ++ q) :: r').
Lemma torn_nil b : torn [] b. Proof. exists [], [], b. split; [reflexivity|]. split; [reflexivity|left; reflexivity]. Qed.
Lemma torn_tl a b : torn a b -> torn (tl a) (tl b).
Proof. intros (c & t & r & -> & -> & T). destruct c as [|x c]; [|exists c, t, r; auto]. cbn [app]. destruct T as [-> | (p & q & r' & -> & ->)]; apply torn_nil. Qed.
Lemma torn_drop {A} (c : list A) : forall n ls t r, c ++ t = n ++ ls -> length n <= length c -> exists c', ls = c' ++ t /\ c ++ r = n ++ c' ++ r.
Proof.
  induction c as [|x c IH]; intros n ls t r E L; [destruct n; [|cbn in L; lia]; exists []; cbn in *; split; [congruence|reflexivity]|]. destruct n as [|y n]; [exists (x :: c); split; [symmetry; exact E|reflexivity]|].
  cbn [app] in E. injection E as <- E. cbn [length] in L. destruct (IH n ls t r E) as (c' & -> & E'); [lia|]. exists c'. split; [reflexivity|]. cbn [app]. rewrite E'. reflexivity.
Qed.
Lemma facet_cut ft i a b f ls j : torn a b -> read_stl_facet ft i a = Ok (f, ls, j) -> exists ls', read_stl_facet ft i b = Ok (f, ls', j) /\ torn ls ls'.
Proof.
  intros (c & t & r & -> & -> & T) H. destruct (facet_ok _ _ _ _ _ _ H) as (l1 & l2 & l3 & l4 & l5 & l6 & l7 & E & W & R). destruct (le_lt_dec 7 (length c)) as [L|L].
  - destruct (torn_drop c [l1; l2; l3; l4; l5; l6; l7] ls t r E L) as (c' & -> & E'). rewrite E'. exists (c' ++ r). split; [apply R, W|]. exists c', t, r. auto.
  - assert (LE : length (c ++ t) >= 7) by (rewrite E; cbn [length]; lia). rewrite app_length in LE. destruct T as [-> | (p & q & r' & -> & ->)]; cbn [length] in LE; [lia|].
    assert (LC : length c = 6) by lia. destruct c as [|x1 [|x2 [|x3 [|x4 [|x5 [|x6 [|]]]]]]]; cbn [length] in LC; try lia. cbn [app] in E. injection E as -> -> -> -> -> -> -> <-.
    cbn [app]. exists r'. split; [|apply torn_nil]. apply R, endfacet_more, W.
Qed.
Definition same_sa (s1 s2 : stl_ascii) : Prop := sa_done s1 = sa_done s2 /\ sa_header s1 = sa_header s2 /\ sa_line s1 = sa_line s2 /\ torn (sa_read s1) (sa_read s2).
Lemma stl_ascii_cut ft s1 s2 : same_sa s1 s2 -> (fst (stl_ascii_next ft s1) = fst (stl_ascii_next ft s2) /\ same_sa (snd (stl_ascii_next ft s1)) (snd (stl_ascii_next ft s2))) \/ item_free (stl_ascii_next ft) s1.
Proof.
  destruct s1 as [l1 d h i], s2 as [l2 d2 h2 i2]. intros (D & HD & I & T). cbn in D, HD, I, T. subst d2 h2 i2. destruct d; [left; split; [reflexivity|repeat split; exact T]|].
  assert (G : forall a b n, torn a b -> (exists f ls ls' j, read_stl_facet ft n a = Ok (f, ls, j) /\ read_stl_facet ft n b = Ok (f, ls', j) /\ torn ls ls') \/ forall x, read_stl_facet ft n a <> Ok x).
  { intros a b n TT. destruct (read_stl_facet ft n a) as [[[f ls] j]|e|] eqn:F; [left|right; intros x; discriminate|right; intros x; discriminate]. destruct (facet_cut _ _ _ _ _ _ _ TT F) as (ls' & F' & T'). exists f, ls, ls', j. auto. }
  unfold stl_ascii_next at 1 2 3 4. cbn [sa_done sa_header sa_read sa_line]. destruct h; cbn [sa_done sa_header sa_read sa_line].
  - destruct (G l1 l2 i T) as [(f & ls & ls' & j & E1 & E2 & T')|N].
    + left. rewrite E1, E2. split; [reflexivity|]. repeat split. exact T'.
    + right. intros a s' H. unfold stl_ascii_next in H. cbn [sa_done sa_header sa_read sa_line] in H. destruct (read_stl_facet ft i l1) as [x|e|]; [destruct (N x eq_refl)| |discriminate]. destruct (info_error e); discriminate.
  - destruct (G (tl l1) (tl l2) (i + 1)%N (torn_tl _ _ T)) as [(f & ls & ls' & j & E1 & E2 & T')|N].
    + left. rewrite E1, E2. split; [reflexivity|]. repeat split. exact T'.
    + right. intros a s' H. unfold stl_ascii_next in H. cbn [sa_done sa_header sa_read sa_line] in H. destruct (read_stl_facet ft (i + 1) (tl l1)) as [x|e|]; [destruct (N x eq_refl)| |discriminate]. destruct (info_error e); discriminate.
Qed.

(** ** The binary format *)
Definition same_sb (s1 s2 : stl_binary) : Prop := sb_done s1 = sb_done s2 /\ sb_header s1 = sb_header s2 /\ sb_n s1 = sb_n s2 /\ sb_current s1 = sb_current s2 /\ prefix (sb_read s1) (sb_read s2).
Lemma triangle_mono : bmono read_stl_triangle.
Proof.
  intros a b x r P H. unfold read_stl_triangle in *. destruct (take_bytes 50 a) as [[buffer q]|] eqn:T; [|discriminate]. destruct (take_mono _ _ _ _ _ P T) as (q' & T' & P'). rewrite T'.
  destruct (stl_array buffer 0 12) as [n|e|]; cbn [obind] in *; try discriminate. destruct (stl_array buffer 12 24) as [p1|e|]; cbn [obind] in *; try discriminate. destruct (stl_array buffer 24 36) as [p2|e|]; cbn [obind] in *; try discriminate.
  destruct (stl_array buffer 36 48) as [p3|e|]; cbn [obind] in *; try discriminate. injection H as <- <-. exists q'. auto.
Qed.
Lemma stl_binary_cut s1 s2 : same_sb s1 s2 -> (fst (stl_binary_next s1) = fst (stl_binary_next s2) /\ same_sb (snd (stl_binary_next s1)) (snd (stl_binary_next s2))) \/ fails (stl_binary_next s1).
Proof.
  destruct s1 as [r1 d h n c], s2 as [r2 d2 h2 n2 c2]. intros (D & HD & NN & C & P). cbn in D, HD, NN, C, P. subst d2 h2 n2 c2. destruct d; [left; split; [reflexivity|repeat split; exact P]|].
  destruct h.
  - unfold stl_binary_next. cbn [sb_done sb_header sb_n sb_current sb_read negb]. destruct (c <? n)%N eqn:CN; [|left; split; [reflexivity|repeat split; exact P]].
    destruct (read_stl_triangle r1) as [[f q]|e|] eqn:F.
    + destruct (triangle_mono _ _ _ _ P F) as (q' & F' & P'). rewrite F'. left. split; [reflexivity|]. repeat split. exact P'.
    + right. left. eexists. reflexivity.
    + right. right. reflexivity.
  - unfold stl_binary_next. cbn [sb_done sb_header sb_n sb_current sb_read negb]. destruct (take_bytes 75 r1) as [[x q]|] eqn:T.
    2: { right. left. eexists. reflexivity. }
    destruct (take_mono _ _ _ _ _ P T) as (q' & T' & P'). rewrite T'. destruct (read_unsigned Little 4 q) as [[m w]|] eqn:U.
    + destruct (uint_mono _ _ _ _ _ _ P' U) as (w' & U' & PW). unfold read_unsigned. rewrite U'. left. destruct (max_triangles <? m)%N; (split; [reflexivity|]; repeat split; exact PW).
    + right. left. eexists. reflexivity.
Qed.
Definition binary_stl_file (fmt : StlFormat) (file : bytes) : Prop := exists r, stl_is_ascii fmt file = Ok (false, r).
Lemma stl_items_cut ft fmt k k' part file is r is' r' : prefix part file -> stl_items ft k fmt file = Some (is, r) -> stl_items ft k' fmt part = Some (is', r') ->
  prefix is' is /\ (binary_stl_file fmt file -> r' = Ok tt -> is' = is /\ r = Ok tt).
Proof.
  intros P H H'. unfold binary_stl_file, stl_items in *. unfold stl_is_ascii in *. destruct (take_bytes 5 part) as [[b q]|] eqn:T; [|injection H' as <- <-; split; [apply prefix_nil|discriminate]]. destruct (take_mono _ _ _ _ _ P T) as (q' & T' & P'). rewrite T' in *. cbn [simple] in *.
  destruct (match fmt with StlAscii => true | StlBinary => false | StlAuto => bytes_eqb b (str "solid") end); rewrite load_fold in H, H'.
  - split; [|intros [x X]; discriminate].
    apply (sim_exact (stl_ascii_next ft) (stl_ascii_next ft) push_body (@prefix _) prefix_refl prefix_trans (fun m a => prefix_snoc m a) same_sa (stl_ascii_cut ft) k' k (mksa (raw_lines q) false false 0) (mksa (raw_lines q') false false 0) [] is' is r' r); [|exact H'|exact H].
    repeat split. destruct (raw_cut q q' P') as (c & t & r0 & E1 & E2 & TT). exists c, t, r0. split; [exact E1|]. split; [exact E2|]. destruct TT as [-> | (p & y & r1 & -> & -> & _)]; [left; reflexivity|right; exists p, y, r1; auto].
  - destruct (sim_fails stl_binary_next stl_binary_next push_body (@prefix _) prefix_refl prefix_trans (fun m a => prefix_snoc m a) same_sb stl_binary_cut k' k (mksb q false false 0 0) (mksb q' false false 0 0) [] is' is r' r) as [X Y]; [|exact H'|exact H|split; [exact X|intros _; exact Y]].
    repeat split. exact P'.
Qed.
(** ** Meshes *)
Lemma add_vertex_grows m (p : pt3 F64) : mgrows m (fst (add_vertex m p)). Proof. apply (mesh_add_grows tt m (MPoint p)). Qed.
Lemma connection_grows m a b c : mgrows m (fst (@try_add_connection (pt3 F64) m a b c)).
Proof. pose proof (mesh_add_grows tt m (MFace (a, b, c))) as G. cbn [mesh_add] in G. destruct (try_add_connection m a b c) as [m' [u|e|]]; exact G. Qed.
Lemma add_face_grows m (a b c : pt3 F64) : mgrows m (fst (add_face m a b c)).
Proof.
  set (m3 := fst (add_vertex (fst (add_vertex (fst (add_vertex m a)) b)) c)). assert (E : fst (add_face m a b c) = fst (try_add_connection m3 (lenN (pc m)) (lenN (pc m) + 1) (lenN (pc m) + 2))).
  { unfold m3, add_face, try_add_connection, add_vertex. cbn [fst snd pc topology]. rewrite !lenN_app. change (lenN [a]) with 1%N. change (lenN [b]) with 1%N. change (lenN [c]) with 1%N.
    replace (lenN (pc m) + 1 + 1 + 1 <=? lenN (pc m))%N with false by (symmetry; apply N.leb_gt; lia). replace (lenN (pc m) + 1 + 1 + 1 <=? lenN (pc m) + 1)%N with false by (symmetry; apply N.leb_gt; lia). replace (lenN (pc m) + 1 + 1 + 1 <=? lenN (pc m) + 2)%N with false by (symmetry; apply N.leb_gt; lia).
    cbn [orb]. replace (lenN (pc m) =? lenN (pc m) + 1)%N with false by (symmetry; apply N.eqb_neq; lia). replace (lenN (pc m) =? lenN (pc m) + 2)%N with false by (symmetry; apply N.eqb_neq; lia). replace (lenN (pc m) + 1 =? lenN (pc m) + 2)%N with false by (symmetry; apply N.eqb_neq; lia). cbn [orb fst].
    replace (lenN (pc m) + 1 - 1)%N with (lenN (pc m)) by lia. replace (lenN (pc m) + 1 + 1 - 1)%N with (lenN (pc m) + 1)%N by lia. replace (lenN (pc m) + 1 + 1 + 1 - 1)%N with (lenN (pc m) + 2)%N by lia. reflexivity. }
  rewrite E. apply (mgrows_trans _ m3); [|apply connection_grows]. unfold m3. eapply mgrows_trans; [apply (add_vertex_grows m a)|]. eapply mgrows_trans; [apply (add_vertex_grows _ b)|]. apply add_vertex_grows.
Qed.
Lemma duped_grows x s : mgrows (fst s) (fst (duped_step s x)) /\ prefix (snd s) (snd (duped_step s x)).
Proof. destruct x as [n|f]; cbn [duped_step fst snd]; [split; [apply mgrows_refl|apply prefix_refl]|split; [apply add_face_grows|apply prefix_snoc]]. Qed.
Lemma duped_fold l : forall s, mgrows (fst s) (fst (fold_left duped_step l s)) /\ prefix (snd s) (snd (fold_left duped_step l s)).
Proof.
  induction l as [|x l IH]; intros s; [split; [apply mgrows_refl|apply prefix_refl]|]. cbn [fold_left]. destruct (duped_grows x s) as [G P]. destruct (IH (duped_step s x)) as [G' P']. split; [eapply mgrows_trans; eassumption|eapply prefix_trans; eassumption].
Qed.
Lemma unique_vertex_grows same s p : mgrows (fst s) (fst (snd (unique_vertex same s p))).
Proof. destruct s as [m map]. cbn [unique_vertex fst]. destruct (map_get same map p); cbn [fst snd]; [apply mgrows_refl|apply add_vertex_grows]. Qed.
Lemma unique_grows same x s : mgrows (fst (fst s)) (fst (fst (unique_step same s x))) /\ prefix (snd s) (snd (unique_step same s x)).
Proof.
  destruct x as [n|f]; [split; [apply mgrows_refl|apply prefix_refl]|]. destruct s as [mm normals]. unfold unique_step.
  pose proof (unique_vertex_grows same mm (sf_a f)) as G1. destruct (unique_vertex same mm (sf_a f)) as [ida mm1]. pose proof (unique_vertex_grows same mm1 (sf_b f)) as G2. destruct (unique_vertex same mm1 (sf_b f)) as [idb mm2].
  pose proof (unique_vertex_grows same mm2 (sf_c f)) as G3. destruct (unique_vertex same mm2 (sf_c f)) as [idc [m map]]. cbn [fst snd] in *. pose proof (connection_grows m ida idb idc) as G4.
  assert (G : mgrows (fst mm) m) by (eapply mgrows_trans; [exact G1|]; eapply mgrows_trans; [exact G2|exact G3]).
  destruct (try_add_connection m ida idb idc) as [m' [u|e|]]; cbn [fst snd] in *; (split; [eapply mgrows_trans; [exact G|exact G4]|first [apply prefix_snoc|apply prefix_refl]]).
Qed.
Lemma unique_fold same l : forall s, mgrows (fst (fst s)) (fst (fst (fold_left (unique_step same) l s))) /\ prefix (snd s) (snd (fold_left (unique_step same) l s)).
Proof.
  induction l as [|x l IH]; intros s; [split; [apply mgrows_refl|apply prefix_refl]|]. cbn [fold_left]. destruct (unique_grows same x s) as [G P]. destruct (IH (unique_step same s x)) as [G' P']. split; [eapply mgrows_trans; eassumption|eapply prefix_trans; eassumption].
Qed.
Lemma stl_triplets_cut ft fmt k k' part file ps ns r ps' ns' r' : prefix part file -> load_stl_triplets ft k fmt file = Some (ps, ns, r) -> load_stl_triplets ft k' fmt part = Some (ps', ns', r') ->
  prefix ps' ps /\ prefix ns' ns /\ length ps' = 3 * length ns' /\ (binary_stl_file fmt file -> r' = Ok tt -> ps' = ps /\ ns' = ns /\ r = Ok tt).
Proof.
  intros P H H'. unfold load_stl_triplets in *. destruct (stl_items ft k fmt file) as [[is r0]|] eqn:I; [|discriminate]. destruct (stl_items ft k' fmt part) as [[is' r0']|] eqn:I'; [|discriminate]. injection H as <- <- ->. injection H' as <- <- ->.
  destruct (stl_items_cut _ _ _ _ _ _ _ _ _ _ P I I') as [PP O]. split; [apply prefix_flat_map, PP|]. split; [apply prefix_flat_map, PP|]. split.
  - clear. induction is' as [|[n|f] is' IH]; cbn [flat_map app length]; [reflexivity|exact IH|]. lia.
  - intros B R. destruct (O B R) as [-> ->]. auto.
Qed.
Lemma stl_duped_cut ft fmt k k' part file m ns r m' ns' r' : prefix part file -> load_stl_mesh_duped ft k fmt file mesh_empty [] = Some (m, ns, r) -> load_stl_mesh_duped ft k' fmt part mesh_empty [] = Some (m', ns', r') ->
  prefix ns' ns /\ (exists s' s, shows m' s' /\ shows m s /\ mesh_prefix s' s) /\ (binary_stl_file fmt file -> r' = Ok tt -> m' = m /\ r = Ok tt).
Proof.
  intros P H H'. unfold load_stl_mesh_duped in *. destruct (stl_items ft k fmt file) as [[is r0]|] eqn:I; [|discriminate]. destruct (stl_items ft k' fmt part) as [[is' r0']|] eqn:I'; [|discriminate]. injection H as H <-. injection H' as H' <-.
  destruct (stl_items_cut _ _ _ _ _ _ _ _ _ _ P I I') as [[c ->] O]. rewrite fold_left_app in H. pose proof (duped_fold c (fold_left duped_step is' (mesh_empty, []))) as [G PN]. pose proof (duped_fold is' (mesh_empty, [])) as [G0 _]. rewrite H, H' in *. cbn [fst snd] in *.
  split; [exact PN|]. split; [apply exact_shows; assumption|]. intros B R. destruct (O B R) as [E1 E2]. split; [|exact E2].
  assert (c = []) by (destruct c; [reflexivity|apply (f_equal (@length _)) in E1; rewrite app_length in E1; cbn [length] in E1; lia]). subst c. cbn [fold_left] in H. congruence.
Qed.
Lemma stl_unique_cut ft same fmt k k' part file m ns r m' ns' r' : prefix part file -> load_stl_mesh_unique ft same k fmt file mesh_empty [] = Some (m, ns, r) -> load_stl_mesh_unique ft same k' fmt part mesh_empty [] = Some (m', ns', r') ->
  prefix ns' ns /\ (exists s' s, shows m' s' /\ shows m s /\ mesh_prefix s' s) /\ (binary_stl_file fmt file -> r' = Ok tt -> m' = m /\ r = Ok tt).
Proof.
  intros P H H'. unfold load_stl_mesh_unique in *. destruct (stl_items ft k fmt file) as [[is r0]|] eqn:I; [|discriminate]. destruct (stl_items ft k' fmt part) as [[is' r0']|] eqn:I'; [|discriminate].
  destruct (stl_items_cut _ _ _ _ _ _ _ _ _ _ P I I') as [[c ->] O]. rewrite fold_left_app in H. pose proof (unique_fold same c (fold_left (unique_step same) is' (mesh_empty, [], []))) as [G PN]. pose proof (unique_fold same is' (mesh_empty, [], [])) as [G0 _].
  destruct (fold_left (unique_step same) is' (mesh_empty, [], [])) as [[m1 map1] ns1] eqn:F1. destruct (fold_left (unique_step same) c (m1, map1, ns1)) as [[m2 map2] ns2] eqn:F2. cbn [fst snd] in *. injection H as <- <- <-. injection H' as <- <- <-.
  split; [exact PN|]. split; [apply exact_shows; assumption|]. intros B R. destruct (O B R) as [E1 E2]. split; [|exact E2].
  assert (c = []) by (destruct c; [reflexivity|apply (f_equal (@length _)) in E1; rewrite app_length in E1; cbn [length] in E1; lia]). subst c. cbn [fold_left] in F2. congruence.
Qed.
