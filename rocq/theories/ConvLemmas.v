(** Proofs about arbitrary .stl files and about saving what was loaded. *)
From Verif Require Import Base BaseLemmas Num GeomSpec FloatSpec VecModel MeshModel MeshSpec MeshLemmas MeshAlgoModel MatrixLemmas IoModel IoSpec IoLemmas ByteModel ByteSpec ByteLemmas StlModel StlSpec StlLemmas PlyModel PlySpec PlyLemmas PlySaveLemmas PlyTotalLemmas PlyProps ScanModel ScanSpec ScanLemmas ObjOffLemmas GcodeLemmas ScanProps ScanTotalProps ConvSpec.
From Coq Require Import Lia ZifyBool ZifyNat ZifyN.
Local Open Scope nat_scope.

(** ** arbitrary .stl files *)
Lemma stl_line_inv i ls l ls' j : stl_line i ls = Ok (l, ls', j) -> length ls' < length ls.
Proof. unfold stl_line, next_line. destruct ls as [|raw ls]; [discriminate|]. intros [= <- <- <-]. cbn [length]. lia. Qed.
Lemma stl_line_np i ls : stl_line i ls <> Panic.
Proof. unfold stl_line. destruct (next_line ls) as [(l, r)|]; discriminate. Qed.
Lemma stl_keyword_inv w e i ls u ls' j : stl_keyword w e i ls = Ok (u, ls', j) -> length ls' < length ls.
Proof.
  unfold stl_keyword. destruct (stl_line i ls) as [((l, r), q)|x|] eqn:L; cbn [obind]; try discriminate. apply stl_line_inv in L. destruct (starts_with _ _); [|discriminate]. intros [= <- <- <-]. exact L.
Qed.
Lemma stl_keyword_np w e i ls : stl_keyword w e i ls <> Panic.
Proof. unfold stl_keyword. pose proof (stl_line_np i ls). destruct (stl_line i ls) as [((l, r), q)|x|]; cbn [obind]; try congruence. destruct (starts_with _ _); discriminate. Qed.
Lemma f64_double ft w x : parses_doubles ft -> f64_of ft w = Some x -> is_double x.
Proof. intros D. unfold f64_of, from_ascii. destruct (is_ascii w); [apply D|discriminate]. Qed.
Lemma words_double ft ws p : parses_doubles ft -> words_point ft ws = Some p -> double3 p.
Proof.
  intros D. unfold words_point. destruct ws as [|a [|b [|c ws]]]; try discriminate.
  destruct (f64_of ft a) as [x|] eqn:A; [|discriminate]. destruct (f64_of ft b) as [y|] eqn:B; [|discriminate]. destruct (f64_of ft c) as [z|] eqn:C; [|discriminate]. intros H. injection H as <-.
  split; [exact (f64_double ft a x D A)|]. split; [exact (f64_double ft b y D B)|exact (f64_double ft c z D C)].
Qed.
Lemma stl_vertex_inv ft i ls p ls' j : stl_vertex_line ft i ls = Ok (p, ls', j) -> length ls' < length ls /\ (parses_doubles ft -> double3 p).
Proof.
  unfold stl_vertex_line. destruct (stl_line i ls) as [((l, r), q)|x|] eqn:L; cbn [obind]; try discriminate. apply stl_line_inv in L. unfold read_stl_vertex.
  destruct (to_words l) as [|w ws]; cbn [ok_or at_line obind]; [discriminate|]. destruct (words_point ft ws) as [y|] eqn:W; cbn [ok_or at_line obind]; [|discriminate]. intros [= <- <- <-]. split; [exact L|]. intros D. exact (words_double ft ws _ D W).
Qed.
Lemma stl_vertex_np ft i ls : stl_vertex_line ft i ls <> Panic.
Proof.
  unfold stl_vertex_line. pose proof (stl_line_np i ls). destruct (stl_line i ls) as [((l, r), q)|x|]; cbn [obind]; try congruence. destruct (read_stl_vertex ft l); cbn [ok_or at_line obind]; discriminate.
Qed.
(** The three corners of a facet are doubles. *)
Definition face_double (f : stl_face) : Prop := double3 (sf_a f) /\ double3 (sf_b f) /\ double3 (sf_c f).
Lemma facet_np ft i ls : read_stl_facet ft i ls <> Panic.
Proof.
  unfold read_stl_facet. pose proof (stl_line_np i ls). destruct (stl_line i ls) as [((l, r1), i1)|x|]; cbn [obind]; try congruence. destruct (starts_with _ _); [discriminate|]. destruct (negb _); [discriminate|].
  pose proof (stl_keyword_np "outer loop" Loop i1 r1). destruct (stl_keyword "outer loop" Loop i1 r1) as [((u, r2), i2)|x|]; cbn [obind]; try congruence.
  pose proof (stl_vertex_np ft i2 r2). destruct (stl_vertex_line ft i2 r2) as [((a, r3), i3)|x|]; cbn [obind]; try congruence.
  pose proof (stl_vertex_np ft i3 r3). destruct (stl_vertex_line ft i3 r3) as [((b, r4), i4)|x|]; cbn [obind]; try congruence.
  pose proof (stl_vertex_np ft i4 r4). destruct (stl_vertex_line ft i4 r4) as [((c, r5), i5)|x|]; cbn [obind]; try congruence.
  pose proof (stl_keyword_np "endloop" EndLoop i5 r5). destruct (stl_keyword "endloop" EndLoop i5 r5) as [((u', r6), i6)|x|]; cbn [obind]; try congruence.
  pose proof (stl_keyword_np "endfacet" EndFacet i6 r6). destruct (stl_keyword "endfacet" EndFacet i6 r6) as [((u'', r7), i7)|x|]; cbn [obind]; congruence.
Qed.
Lemma facet_inv ft i ls f ls' j : read_stl_facet ft i ls = Ok (f, ls', j) -> length ls' < length ls /\ (parses_doubles ft -> face_double f).
Proof.
  unfold read_stl_facet. destruct (stl_line i ls) as [((l, r1), i1)|x|] eqn:E1; cbn [obind]; try discriminate. apply stl_line_inv in E1. destruct (starts_with _ _); [discriminate|]. destruct (negb _); [discriminate|].
  destruct (stl_keyword "outer loop" Loop i1 r1) as [((u, r2), i2)|x|] eqn:E2; cbn [obind]; try discriminate. apply stl_keyword_inv in E2.
  destruct (stl_vertex_line ft i2 r2) as [((a, r3), i3)|x|] eqn:E3; cbn [obind]; try discriminate. apply stl_vertex_inv in E3 as (E3 & D3).
  destruct (stl_vertex_line ft i3 r3) as [((b, r4), i4)|x|] eqn:E4; cbn [obind]; try discriminate. apply stl_vertex_inv in E4 as (E4 & D4).
  destruct (stl_vertex_line ft i4 r4) as [((c, r5), i5)|x|] eqn:E5; cbn [obind]; try discriminate. apply stl_vertex_inv in E5 as (E5 & D5).
  destruct (stl_keyword "endloop" EndLoop i5 r5) as [((u', r6), i6)|x|] eqn:E6; cbn [obind]; try discriminate. apply stl_keyword_inv in E6.
  destruct (stl_keyword "endfacet" EndFacet i6 r6) as [((u'', r7), i7)|x|] eqn:E7; cbn [obind]; try discriminate. apply stl_keyword_inv in E7.
  intros H. injection H as <- <- <-. split; [lia|]. intros D. split; [exact (D3 D)|split; [exact (D4 D)|exact (D5 D)]].
Qed.
Lemma stl_ascii_less ft s a s' : stl_ascii_next ft s = (Some (Ok a), s') -> length (sa_read s') < length (sa_read s).
Proof.
  unfold stl_ascii_next. destruct (sa_done s); [discriminate|]. set (t := if sa_header s then s else _).
  assert (T : length (sa_read t) <= length (sa_read s)) by (subst t; destruct (sa_header s); cbn [sa_read]; [lia|destruct (sa_read s); cbn [tl length]; lia]).
  destruct (read_stl_facet ft (sa_line t) (sa_read t)) as [((f, ls), i)|w|] eqn:F; [|destruct (info_error w); discriminate|discriminate]. intros H. apply (f_equal snd) in H. cbn [snd] in H. subst s'. cbn [sa_read]. apply facet_inv in F as (F & _). lia.
Qed.
Lemma stl_ascii_np ft s : fst (stl_ascii_next ft s) <> Some Panic.
Proof.
  unfold stl_ascii_next. destruct (sa_done s); [discriminate|]. set (t := if sa_header s then s else _). pose proof (facet_np ft (sa_line t) (sa_read t)) as NP.
  destruct (read_stl_facet ft (sa_line t) (sa_read t)) as [((f, ls), i)|w|]; [discriminate|destruct (info_error w); discriminate|contradiction].
Qed.
(** The facets an element of the iterator holds are made of doubles. *)
Definition item_double (x : StlModel.data_reserve stl_face) : Prop := match x with Data f => face_double f | Reserve _ => True end.
Lemma stl_ascii_item ft s a s' : parses_doubles ft -> stl_ascii_next ft s = (Some (Ok a), s') -> item_double a.
Proof.
  intros D. unfold stl_ascii_next. destruct (sa_done s); [discriminate|]. set (t := if sa_header s then s else _).
  destruct (read_stl_facet ft (sa_line t) (sa_read t)) as [((f, ls), i)|w|] eqn:F; [|destruct (info_error w); discriminate|discriminate]. intros H. apply (f_equal fst) in H. cbn [fst] in H. injection H as <-. apply facet_inv in F as (_ & F). exact (F D).
Qed.
Lemma triangle_inv s f r : read_stl_triangle s = Ok (f, r) -> length r < length s /\ face_double f.
Proof.
  destruct (Nat.lt_ge_cases (length s) 50) as [L|L]; [rewrite short_triangle by exact L; discriminate|].
  pose proof (triangle_ok (firstn 50 s) (skipn 50 s) ltac:(rewrite firstn_length; lia)) as T. rewrite firstn_skipn in T. rewrite T. pose proof (skipn_length 50 s) as K. clear T. generalize dependent (skipn 50 s). generalize (firstn 50 s). intros b q K H.
  injection H as <- <-. split; [lia|]. unfold face_double, double3, record_point, record_f64. cbn [sf_a sf_b sf_c px py pz].
  assert (R : forall o : option (SpecFloat.spec_float * bytes), is_double (match o with Some (y, _) => widen y | None => n0 end)) by (intros [(y, t)|]; [apply widen_double|reflexivity]).
  repeat split; apply R.
Qed.
Lemma triangle_np s : read_stl_triangle s <> Panic.
Proof.
  destruct (Nat.lt_ge_cases (length s) 50) as [L|L]; [rewrite short_triangle by exact L; discriminate|].
  rewrite <- (firstn_skipn 50 s), triangle_ok by (rewrite firstn_length; lia). discriminate.
Qed.
Lemma stl_binary_less s a s' : stl_binary_next s = (Some (Ok a), s') -> length (sb_read s') < length (sb_read s).
Proof.
  unfold stl_binary_next. destruct (sb_done s); [discriminate|]. destruct (negb (sb_header s)).
  - destruct (take_bytes 75 (sb_read s)) as [(b, r)|] eqn:T; [|discriminate]. apply take_less in T. unfold read_unsigned, read_uint. destruct (take_bytes 4 r) as [(b', r')|] eqn:T'; [|discriminate]. apply take_less in T'.
    destruct (max_triangles <? _)%N; [discriminate|]. intros H. apply (f_equal snd) in H. cbn [snd] in H. subst s'. cbn [sb_read]. lia.
  - destruct (sb_current s <? sb_n s)%N; [|discriminate]. destruct (read_stl_triangle (sb_read s)) as [(f, r)|e|] eqn:F; try discriminate. intros H. apply (f_equal snd) in H. cbn [snd] in H. subst s'. cbn [sb_read]. apply triangle_inv in F as (F & _). exact F.
Qed.
Lemma stl_binary_np s : fst (stl_binary_next s) <> Some Panic.
Proof.
  unfold stl_binary_next. destruct (sb_done s); [discriminate|]. destruct (negb (sb_header s)).
  - destruct (take_bytes 75 (sb_read s)) as [(b, r)|]; [|discriminate]. destruct (read_unsigned Little 4 r) as [(n, r')|]; [|discriminate]. destruct (max_triangles <? n)%N; discriminate.
  - destruct (sb_current s <? sb_n s)%N; [|discriminate]. pose proof (triangle_np (sb_read s)). destruct (read_stl_triangle (sb_read s)) as [(f, r)|e|]; [discriminate|discriminate|contradiction].
Qed.
Lemma stl_binary_item s a s' : stl_binary_next s = (Some (Ok a), s') -> item_double a.
Proof.
  unfold stl_binary_next. destruct (sb_done s); [discriminate|]. destruct (negb (sb_header s)).
  - destruct (take_bytes 75 (sb_read s)) as [(b, r)|]; [|discriminate]. destruct (read_unsigned Little 4 r) as [(n, r')|]; [|discriminate]. destruct (max_triangles <? n)%N; [discriminate|]. intros H. apply (f_equal fst) in H. cbn [fst] in H. injection H as <-. exact I.
  - destruct (sb_current s <? sb_n s)%N; [|discriminate]. destruct (read_stl_triangle (sb_read s)) as [(f, r)|e|] eqn:F; try discriminate. intros H. apply (f_equal fst) in H. cbn [fst] in H. injection H as <-. apply triangle_inv in F as (_ & F). exact F.
Qed.
(** What a loop of pushes leaves: at most one element per call, each given by the iterator. *)
Lemma load_items {S E A} (next : S -> option (outcome E A) * S) (Q : A -> Prop) : (forall s a s', next s = (Some (Ok a), s') -> Q a) ->
  forall k s acc l r, load_loop next k s acc = Some (l, r) -> exists t, l = acc ++ t /\ length t < k /\ Forall Q t.
Proof.
  intros H. induction k as [|k IH]; intros s acc l r; [discriminate|]. cbn [load_loop]. destruct (next s) as [[[a|e|]|] s'] eqn:N.
  - intros L. destruct (IH _ _ _ _ L) as (t & E' & LE & F). exists (a :: t). rewrite E', <- app_assoc. split; [reflexivity|]. split; [cbn; lia|]. constructor; [exact (H _ _ _ N)|exact F].
  - intros [= <- <-]. exists []. rewrite app_nil_r. repeat split; [cbn [length]; lia|constructor].
  - intros [= <- <-]. exists []. rewrite app_nil_r. repeat split; [cbn [length]; lia|constructor].
  - intros [= <- <-]. exists []. rewrite app_nil_r. repeat split; [cbn [length]; lia|constructor].
Qed.
Lemma stl_any ft fmt file : exists is r, (forall k, length file < k -> stl_items ft k fmt file = Some (is, r)) /\ r <> Panic /\ length is <= length file /\ (parses_doubles ft -> Forall item_double is).
Proof.
  unfold stl_items, stl_is_ascii. destruct (take_bytes 5 file) as [(b, q)|] eqn:T; [|eexists _, _; split; [reflexivity|]; split; [discriminate|]; split; [cbn; lia|constructor]]. apply take_less in T.
  cbn [simple]. destruct (match fmt with StlAscii => true | StlBinary => false | StlAuto => bytes_eqb b (str "solid") end).
  - destruct (load_total (stl_ascii_next ft) (fun s => length (sa_read s)) (stl_ascii_less ft) (stl_ascii_np ft) (length file) (mksa (raw_lines q) false false 0) []) as (l & r & NP & H); [cbn [sa_read]; pose proof (raw_count q); lia|].
    exists l, r. split; [exact H|]. split; [exact NP|]. specialize (H (Datatypes.S (length file)) ltac:(lia)). split.
    + destruct (load_items _ (fun _ => True) (fun _ _ _ _ => I) _ _ _ _ _ H) as (t & -> & L & _). cbn [app]. lia.
    + intros D. destruct (load_items _ item_double ltac:(intros s a s'; apply stl_ascii_item; exact D) _ _ _ _ _ H) as (t & -> & _ & F). exact F.
  - destruct (load_total stl_binary_next (fun s => length (sb_read s)) stl_binary_less stl_binary_np (length file) (mksb q false false 0 0) []) as (l & r & NP & H); [cbn [sb_read]; lia|].
    exists l, r. split; [exact H|]. split; [exact NP|]. specialize (H (Datatypes.S (length file)) ltac:(lia)).
    destruct (load_items _ item_double stl_binary_item _ _ _ _ _ H) as (t & -> & L & F). cbn [app]. split; [lia|]. intros _. exact F.
Qed.

(** ** what was loaded can be saved *)
Lemma next_double {E} ft (e : E) ws x ws' : parses_doubles ft -> next_f64 ft e ws = Ok (x, ws') -> is_double x.
Proof.
  intros D. unfold next_f64. destruct ws as [|w ws]; [discriminate|]. destruct (f64_of ft w) as [y|] eqn:F; [|discriminate]. intros H. injection H as <- <-. exact (f64_double ft w y D F).
Qed.
Lemma three_double {E} ft (e : E) ws p : parses_doubles ft -> three_f64 ft e ws = Ok p -> double3 p.
Proof.
  intros D. unfold three_f64. destruct (next_f64 ft e ws) as [(x, w1)|?|] eqn:A; cbn [obind]; try discriminate. destruct (next_f64 ft e w1) as [(y, w2)|?|] eqn:B; cbn [obind]; try discriminate.
  destruct (next_f64 ft e w2) as [(z, w3)|?|] eqn:C; cbn [obind]; try discriminate. intros H. injection H as <-. repeat split; [exact (next_double ft e _ _ _ D A)|exact (next_double ft e _ _ _ D B)|exact (next_double ft e _ _ _ D C)].
Qed.
(** The points among the elements given by an iterator are made of doubles. *)
Definition point_double (x : mesh_item) : Prop := match x with MPoint p => double3 p | MFace _ => True end.
Lemma line_loop_item {S E A} (step : S -> bytes -> line_step S E A) (Q : A -> Prop) : (forall s t a s', step s t = LItem (Ok a) s' -> Q a) ->
  forall read i s a s', line_loop step read i s = (Some (Ok a), s') -> Q a.
Proof.
  intros H. induction read as [|raw read IH]; intros i s a s'; cbn [line_loop]; [discriminate|]. cbv zeta. destruct (step s (trim_line raw)) as [s1|r s1|s1] eqn:T; [apply IH| |discriminate].
  destruct r as [b|e|]; cbn [at_line]; try discriminate. intros X. apply (f_equal fst) in X. cbn [fst] in X. injection X as <-. exact (H _ _ _ _ T).
Qed.
Lemma line_next_item {S E A} (step : S -> bytes -> line_step S E A) (Q : A -> Prop) : (forall s t a s', step s t = LItem (Ok a) s' -> Q a) ->
  forall s a s', line_next step s = (Some (Ok a), s') -> Q a.
Proof. intros H s a s'. unfold line_next. destruct (ls_done s); [discriminate|]. apply line_loop_item. exact H. Qed.
Lemma obj_item ft s t a s' : parses_doubles ft -> obj_mesh_step ft s t = LItem (Ok a) s' -> point_double a.
Proof.
  intros D. unfold obj_mesh_step. destruct (starts_with _ _).
  - unfold obj_vertex. destruct (to_words t) as [|w ws]; [discriminate|]. destruct (three_f64 ft ObjVertex ws) as [p|e|] eqn:P; cbn [omap]; try discriminate. intros H. injection H as <- <-. exact (three_double ft _ _ _ D P).
  - destruct (starts_with _ _); [|discriminate]. destruct (obj_face t) as [f|e|]; cbn [omap]; try discriminate. intros H. injection H as <- <-. exact I.
Qed.
(** The same for the elements of an .off file. *)
Definition off_double (x : face_data_reserve) : Prop := match x with FReserve _ _ => True | FItem x => point_double x end.
Lemma off_item ft s t a s' : parses_doubles ft -> off_mesh_step ft s t = LItem (Ok a) s' -> off_double a.
Proof.
  intros D. unfold off_mesh_step. destruct (off_pass s t); [discriminate|]. destruct (off_counts s) as [(nv, nf)|].
  - destruct (_ <? _)%N.
    + unfold off_vertex. destruct (three_f64 ft OffVertex (to_words t)) as [p|e|] eqn:P; cbn [omap]; try discriminate. intros H. injection H as <- <-. exact (three_double ft _ _ _ D P).
    + destruct (off_face t) as [f|e|]; cbn [omap]; try discriminate. intros H. injection H as <- <-. exact I.
  - destruct (off_two_counts t) as [(nv, nf)|e|]; try discriminate. intros H. injection H as <- <-. exact I.
Qed.
Lemma order_double a b c o : is_double a -> is_double b -> is_double c -> double3 (point_with_order a b c o).
Proof. intros A B C. destruct o; repeat split; assumption. Qed.
Lemma ascii_point_double ft v s a s' : parses_doubles ft -> ascii_points_next ft v s = (Some (Ok a), s') -> double3 a.
Proof.
  intros D. unfold ascii_points_next. destruct (as_done s); [discriminate|]. cbv zeta. destruct (_ <? _)%N.
  - destruct (next_line (as_read s)) as [(line, ls)|].
    + destruct (ascii_vertex ft v line) as [p|e|] eqn:V; cbn [at_line]; try discriminate. intros X. apply (f_equal fst) in X. cbn [fst] in X. injection X as <-. revert V. unfold ascii_vertex.
      destruct (next_f64 ft InvalidVertex (skip_words _ (to_words line))) as [(x, w1)|?|] eqn:A; cbn [obind]; try discriminate. destruct (next_f64 ft InvalidVertex (skip_words _ w1)) as [(y, w2)|?|] eqn:B; cbn [obind]; try discriminate.
      destruct (next_f64 ft InvalidVertex (skip_words _ w2)) as [(z, w3)|?|] eqn:C; cbn [obind]; try discriminate. intros H. injection H as <-. apply order_double; eapply next_double; eassumption.
    + destruct (negb _); discriminate.
  - destruct (negb _); discriminate.
Qed.
Lemma uint_lt en n s v r : read_uint en n s = Some (v, r) -> (v < 256 ^ N.of_nat n)%N.
Proof.
  unfold read_uint. unfold take_bytes. destruct (length s <? n)%nat eqn:Q; [discriminate|]. apply Nat.ltb_ge in Q. intros H. injection H as <- _. pose proof (firstn_length_le s Q) as L. generalize dependent (firstn n s). intros b <-.
  destruct en; [apply le_bound|]. rewrite be_le, <- (rev_length b). apply le_bound.
Qed.
Lemma vertex_type_double en t s x r : read_vertex_type en t s = Ok (x, r) -> is_double x.
Proof.
  destruct t; unfold read_vertex_type.
  - destruct (read_f32 en s) as [(y, q)|]; [|discriminate]. intros H. injection H as <- <-. apply widen_double.
  - unfold read_f64. destruct (read_uint en 8 s) as [(v, q)|] eqn:U; [|discriminate]. intros H. injection H as <- <-. apply uint_lt in U. apply (decode_valid 52 11); [lia|lia|]. change (2 * 2 ^ (52 + 11))%Z with (2 ^ 64)%Z. change (256 ^ N.of_nat 8)%N with (2 ^ 64)%N in U. lia.
Qed.
Lemma binary_point_double en v s p r : binary_vertex en v s = Ok (p, r) -> double3 p.
Proof.
  unfold binary_vertex. destruct (skip_bytes _ s) as [s1|?|]; cbn [obind]; try discriminate. destruct (read_vertex_type en (vd_first v) s1) as [(x, s2)|?|] eqn:A; cbn [obind]; try discriminate.
  destruct (skip_bytes _ s2) as [s3|?|]; cbn [obind]; try discriminate. destruct (read_vertex_type en (vd_snd v) s3) as [(y, s4)|?|] eqn:B; cbn [obind]; try discriminate.
  destruct (skip_bytes _ s4) as [s5|?|]; cbn [obind]; try discriminate. destruct (read_vertex_type en (vd_third v) s5) as [(z, s6)|?|] eqn:C; cbn [obind]; try discriminate.
  destruct (skip_bytes _ s6) as [s7|?|]; cbn [obind]; try discriminate. intros H. injection H as <- <-. apply order_double; eapply vertex_type_double; eassumption.
Qed.
Lemma mesh_next_item {S E} (points : S -> option (outcome E (pt3 F64)) * S) (faces : S -> option (outcome E face3) * S) switch : (forall s a s', points s = (Some (Ok a), s') -> double3 a) ->
  forall s a s', mesh_next points faces switch s = (Some (Ok a), s') -> point_double a.
Proof.
  intros H s a s'. unfold mesh_next. assert (G : forall f, (let (r, f) := faces f in (map_item MFace r, IFaces f)) = (Some (Ok a), s') -> point_double a).
  { intros f. destruct (faces f) as [[[x|e|]|] f']; cbn [map_item]; try discriminate. intros X. apply (f_equal fst) in X. cbn [fst] in X. injection X as <-. exact I. }
  destruct s as [p|f]; [|apply G]. destruct (points p) as [[r|] p'] eqn:P; [|apply G]. destruct r as [x|e|]; cbn [map_item]; try discriminate. intros X. apply (f_equal fst) in X. cbn [fst] in X. injection X as <-. exact (H _ _ _ P).
Qed.
(** Vertices stay doubles; at most one vertex and one face are added. *)
Definition grows (m m' : mesh (pt3 F64)) : Prop := (Forall double3 (pc m) -> Forall double3 (pc m')) /\ length (pc m') <= length (pc m) + 1 /\ length (topology m') <= length (topology m) + 3.
Lemma fold_grows {S E A} (next : S -> option (outcome E A) * S) body (Q : A -> Prop) : (forall s a s', next s = (Some (Ok a), s') -> Q a) -> (forall m a, Q a -> grows m (fst (body m a))) ->
  forall k s m m' r, fold_loop next body k s m = Some (m', r) -> (Forall double3 (pc m) -> Forall double3 (pc m')) /\ length (pc m') <= length (pc m) + k /\ length (topology m') <= length (topology m) + 3 * k.
Proof.
  intros HN HB. induction k as [|k IH]; intros s m m' r; [discriminate|]. cbn [fold_loop]. destruct (next s) as [[[a|e|]|] s'] eqn:N.
  - pose proof (HB m a (HN _ _ _ N)) as (G1 & G2 & G3). destruct (body m a) as (m1, [u|e|]); cbn [fst] in *.
    + intros H. destruct (IH _ _ _ _ H) as (I1 & I2 & I3). split; [auto|lia].
    + intros H. injection H as <- <-. split; [exact G1|lia].
    + intros H. injection H as <- <-. split; [exact G1|lia].
  - intros H. injection H as <- <-. split; [auto|lia].
  - intros H. injection H as <- <-. split; [auto|lia].
  - intros H. injection H as <- <-. split; [auto|lia].
Qed.
Lemma grows_same m : grows m m. Proof. split; [auto|lia]. Qed.
Lemma grows_vertex m p : double3 p -> grows m (fst (add_vertex m p)).
Proof. intros D. unfold grows, add_vertex. cbn [fst pc topology]. rewrite app_length. cbn [length]. split; [|lia]. intros F. apply Forall_app. split; [exact F|constructor; [exact D|constructor]]. Qed.
Lemma grows_face m a b c : grows m (fst (try_add_connection m a b c)).
Proof.
  unfold try_add_connection. destruct (_ || _); [apply grows_same|]. destruct (_ || _); [apply grows_same|]. cbn [fst]. unfold grows. cbn [pc topology]. rewrite !app_length. cbn [length]. split; [auto|lia].
Qed.
Lemma grows_mesh_add {E} (e : E) m x : point_double x -> grows m (fst (mesh_add e m x)).
Proof.
  destruct x as [p|[[a b] c]]; intros D; [apply grows_vertex; exact D|]. pose proof (grows_face m a b c) as G. cbn [mesh_add]. destruct (try_add_connection m a b c) as (m', [n|e'|]); exact G.
Qed.
Lemma grows_add_item m x : point_double x -> grows m (fst (add_simple m x)).
Proof.
  unfold add_simple, add_item. destruct x as [p|[[a b] c]]; intros D; [apply grows_vertex; exact D|]. pose proof (grows_face m a b c) as G. destruct (try_add_connection m a b c) as (m', [n|e'|]); exact G.
Qed.
Lemma grows_off m x : off_double x -> grows m (fst (off_add m x)).
Proof. destruct x as [nv nf|x]; intros D; [apply grows_same|]. apply grows_mesh_add. exact D. Qed.
(** Small meshes of doubles convert. *)
Lemma same_elements {A} (l l' : list A) : (forall n, nth_error l n = nth_error l' n) -> l = l'.
Proof.
  revert l'. induction l as [|a l IH]; intros [|b l'] H; [reflexivity|discriminate (H 0)|discriminate (H 0)|]. pose proof (H 0) as H0. injection H0 as <-. f_equal. apply IH. intros n. exact (H (S n)).
Qed.
Lemma shows_pc m (s : mspec (pt3 F64)) : shows m s -> pc m = svs s.
Proof.
  intros (A & B & _). apply same_elements. intros n. specialize (B (N.of_nat n)). unfold vertex in B. rewrite nthN_nth_error, Nat2N.id in B. exact B.
Qed.
Lemma small_converts ft m s : shows m s -> faces_ok s -> Forall double3 (pc m) -> (lenN (pc m) < 2 ^ 32)%N -> (lenN (topology m) <= 3 * 2 ^ 32)%N -> converts ft m.
Proof.
  intros SH FO D V T. exists s. split; [exact SH|]. split; [exact FO|]. rewrite (shows_pc m s SH) in D, V.
  assert (NF : (lenN (sfs s) <= 2 ^ 32)%N) by (destruct SH as (_ & _ & NF & _); unfold num_faces in NF; fold (lenN (sfs s)) in NF; rewrite <- NF; apply N.div_le_upper_bound; lia).
  assert (FI : fits (lenN (svs s)) (lenN (sfs s))) by (split; lia). assert (B : (3 * N.of_nat (length (sfs s)) < 2 ^ 64)%N) by (fold (lenN (sfs s)); lia).
  split.
  - intros colors C. destruct (C60_colors ft P64 m s colors SH B) as (H & _). destruct (H C) as (_ & calls & SV). exists calls. split; [exact SV|]. intros k K. exact (C61_identical ft m s colors calls k SH FO D V FI C SV K).
  - intros OK PR colors C. destruct (C60_colors ft P64 m s colors SH B) as (H & _). destruct (H C) as ((calls & SV) & _). exists calls. split; [exact SV|]. intros k K. exact (C60_round_trip ft m s colors calls k OK SH FO PR FI C SV K).
Qed.

(** ** the meshes of .stl files *)
Lemma valid_vertex m p : valid m -> valid (fst (add_vertex m p)).
Proof. intros V. exact (proj1 (add_valid m (MPoint p) V)). Qed.
Lemma valid_face m a b c : valid m -> valid (fst (try_add_connection m a b c)).
Proof. intros V. pose proof (proj1 (add_valid m (MFace (a, b, c)) V)) as H. unfold add_simple, add_item in H. destruct (try_add_connection m a b c) as (m', [n|e|]); exact H. Qed.
Lemma face_count (m : mesh (pt3 F64)) a b c : length (topology (fst (try_add_connection m a b c))) = length (topology m) + (match snd (try_add_connection m a b c) with Ok _ => 3 | _ => 0 end) /\ pc (fst (try_add_connection m a b c)) = pc m.
Proof.
  unfold try_add_connection. destruct (_ || _); [cbn [fst snd]; split; [lia|reflexivity]|]. destruct (_ || _); [cbn [fst snd]; split; [lia|reflexivity]|]. cbn [fst snd pc topology]. rewrite !app_length. cbn [length]. split; [lia|reflexivity].
Qed.
Lemma unique_vertex_keeps same mm p : valid (fst mm) -> let mm' := snd (unique_vertex same mm p) in
  valid (fst mm') /\ topology (fst mm') = topology (fst mm) /\ length (pc (fst mm')) <= length (pc (fst mm)) + 1 /\ (double3 p -> Forall double3 (pc (fst mm)) -> Forall double3 (pc (fst mm'))).
Proof.
  intros V. destruct mm as (m, map). unfold unique_vertex. destruct (map_get same map p); cbn [fst snd] in *; [split; [exact V|]; split; [reflexivity|]; split; [lia|auto]|].
  split; [apply valid_vertex; exact V|]. cbn [add_vertex fst pc topology]. split; [reflexivity|]. rewrite app_length. cbn [length]. split; [lia|]. intros D F. apply Forall_app. auto.
Qed.
Lemma unique_keeps same items : forall m map ns, valid m -> length (topology m) = 3 * length ns -> let '(m', _, ns') := fold_left (unique_step same) items (m, map, ns) in
  valid m' /\ length (topology m') = 3 * length ns' /\ length (pc m') <= length (pc m) + 3 * length items /\ length (topology m') <= length (topology m) + 3 * length items /\ (Forall item_double items -> Forall double3 (pc m) -> Forall double3 (pc m')).
Proof.
  induction items as [|x items IH]; intros m map ns V T; cbn [fold_left].
  - split; [exact V|]. split; [exact T|]. cbn [length]. repeat split; [lia|lia|auto].
  - assert (G : exists m1 map1 ns1, unique_step same (m, map, ns) x = (m1, map1, ns1) /\ valid m1 /\ length (topology m1) = 3 * length ns1 /\ length (pc m1) <= length (pc m) + 3 /\ length (topology m1) <= length (topology m) + 3 /\
      (item_double x -> Forall double3 (pc m) -> Forall double3 (pc m1))).
    { destruct x as [n|f]; cbn [unique_step]; [exists m, map, ns; split; [reflexivity|]; repeat split; [exact V|exact T|lia|lia|auto]|].
      pose proof (unique_vertex_keeps same (m, map) (sf_a f) V) as (V1 & T1 & L1 & D1). destruct (unique_vertex same (m, map) (sf_a f)) as (ida, mm1). cbn [snd] in *.
      pose proof (unique_vertex_keeps same mm1 (sf_b f) V1) as (V2 & T2 & L2 & D2). destruct (unique_vertex same mm1 (sf_b f)) as (idb, mm2). cbn [snd] in *.
      pose proof (unique_vertex_keeps same mm2 (sf_c f) V2) as (V3 & T3 & L3 & D3). destruct (unique_vertex same mm2 (sf_c f)) as (idc, (m3, map3)). cbn [snd fst] in *.
      pose proof (valid_face m3 ida idb idc V3) as V4. pose proof (face_count m3 ida idb idc) as (T4 & P4). rewrite T3, T2, T1 in T4.
      assert (DD : item_double (Data f) -> Forall double3 (pc m) -> Forall double3 (pc m3)) by (intros (A & B & C) F; auto).
      destruct (try_add_connection m3 ida idb idc) as (m4, r). cbn [fst snd] in *. destruct r as [n|e|].
      - exists m4, map3, (ns ++ [sf_n f]). split; [reflexivity|]. rewrite P4, app_length. cbn [length]. (split; [exact V4|]; split; [lia|]; split; [lia|]; split; [lia|exact DD]).
      - exists m4, map3, ns. split; [reflexivity|]. rewrite P4. (split; [exact V4|]; split; [lia|]; split; [lia|]; split; [lia|exact DD]).
      - exists m4, map3, ns. split; [reflexivity|]. rewrite P4. (split; [exact V4|]; split; [lia|]; split; [lia|]; split; [lia|exact DD]). }
    destruct G as (m1 & map1 & ns1 & -> & V1 & T1 & L1 & Q1 & D1). specialize (IH m1 map1 ns1 V1 T1). destruct (fold_left (unique_step same) items (m1, map1, ns1)) as ((m', map'), ns').
    destruct IH as (A & B & C & D & E). split; [exact A|]. split; [exact B|]. cbn [length]. split; [lia|]. split; [lia|]. intros F. inversion F; subst. auto.
Qed.
Lemma valid_shown m : valid m -> exists s, shows m s /\ faces_ok s /\ length (topology m) = 3 * length (sfs s).
Proof. intros (s & A & F). exists s. split; [apply abs_shows; assumption|]. split; [exact F|]. destruct A as (_ & ->). apply flat_length. Qed.
Lemma valid_empty : valid mesh_empty. Proof. exists (MSpec [] []). split; [split; reflexivity|intros a b c []]. Qed.
Lemma duped_keeps items : forall m ns, let '(m', _) := fold_left duped_step items (m, ns) in
  length (pc m') <= length (pc m) + 3 * length items /\ length (topology m') <= length (topology m) + 3 * length items /\ (Forall item_double items -> Forall double3 (pc m) -> Forall double3 (pc m')).
Proof.
  induction items as [|x items IH]; intros m ns; cbn [fold_left]; [cbn [length]; repeat split; [lia|lia|auto]|]. destruct x as [n|f]; cbn [duped_step].
  - specialize (IH m ns). destruct (fold_left duped_step items (m, ns)) as (m', ns'). destruct IH as (A & B & C). cbn [length]. repeat split; [lia|lia|]. intros F. inversion F; subst. auto.
  - cbn [fst snd]. specialize (IH (fst (add_face m (sf_a f) (sf_b f) (sf_c f))) (ns ++ [sf_n f])). destruct (fold_left duped_step items _) as (m', ns'). cbn [add_face add_vertex fst pc topology] in IH. rewrite !app_length in IH. cbn [length] in *.
    destruct IH as (A & B & C). repeat split; [lia|lia|]. intros F G. inversion F; subst. apply C; [assumption|]. match goal with H : item_double (Data f) |- _ => destruct H as (D1 & D2 & D3) end. rewrite !Forall_app. auto.
Qed.
