From Verif Require Import Base BaseLemmas Num MatrixModel IoModel IoSpec IoLemmas ByteModel MeshModel MeshSpec MeshLemmas StlModel PlyModel ScanModel ScannerModel CutSpec CutLemmas CutLemmas2 ReaderModel ReaderSpec ReaderLemmas ReaderLemmas2 ReaderLemmas3.
From Coq Require Import Lia Wf_nat.
Open Scope nat_scope.

(** ** Breaking goes unnoticed *)
Lemma whole_exists b : exists whole, whole_lines b whole.
Proof.
  induction b as [|c b IH] using rev_ind; [exists [], []; repeat split; [intros []|left; reflexivity]|]. destruct (Ascii.ascii_dec c nl) as [->|N].
  - exists (b ++ [nl]), []. rewrite app_nil_r. repeat split; [intros []|]. right. exists b. reflexivity.
  - destruct IH as (w & t & -> & NT & W). exists w, (t ++ [c]). rewrite app_assoc. repeat split; [|exact W]. intros I. apply in_app_or in I as [I|[I|[]]]; [exact (NT I)|]. congruence.
Qed.
Lemma whole_part b whole file : whole_lines b whole -> prefix b file -> exists rest, raw_lines file = raw_lines whole ++ rest.
Proof. intros (t & -> & _ & W) (c & ->). exists (raw_lines (t ++ c)). rewrite <- app_assoc. apply raw_whole. exact W. Qed.
Section Quiet.
Context {S1 S2 E A M : Type} (next1 : S1 -> option (outcome E A) * S1) (next2 : S2 -> option (outcome E A) * S2) (body : M -> A -> M * outcome E unit).
Variable grows : M -> M -> Prop.
Hypothesis grows_refl : forall m, grows m m.
Hypothesis grows_trans : forall a b c, grows a b -> grows b c -> grows a c.
Hypothesis body_grows : forall m a, grows m (fst (body m a)).
Variable R : S1 -> S2 -> Prop.
Hypothesis step : forall s1 s2, R s1 s2 -> (fst (next1 s1) = fst (next2 s2) /\ R (snd (next1 s1)) (snd (next2 s2))) \/ fst (next1 s1) = None \/ ((forall a, fst (next2 s2) <> Some (Ok a)) /\ fst (next2 s2) <> None).
Lemma quiet_end k : forall s1 s2 m m2, R s1 s2 -> fold_loop next2 body k s2 m = Some (m2, Ok tt) -> exists m1, fold_loop next1 body k s1 m = Some (m1, Ok tt) /\ grows m m1 /\ grows m1 m2.
Proof.
  induction k as [|k IH]; intros s1 s2 m m2 HR H; [discriminate|]. cbn [fold_loop]. destruct (step s1 s2 HR) as [(EQ & HR')|[N|(N1 & N2)]].
  - cbn [fold_loop] in H. destruct (next1 s1) as [o1 t1], (next2 s2) as [o2 t2]. cbn [fst snd] in *. subst o2. destruct o1 as [[a|e|]|]; try discriminate.
    + pose proof (body_grows m a) as G. destruct (body m a) as [m' [u|e|]]; cbn [fst] in G; try discriminate. destruct (IH t1 t2 m' m2 HR' H) as (m1 & F & G1 & G2). exists m1. split; [exact F|]. split; [exact (grows_trans _ _ _ G G1)|exact G2].
    + injection H as <-. exists m. auto.
  - destruct (next1 s1) as [o1 t1]. cbn [fst] in N. subst o1. exists m. split; [reflexivity|]. split; [apply grows_refl|]. apply (fold_grows next2 body grows grows_refl grows_trans body_grows (S k) s2 m m2 (Ok tt) H).
  - exfalso. cbn [fold_loop] in H. destruct (next2 s2) as [o2 t2]. cbn [fst] in *. destruct o2 as [[a|e|]|]; try discriminate; [exact (N1 a eq_refl)|congruence].
Qed.
End Quiet.
Inductive lines_more {S} : line_state S -> line_state S -> Prop :=
| lines_more_intro ls more d i s : lines_more (mkls ls d i s) (mkls (ls ++ more) d i s).
Lemma line_more {S E A} (step : S -> bytes -> line_step S E A) s1 s2 : lines_more s1 s2 -> (fst (line_next step s1) = fst (line_next step s2) /\ lines_more (snd (line_next step s1)) (snd (line_next step s2))) \/ fst (line_next step s1) = None \/ ((forall a, fst (line_next step s2) <> Some (Ok a)) /\ fst (line_next step s2) <> None).
Proof.
  destruct 1 as [ls more d i s]. unfold line_next. cbn [ls_read ls_done ls_line ls_own]. destruct d; [right; left; reflexivity|]. revert i s. induction ls as [|raw ls IH]; intros i s; [right; left; reflexivity|].
  cbn [app line_loop]. destruct (step s (trim_line raw)) as [s'|r s'|s']; [apply IH| |right; left; reflexivity]. left. split; [reflexivity|]. cbn [snd]. constructor.
Qed.
Inductive xy_more : xy_state -> xy_state -> Prop :=
| xy_more_intro ls more d i o : xy_more (mkxy ls d i o) (mkxy (ls ++ more) d i o).
Lemma xy_next_more {A} n (point : ascii -> bytes -> outcome XyError A) s1 s2 : xy_more s1 s2 -> (fst (xy_next n point s1) = fst (xy_next n point s2) /\ xy_more (snd (xy_next n point s1)) (snd (xy_next n point s2))) \/ fst (xy_next n point s1) = None \/ ((forall a, fst (xy_next n point s2) <> Some (Ok a)) /\ fst (xy_next n point s2) <> None).
Proof.
  destruct 1 as [ls more d i o]. unfold xy_next. cbn [xy_read xy_done xy_line xy_delim]. destruct d; [right; left; reflexivity|]. destruct ls as [|raw ls]; [right; left; reflexivity|]. left. cbn [app next_line].
  destruct (xy_delimiter n o (trim_line raw)) as [dl|e|]; [destruct (point dl (trim_line raw)) as [p|e|]| |]; (split; [reflexivity|constructor]).
Qed.
Lemma line_quiet {S E A} (step : S -> bytes -> line_step S E A) k b r file s ps : breaks_after b r -> prefix b file ->
  load_loop (line_next step) k (line_new file s) [] = Some (ps, Ok tt) -> exists ps', load_loop (line_next_from step) k (mklr r false 0 s) [] = Some (ps', Ok tt) /\ prefix ps' ps.
Proof.
  intros (r1 & r2 & -> & ST & B) P H. destruct (whole_exists b) as (w & W). destruct (whole_part b w file W P) as (more & EQ). rewrite (line_load_sim (fun _ => True) step k _ (raw_lines w) s (broken_offers _ b w r1 r2 ST B W I)).
  unfold line_new in H. rewrite EQ in H. rewrite load_fold in *. destruct (quiet_end _ _ push_body (@prefix A) prefix_refl prefix_trans (fun m a => prefix_snoc m a) lines_more (line_more step) k _ _ [] ps (lines_more_intro (raw_lines w) more false 0%N s) H) as (m & F & _ & G). exists m. auto.
Qed.
Lemma line_quiet_fold {S E A M} (step : S -> bytes -> line_step S E A) (body : M -> A -> M * outcome (with_line E) unit) (grows : M -> M -> Prop) : (forall m, grows m m) -> (forall a b c, grows a b -> grows b c -> grows a c) -> (forall m a, grows m (fst (body m a))) ->
  forall k b r file s m0 m, breaks_after b r -> prefix b file -> fold_loop (line_next step) body k (line_new file s) m0 = Some (m, Ok tt) ->
  exists m', fold_loop (line_next_from step) body k (mklr r false 0 s) m0 = Some (m', Ok tt) /\ grows m0 m' /\ grows m' m.
Proof.
  intros GR GT GB k b r file s m0 m (r1 & r2 & -> & ST & B) P H. destruct (whole_exists b) as (w & W). destruct (whole_part b w file W P) as (more & EQ). rewrite (line_fold_sim (fun _ => True) step body k _ (raw_lines w) s m0 (broken_offers _ b w r1 r2 ST B W I)).
  unfold line_new in H. rewrite EQ in H. exact (quiet_end _ _ body grows GR GT GB lines_more (line_more step) k _ _ m0 m (lines_more_intro (raw_lines w) more false 0%N s) H).
Qed.
Lemma xy_quiet {A} n (point : ascii -> bytes -> outcome XyError A) k b r file ps : breaks_after b r -> prefix b file ->
  load_loop (xy_next n point) k (xy_new file) [] = Some (ps, Ok tt) -> exists ps', load_loop (xy_next_from n point) k (mkxyr r false 0 None) [] = Some (ps', Ok tt) /\ prefix ps' ps.
Proof.
  intros (r1 & r2 & -> & ST & B) P H. destruct (whole_exists b) as (w & W). destruct (whole_part b w file W P) as (more & EQ). rewrite (xy_load_sim (fun _ => True) n point k _ (raw_lines w) (broken_offers _ b w r1 r2 ST B W I)).
  unfold xy_new in H. rewrite EQ in H. rewrite load_fold in *. destruct (quiet_end _ _ push_body (@prefix A) prefix_refl prefix_trans (fun m a => prefix_snoc m a) xy_more (xy_next_more n point) k _ _ [] ps (xy_more_intro (raw_lines w) more false 0%N None) H) as (m & F & _ & G). exists m. auto.
Qed.
(** *** text stl *)
Definition fwd {A} (f : list bytes -> outcome (with_line StlError) (A * list bytes * N)) : Prop := forall a more,
  (exists x ls j, f a = Ok (x, ls, j) /\ f (a ++ more) = Ok (x, ls ++ more, j)) \/ (exists e, f a = Err e /\ (f (a ++ more) = Err e \/ info_error e = LoadFileEndReached)).
Lemma fwd_bind {A B} (f : list bytes -> outcome (with_line StlError) (A * list bytes * N)) (g : A * list bytes * N -> outcome (with_line StlError) (B * list bytes * N)) :
  fwd f -> (forall x i, fwd (fun ls => g (x, ls, i))) -> fwd (fun ls => obind (f ls) g).
Proof.
  intros F G a more. destruct (F a more) as [(x & ls & j & -> & ->)|(e & -> & [-> | Q])]; cbn [obind].
  - exact (G x j ls more).
  - right. exists e. auto.
  - right. exists e. auto.
Qed.
Lemma fwd_line i : fwd (stl_line i).
Proof. intros [|l a] more; [right; eexists; split; [reflexivity|right; reflexivity]|left; eexists; eexists; eexists; split; reflexivity]. Qed.
Lemma fwd_keyword w e i : fwd (stl_keyword w e i).
Proof. unfold stl_keyword. apply fwd_bind; [apply fwd_line|]. intros x j a more. cbn zeta. destruct (starts_with (str w) (trim_start x)); [left; eauto|right; eauto]. Qed.
Lemma fwd_vertex ft i : fwd (stl_vertex_line ft i).
Proof. unfold stl_vertex_line. apply fwd_bind; [apply fwd_line|]. intros x j a more. destruct (read_stl_vertex ft x); cbn; [left; eauto|right; eauto]. Qed.
Lemma fwd_facet ft i : fwd (read_stl_facet ft i).
Proof.
  unfold read_stl_facet. apply fwd_bind; [apply fwd_line|]. intros x j. cbn zeta. destruct (starts_with (str "endsolid") (trim_start x)); [intros a more; right; eauto|]. destruct (negb (starts_with (str "facet") (trim_start x))); [intros a more; right; eauto|].
  apply fwd_bind; [apply fwd_keyword|]. intros u1 i1. apply fwd_bind; [apply fwd_vertex|]. intros p i2. apply fwd_bind; [apply fwd_vertex|]. intros q i3. apply fwd_bind; [apply fwd_vertex|]. intros s i4.
  apply fwd_bind; [apply fwd_keyword|]. intros u5 i5. apply fwd_bind; [apply fwd_keyword|]. intros u6 i6 a more. left. eauto.
Qed.
Inductive sa_more : stl_ascii -> stl_ascii -> Prop :=
| sa_more_first l ls more i : sa_more (mksa (l :: ls) false false i) (mksa (l :: ls ++ more) false false i)
| sa_more_later ls more d i : sa_more (mksa ls d true i) (mksa (ls ++ more) d true i).
Lemma sa_next_more ft s1 s2 : sa_more s1 s2 -> (fst (stl_ascii_next ft s1) = fst (stl_ascii_next ft s2) /\ sa_more (snd (stl_ascii_next ft s1)) (snd (stl_ascii_next ft s2))) \/ fst (stl_ascii_next ft s1) = None \/ ((forall a, fst (stl_ascii_next ft s2) <> Some (Ok a)) /\ fst (stl_ascii_next ft s2) <> None).
Proof.
  assert (K : forall ls more i, let n1 := match read_stl_facet ft i ls with Ok (f, r, i) => (Some (Ok (StlModel.Data f)), mksa r false true i) | Err w => match info_error w with LoadFileEndReached => (None, mksa ls true true i) | _ => (Some (Err w), mksa ls true true i) end | Panic => (Some Panic, mksa ls false true i) end in
    let n2 := match read_stl_facet ft i (ls ++ more) with Ok (f, r, i) => (Some (Ok (StlModel.Data f)), mksa r false true i) | Err w => match info_error w with LoadFileEndReached => (None, mksa (ls ++ more) true true i) | _ => (Some (Err w), mksa (ls ++ more) true true i) end | Panic => (Some Panic, mksa (ls ++ more) false true i) end in
    (fst n1 = fst n2 /\ sa_more (snd n1) (snd n2)) \/ fst n1 = None \/ ((forall a, fst n2 <> Some (Ok a)) /\ fst n2 <> None)).
  { intros ls more i. destruct (fwd_facet ft i ls more) as [(x & l & j & -> & ->)|(e & -> & [-> | Q])]; cbn zeta.
    - left. split; [reflexivity|]. constructor.
    - destruct (info_error e); cbn [fst snd]; [right; left; reflexivity|..]; left; (split; [reflexivity|constructor]).
    - rewrite Q. right. left. reflexivity. }
  destruct 1 as [l ls more i|ls more d i]; unfold stl_ascii_next; cbn [sa_read sa_done sa_header sa_line tl].
  - apply K.
  - destruct d; [right; left; reflexivity|]. apply K.
Qed.
Lemma stl_quiet ft k fmt b r file is : breaks_after b r -> prefix b file -> (exists l rest, b = l ++ [nl] ++ rest /\ 5 <= length l) -> fmt = StlAscii \/ (fmt = StlAuto /\ prefix (str "solid") file) ->
  stl_items ft k fmt file = Some (is, Ok tt) -> exists is', stl_items_from ft k fmt r = Some (is', Ok tt) /\ prefix is' is.
Proof.
  intros BR P (l & rest & EB & L) F H. destruct (whole_exists b) as (w & W). destruct (whole_part b w file W P) as (more & EQ).
  assert (LW : exists l' x, w = l ++ nl :: l' /\ x = l').
  { destruct W as (t & E & NT & WW). assert (Q : length l < length w). { destruct (le_lt_dec (length w) (length l)) as [X|X]; [|exact X]. exfalso. apply NT. rewrite EB in E.
      assert (Z : nth_error (w ++ t) (length l) = Some nl) by (rewrite <- E; rewrite nth_error_app2, Nat.sub_diag by lia; reflexivity). rewrite nth_error_app2 in Z by exact X. exact (nth_error_In _ _ Z). }
    exists (skipn (S (length l)) w), (skipn (S (length l)) w). split; [|reflexivity]. rewrite <- (firstn_skipn (S (length l)) w) at 1. assert (FE : firstn (S (length l)) w = l ++ [nl]).
    { transitivity (firstn (S (length l)) (w ++ t)); [rewrite firstn_app; replace (S (length l) - length w) with 0 by lia; cbn [firstn]; rewrite app_nil_r; reflexivity|]. rewrite <- E, EB. change (l ++ [nl] ++ rest) with (l ++ nl :: rest). rewrite firstn_app, firstn_all2 by lia. replace (S (length l) - length l) with 1 by lia. reflexivity. }
    rewrite FE, <- app_assoc. reflexivity. }
  destruct LW as (l' & _ & EW & _).
  assert (NE : skipn 5 w <> []). { intros Z. apply (f_equal (@length _)) in Z. rewrite skipn_length, EW, app_length in Z. cbn [length] in Z. lia. }
  assert (PW : prefix w b) by (destruct W as (t & -> & _); exists t; reflexivity). pose proof (prefix_trans _ _ _ PW P) as PF. destruct P as (c & ->). destruct PF as (c' & EC).
  assert (L5 : 5 <= length w) by (rewrite EW, app_length; cbn; lia).
  assert (FB : firstn 5 b = firstn 5 w). { destruct PW as (t & ->). rewrite firstn_app. replace (5 - length w) with 0 by lia. cbn [firstn]. apply app_nil_r. }
  assert (FF : firstn 5 (b ++ c) = firstn 5 w) by (rewrite EC, firstn_app; replace (5 - length w) with 0 by lia; change (firstn 0 c') with (@nil ascii); apply app_nil_r).
  assert (FS : fmt = StlAuto -> firstn 5 w = str "solid"). { intros ->. destruct F as [F|[_ (q & F)]]; [discriminate|]. rewrite <- FF, F. reflexivity. }
  rewrite (stl_items_broken_ascii ft k fmt b w r BR W NE).
  2: { destruct F as [F|[F _]]; [left; exact F|right; split; [exact F|]]. rewrite FB. exact (FS F). }
  unfold stl_items, stl_is_ascii, take_bytes in *. rewrite EC, app_length in H. replace (length w + length c' <? 5) with false in H by (symmetry; apply Nat.ltb_ge; lia). replace (length w <? 5) with false by (symmetry; apply Nat.ltb_ge; lia).
  rewrite <- EC, FF in H. cbn [simple] in *.
  assert (A : match fmt with StlAscii => true | StlBinary => false | StlAuto => bytes_eqb (firstn 5 w) (str "solid") end = true) by (destruct F as [-> | [-> F]]; [reflexivity|rewrite (FS eq_refl); reflexivity]).
  rewrite A in *. rewrite EC, skipn_app in H. replace (5 - length w) with 0 in H by lia. change (skipn 0 c') with c' in H.
  destruct W as (t & _ & _ & WW). rewrite (raw_whole _ (skipn_whole 5 w WW) c') in H. rewrite load_fold in *. rewrite (raw_lines_eq _ NE) in *.
  destruct (quiet_end _ _ push_body (@prefix _) prefix_refl prefix_trans (fun m a => prefix_snoc m a) sa_more (sa_next_more ft) k _ _ [] is (sa_more_first _ (raw_lines (snd (read_until (skipn 5 w)))) (raw_lines c') 0%N) H) as (m & G1 & _ & G2). exists m. auto.
Qed.

(** ** The errors of the text loaders *)
Definition never {E} (e : E) {A} (o : outcome E A) : Prop := o <> Err e.
Definition step_never {S E A} (e : E) (step : S -> bytes -> line_step S E A) : Prop := forall s line, match step s line with LItem r _ => r <> Err e | _ => True end.
Lemma line_loop_never {S E A} (e : E) (step : S -> bytes -> line_step S E A) : step_never e step -> forall n r i s o, fst (line_loop_from step n r i s) = Some o -> error_of o <> Some e.
Proof.
  intros N. induction n as [|n IH]; intros r i s o H; [discriminate|]. cbn [line_loop_from] in H. destruct (fetch_from r) as [[line|] r']; [|discriminate]. specialize (N s line). destruct (step s line) as [s'|x s'|s'].
  - exact (IH _ _ _ _ H).
  - cbn in H. injection H as <-. destruct x as [a|f|]; cbn; congruence.
  - discriminate.
Qed.
Lemma line_next_never {S E A} (e : E) (step : S -> bytes -> line_step S E A) s o : step_never e step -> fst (line_next_from step s) = Some o -> error_of o <> Some e.
Proof. intros N. unfold line_next_from. destruct (lr_done s); [discriminate|]. apply line_loop_never. exact N. Qed.
Lemma fold_never {S E A M} (e : E) (next : S -> option (outcome (with_line E) A) * S) (body : M -> A -> M * outcome (with_line E) unit) : (forall s o, fst (next s) = Some o -> error_of o <> Some e) -> (forall m a, error_of (snd (body m a)) <> Some e) ->
  forall k s m m' r, fold_loop next body k s m = Some (m', r) -> error_of r <> Some e.
Proof.
  intros N B. induction k as [|k IH]; intros s m m' r H; [discriminate|]. cbn [fold_loop] in H. specialize (N s). destruct (next s) as [[o|] s']; [|injection H as _ <-; discriminate]. specialize (N o eq_refl). destruct o as [a|f|].
  - specialize (B m a). destruct (body m a) as [m1 [u|f|]]; [exact (IH _ _ _ _ H)|injection H as _ <-; exact B|injection H as _ <-; discriminate].
  - injection H as _ <-. exact N.
  - injection H as _ <-. discriminate.
Qed.
Lemma load_never {S E A} (e : E) (next : S -> option (outcome (with_line E) A) * S) : (forall s o, fst (next s) = Some o -> error_of o <> Some e) ->
  forall k s m m' r, load_loop next k s m = Some (m', r) -> error_of r <> Some e.
Proof. intros N k s m m' r H. rewrite load_fold in H. apply (fold_never e next push_body N) in H; [exact H|]. intros. discriminate. Qed.
Lemma obind_never {E A B} (e : E) (o : outcome E A) (g : A -> outcome E B) : o <> Err e -> (forall a, g a <> Err e) -> obind o g <> Err e.
Proof. intros H G. destruct o as [a|f|]; cbn; [apply G|congruence|discriminate]. Qed.
Lemma omap_never {E A B} (e : E) (f : A -> B) (o : outcome E A) : o <> Err e -> omap f o <> Err e.
Proof. destruct o; cbn; congruence. Qed.
Lemma next_f64_never {E} ft (e e' : E) ws : e' <> e -> next_f64 ft e' ws <> Err e.
Proof. intros N. unfold next_f64. destruct ws as [|w ws]; [intros Q; injection Q as Q; exact (N Q)|]. destruct (f64_of ft w); [discriminate|intros Q; injection Q as Q; exact (N Q)]. Qed.
Lemma three_never {E} ft (e e' : E) ws : e' <> e -> three_f64 ft e' ws <> Err e.
Proof. intros N. unfold three_f64. apply obind_never; [apply next_f64_never, N|]. intros [x w1]. apply obind_never; [apply next_f64_never, N|]. intros [y w2]. apply obind_never; [apply next_f64_never, N|]. intros [z w3]. discriminate. Qed.
Lemma next_count_never {E} (e e' : E) ws : e' <> e -> next_count e' ws <> Err e.
Proof. intros N. unfold next_count. destruct (next_usize ws); cbn [ok_or]; [discriminate|intros Q; injection Q as Q; exact (N Q)]. Qed.
Lemma xy_from_never {A} n (point : ascii -> bytes -> outcome XyError A) : (forall d l, point d l <> Err XyAccessFile) -> forall s o, fst (xy_next_from n point s) = Some o -> error_of o <> Some XyAccessFile.
Proof.
  intros N s o. unfold xy_next_from. destruct (xyr_done s); [discriminate|]. destruct (fetch_from (xyr_read s)) as [[line|] r']; [|discriminate]. assert (D : xy_delimiter n (xyr_delim s) line <> Err XyAccessFile).
  { unfold xy_delimiter. destruct (xyr_delim s); [discriminate|]. destruct (estimate_delimiter n line); discriminate. }
  destruct (xy_delimiter n (xyr_delim s) line) as [d|e|]; cbn zeta.
  - specialize (N d line). destruct (point d line) as [p|e|]; cbn [fst]; intros H; injection H as <-; cbn; congruence.
  - cbn [fst]. intros H. injection H as <-. cbn. congruence.
  - cbn [fst]. intros H. injection H as <-. discriminate.
Qed.
Lemma xyz_point_never ft s o : fst (xy_next_from 2 (xyz_point ft) s) = Some o -> error_of o <> Some XyAccessFile.
Proof. apply xy_from_never. intros d l. unfold xyz_point. cbn zeta. repeat (apply obind_never; [apply next_f64_never; discriminate|]; intros [? ?]). discriminate. Qed.
Lemma xy_point_never ft s o : fst (xy_next_from 1 (xy_point ft) s) = Some o -> error_of o <> Some XyAccessFile.
Proof. apply xy_from_never. intros d l. unfold xy_point. cbn zeta. repeat (apply obind_never; [apply next_f64_never; discriminate|]; intros [? ?]). discriminate. Qed.
Lemma obj_vertex_never ft line : obj_vertex ft line <> Err ObjAccessFile.
Proof. unfold obj_vertex. destruct (to_words line); [discriminate|]. apply three_never. discriminate. Qed.
Lemma obj_index_never ws : obj_index ws <> Err ObjAccessFile.
Proof. destruct ws as [|w ws]; cbn [obj_index]; [discriminate|]. destruct (usize_of _); discriminate. Qed.
Lemma obj_face_never line : obj_face line <> Err ObjAccessFile.
Proof. unfold obj_face. destruct (to_words line); [discriminate|]. repeat (apply obind_never; [apply obj_index_never|]; intros [? ?]). discriminate. Qed.
Lemma obj_points_never ft : step_never ObjAccessFile (obj_points_step ft).
Proof. intros s line. unfold obj_points_step. destruct (starts_with _ _); [apply obj_vertex_never|exact I]. Qed.
Lemma obj_mesh_never ft : step_never ObjAccessFile (obj_mesh_step ft).
Proof. intros s line. unfold obj_mesh_step. destruct (starts_with (str "v ") _); [apply omap_never, obj_vertex_never|]. destruct (starts_with (str "f ") _); [apply omap_never, obj_face_never|exact I]. Qed.
Lemma off_vertex_never ft line : off_vertex ft line <> Err OffAccessFile. Proof. apply three_never. discriminate. Qed.
Lemma off_face_never line : off_face line <> Err OffAccessFile.
Proof. unfold off_face. destruct (to_words line); [discriminate|]. destruct (bytes_eqb _ _); [|discriminate]. repeat (apply obind_never; [apply next_count_never; discriminate|]; intros [? ?]). discriminate. Qed.
Lemma off_points_never ft : step_never OffAccessFile (off_points_step ft).
Proof.
  intros s line. unfold off_points_step. destruct (off_pass s line); [exact I|]. destruct (off_counts s) as [n|]; [destruct (off_added s <? n)%N; [apply omap_never, off_vertex_never|exact I]|].
  pose proof (next_count_never OffAccessFile OffVertexCount (to_words line) ltac:(discriminate)) as N. destruct (next_count OffVertexCount (to_words line)) as [[n w]|e|]; congruence.
Qed.
Lemma off_mesh_never ft : step_never OffAccessFile (off_mesh_step ft).
Proof.
  intros s line. unfold off_mesh_step. destruct (off_pass s line); [exact I|]. destruct (off_counts s) as [[n m]|]; [destruct (off_added s <? n)%N; [apply omap_never, off_vertex_never|apply omap_never, off_face_never]|].
  assert (N : off_two_counts line <> Err OffAccessFile) by (unfold off_two_counts; repeat (apply obind_never; [apply next_count_never; discriminate|]; intros [? ?]); discriminate). destruct (off_two_counts line) as [[n w]|e|]; congruence.
Qed.
Lemma pts_never ft : step_never PtsAccessFile (pts_step ft).
Proof.
  intros s line. assert (B : forall a, match pts_block a s line with LItem r _ => r <> Err PtsAccessFile | _ => True end).
  { intros a. unfold pts_block. pose proof (next_count_never PtsAccessFile PtsVertexCount (to_words line) ltac:(discriminate)) as N. destruct (next_count PtsVertexCount (to_words line)) as [[n w]|e|]; congruence. }
  unfold pts_step. destruct (bytes_eqb line []); [exact I|]. destruct (pts_n s) as [n|]; [|apply B]. destruct (pts_added s <? n)%N; [|apply B]. apply omap_never, three_never. discriminate.
Qed.
Lemma gcode_move_never ft ra s args : match gcode_move ft ra s args with LItem r _ => r <> Err GcodeAccessFile | _ => True end.
Proof. unfold gcode_move. destruct (command ft args) as [[[x y] z]|]; [|discriminate]. destruct x, y, z; try exact I; discriminate. Qed.
Lemma gcode_never ft : step_never GcodeAccessFile (gcode_step ft).
Proof.
  intros s line. unfold gcode_step. destruct line as [|c0 [|c1 [|c2 [|c3 rest]]]]; try exact I.
  destruct (Ascii.eqb c0 _); [|exact I]. destruct (_ && _)%bool; [apply gcode_move_never|]. destruct (_ && _)%bool; [|exact I]. destruct (Ascii.eqb c2 "0"%char); [exact I|]. destruct (Ascii.eqb c2 "1"%char); [exact I|]. destruct (Ascii.eqb c2 "2"%char); [apply gcode_move_never|exact I].
Qed.
Lemma mesh_add_never {E} (e e' : E) : e' <> e -> forall m x, error_of (snd (mesh_add e' m x)) <> Some e.
Proof. intros N m [p|[[a b] c]]; cbn [mesh_add]; [discriminate|]. destruct (try_add_connection m a b c) as [m' [u|f|]]; cbn; congruence. Qed.
Lemma off_add_never m x : error_of (snd (off_add m x)) <> Some OffAccessFile.
Proof. destruct x as [nv nf|x]; cbn [off_add snd]; [destruct (_ && _)%bool; discriminate|]. apply mesh_add_never. discriminate. Qed.
Lemma push_data_never {E} (e : E) m (x : data_reserve (pt3 F64)) : error_of (snd (push_data (E := with_line E) m x)) <> Some e.
Proof. destruct x; cbn [push_data snd]; [destruct (reserve _ _); discriminate|discriminate]. Qed.
