From Verif Require Import Base BaseLemmas Num MatrixModel IoModel IoSpec IoLemmas ByteModel MeshModel StlModel PlyModel ScanModel ScannerModel ReaderModel ReaderSpec ReaderLemmas ReaderLemmas2.
From Coq Require Import Lia Wf_nat.

(** ** Text stl *)
Section Lines.
Variable P : reader -> Prop.
Definition tsim {E A} (o1 : outcome E (A * reader * N)) (o2 : outcome E (A * list bytes * N)) : Prop :=
  match o1, o2 with
  | Ok (a, r, i), Ok (b, ls, j) => a = b /\ i = j /\ offers P r ls
  | Err e, Err f => e = f
  | Panic, Panic => True
  | _, _ => False
  end.
Lemma tsim_bind {E A B} (x1 : outcome E (A * reader * N)) (x2 : outcome E (A * list bytes * N)) (f1 : A * reader * N -> outcome E (B * reader * N)) (f2 : A * list bytes * N -> outcome E (B * list bytes * N)) :
  tsim x1 x2 -> (forall a r ls i, offers P r ls -> tsim (f1 (a, r, i)) (f2 (a, ls, i))) -> tsim (obind x1 f1) (obind x2 f2).
Proof. intros S F. destruct x1 as [[[a r] i]|e|], x2 as [[[b s] j]|e'|]; cbn in S; try contradiction; cbn [obind]; [destruct S as (-> & -> & S); apply F; exact S|exact S|exact I]. Qed.
Lemma stl_line_sim i r ls : offers P r ls -> tsim (stl_line_from i r) (stl_line i ls).
Proof. intros O. apply offers_fetch in O. unfold stl_line_from, stl_line. destruct ls as [|raw ls]; destruct O as (r' & -> & O); cbn; auto. Qed.
Lemma stl_keyword_sim w e i r ls : offers P r ls -> tsim (stl_keyword_from w e i r) (stl_keyword w e i ls).
Proof. intros O. unfold stl_keyword_from, stl_keyword. apply tsim_bind; [apply stl_line_sim; exact O|]. intros a r' ls' j O'. cbn. destruct (starts_with (str w) (trim_start a)); cbn; auto. Qed.
Lemma stl_vertex_sim ft i r ls : offers P r ls -> tsim (stl_vertex_line_from ft i r) (stl_vertex_line ft i ls).
Proof. intros O. unfold stl_vertex_line_from, stl_vertex_line. apply tsim_bind; [apply stl_line_sim; exact O|]. intros a r' ls' j O'. destruct (at_line j a _); cbn; auto. Qed.
Lemma facet_sim ft i r ls : offers P r ls -> tsim (read_stl_facet_from ft i r) (read_stl_facet ft i ls).
Proof.
  intros O. unfold read_stl_facet_from, read_stl_facet. apply tsim_bind; [apply stl_line_sim; exact O|]. clear. intros a r ls i O. cbn zeta.
  destruct (starts_with (str "endsolid") (trim_start a)); [reflexivity|]. destruct (negb (starts_with (str "facet") (trim_start a))); [reflexivity|].
  apply tsim_bind; [apply stl_keyword_sim; exact O|]. intros u r1 l1 i1 O1. apply tsim_bind; [apply stl_vertex_sim; exact O1|]. intros p r2 l2 i2 O2.
  apply tsim_bind; [apply stl_vertex_sim; exact O2|]. intros q r3 l3 i3 O3. apply tsim_bind; [apply stl_vertex_sim; exact O3|]. intros s r4 l4 i4 O4.
  apply tsim_bind; [apply stl_keyword_sim; exact O4|]. intros u5 r5 l5 i5 O5. apply tsim_bind; [apply stl_keyword_sim; exact O5|]. intros u6 r6 l6 i6 O6. cbn. auto.
Qed.
(** before the first line: it can be skipped *)
Definition first_ok (r : reader) (ls : list bytes) : Prop := exists l r', read_until_from [] r = (Some l, r') /\ offers P r' (tl ls).
Inductive sa_sim : stl_ascii_reader -> stl_ascii -> Prop :=
| sa_sim_first r ls i : first_ok r ls -> sa_sim (mksar r false false i) (mksa ls false false i)
| sa_sim_later r ls d i : offers P r ls -> sa_sim (mksar r d true i) (mksa ls d true i).
Lemma sa_next_sim ft s1 s2 : sa_sim s1 s2 -> fst (stl_ascii_next_from ft s1) = fst (stl_ascii_next ft s2) /\ (forall a, fst (stl_ascii_next_from ft s1) = Some (Ok a) -> sa_sim (snd (stl_ascii_next_from ft s1)) (snd (stl_ascii_next ft s2))).
Proof.
  assert (K : forall r ls i, offers P r ls ->
    fst (match read_stl_facet_from ft i r with Ok (f, r, i) => (Some (Ok (StlModel.Data f)), mksar r false true i) | Err w => match info_error w with LoadFileEndReached => (None, mksar r true true i) | _ => (Some (Err w), mksar r true true i) end | Panic => (Some Panic, mksar r false true i) end)
    = fst (match read_stl_facet ft i ls with Ok (f, r, i) => (Some (Ok (StlModel.Data f)), mksa r false true i) | Err w => match info_error w with LoadFileEndReached => (None, mksa ls true true i) | _ => (Some (Err w), mksa ls true true i) end | Panic => (Some Panic, mksa ls false true i) end)
    /\ (forall a, fst (match read_stl_facet_from ft i r with Ok (f, r, i) => (Some (Ok (StlModel.Data f)), mksar r false true i) | Err w => match info_error w with LoadFileEndReached => (None, mksar r true true i) | _ => (Some (Err w), mksar r true true i) end | Panic => (Some Panic, mksar r false true i) end) = Some (Ok a) ->
      sa_sim (snd (match read_stl_facet_from ft i r with Ok (f, r, i) => (Some (Ok (StlModel.Data f)), mksar r false true i) | Err w => match info_error w with LoadFileEndReached => (None, mksar r true true i) | _ => (Some (Err w), mksar r true true i) end | Panic => (Some Panic, mksar r false true i) end))
             (snd (match read_stl_facet ft i ls with Ok (f, r, i) => (Some (Ok (StlModel.Data f)), mksa r false true i) | Err w => match info_error w with LoadFileEndReached => (None, mksa ls true true i) | _ => (Some (Err w), mksa ls true true i) end | Panic => (Some Panic, mksa ls false true i) end)))).
  { intros r ls i O. pose proof (facet_sim ft i r ls O) as S. destruct (read_stl_facet_from ft i r) as [[[f1 r1] i1]|e|], (read_stl_facet ft i ls) as [[[f2 l2] i2]|e'|]; cbn in S; try contradiction; cbn [fst snd].
    - destruct S as (-> & -> & S). split; [reflexivity|]. intros a _. constructor. exact S.
    - subst e'. destruct (info_error e); cbn [fst snd]; split; try reflexivity; discriminate.
    - split; [reflexivity|discriminate]. }
  destruct 1 as [r ls i (l & r' & E & O)|r ls d i O]; unfold stl_ascii_next_from, stl_ascii_next; cbn [sar_read sar_done sar_header sar_line sa_read sa_done sa_header sa_line].
  - rewrite E. cbn [sar_read sar_line]. apply K. exact O.
  - destruct d; [split; [reflexivity|discriminate]|]. apply K. exact O.
Qed.
Lemma sa_load_sim ft k r ls : first_ok r ls -> load_loop (stl_ascii_next_from ft) k (mksar r false false 0) [] = load_loop (stl_ascii_next ft) k (mksa ls false false 0) [].
Proof. intros O. apply (load_loop_sim sa_sim); [apply sa_next_sim|constructor; exact O]. Qed.

(** ** Text ply *)
Hypothesis PC : forall r, P r -> offers P r [].
Inductive as_sim : ascii_reader -> ascii_state -> Prop :=
| as_sim_intro r ls d c i : offers P r ls -> as_sim (mkar r d c i) (mkas ls d c i).
Lemma ascii_points_sim ft v s1 s2 : as_sim s1 s2 -> fst (ascii_points_next_from ft v s1) = fst (ascii_points_next ft v s2) /\ as_sim (snd (ascii_points_next_from ft v s1)) (snd (ascii_points_next ft v s2)).
Proof.
  destruct 1 as [r ls d c i O]. unfold ascii_points_next_from, ascii_points_next. cbn [ar_read ar_done ar_current ar_line as_read as_done as_current as_line].
  destruct d; [split; [reflexivity|constructor; exact O]|]. cbn zeta. destruct (c <? vd_count v)%N.
  - apply offers_fetch in O. destruct ls as [|raw ls]; destruct O as (r' & -> & O); cbn [next_line].
    + destruct (negb (c + 1 =? vd_count v)%N); (split; [reflexivity|constructor; apply PC; exact O]).
    + destruct (ascii_vertex ft v (trim_line raw)) as [p|e|]; (split; [reflexivity|constructor; exact O]).
  - destruct (negb (c =? vd_count v)%N); (split; [reflexivity|constructor; exact O]).
Qed.
Lemma ascii_faces_sim f s1 s2 : as_sim s1 s2 -> fst (ascii_faces_next_from f s1) = fst (ascii_faces_next f s2) /\ as_sim (snd (ascii_faces_next_from f s1)) (snd (ascii_faces_next f s2)).
Proof.
  destruct 1 as [r ls d c i O]. unfold ascii_faces_next_from, ascii_faces_next. cbn [ar_read ar_done ar_current ar_line as_read as_done as_current as_line].
  destruct d; [split; [reflexivity|constructor; exact O]|]. cbn zeta. destruct (c <? fd_count f)%N.
  - apply offers_fetch in O. destruct ls as [|raw ls]; destruct O as (r' & -> & O); cbn [next_line].
    + split; [reflexivity|constructor; apply PC; exact O].
    + destruct (collect_index_line (trim_line raw)) as [p|]; (split; [reflexivity|constructor; exact O]).
  - split; [reflexivity|constructor; exact O].
Qed.
Lemma ascii_mesh_sim ft v f s1 s2 : msim as_sim s1 s2 -> fst (ascii_mesh_next_from ft v f s1) = fst (ascii_mesh_next ft v f s2) /\ msim as_sim (snd (ascii_mesh_next_from ft v f s1)) (snd (ascii_mesh_next ft v f s2)).
Proof.
  apply mesh_next_sim; [apply ascii_points_sim|apply ascii_faces_sim|]. intros a b [r ls d c i O]. cbn. constructor. exact O.
Qed.
End Lines.

(** ** The header of ply files *)
Section Header.
Variable Q : reader -> list bytes -> Prop.
Hypothesis QF : forall r ls, Q r ls -> match ls with [] => exists r', fetch_from r = (None, r') | raw :: ls => exists r', fetch_from r = (Some (trim_line raw), r') /\ Q r' ls end.
Lemma header_sim ls : forall n h i r, Q r ls -> (length ls < n)%nat ->
  match load_header_from n h i r, load_header h i ls with
  | Ok (hd, r', i'), Ok (hd', ls', j) => hd = hd' /\ i' = j /\ Q r' ls'
  | Err e, Err e' => e = e'
  | Panic, Panic => True
  | _, _ => False
  end.
Proof.
  induction ls as [|raw ls IH]; intros n h i r HQ L; (destruct n as [|n]; [cbn in L; lia|]); cbn [load_header_from load_header]; apply QF in HQ.
  - destruct HQ as (r' & ->). reflexivity.
  - destruct HQ as (r' & -> & HQ). destruct (at_line (i + 1) (trim_line raw) (header_line h (trim_line raw))) as [[h'|hd]|e|]; cbn; auto. apply IH; [exact HQ|cbn in L; lia].
Qed.
End Header.
Lemma load_header_app ls : forall h i hd rest j more, load_header h i ls = Ok (hd, rest, j) -> load_header h i (ls ++ more) = Ok (hd, rest ++ more, j).
Proof.
  induction ls as [|l ls IH]; intros h i hd rest j more E; [discriminate|]. cbn [app load_header] in *. destruct (at_line _ _ _) as [[h'|hd']|e|]; try discriminate.
  - apply IH. exact E.
  - injection E as -> <- ->. reflexivity.
Qed.
Lemma raw_whole w : (w = [] \/ exists w', w = w' ++ [nl]) -> forall t, raw_lines (w ++ t) = raw_lines w ++ raw_lines t.
Proof.
  intros W. induction w as [w IH] using (induction_ltof1 _ (@length ascii)). unfold ltof in IH. intros t. destruct w as [|c w']; [reflexivity|].
  set (b := c :: w') in *. assert (NE : b <> []) by discriminate.
  assert (I : In nl b). { destruct W as [W|(w & ->)]; [congruence|]. apply in_or_app. right. left. reflexivity. }
  rewrite (raw_lines_eq (b ++ t)) by (destruct b; [congruence|discriminate]). rewrite (read_until_nl_app b t I). cbn [fst snd]. rewrite (raw_lines_eq b NE). cbn [app]. f_equal.
  apply IH; [apply short; exact NE|]. destruct W as [W|(w & W)]; [congruence|]. pose proof (read_until_split b) as SP. destruct (snd (read_until b)) as [|x y] eqn:X; [left; reflexivity|]. right.
  assert (Y : x :: y <> []) by discriminate. destruct (exists_last Y) as (q & z & EQ). exists q. rewrite EQ in *. rewrite W, app_assoc in SP. apply app_inj_tail in SP as [_ <-]. reflexivity.
Qed.

(** ** Loading *)
Definition dry (r : reader) : Prop := Forall (fun e => match e with Chunk _ => False | _ => True end) r.
Lemma dry_offers r : dry r -> offers dry r [].
Proof.
  intros D. assert (X : exists o r', read_until_from [] r = (o, r') /\ (o = None \/ o = Some []) /\ dry r').
  { induction D as [|e r He D IH]; [exists (Some []), []; repeat split; [right; reflexivity|constructor]|]. destruct e as [c| |]; [contradiction|exact IH|]. exists None, r. repeat split; [left; reflexivity|exact D]. }
  destruct X as (o & r' & E & O & D'). exact (offers_nil _ _ _ _ E O D').
Qed.
Lemma end_offers (r : reader) : r = [] -> offers (fun r => r = []) r [].
Proof. intros ->. apply (offers_nil _ [] [] (Some [])); [reflexivity|right; reflexivity|reflexivity]. Qed.
(** the state between two lines of a steady reader and of one that breaks *)
Definition between (r : reader) (ls : list bytes) : Prop := exists b, holds [] r b /\ ls = raw_lines b.
Definition before_break (r2 : reader) (torn : bytes) (r : reader) (ls : list bytes) : Prop :=
  exists w, holds (Failure :: r2) r (w ++ torn) /\ ls = raw_lines w /\ (w = [] \/ exists w', w = w' ++ [nl]).
Lemma between_fetch r ls : between r ls -> match ls with [] => exists r', fetch_from r = (None, r') | raw :: ls => exists r', fetch_from r = (Some (trim_line raw), r') /\ between r' ls end.
Proof.
  intros (b & H & ->). destruct b as [|c b'].
  - unfold fetch_from. cbn [raw_lines]. rewrite (read_until_torn _ _ _ H) by (intros []). exists []. reflexivity.
  - set (b := c :: b') in *. assert (NE : b <> []) by discriminate. rewrite (raw_lines_eq b NE). unfold fetch_from. destruct (in_dec Ascii.ascii_dec nl b) as [I|N].
    + destruct (read_until_line _ _ _ H I []) as (r' & -> & H'). cbn [app]. pose proof (read_until_ne b NE). destruct (fst (read_until b)) eqn:X; [congruence|]. exists r'. split; [reflexivity|]. exists (snd (read_until b)). auto.
    + rewrite (read_until_torn _ _ _ H N), (read_until_no b N). cbn [fst snd app read_until_from raw_lines]. exists []. split; [reflexivity|]. exists []. split; [constructor|reflexivity].
Qed.
Lemma before_break_fetch r2 torn : ~ In nl torn -> forall r ls, before_break r2 torn r ls -> match ls with [] => exists r', fetch_from r = (None, r') | raw :: ls => exists r', fetch_from r = (Some (trim_line raw), r') /\ before_break r2 torn r' ls end.
Proof.
  intros N r ls (w & H & -> & W). destruct w as [|c w'].
  - unfold fetch_from. cbn [raw_lines]. rewrite (read_until_torn _ _ _ H N). exists r2. reflexivity.
  - set (b := c :: w') in *. assert (NE : b <> []) by discriminate. rewrite (raw_lines_eq b NE).
    assert (I : In nl b). { destruct W as [W|(w & ->)]; [congruence|]. apply in_or_app. right. left. reflexivity. }
    unfold fetch_from. destruct (read_until_line _ _ _ H (in_or_app _ _ _ (or_introl I)) []) as (r' & E & H'). rewrite (read_until_nl_app b torn I) in E, H'. cbn [fst snd app] in *. rewrite E.
    pose proof (read_until_ne b NE). destruct (fst (read_until b)) eqn:X; [congruence|]. exists r'. split; [reflexivity|]. exists (snd (read_until b)). split; [exact H'|]. split; [reflexivity|].
    destruct W as [W|(w & W)]; [congruence|]. pose proof (read_until_split b) as SP. destruct (snd (read_until b)) as [|x y] eqn:Z; [left; reflexivity|]. right.
    assert (Y : x :: y <> []) by discriminate. destruct (exists_last Y) as (q & z & EQ). exists q. rewrite EQ in *. rewrite W, app_assoc in SP. apply app_inj_tail in SP as [_ <-]. reflexivity.
Qed.
Lemma between_offers r ls : between r ls -> offers (fun r => r = []) r ls.
Proof. intros (b & H & ->). apply (steady_offers_aux (length b)); [lia|exact H]. Qed.
Lemma before_break_offers (P : reader -> Prop) r2 torn r ls : P r2 -> ~ In nl torn -> before_break r2 torn r ls -> offers P r ls.
Proof. intros HP N (w & H & -> & W). apply (broken_offers_aux P r2 torn (length w) HP N w); [lia|exact W|exact H]. Qed.
Lemma steady_between r : steady r -> between r (raw_lines (sent r)).
Proof. intros S. exists (sent r). split; [|reflexivity]. rewrite <- (app_nil_r r) at 1. apply holds_steady. exact S. Qed.
Lemma ended_nil : ended []. Proof. left. reflexivity. Qed.
Lemma ended_fail r2 : ended (Failure :: r2). Proof. right. eauto. Qed.
Lemma load_ply_mesh_steady ft k r : steady r -> load_ply_mesh_from ft k r = load_ply_mesh ft k (sent r).
Proof.
  intros S. pose proof (steady_between r S) as B. unfold load_ply_mesh_from, load_ply_mesh.
  pose proof (header_sim between between_fetch (raw_lines (sent r)) (calls_left r) h_start 0%N r B (offers_length _ _ _ (between_offers _ _ B))) as H.
  destruct (load_header_from (calls_left r) h_start 0 r) as [[[hd1 r1] i1]|e|], (load_header h_start 0 (raw_lines (sent r))) as [[[hd2 l2] i2]|e'|]; try contradiction; [|subst; reflexivity|reflexivity].
  destruct H as (-> & -> & B1). destruct hd2 as [fmt v [f|]]; [|reflexivity]. destruct (reserve 24 (vd_count v) && reserve 8 (w64 (3 * fd_count f))); [|reflexivity]. destruct fmt as [|en].
  - apply (fold_loop_sim (msim (as_sim (fun r => r = [])))); [|constructor; constructor; apply between_offers; exact B1]. intros s1 s2 HS. destruct (ascii_mesh_sim _ end_offers ft v f s1 s2 HS) as (E & R). split; [exact E|intros _ _; exact R].
  - destruct B1 as (b & HB & ->). apply (fold_loop_sim (msim (bs_sim []))); [|rewrite concat_raw; constructor; constructor; exact HB]. apply simple_next_sim. apply binary_mesh_sim. exact ended_nil.
Qed.
Lemma load_ply_points_steady ft k r : steady r -> load_ply_points_from ft k r = load_ply_points ft k (sent r).
Proof.
  intros S. pose proof (steady_between r S) as B. unfold load_ply_points_from, load_ply_points.
  pose proof (header_sim between between_fetch (raw_lines (sent r)) (calls_left r) h_start 0%N r B (offers_length _ _ _ (between_offers _ _ B))) as H.
  destruct (load_header_from (calls_left r) h_start 0 r) as [[[hd1 r1] i1]|e|], (load_header h_start 0 (raw_lines (sent r))) as [[[hd2 l2] i2]|e'|]; try contradiction; [|subst; reflexivity|reflexivity].
  destruct H as (-> & -> & B1). destruct hd2 as [fmt v f]. destruct (reserve 24 (vd_count v)); [|reflexivity]. destruct fmt as [|en].
  - apply (load_loop_sim (as_sim (fun r => r = []))); [|constructor; apply between_offers; exact B1]. intros s1 s2 HS. destruct (ascii_points_sim _ end_offers ft v s1 s2 HS) as (E & R). split; [exact E|intros _ _; exact R].
  - destruct B1 as (b & HB & ->). apply (load_loop_sim (bs_sim [])); [|rewrite concat_raw; constructor; exact HB]. apply simple_next_sim. apply binary_next_sim. intros r0 b0. apply binary_vertex_sim. exact ended_nil.
Qed.
Lemma broken_before b whole r1 r2 torn : steady r1 -> sent r1 = b -> b = whole ++ torn -> (whole = [] \/ exists w, whole = w ++ [nl]) -> before_break r2 torn (r1 ++ Failure :: r2) (raw_lines whole).
Proof. intros S E B W. exists whole. split; [|split; [reflexivity|exact W]]. rewrite <- B, <- E. apply holds_steady. exact S. Qed.
Lemma load_ply_mesh_broken ft k b whole r : breaks_for_good b r -> whole_lines b whole -> load_ply_mesh_from ft k r = load_ply_mesh ft k whole \/ load_ply_mesh_from ft k r = load_ply_mesh ft k b.
Proof.
  intros (r1 & r2 & -> & S & E & D) (torn & EB & N & W). pose proof (broken_before b whole r1 r2 torn S E EB W) as B. unfold load_ply_mesh_from, load_ply_mesh. rewrite EB, (raw_whole whole W torn).
  set (r := r1 ++ Failure :: r2) in *.
  pose proof (header_sim _ (before_break_fetch r2 torn N) (raw_lines whole) (calls_left r) h_start 0%N r B (offers_length _ _ _ (before_break_offers (fun _ => True) r2 torn r _ I N B))) as H.
  destruct (load_header_from (calls_left r) h_start 0 r) as [[[hd1 q1] i1]|e|], (load_header h_start 0 (raw_lines whole)) as [[[hd2 l2] i2]|e'|] eqn:LH; try contradiction; [|subst; left; reflexivity|left; reflexivity].
  destruct H as (-> & -> & B1). rewrite (load_header_app _ _ _ _ _ _ (raw_lines torn) LH). destruct hd2 as [fmt v [f|]]; [|left; reflexivity]. destruct (reserve 24 (vd_count v) && reserve 8 (w64 (3 * fd_count f))); [|left; reflexivity]. destruct fmt as [|en].
  - left. apply (fold_loop_sim (msim (as_sim dry))); [|constructor; constructor; apply (before_break_offers dry r2 torn); assumption]. intros s1 s2 HS. destruct (ascii_mesh_sim _ dry_offers ft v f s1 s2 HS) as (EE & R). split; [exact EE|intros _ _; exact R].
  - right. destruct B1 as (w & HB & -> & WW). apply (fold_loop_sim (msim (bs_sim (Failure :: r2)))); [|rewrite concat_app, !concat_raw; constructor; constructor; exact HB]. apply simple_next_sim. apply binary_mesh_sim. apply ended_fail.
Qed.
Lemma load_ply_points_broken ft k b whole r : breaks_for_good b r -> whole_lines b whole -> load_ply_points_from ft k r = load_ply_points ft k whole \/ load_ply_points_from ft k r = load_ply_points ft k b.
Proof.
  intros (r1 & r2 & -> & S & E & D) (torn & EB & N & W). pose proof (broken_before b whole r1 r2 torn S E EB W) as B. unfold load_ply_points_from, load_ply_points. rewrite EB, (raw_whole whole W torn).
  set (r := r1 ++ Failure :: r2) in *.
  pose proof (header_sim _ (before_break_fetch r2 torn N) (raw_lines whole) (calls_left r) h_start 0%N r B (offers_length _ _ _ (before_break_offers (fun _ => True) r2 torn r _ I N B))) as H.
  destruct (load_header_from (calls_left r) h_start 0 r) as [[[hd1 q1] i1]|e|], (load_header h_start 0 (raw_lines whole)) as [[[hd2 l2] i2]|e'|] eqn:LH; try contradiction; [|subst; left; reflexivity|left; reflexivity].
  destruct H as (-> & -> & B1). rewrite (load_header_app _ _ _ _ _ _ (raw_lines torn) LH). destruct hd2 as [fmt v f]. destruct (reserve 24 (vd_count v)); [|left; reflexivity]. destruct fmt as [|en].
  - left. apply (load_loop_sim (as_sim dry)); [|constructor; apply (before_break_offers dry r2 torn); assumption]. intros s1 s2 HS. destruct (ascii_points_sim _ dry_offers ft v s1 s2 HS) as (EE & R). split; [exact EE|intros _ _; exact R].
  - right. destruct B1 as (w & HB & -> & WW). apply (load_loop_sim (bs_sim (Failure :: r2))); [|rewrite concat_app, !concat_raw; constructor; exact HB]. apply simple_next_sim. apply binary_next_sim. intros r0 b0. apply binary_vertex_sim. apply ended_fail.
Qed.
(** *** stl *)
Lemma bytes_eqb_true : forall a b, bytes_eqb a b = true -> a = b.
Proof. induction a as [|x a IH]; intros [|y b] E; cbn in E; try discriminate; [reflexivity|]. apply andb_prop in E as [E1 E2]. apply Ascii.eqb_eq in E1 as ->. f_equal. exact (IH b E2). Qed.
Lemma stl_items_steady ft k fmt r : steady r -> stl_items_from ft k fmt r = stl_items ft k fmt (sent r).
Proof.
  intros S. assert (H : holds [] r (sent r)) by (rewrite <- (app_nil_r r) at 1; apply holds_steady; exact S). unfold stl_items_from, stl_items, stl_is_ascii_from, stl_is_ascii.
  pose proof (exact_sim [] ended_nil StlAccessFile 5 r (sent r) H) as X. destruct (take_bytes 5 (sent r)) as [[x s]|]; [|rewrite X; reflexivity]. destruct X as (r' & -> & H'). cbn [obind simple].
  destruct (match fmt with StlAscii => true | StlBinary => false | StlAuto => bytes_eqb x (str "solid") end).
  - apply (sa_load_sim (fun r => r = [])). unfold first_ok. destruct s as [|c s'].
    + exists [], []. rewrite (read_until_torn _ _ _ H') by (intros []). split; [reflexivity|]. apply end_offers. reflexivity.
    + set (b := c :: s') in *. assert (NE : b <> []) by discriminate. rewrite (raw_lines_eq b NE). cbn [tl]. destruct (in_dec Ascii.ascii_dec nl b) as [I|N].
      * destruct (read_until_line _ _ _ H' I []) as (q & E & HQ). exists (fst (read_until b)), q. split; [exact E|]. apply (steady_offers_aux (length (snd (read_until b)))); [lia|exact HQ].
      * rewrite (read_until_torn _ _ _ H' N), (read_until_no b N). exists b, []. split; [reflexivity|]. apply end_offers. reflexivity.
  - apply (sb_load_sim [] ended_nil). exact H'.
Qed.
Lemma skipn_whole n w : (w = [] \/ exists w', w = w' ++ [nl]) -> skipn n w = [] \/ exists w', skipn n w = w' ++ [nl].
Proof.
  intros [-> | (w' & ->)]; [left; destruct n; reflexivity|]. destruct (le_lt_dec n (length w')) as [L|L].
  - right. exists (skipn n w'). rewrite skipn_app. replace (n - length w')%nat with 0%nat by lia. reflexivity.
  - left. apply skipn_all2. rewrite app_length. cbn. lia.
Qed.
Lemma stl_items_broken_ascii ft k fmt b whole r : breaks_after b r -> whole_lines b whole -> skipn 5 whole <> [] -> fmt = StlAscii \/ (fmt = StlAuto /\ firstn 5 b = str "solid") ->
  stl_items_from ft k fmt r = stl_items ft k fmt whole.
Proof.
  intros (r1 & r2 & -> & S & E) (torn & EB & N & W) NE F. assert (H : holds (Failure :: r2) (r1 ++ Failure :: r2) (whole ++ torn)) by (rewrite <- EB, <- E; apply holds_steady; exact S).
  assert (L : (5 <= length whole)%nat). { destruct (le_lt_dec 5 (length whole)) as [L|L]; [exact L|]. exfalso. apply NE. apply skipn_all2. lia. }
  unfold stl_items_from, stl_items, stl_is_ascii_from, stl_is_ascii. pose proof (exact_sim _ (ended_fail r2) StlAccessFile 5 _ _ H) as X. unfold take_bytes in *. rewrite app_length in X.
  replace (length whole + length torn <? 5)%nat with false in X by (symmetry; apply Nat.ltb_ge; lia). replace (length whole <? 5)%nat with false by (symmetry; apply Nat.ltb_ge; lia).
  rewrite firstn_app, skipn_app in X. replace (5 - length whole)%nat with 0%nat in X by lia. rewrite app_nil_r in X. change (skipn 0 torn) with torn in X. destruct X as (r' & -> & H'). cbn [obind simple].
  assert (A : match fmt with StlAscii => true | StlBinary => false | StlAuto => bytes_eqb (firstn 5 whole) (str "solid") end = true).
  { destruct F as [-> | [-> F]]; [reflexivity|]. rewrite EB, firstn_app in F. replace (5 - length whole)%nat with 0%nat in F by lia. change (firstn 0 torn) with (@nil ascii) in F. rewrite app_nil_r in F. rewrite F. reflexivity. }
  rewrite A. apply (sa_load_sim (fun _ => True)). destruct (skipn_whole 5 whole W) as [Z|Z]; [congruence|]. set (w := skipn 5 whole) in *.
  assert (I : In nl w). { destruct Z as (w' & ->). apply in_or_app. right. left. reflexivity. }
  destruct (read_until_line _ _ _ H' (in_or_app _ _ _ (or_introl I)) []) as (q & EQ & HQ). rewrite (read_until_nl_app w torn I) in EQ, HQ. cbn [fst snd app] in *. exists (fst (read_until w)), q. split; [exact EQ|].
  rewrite (raw_lines_eq w NE). cbn [tl]. apply (broken_offers_aux (fun _ => True) r2 torn (length (snd (read_until w))) Logic.I N); [lia| |exact HQ].
  destruct Z as (w' & Z). pose proof (read_until_split w) as SP. destruct (snd (read_until w)) as [|x y] eqn:XX; [left; reflexivity|]. right.
  assert (Y : x :: y <> []) by discriminate. destruct (exists_last Y) as (p & z & EZ). exists p. rewrite EZ in *. rewrite Z, app_assoc in SP. apply app_inj_tail in SP as [_ <-]. reflexivity.
Qed.
Lemma stl_items_broken_binary ft k fmt b r : breaks_after b r -> fmt = StlBinary \/ (fmt = StlAuto /\ firstn 5 b <> str "solid") -> stl_items_from ft k fmt r = stl_items ft k fmt b.
Proof.
  intros (r1 & r2 & -> & S & E) F. assert (H : holds (Failure :: r2) (r1 ++ Failure :: r2) b) by (rewrite <- E; apply holds_steady; exact S).
  unfold stl_items_from, stl_items, stl_is_ascii_from, stl_is_ascii. pose proof (exact_sim _ (ended_fail r2) StlAccessFile 5 _ _ H) as X. destruct (take_bytes 5 b) as [[x s]|] eqn:TB; [|rewrite X; reflexivity]. destruct X as (r' & -> & H'). cbn [obind simple].
  assert (A : match fmt with StlAscii => true | StlBinary => false | StlAuto => bytes_eqb x (str "solid") end = false).
  { destruct F as [-> | [-> F]]; [reflexivity|]. unfold take_bytes in TB. destruct (length b <? 5)%nat; [discriminate|]. injection TB as <- <-. destruct (bytes_eqb (firstn 5 b) (str "solid")) eqn:Q; [|exact Q]. exfalso. apply F. apply bytes_eqb_true. exact Q. }
  rewrite A. apply (sb_load_sim _ (ended_fail r2)). exact H'.
Qed.
