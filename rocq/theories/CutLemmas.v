(** Lemmas about loading files that end too early. *)
From Verif Require Import Base BaseLemmas Num GeomSpec MeshModel MeshSpec MeshLemmas IoModel IoSpec IoLemmas ByteModel ByteLemmas PlyModel PlyLemmas ScanModel ScanSpec ScanLemmas ObjOffLemmas CutSpec.
Open Scope nat_scope.

(** ** Prefixes *)
Lemma prefix_refl {A} (a : list A) : prefix a a. Proof. exists []. symmetry. apply app_nil_r. Qed.
Lemma prefix_nil {A} (a : list A) : prefix [] a. Proof. exists a. reflexivity. Qed.
Lemma prefix_trans {A} (a b c : list A) : prefix a b -> prefix b c -> prefix a c.
Proof. intros [x ->] [y ->]. exists (x ++ y). symmetry. apply app_assoc. Qed.
Lemma prefix_app {A} (a b c : list A) : prefix a b -> prefix (c ++ a) (c ++ b).
Proof. intros [x ->]. exists x. apply app_assoc. Qed.
Lemma prefix_snoc {A} (a : list A) x : prefix a (a ++ [x]). Proof. exists [x]. reflexivity. Qed.
Lemma prefix_flat_map {A B} (f : A -> list B) a b : prefix a b -> prefix (flat_map f a) (flat_map f b).
Proof. intros [x ->]. exists (flat_map f x). apply flat_map_app. Qed.
Lemma prefix_length {A} (a b : list A) : prefix a b -> length a <= length b.
Proof. intros [x ->]. rewrite app_length. lia. Qed.

(** The lines of a file that was cut: those of the file, and possibly the beginning of one more. *)
Lemma raw_nil s : raw_lines s = [] -> s = [].
Proof. destruct s as [|c s]; [reflexivity|]. cbn [raw_lines]. destruct (Ascii.eqb c nl); [discriminate|]. destruct (raw_lines s); discriminate. Qed.
Lemma raw_cut part : forall file, prefix part file -> exists c t r, raw_lines part = c ++ t /\ raw_lines file = c ++ r /\
  (t = [] \/ exists p q r', t = [p] /\ r = (p ++ q) :: r' /\ p <> [] /\ is_line p).
Proof.
  induction part as [|x part IH]; intros file [y E].
  - exists [], [], (raw_lines file). auto.
  - destruct file as [|x' file]; [discriminate|]. cbn [app] in E. injection E as -> E. destruct (IH file (ex_intro _ y E)) as (c & t & r & A & B & C). cbn [raw_lines]. destruct (Ascii.eqb x nl) eqn:X.
    + exists ([x] :: c), t, r. rewrite A, B. auto.
    + assert (NX : x <> nl) by (intros ->; rewrite Ascii.eqb_refl in X; discriminate). destruct c as [|l c].
      * cbn [app] in A, B. destruct C as [->|(p & q & r' & -> & -> & P1 & P2)].
        -- rewrite A, B. destruct (raw_lines part) eqn:Q; [|discriminate]. apply raw_nil in Q. subst part. cbn [app] in E. exists [], [[x]], (match r with [] => [[x]] | l :: ls => (x :: l) :: ls end).
           split; [reflexivity|]. split; [reflexivity|]. right. destruct r as [|l r']; [exists [x], [], []|exists [x], l, r']; (split; [reflexivity|]; split; [reflexivity|]; split; [discriminate|]; intros [H|[]]; congruence).
        -- rewrite A, B. exists [], [x :: p], ((x :: p ++ q) :: r'). split; [reflexivity|]. split; [reflexivity|]. right. exists (x :: p), q, r'. split; [reflexivity|]. split; [reflexivity|]. split; [discriminate|]. intros [H|H]; [congruence|exact (P2 H)].
      * rewrite A, B. exists ((x :: l) :: c), t, r. cbn [app]. auto.
Qed.

(** ** Loops *)
Definition push_body {E A} (m : list A) (a : A) : list A * outcome E unit := (m ++ [a], Ok tt).
Lemma load_fold {S E A} (next : S -> option (outcome E A) * S) k : forall s acc, load_loop next k s acc = fold_loop next push_body k s acc.
Proof. induction k as [|k IH]; intros s acc; [reflexivity|]. cbn [load_loop fold_loop]. destruct (next s) as [[[a|e|]|] s']; try reflexivity. apply IH. Qed.
(** At most one more item comes. *)
Definition item_free {S E A} (next : S -> option (outcome E A) * S) (s : S) : Prop := forall a s', next s <> (Some (Ok a), s').
Definition last_item {S E A} (next : S -> option (outcome E A) * S) (s : S) : Prop := forall a s', next s = (Some (Ok a), s') -> item_free next s'.
Lemma free_last {S E A} (next : S -> option (outcome E A) * S) s : item_free next s -> last_item next s.
Proof. intros F a s' H. destruct (F _ _ H). Qed.
Section Sim.
Context {S1 S2 E A M : Type} (next1 : S1 -> option (outcome E A) * S1) (next2 : S2 -> option (outcome E A) * S2) (body : M -> A -> M * outcome E unit).
Variable grows : M -> M -> Prop.
Hypothesis grows_refl : forall m, grows m m.
Hypothesis grows_trans : forall a b c, grows a b -> grows b c -> grows a c.
Hypothesis body_grows : forall m a, grows m (fst (body m a)).
Lemma fold_grows k : forall s m m' r, fold_loop next2 body k s m = Some (m', r) -> grows m m'.
Proof.
  induction k as [|k IH]; intros s m m' r H; [discriminate|]. cbn [fold_loop] in H. destruct (next2 s) as [[[a|e|]|] s']; try (injection H as <- _; apply grows_refl).
  pose proof (body_grows m a) as G. destruct (body m a) as [m1 [u|e|]]; cbn [fst] in G; try (injection H as <- _; exact G). apply (grows_trans _ m1); [exact G|]. apply (IH _ _ _ _ H).
Qed.
Lemma fold_free k s m m' r : item_free next1 s -> fold_loop next1 body k s m = Some (m', r) -> m' = m.
Proof. intros F H. destruct k as [|k]; [discriminate|]. cbn [fold_loop] in H. destruct (next1 s) as [[[a|e|]|] s'] eqn:N; [destruct (F _ _ N)|congruence..]. Qed.
Lemma fold_last k s m m' r : last_item next1 s -> fold_loop next1 body k s m = Some (m', r) -> m' = m \/ exists a, m' = fst (body m a).
Proof.
  intros F H. destruct k as [|k]; [discriminate|]. cbn [fold_loop] in H. destruct (next1 s) as [[[a|e|]|] s'] eqn:N; try (left; congruence). right. exists a.
  specialize (F _ _ N). destruct (body m a) as [m1 [u|e|]]; cbn [fst]; [apply (fold_free _ _ _ _ _ F H)|congruence..].
Qed.
Variable R : S1 -> S2 -> Prop.
(** If the short machine does the same as the long one until it ends, with at most one more item, then so does the loop. *)
Lemma sim_one : (forall s1 s2, R s1 s2 -> (fst (next1 s1) = fst (next2 s2) /\ R (snd (next1 s1)) (snd (next2 s2))) \/ last_item next1 s1) ->
  forall k k' s1 s2 m m1 m2 r1 r2, R s1 s2 -> fold_loop next1 body k s1 m = Some (m1, r1) -> fold_loop next2 body k' s2 m = Some (m2, r2) ->
  exists m0, grows m m0 /\ grows m0 m2 /\ (m1 = m0 \/ exists a, m1 = fst (body m0 a)).
Proof.
  intros ST. induction k as [|k IH]; intros k' s1 s2 m m1 m2 r1 r2 HR H1 H2; [discriminate|]. destruct (ST _ _ HR) as [[EO R']|L].
  - destruct k' as [|k']; [discriminate|]. cbn [fold_loop] in H1, H2. destruct (next1 s1) as [o s1']. destruct (next2 s2) as [o2 s2']. cbn [fst snd] in *. subst o2.
    destruct o as [[a|e|]|]; try (exists m1; replace m1 with m by congruence; replace m2 with m by congruence; split; [apply grows_refl|]; split; [apply grows_refl|left; reflexivity]).
    pose proof (body_grows m a) as G. destruct (body m a) as [m3 [u|e|]] eqn:B; cbn [fst] in G; try (exists m1; replace m1 with m3 by congruence; replace m2 with m3 by congruence; split; [exact G|]; split; [apply grows_refl|left; reflexivity]).
    destruct (IH _ _ _ _ _ _ _ _ R' H1 H2) as (m0 & G1 & G2 & O). exists m0. split; [apply (grows_trans _ m3); assumption|]. split; assumption.
  - exists m. split; [apply grows_refl|]. split; [apply (fold_grows _ _ _ _ _ H2)|]. apply (fold_last _ _ _ _ _ L H1).
Qed.
Lemma sim_exact : (forall s1 s2, R s1 s2 -> (fst (next1 s1) = fst (next2 s2) /\ R (snd (next1 s1)) (snd (next2 s2))) \/ item_free next1 s1) ->
  forall k k' s1 s2 m m1 m2 r1 r2, R s1 s2 -> fold_loop next1 body k s1 m = Some (m1, r1) -> fold_loop next2 body k' s2 m = Some (m2, r2) -> grows m1 m2.
Proof.
  intros ST. induction k as [|k IH]; intros k' s1 s2 m m1 m2 r1 r2 HR H1 H2; [discriminate|]. destruct (ST _ _ HR) as [[EO R']|L].
  - destruct k' as [|k']; [discriminate|]. cbn [fold_loop] in H1, H2. destruct (next1 s1) as [o s1']. destruct (next2 s2) as [o2 s2']. cbn [fst snd] in *. subst o2.
    destruct o as [[a|e|]|]; try (replace m2 with m1 by congruence; apply grows_refl).
    pose proof (body_grows m a) as G. destruct (body m a) as [m3 [u|e|]] eqn:B; try (replace m2 with m1 by congruence; apply grows_refl).
    apply (IH _ _ _ _ _ _ _ _ R' H1 H2).
  - rewrite (fold_free _ _ _ _ _ L H1). apply (fold_grows _ _ _ _ _ H2).
Qed.
End Sim.

(** ** Line based iterators *)
Section Lines.
Context {S E A : Type} (step : S -> bytes -> line_step S E A).
Definition cut_lines (a b : list bytes) : Prop := exists c t r, a = c ++ t /\ b = c ++ r /\ length t <= 1.
Definition lrel (s1 s2 : line_state S) : Prop := ls_done s1 = ls_done s2 /\ ls_line s1 = ls_line s2 /\ ls_own s1 = ls_own s2 /\ cut_lines (ls_read s1) (ls_read s2).
Lemma line_loop_nil i s : fst (line_loop step [] i s) = None. Proof. reflexivity. Qed.
Lemma line_loop_last t i s : length t <= 1 -> forall a s', line_loop step t i s = (Some (Ok a), s') -> item_free (line_next step) s'.
Proof.
  destruct t as [|l [|]]; cbn [length]; [intros _ a s' H; discriminate| |lia]. intros _ a s' H. cbn [line_loop] in H. destruct (step s (trim_line l)) as [s0|r s0|s0]; [discriminate| |discriminate].
  destruct r; cbn [at_line] in H; try discriminate. injection H as _ <-. intros b s'' N. unfold line_next in N. cbn in N. discriminate.
Qed.
Lemma line_loop_cut t r : length t <= 1 -> forall c i s,
  (fst (line_loop step (c ++ t) i s) = fst (line_loop step (c ++ r) i s) /\ lrel (snd (line_loop step (c ++ t) i s)) (snd (line_loop step (c ++ r) i s))) \/
  (forall a s', line_loop step (c ++ t) i s = (Some (Ok a), s') -> item_free (line_next step) s').
Proof.
  intros T. induction c as [|l c IH]; intros i s; [right; apply line_loop_last, T|]. cbn [app line_loop]. destruct (step s (trim_line l)) as [s0|o s0|s0]; [apply IH| |].
  - left. cbn [fst snd]. split; [reflexivity|]. repeat split. exists c, t, r. auto.
  - left. cbn [fst snd]. split; [reflexivity|]. repeat split. exists c, t, r. auto.
Qed.
Lemma line_next_cut s1 s2 : lrel s1 s2 -> (fst (line_next step s1) = fst (line_next step s2) /\ lrel (snd (line_next step s1)) (snd (line_next step s2))) \/ last_item (line_next step) s1.
Proof.
  intros H. pose proof H as (D & L & O & (c & t & r & E1 & E2 & T)). unfold last_item. unfold line_next at 1 2 3 4. destruct (ls_done s1) eqn:D1; rewrite <- D; [left; cbn [fst snd]; auto|].
  rewrite <- L, <- O, E1, E2. destruct (line_loop_cut t r T c (ls_line s1) (ls_own s1)) as [G|G]; [left; exact G|right]. intros a s' N. unfold line_next in N. rewrite D1, E1 in N. apply (G _ _ N).
Qed.
Lemma line_new_cut part file s : prefix part file -> lrel (line_new part s) (line_new file s).
Proof.
  intros P. destruct (raw_cut _ _ P) as (c & t & r & A1 & B & C). repeat split; cbn [ls_read line_new]. exists c, t, r. rewrite A1, B. repeat split. destruct C as [->|(p & q & r' & -> & _)]; cbn; lia.
Qed.
End Lines.
(** The result of a loop pushing into a list. *)
Lemma push_one {A : Type} (m0 m1 : list A) : (m1 = m0 \/ exists a, m1 = m0 ++ [a]) -> forall m2, prefix m0 m2 -> prefix_and_one m1 m2.
Proof. intros H m2 P. exists m0. split; [exact P|]. destruct H as [H|[a H]]; [left; exact H|right; exists a; exact H]. Qed.
Lemma load_line_cut {S E A} (step : S -> bytes -> line_step S E A) k k' part file s ps r ps' r' : prefix part file ->
  load_loop (line_next step) k (line_new file s) [] = Some (ps, r) -> load_loop (line_next step) k' (line_new part s) [] = Some (ps', r') -> prefix_and_one ps' ps.
Proof.
  intros P H H'. rewrite load_fold in H, H'. destruct (sim_one (line_next step) (line_next step) push_body (@prefix A) prefix_refl prefix_trans (fun m a => prefix_snoc m a) lrel (line_next_cut step) _ _ _ _ _ _ _ _ _ (line_new_cut step part file s P) H' H) as (m0 & _ & G & O).
  apply (push_one m0); [|exact G]. exact O.
Qed.
Lemma push_data_grows {E} m (a : data_reserve (pt3 F64)) : prefix m (fst (push_data (E := E) m a)).
Proof. destruct a; cbn [push_data fst]; [apply prefix_refl|apply prefix_snoc]. Qed.
Lemma push_data_one {E} (m m1 : list (pt3 F64)) : (m1 = m \/ exists a, m1 = fst (push_data (E := E) m a)) -> m1 = m \/ exists a, m1 = m ++ [a].
Proof. intros [H|[[n|p] H]]; [left; exact H|left; exact H|right; exists p; exact H]. Qed.
Lemma data_line_cut {S E} (step : S -> bytes -> line_step S E (data_reserve (pt3 F64))) k k' part file s ps r ps' r' : prefix part file ->
  fold_loop (line_next step) push_data k (line_new file s) [] = Some (ps, r) -> fold_loop (line_next step) push_data k' (line_new part s) [] = Some (ps', r') -> prefix_and_one ps' ps.
Proof.
  intros P H H'. destruct (sim_one (line_next step) (line_next step) push_data (@prefix (pt3 F64)) prefix_refl prefix_trans push_data_grows lrel (line_next_cut step) _ _ _ _ _ _ _ _ _ (line_new_cut step part file s P) H' H) as (m0 & _ & G & O).
  apply (push_one m0); [|exact G]. apply (push_data_one _ _ O).
Qed.
(** ** xy and xyz *)
Section XyCut.
Context {A : Type} (m : nat) (point : ascii -> bytes -> outcome XyError A).
Definition xyrel (s1 s2 : xy_state) : Prop := xy_done s1 = xy_done s2 /\ xy_line s1 = xy_line s2 /\ xy_delim s1 = xy_delim s2 /\ cut_lines (xy_read s1) (xy_read s2).
Lemma xy_free_nil s : xy_read s = [] -> item_free (xy_next m point) s.
Proof. intros H a s' N. unfold xy_next in N. rewrite H in N. cbn in N. destruct (xy_done s); discriminate. Qed.
Lemma xy_next_cut s1 s2 : xyrel s1 s2 -> (fst (xy_next m point s1) = fst (xy_next m point s2) /\ xyrel (snd (xy_next m point s1)) (snd (xy_next m point s2))) \/ last_item (xy_next m point) s1.
Proof.
  intros H. pose proof H as (D & L & O & (c & t & r & E1 & E2 & T)). destruct c as [|l c].
  - right. intros a s' N. cbn [app] in E1. unfold xy_next in N. destruct (xy_done s1); [discriminate|]. rewrite E1 in N. destruct t as [|l [|]]; cbn [length] in T; [discriminate| |lia].
    cbn [next_line] in N. destruct (xy_delimiter m (xy_delim s1) (trim_line l)) as [d|e|]; try discriminate. destruct (point d (trim_line l)) as [p|e|]; try discriminate. injection N as _ <-. apply xy_free_nil. reflexivity.
  - left. unfold xy_next. rewrite <- D, <- L, <- O, E1, E2. destruct (xy_done s1) eqn:D1; [split; [reflexivity|exact H]|]. cbn [app next_line].
    assert (CL : cut_lines (c ++ t) (c ++ r)) by (exists c, t, r; auto).
    destruct (xy_delimiter m (xy_delim s1) (trim_line l)) as [d|e|]; [destruct (point d (trim_line l)) as [p|e|]|..]; (split; [reflexivity|]; repeat split; exact CL).
Qed.
Lemma xy_new_cut part file : prefix part file -> xyrel (xy_new part) (xy_new file).
Proof.
  intros P. destruct (raw_cut _ _ P) as (c & t & r & A1 & B & C). repeat split; cbn [xy_read xy_new]. exists c, t, r. rewrite A1, B. repeat split. destruct C as [->|(p & q & r' & -> & _)]; cbn; lia.
Qed.
Lemma xy_cut k k' part file ps r ps' r' : prefix part file ->
  load_loop (xy_next m point) k (xy_new file) [] = Some (ps, r) -> load_loop (xy_next m point) k' (xy_new part) [] = Some (ps', r') -> prefix_and_one ps' ps.
Proof.
  intros P H H'. rewrite load_fold in H, H'. destruct (sim_one (xy_next m point) (xy_next m point) push_body (@prefix A) prefix_refl prefix_trans (fun m a => prefix_snoc m a) xyrel xy_next_cut _ _ _ _ _ _ _ _ _ (xy_new_cut part file P) H' H) as (m0 & _ & G & O).
  apply (push_one m0); [exact O|exact G].
Qed.
End XyCut.

(** ** Meshes *)
Definition mgrows (m m' : mesh (pt3 F64)) : Prop := forall s, abs_ok m s -> faces_ok s -> exists s', abs_ok m' s' /\ faces_ok s' /\ mesh_prefix s s'.
Lemma mesh_prefix_refl {P} (s : mspec P) : mesh_prefix s s. Proof. split; apply prefix_refl. Qed.
Lemma mgrows_refl m : mgrows m m. Proof. intros s A F. exists s. split; [exact A|]. split; [exact F|]. apply mesh_prefix_refl. Qed.
Lemma mgrows_trans a b c : mgrows a b -> mgrows b c -> mgrows a c.
Proof.
  intros G H s A F. destruct (G s A F) as (s1 & A1 & F1 & P1 & Q1). destruct (H s1 A1 F1) as (s2 & A2 & F2 & P2 & Q2). exists s2. split; [exact A2|]. split; [exact F2|]. split; eapply prefix_trans; eassumption.
Qed.
Lemma add_vertex_abs m (p : pt3 F64) s : abs_ok m s -> faces_ok s -> abs_ok (fst (add_vertex m p)) (MSpec (svs s ++ [p]) (sfs s)) /\ faces_ok (MSpec (svs s ++ [p]) (sfs s)).
Proof.
  intros (A1 & A2) F. split; [split; cbn; [rewrite A1; reflexivity|exact A2]|]. intros a b c I. specialize (F a b c I). unfold in_range in *. cbn [svs]. rewrite app_length. cbn [length]. lia.
Qed.
Lemma mesh_add_abs {E} (e : E) m x s : abs_ok m s -> faces_ok s -> exists s', abs_ok (fst (mesh_add e m x)) s' /\ faces_ok s' /\
  (s' = s \/ (exists p, s' = MSpec (svs s ++ [p]) (sfs s)) \/ exists f, s' = MSpec (svs s) (sfs s ++ [f])).
Proof.
  intros A F. destruct x as [p|[[a b] c]].
  - cbn [mesh_add fst]. destruct (add_vertex_abs m p s A F) as [A' F']. eexists. split; [exact A'|]. split; [exact F'|]. right. left. exists p. reflexivity.
  - assert (D : (in_range s a /\ in_range s b /\ in_range s c /\ a <> b /\ a <> c /\ b <> c) \/ ~ (in_range s a /\ in_range s b /\ in_range s c /\ a <> b /\ a <> c /\ b <> c)) by (unfold in_range; lia).
    destruct D as [D|D].
    + destruct (add_face_fine e m s a b c A D) as (m' & -> & A'). exists (MSpec (svs s) (sfs s ++ [(a, b, c)])). split; [exact A'|]. split; [|right; right; eexists; reflexivity].
      intros a' b' c' I. cbn [sfs] in I. apply in_app_or in I. destruct I as [I|[I|[]]]; [apply (F a' b' c' I)|]. injection I as <- <- <-. exact D.
    + rewrite (add_face_bad e m s a b c A D). exists s. auto.
Qed.
Lemma mesh_add_grows {E} (e : E) m x : mgrows m (fst (mesh_add e m x)).
Proof.
  intros s A F. destruct (mesh_add_abs e m x s A F) as (s' & A' & F' & H). exists s'. split; [exact A'|]. split; [exact F'|]. destruct H as [->|[(p & ->)|(f & ->)]]; split; cbn [svs sfs]; first [apply prefix_refl|apply prefix_snoc].
Qed.
Lemma empty_ok : faces_ok (@MSpec (pt3 F64) [] []). Proof. intros a b c []. Qed.
(** From the simulation to the meshes shown. *)
Lemma mesh_one_shows {E} (e : E) m0 m1 m2 : mgrows mesh_empty m0 -> mgrows m0 m2 -> (m1 = m0 \/ exists x, m1 = fst (mesh_add e m0 x)) ->
  exists s1 s2, shows m1 s1 /\ shows m2 s2 /\ mesh_prefix_and_one s1 s2.
Proof.
  intros G0 G O. destruct (G0 _ empty_abs empty_ok) as (s0 & A0 & F0 & _). destruct (G s0 A0 F0) as (s2 & A2 & F2 & P1 & P2). destruct O as [->|[x ->]].
  - exists s0, s2. split; [apply abs_shows; assumption|]. split; [apply abs_shows; assumption|]. left. split; assumption.
  - destruct (mesh_add_abs e m0 x s0 A0 F0) as (s1 & A1 & F1 & H). exists s1, s2. split; [apply abs_shows; assumption|]. split; [apply abs_shows; assumption|]. destruct H as [->|[(p & ->)|(f & ->)]].
    + left. split; assumption.
    + right. left. split; [|exact P2]. exists (svs s0). split; [exact P1|]. right. exists p. reflexivity.
    + right. right. split; [exact P1|]. exists (sfs s0). split; [exact P2|]. right. exists f. reflexivity.
Qed.
Lemma obj_mesh_cut ft k k' part file m r m' r' : prefix part file -> load_obj_mesh ft k file = Some (m, r) -> load_obj_mesh ft k' part = Some (m', r') ->
  exists s' s, shows m' s' /\ shows m s /\ mesh_prefix_and_one s' s.
Proof.
  intros P H H'. unfold load_obj_mesh in *. destruct (sim_one _ _ _ mgrows mgrows_refl mgrows_trans (mesh_add_grows ObjInvalidMeshIndices) lrel (line_next_cut (obj_mesh_step ft)) _ _ _ _ _ _ _ _ _ (line_new_cut (obj_mesh_step ft) part file tt P) H' H) as (m0 & G0 & G & O).
  apply (mesh_one_shows _ _ _ _ G0 G O).
Qed.
Lemma off_add_grows m x : mgrows m (fst (off_add m x)).
Proof. destruct x as [nv nf|x]; cbn [off_add]; [apply mgrows_refl|apply mesh_add_grows]. Qed.
Lemma off_mesh_cut ft k k' part file m r m' r' : prefix part file -> load_off_mesh ft k file = Some (m, r) -> load_off_mesh ft k' part = Some (m', r') ->
  exists s' s, shows m' s' /\ shows m s /\ mesh_prefix_and_one s' s.
Proof.
  intros P H H'. unfold load_off_mesh in *. destruct (sim_one _ _ _ mgrows mgrows_refl mgrows_trans off_add_grows lrel (line_next_cut (off_mesh_step ft)) _ _ _ _ _ _ _ _ _ (line_new_cut (off_mesh_step ft) part file off_start P) H' H) as (m0 & G0 & G & O).
  apply (mesh_one_shows OffInvalidMeshIndices _ _ _ G0 G). destruct O as [O|[[nv nf|x] O]]; [left; exact O|left; exact O|right; exists x; exact O].
Qed.
