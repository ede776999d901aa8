(** Lemmas about loading binary files and files of lines with headers that end too early. *)
From Verif Require Import Base BaseLemmas Num GeomSpec VecModel MatrixModel MeshModel MeshSpec MeshLemmas IoModel IoSpec IoLemmas ByteModel ByteLemmas PlyModel PlyLemmas PlyTotalLemmas ScanModel ScanSpec ScanLemmas ObjOffLemmas ScannerModel StlModel CutSpec CutLemmas.
Open Scope nat_scope.

(** ** Readers of bytes *)
(** What is read from the beginning of some bytes is read from all of them. *)
Definition bmono {E A} (f : bytes -> outcome E (A * bytes)) : Prop := forall a b x r, prefix a b -> f a = Ok (x, r) -> exists r', f b = Ok (x, r') /\ prefix r r'.
Definition smono {E} (f : bytes -> outcome E bytes) : Prop := forall a b r, prefix a b -> f a = Ok r -> exists r', f b = Ok r' /\ prefix r r'.
Lemma prefix_skipn {A} n (a b : list A) : prefix a b -> prefix (skipn n a) (skipn n b).
Proof.
  intros [c ->]. destruct (le_lt_dec n (length a)) as [L|L].
  - exists c. rewrite skipn_app. replace (n - length a) with 0 by lia. reflexivity.
  - rewrite (skipn_all2 a) by lia. apply prefix_nil.
Qed.
Lemma take_mono n a b x r : prefix a b -> take_bytes n a = Some (x, r) -> exists r', take_bytes n b = Some (x, r') /\ prefix r r'.
Proof.
  intros P H. unfold take_bytes in *. destruct (Nat.ltb_spec (length a) n) as [L|L]; [discriminate|]. injection H as <- <-. pose proof (prefix_length _ _ P). destruct (Nat.ltb_spec (length b) n) as [M|M]; [lia|].
  exists (skipn n b). split; [|apply prefix_skipn, P]. do 2 f_equal. destruct P as [c ->]. rewrite firstn_app. replace (n - length a) with 0 by lia. cbn [firstn]. rewrite app_nil_r. reflexivity.
Qed.
Lemma bind_mono {E A B} (f : bytes -> outcome E (A * bytes)) (g : A -> bytes -> outcome E (B * bytes)) : bmono f -> (forall x, bmono (g x)) -> bmono (fun s => obind (f s) (fun '(x, s) => g x s)).
Proof. intros F G a b x r P H. destruct (f a) as [[y r1]|e|] eqn:FA; cbn [obind] in H; try discriminate. destruct (F _ _ _ _ P FA) as (r1' & F1 & P1). rewrite F1. cbn [obind]. apply (G y _ _ _ _ P1 H). Qed.
Lemma bind_skip {E B} (f : bytes -> outcome E bytes) (g : bytes -> outcome E (B * bytes)) : smono f -> bmono g -> bmono (fun s => obind (f s) (fun s => g s)).
Proof. intros F G a b x r P H. destruct (f a) as [r1|e|] eqn:FA; cbn [obind] in H; try discriminate. destruct (F _ _ _ P FA) as (r1' & F1 & P1). rewrite F1. cbn [obind]. apply (G _ _ _ _ P1 H). Qed.
Lemma ret_mono {E A} (x : A) : bmono (fun s => Ok (x, s) : outcome E (A * bytes)).
Proof. intros a b y r P H. injection H as <- <-. exists b. split; [reflexivity|exact P]. Qed.
Lemma err_mono {E A} (e : E) : bmono (fun s => Err e : outcome E (A * bytes)).
Proof. intros a b y r P H. discriminate. Qed.
Lemma skip_mono n : smono (skip_bytes n).
Proof.
  intros a b r P H. unfold skip_bytes in *. destruct (take_bytes (N.to_nat n) a) as [[x q]|] eqn:T; [|discriminate]. injection H as <-. destruct (take_mono _ _ _ _ _ P T) as (r' & T' & P'). rewrite T'. exists r'. auto.
Qed.
Lemma uint_mono en n a b x r : prefix a b -> read_uint en n a = Some (x, r) -> exists r', read_uint en n b = Some (x, r') /\ prefix r r'.
Proof.
  intros P H. unfold read_uint in *. destruct (take_bytes n a) as [[y q]|] eqn:T; [|discriminate]. injection H as <- <-. destruct (take_mono _ _ _ _ _ P T) as (r' & T' & P'). rewrite T'. exists r'. auto.
Qed.
Ltac uint_step P H := match type of H with context [read_uint ?en ?n ?a] => let U := fresh "U" in let r' := fresh "r'" in let U' := fresh "U'" in let P' := fresh "P'" in
  destruct (read_uint en n a) as [[? ?]|] eqn:U; [|discriminate]; destruct (uint_mono _ _ _ _ _ _ P U) as (r' & U' & P'); rewrite U'; injection H as <- <-; exists r'; split; [reflexivity|exact P'] end.
Lemma read_vertex_mono en t : bmono (read_vertex_type en t).
Proof. intros a b x r P H. unfold read_vertex_type, read_f32, read_f64 in *. destruct t; uint_step P H. Qed.
Lemma read_face_mono en t : bmono (read_face_type en t).
Proof. intros a b x r P H. unfold read_face_type, read_signed, read_unsigned in *. destruct t; uint_step P H. Qed.
Lemma binary_vertex_mono en v : bmono (binary_vertex en v).
Proof.
  unfold binary_vertex. apply bind_skip; [apply skip_mono|]. apply (bind_mono (read_vertex_type en (vd_first v))); [apply read_vertex_mono|]. intros x. apply bind_skip; [apply skip_mono|]. apply (bind_mono (read_vertex_type en (vd_snd v))); [apply read_vertex_mono|]. intros y.
  apply bind_skip; [apply skip_mono|]. apply (bind_mono (read_vertex_type en (vd_third v))); [apply read_vertex_mono|]. intros z. apply (bind_skip (skip_bytes _)); [apply skip_mono|]. apply ret_mono.
Qed.
Lemma binary_face_mono en f : bmono (binary_face en f).
Proof.
  unfold binary_face. apply bind_skip; [apply skip_mono|]. apply (bind_mono (read_face_type en (fd_ctype f))); [apply read_face_mono|]. intros n. destruct (negb (n =? 3)%N); [apply err_mono|].
  apply (bind_mono (read_face_type en (fd_itype f))); [apply read_face_mono|]. intros x. apply (bind_mono (read_face_type en (fd_itype f))); [apply read_face_mono|]. intros y. apply (bind_mono (read_face_type en (fd_itype f))); [apply read_face_mono|]. intros z.
  apply (bind_skip (skip_bytes _)); [apply skip_mono|]. apply ret_mono.
Qed.

(** ** PLY binary *)
Definition brel (s1 s2 : binary_state) : Prop := bs_done s1 = bs_done s2 /\ bs_current s1 = bs_current s2 /\ prefix (bs_read s1) (bs_read s2).
(** The next call fails. *)
Definition fails {E A S} (p : option (outcome E A) * S) : Prop := (exists e, fst p = Some (Err e)) \/ fst p = Some Panic.
Lemma fails_free {S E A} (next : S -> option (outcome E A) * S) s : fails (next s) -> item_free next s.
Proof. intros F a s' H. rewrite H in F. destruct F as [[e F]|F]; discriminate. Qed.
(** The short machine does the same as the long one until it ends with a failure. *)
Section Fails.
Context {S1 S2 E A M : Type} (next1 : S1 -> option (outcome E A) * S1) (next2 : S2 -> option (outcome E A) * S2) (body : M -> A -> M * outcome E unit).
Variable grows : M -> M -> Prop.
Hypothesis grows_refl : forall m, grows m m.
Hypothesis grows_trans : forall a b c, grows a b -> grows b c -> grows a c.
Hypothesis body_grows : forall m a, grows m (fst (body m a)).
Variable R : S1 -> S2 -> Prop.
Hypothesis step : forall s1 s2, R s1 s2 -> (fst (next1 s1) = fst (next2 s2) /\ R (snd (next1 s1)) (snd (next2 s2))) \/ fails (next1 s1).
Lemma sim_fails k k' s1 s2 m m1 m2 r1 r2 : R s1 s2 -> fold_loop next1 body k s1 m = Some (m1, r1) -> fold_loop next2 body k' s2 m = Some (m2, r2) -> grows m1 m2 /\ (r1 = Ok tt -> m1 = m2 /\ r2 = Ok tt).
Proof.
  intros HR H1 H2. split.
  - apply (sim_exact next1 next2 body grows grows_refl grows_trans body_grows R (fun s1 s2 X => match step s1 s2 X with or_introl Y => or_introl Y | or_intror Z => or_intror (fails_free next1 s1 Z) end) k k' s1 s2 m m1 m2 r1 r2 HR H1 H2).
  - intros ->. revert k' s1 s2 m HR H1 H2. induction k as [|k IH]; intros k' s1 s2 m HR H1 H2; [discriminate|]. destruct (step _ _ HR) as [[EO R']|L].
    + destruct k' as [|k']; [discriminate|]. cbn [fold_loop] in H1, H2. destruct (next1 s1) as [o s1']. destruct (next2 s2) as [o2 s2']. cbn [fst snd] in *. subst o2.
      destruct o as [[a|e|]|]; try discriminate; [|injection H1 as <-; injection H2 as <- <-; split; reflexivity]. destruct (body m a) as [m3 [u|e|]]; try discriminate. apply (IH _ _ _ _ R' H1 H2).
    + cbn [fold_loop] in H1. destruct (next1 s1) as [o s1']. destruct L as [[e L]|L]; cbn [fst] in L; subst o; discriminate.
Qed.
End Fails.
Lemma binary_next_cut {A} n (fetch : bytes -> outcome PlyError (A * bytes)) : bmono fetch -> forall s1 s2, brel s1 s2 ->
  (fst (binary_next n fetch s1) = fst (binary_next n fetch s2) /\ brel (snd (binary_next n fetch s1)) (snd (binary_next n fetch s2))) \/ fails (binary_next n fetch s1).
Proof.
  intros M s1 s2 H. pose proof H as (D & C & P). unfold binary_next. rewrite <- D, <- C. destruct (bs_done s1); [left; split; [reflexivity|exact H]|]. destruct (bs_current s1 <? n)%N.
  - destruct (fetch (bs_read s1)) as [[a r]|e|] eqn:F; [|right; left; exists e; reflexivity|right; right; reflexivity]. destruct (M _ _ _ _ P F) as (r' & F' & P'). rewrite F'. left. split; [reflexivity|]. repeat split. exact P'.
  - left. split; [reflexivity|]. repeat split. exact P.
Qed.
Definition irel {S} (R : S -> S -> Prop) (a b : mesh_iter S) : Prop := match a, b with IPoints x, IPoints y | IFaces x, IFaces y => R x y | _, _ => False end.
Lemma mesh_next_cut {S E} (P : S -> option (outcome E (pt3 F64)) * S) (F : S -> option (outcome E face3) * S) sw (R : S -> S -> Prop) :
  (forall s1 s2, R s1 s2 -> (fst (P s1) = fst (P s2) /\ R (snd (P s1)) (snd (P s2))) \/ fails (P s1)) ->
  (forall s1 s2, R s1 s2 -> (fst (F s1) = fst (F s2) /\ R (snd (F s1)) (snd (F s2))) \/ fails (F s1)) -> (forall s1 s2, R s1 s2 -> R (sw s1) (sw s2)) ->
  forall s1 s2, irel R s1 s2 -> (fst (mesh_next P F sw s1) = fst (mesh_next P F sw s2) /\ irel R (snd (mesh_next P F sw s1)) (snd (mesh_next P F sw s2))) \/ fails (mesh_next P F sw s1).
Proof.
  intros HP HF HS. assert (GO : forall x y, R x y -> let go f := let (r, f) := F f in (map_item MFace r, IFaces f) in (fst (go x) = fst (go y) /\ irel R (snd (go x)) (snd (go y))) \/ fails (go x)).
  { intros x y H. cbn zeta. destruct (HF x y H) as [[E1 R1]|FA].
    - left. destruct (F x) as [o x']. destruct (F y) as [o' y']. cbn [fst snd] in *. subst o'. split; [reflexivity|exact R1].
    - right. destruct (F x) as [o x']. destruct FA as [[e FA]|FA]; cbn [fst] in FA; subst o; [left; exists e; reflexivity|right; reflexivity]. }
  intros s1 s2 H. destruct s1 as [x|x], s2 as [y|y]; cbn [irel] in H; try contradiction; unfold mesh_next; [|apply GO, H].
  destruct (HP x y H) as [[E1 R1]|FA].
  - destruct (P x) as [o x']. destruct (P y) as [o' y']. cbn [fst snd] in *. subst o'. destruct o as [r|]; [left; split; [reflexivity|exact R1]|]. apply GO, HS, R1.
  - right. destruct (P x) as [o x']. destruct FA as [[e FA]|FA]; cbn [fst] in FA; subst o; [left; exists e; reflexivity|right; reflexivity].
Qed.
Lemma simple_next_cut {S E A} (next : S -> option (outcome E A) * S) (R : S -> S -> Prop) :
  (forall s1 s2, R s1 s2 -> (fst (next s1) = fst (next s2) /\ R (snd (next s1)) (snd (next s2))) \/ fails (next s1)) ->
  forall s1 s2, R s1 s2 -> (fst (simple_next next s1) = fst (simple_next next s2) /\ R (snd (simple_next next s1)) (snd (simple_next next s2))) \/ fails (simple_next next s1).
Proof.
  intros HN s1 s2 H. destruct (HN s1 s2 H) as [[E1 R1]|FA].
  - left. unfold simple_next. destruct (next s1) as [o x']. destruct (next s2) as [o' y']. cbn [fst snd] in *. subst o'. split; [reflexivity|exact R1].
  - right. unfold simple_next. destruct (next s1) as [o x']. destruct FA as [[e FA]|FA]; cbn [fst] in FA; subst o; [left; exists (WNone e)|right]; reflexivity.
Qed.
Lemma binary_points_cut en v s1 s2 : brel s1 s2 -> (fst (simple_next (binary_next (vd_count v) (binary_vertex en v)) s1) = fst (simple_next (binary_next (vd_count v) (binary_vertex en v)) s2) /\
  brel (snd (simple_next (binary_next (vd_count v) (binary_vertex en v)) s1)) (snd (simple_next (binary_next (vd_count v) (binary_vertex en v)) s2))) \/ fails (simple_next (binary_next (vd_count v) (binary_vertex en v)) s1).
Proof. revert s1 s2. apply simple_next_cut. apply binary_next_cut, binary_vertex_mono. Qed.
Lemma binary_mesh_cut en v f s1 s2 : irel brel s1 s2 -> (fst (simple_next (binary_mesh_next en v f) s1) = fst (simple_next (binary_mesh_next en v f) s2) /\
  irel brel (snd (simple_next (binary_mesh_next en v f) s1)) (snd (simple_next (binary_mesh_next en v f) s2))) \/ fails (simple_next (binary_mesh_next en v f) s1).
Proof.
  revert s1 s2. apply simple_next_cut. apply mesh_next_cut; [apply binary_next_cut, binary_vertex_mono|apply binary_next_cut, binary_face_mono|]. intros s1 s2 (D & C & P). repeat split. exact P.
Qed.

(** ** PLY ASCII *)
Definition arel (s1 s2 : ascii_state) : Prop := as_done s1 = as_done s2 /\ as_current s1 = as_current s2 /\ as_line s1 = as_line s2 /\ cut_lines (as_read s1) (as_read s2).
Lemma ascii_points_nil ft v s : as_read s = [] -> forall a s', ascii_points_next ft v s <> (Some (Ok a), s').
Proof. intros R a s' H. apply ascii_points_less in H. rewrite R in H. cbn in H. lia. Qed.
Lemma ascii_faces_nil f s : as_read s = [] -> forall a s', ascii_faces_next f s <> (Some (Ok a), s').
Proof. intros R a s' H. apply ascii_faces_less in H. rewrite R in H. cbn in H. lia. Qed.
Lemma ascii_points_cut ft v s1 s2 : arel s1 s2 -> (fst (ascii_points_next ft v s1) = fst (ascii_points_next ft v s2) /\ arel (snd (ascii_points_next ft v s1)) (snd (ascii_points_next ft v s2))) \/ length (as_read s1) <= 1.
Proof.
  intros H. pose proof H as (D & C & L & (c & t & r & E1 & E2 & T)). destruct c as [|l c]; [right; rewrite E1; exact T|]. left. unfold ascii_points_next. rewrite <- D, <- C, <- L. destruct (as_done s1) eqn:D1; [split; [reflexivity|exact H]|].
  destruct (as_current s1 <? vd_count v)%N.
  - rewrite E1, E2. cbn [app next_line]. destruct (ascii_vertex ft v (trim_line l)) as [p|e|]; (split; [reflexivity|]; repeat split; exists c, t, r; auto).
  - destruct (negb (as_current s1 =? vd_count v)%N); (split; [reflexivity|]; repeat split; exists (l :: c), t, r; auto).
Qed.
Lemma ascii_faces_cut f s1 s2 : arel s1 s2 -> (fst (ascii_faces_next f s1) = fst (ascii_faces_next f s2) /\ arel (snd (ascii_faces_next f s1)) (snd (ascii_faces_next f s2))) \/ length (as_read s1) <= 1.
Proof.
  intros H. pose proof H as (D & C & L & (c & t & r & E1 & E2 & T)). destruct c as [|l c]; [right; rewrite E1; exact T|]. left. unfold ascii_faces_next. rewrite <- D, <- C, <- L. destruct (as_done s1) eqn:D1; [split; [reflexivity|exact H]|].
  destruct (as_current s1 <? fd_count f)%N.
  - rewrite E1, E2. cbn [app next_line]. destruct (collect_index_line (trim_line l)) as [p|]; (split; [reflexivity|]; repeat split; exists c, t, r; auto).
  - split; [reflexivity|]. repeat split. exists (l :: c), t, r. auto.
Qed.
Lemma ascii_points_last ft v s : length (as_read s) <= 1 -> last_item (ascii_points_next ft v) s.
Proof. intros L a s' N b s'' N'. apply ascii_points_less in N. apply (ascii_points_nil ft v s') in N'; [exact N'|]. destruct (as_read s'); [reflexivity|cbn [length] in N; lia]. Qed.
Definition iread (s : mesh_iter ascii_state) : list bytes := match s with IPoints a | IFaces a => as_read a end.
Lemma ascii_mesh_less ft v f s a s' : ascii_mesh_next ft v f s = (Some (Ok a), s') -> length (iread s') < length (iread s).
Proof.
  unfold ascii_mesh_next, mesh_next, iread. intros H. destruct s as [x|x].
  - destruct (ascii_points_next ft v x) as [[r|] x'] eqn:N.
    + destruct r as [p|e|]; cbn [map_item] in H; try discriminate. injection H as _ <-. apply ascii_points_less in N. exact N.
    + apply ascii_switch in N. destruct (ascii_faces_next f (mkas (as_read x') false 0 (as_line x'))) as [[[q|e|]|] y] eqn:NF; cbn [map_item] in H; try discriminate. injection H as _ <-. apply ascii_faces_less in NF. cbn [as_read] in NF. lia.
  - destruct (ascii_faces_next f x) as [[[q|e|]|] y] eqn:NF; cbn [map_item] in H; try discriminate. injection H as _ <-. apply ascii_faces_less in NF. exact NF.
Qed.
Lemma ascii_mesh_free ft v f s : iread s = [] -> item_free (ascii_mesh_next ft v f) s.
Proof. intros R a s' N. apply ascii_mesh_less in N. rewrite R in N. cbn in N. lia. Qed.
Lemma ascii_mesh_last ft v f s : length (iread s) <= 1 -> last_item (ascii_mesh_next ft v f) s.
Proof. intros L a s' N. apply ascii_mesh_less in N. apply ascii_mesh_free. destruct (iread s'); [reflexivity|cbn [length] in N; lia]. Qed.
Lemma ascii_mesh_cut ft v f s1 s2 : irel arel s1 s2 -> (fst (ascii_mesh_next ft v f s1) = fst (ascii_mesh_next ft v f s2) /\ irel arel (snd (ascii_mesh_next ft v f s1)) (snd (ascii_mesh_next ft v f s2))) \/ last_item (ascii_mesh_next ft v f) s1.
Proof.
  assert (GO : forall x y, arel x y -> let go s := let (r, s) := ascii_faces_next f s in (map_item MFace r, IFaces s) in (fst (go x) = fst (go y) /\ irel arel (snd (go x)) (snd (go y))) \/ length (as_read x) <= 1).
  { intros x y H. cbn zeta. destruct (ascii_faces_cut f x y H) as [[E1 R1]|FA]; [|right; exact FA]. left. destruct (ascii_faces_next f x) as [o x']. destruct (ascii_faces_next f y) as [o' y']. cbn [fst snd] in *. subst o'. split; [reflexivity|exact R1]. }
  intros H. destruct s1 as [x|x], s2 as [y|y]; cbn [irel] in H; try contradiction.
  - destruct (ascii_points_cut ft v x y H) as [[E1 R1]|FA]; [|right; apply ascii_mesh_last; exact FA]. unfold ascii_mesh_next, mesh_next. pose proof (ascii_switch ft v x) as SW. destruct (ascii_points_next ft v x) as [o x'] eqn:NX. destruct (ascii_points_next ft v y) as [o' y']. cbn [fst snd] in *. subst o'.
    destruct o as [r|]; [left; split; [reflexivity|exact R1]|]. destruct R1 as (D & C & L & CL).
    destruct (GO (mkas (as_read x') false 0 (as_line x')) (mkas (as_read y') false 0 (as_line y'))) as [G|G]; [repeat split; [exact L|exact CL]|left; exact G|]. right. cbn [as_read] in G. intros a s' N.
    apply ascii_mesh_free. rewrite NX in N. destruct (ascii_faces_next f (mkas (as_read x') false 0 (as_line x'))) as [[[q|e|]|] z] eqn:NF; cbn [map_item] in N; try discriminate. injection N as _ <-. apply ascii_faces_less in NF. cbn [as_read] in NF. cbn [iread]. destruct (as_read z); [reflexivity|cbn [length] in NF; lia].
  - destruct (GO x y H) as [G|G]; [left; exact G|right; apply ascii_mesh_last; exact G].
Qed.

(** ** Lines *)
Lemma trim_keep a c x : is_whitespace c = false -> x <> [] -> exists y, trim_line ((a ++ [c]) ++ x) = (a ++ [c]) ++ y.
Proof.
  intros C X. destruct (exists_last X) as (x' & d & ->). destruct (trim_line_spec ((a ++ [c]) ++ x') d) as (ws & E & F & _). rewrite <- app_assoc in E. rewrite app_assoc in E. rewrite (app_assoc (a ++ [c]) x' [d]). set (t := trim_line (((a ++ [c]) ++ x') ++ [d])) in *.
  destruct (app_eq_app _ _ _ _ E) as (l & [[E1 E2]|[E1 E2]]).
  - destruct l as [|z l]; [exists []; rewrite app_nil_r in *; symmetry; exact E1|]. assert (IN : In c ws). { rewrite E2. apply in_or_app. left. 
      destruct (exists_last (l := z :: l)) as (l' & w & EL); [discriminate|]. rewrite EL in *. rewrite app_assoc in E1. apply app_inj_tail in E1. destruct E1 as [_ ->]. apply in_or_app. right. left. reflexivity. }
    rewrite Forall_forall in F. rewrite (F c IN) in C. discriminate.
  - exists l. exact E1.
Qed.
Lemma trim_line_part l : l <> [] -> exists x, x <> [] /\ l = trim_line l ++ x.
Proof. intros N. destruct (exists_last N) as (l' & c & ->). destruct (trim_line_spec l' c) as (ws & E & _). exists (ws ++ [c]). split; [intros H; symmetry in H; apply app_cons_not_nil in H; exact H|]. rewrite app_assoc, <- E. reflexivity. Qed.
(** ** PLY *)
Lemma bytes_same : forall a b, bytes_eqb a b = true -> a = b.
Proof. induction a as [|x a IH]; intros [|y b] H; cbn in H; try discriminate; [reflexivity|]. apply andb_prop in H. destruct H as [H1 H2]. apply Ascii.eqb_eq in H1. rewrite H1, (IH _ H2). reflexivity. Qed.
(** Only a line starting with end_header ends the header. *)
Lemma found_line h line hd : header_line h line = Ok (Found hd) -> line = str "end_header".
Proof.
  unfold header_line. destruct h as [o n p s f nv nf x y z b b1 b2 a ct it fb fa]. destruct (starts_with (str "comment") line || starts_with (str "obj_info") line)%bool; [discriminate|]. destruct (negb p).
  { destruct (bytes_eqb line (str "ply")); discriminate. } destruct f as [f|].
  2: { destruct (format_of line); discriminate. }
  destruct (match nv with None => starts_with (str "element vertex") line | Some _ => false end). { destruct (element_count VertexElement line); discriminate. }
  destruct (match nf with None => starts_with (str "element face") line | Some _ => false end). { destruct (element_count FaceElement line); discriminate. }
  destruct (starts_with (str "property") line). { destruct s; [discriminate|..]; [destruct (vertex_property _ line)|destruct (face_property _ line)]; discriminate. }
  destruct (bytes_eqb line (str "end_header")) eqn:E; [|discriminate]. intros _. apply bytes_same, E.
Qed.
Lemma header_more h y hd : header_line h (str "end_header") = Ok (Found hd) -> header_line h (str "end_header" ++ y) = Ok (Found hd) \/ header_line h (str "end_header" ++ y) = Err LoadHeaderInvalid.
Proof.
  destruct y as [|c y]; [intros H; left; rewrite app_nil_r; exact H|]. unfold header_line. destruct h as [o n p s f nv nf x yy z b b1 b2 a ct it fb fa]. 
  change (starts_with (str "comment") (str "end_header")) with false. change (starts_with (str "obj_info") (str "end_header")) with false. change (starts_with (str "comment") (str "end_header" ++ c :: y)) with false. change (starts_with (str "obj_info") (str "end_header" ++ c :: y)) with false. cbn [orb].
  destruct p; cbn [negb]; [|discriminate]. destruct f as [f|]; [|discriminate].
  change (starts_with (str "element vertex") (str "end_header" ++ c :: y)) with false. change (starts_with (str "element face") (str "end_header" ++ c :: y)) with false. change (starts_with (str "property") (str "end_header" ++ c :: y)) with false. change (bytes_eqb (str "end_header" ++ c :: y) (str "end_header")) with false.
  intros _. right. destruct nv, nf; reflexivity.
Qed.
Lemma torn_header p q h i hd : p <> [] -> header_line h (trim_line p) = Ok (Found hd) -> (exists rest, forall r, load_header h i ((p ++ q) :: r) = Ok (hd, r, (i + 1)%N) /\ rest = @nil bytes) \/ (forall r, exists e, load_header h i ((p ++ q) :: r) = Err e).
Proof.
  intros PN H. pose proof (found_line _ _ _ H) as TL. rewrite TL in H. destruct (trim_line_part p PN) as (x & X & E). rewrite TL in E.
  destruct (trim_keep (str "end_heade") "r"%char (x ++ q)) as [y Y]; [reflexivity|intros Z; apply app_eq_nil in Z; exact (X (proj1 Z))|]. change (str "end_heade" ++ ["r"%char]) with (str "end_header") in Y.
  assert (T : trim_line (p ++ q) = str "end_header" ++ y) by (rewrite E, <- app_assoc; exact Y). destruct (header_more h y hd H) as [F|F].
  - left. exists []. intros r. split; [|reflexivity]. cbn [load_header]. rewrite T, F. reflexivity.
  - right. intros r. eexists. cbn [load_header]. rewrite T, F. reflexivity.
Qed.
(** The lines after the header of a file that was cut. *)
Lemma header_cut t r : (t = [] \/ exists p q r', t = [p] /\ r = (p ++ q) :: r' /\ p <> []) -> forall c h i hd ls j, load_header h i (c ++ t) = Ok (hd, ls, j) ->
  (exists ls', load_header h i (c ++ r) = Ok (hd, ls', j) /\ cut_lines ls ls' /\ prefix (concat ls) (concat ls')) \/ (ls = [] /\ exists e, load_header h i (c ++ r) = Err e).
Proof.
  intros T c. induction c as [|l c IH]; intros h i hd ls j H.
  - cbn [app] in *. destruct T as [-> | (p & q & r' & -> & -> & PN)]; [discriminate|]. cbn [load_header] in H. destruct (header_line h (trim_line p)) as [[h'|hd']|e|] eqn:HL; try discriminate. cbn [at_line] in H. injection H as <- <- <-.
    destruct (torn_header p q h i hd' PN HL) as [[rest F]|F].
    + left. exists r'. split; [apply F|]. split; [exists [], [], r'; auto|apply prefix_nil].
    + right. split; [reflexivity|apply F].
  - cbn [app load_header] in *. destruct (at_line (i + 1) (trim_line l) (header_line h (trim_line l))) as [[h'|hd']|e|]; try discriminate; [apply IH, H|]. injection H as <- <- <-. left. exists (c ++ r). split; [reflexivity|].
    split; [exists c, t, r; split; [reflexivity|]; split; [reflexivity|]; destruct T as [-> | (p & q & r' & -> & _)]; cbn; lia|].
    rewrite !concat_app. apply prefix_app. destruct T as [-> | (p & q & r' & -> & -> & _)]; [apply prefix_nil|]. cbn [concat]. exists (q ++ concat r'). rewrite app_nil_r, app_assoc. reflexivity.
Qed.
Lemma file_header_cut part file hd ls j : prefix part file -> load_header h_start 0 (raw_lines part) = Ok (hd, ls, j) ->
  (exists ls', load_header h_start 0 (raw_lines file) = Ok (hd, ls', j) /\ cut_lines ls ls' /\ prefix (concat ls) (concat ls')) \/ (ls = [] /\ exists e, load_header h_start 0 (raw_lines file) = Err e).
Proof.
  intros P H. destruct (raw_cut part file P) as (c & t & r & E1 & E2 & T). rewrite E1 in H. rewrite E2. apply (header_cut t r); [|exact H]. destruct T as [-> | (p & q & r' & -> & -> & PN & _)]; [left; reflexivity|right; exists p, q, r'; auto].
Qed.
Lemma binary_points_nil en v s : bs_read s = [] -> item_free (simple_next (binary_next (vd_count v) (binary_vertex en v))) s.
Proof. intros R a s' H. apply (simple_less _ (fun s => length (bs_read s)) (binary_less _ _ (binary_vertex_less en v))) in H. rewrite R in H. cbn in H. lia. Qed.
Definition ibytes (s : mesh_iter binary_state) : bytes := match s with IPoints a | IFaces a => bs_read a end.
Lemma binary_mesh_nil en v f s : ibytes s = [] -> item_free (simple_next (binary_mesh_next en v f)) s.
Proof.
  intros R a s' N. unfold simple_next, binary_mesh_next, mesh_next in N. destruct s as [x|x]; cbn [ibytes] in R.
  - destruct (binary_next (vd_count v) (binary_vertex en v) x) as [[r|] x'] eqn:NX.
    + destruct r as [p|e|]; cbn [map_item simple] in N; try discriminate. apply (binary_less _ _ (binary_vertex_less en v)) in NX. rewrite R in NX. cbn in NX. lia.
    + apply binary_switch in NX. rewrite R in NX. destruct (binary_next (fd_count f) (binary_face en f) (mkbs (bs_read x') false 0)) as [[[q|e|]|] y] eqn:NF; cbn [map_item simple] in N; try discriminate.
      apply (binary_less _ _ (binary_face_less en f)) in NF. cbn [bs_read length] in *. lia.
  - destruct (binary_next (fd_count f) (binary_face en f) x) as [[[q|e|]|] y] eqn:NF; cbn [map_item simple] in N; try discriminate. apply (binary_less _ _ (binary_face_less en f)) in NF. rewrite R in NF. cbn in NF. lia.
Qed.
Lemma prefix_one {A} (a b : list A) : prefix a b -> prefix_and_one a b. Proof. intros P. exists a. split; [exact P|left; reflexivity]. Qed.
Definition is_binary_header (hd : header) : Prop := match hd with mkheader (FBinary _) _ _ => True | _ => False end.
(** If there is a header, it is a binary one. *)
Definition binary_file (file : bytes) : Prop := forall hd ls j, load_header h_start 0 (raw_lines file) = Ok (hd, ls, j) -> is_binary_header hd.
Lemma ply_points_cut ft k k' part file ps r ps' r' : prefix part file -> load_ply_points ft k file = Some (ps, r) -> load_ply_points ft k' part = Some (ps', r') ->
  prefix_and_one ps' ps /\ (binary_file file -> prefix ps' ps /\ (r = Ok tt -> r' = Ok tt -> ps' = ps)).
Proof.
  intros P H H'. assert (EX : prefix ps' ps -> (r' <> Ok tt \/ r <> Ok tt) -> prefix_and_one ps' ps /\ (binary_file file -> prefix ps' ps /\ (r = Ok tt -> r' = Ok tt -> ps' = ps))).
  { intros X N. split; [apply prefix_one, X|]. intros _. split; [exact X|]. intros -> ->. destruct N as [N|N]; destruct (N eq_refl). }
  unfold load_ply_points in H'. destruct (load_header h_start 0 (raw_lines part)) as [[[[fmt v f] ls] j]|e|] eqn:HP; try (injection H' as <- <-; apply EX; [apply prefix_nil|left; discriminate]).
  destruct (reserve 24 (vd_count v)) eqn:RS; [|injection H' as <- <-; apply EX; [apply prefix_nil|left; discriminate]].
  destruct (file_header_cut part file _ _ _ P HP) as [(ls' & HF & CL & CC)|(-> & e & HF)].
  - unfold load_ply_points in H. rewrite HF, RS in H. destruct fmt as [|en]; rewrite load_fold in H, H'.
    + split.
      * destruct (sim_one (ascii_points_next ft v) (ascii_points_next ft v) push_body (@prefix (pt3 F64)) prefix_refl prefix_trans (fun m a => prefix_snoc m a) arel
          (fun s1 s2 R => match ascii_points_cut ft v s1 s2 R with or_introl X => or_introl X | or_intror Y => or_intror (ascii_points_last ft v s1 Y) end) k' k (mkas ls false 0 j) (mkas ls' false 0 j) [] ps' ps r' r) as (m0 & _ & G & O); [repeat split; exact CL|exact H'|exact H|].
        apply (push_one m0); [exact O|exact G].
      * intros B. destruct (B _ _ _ HF).
    + destruct (sim_fails (simple_next (binary_next (vd_count v) (binary_vertex en v))) (simple_next (binary_next (vd_count v) (binary_vertex en v))) push_body (@prefix (pt3 F64)) prefix_refl prefix_trans (fun m a => prefix_snoc m a) brel
          (binary_points_cut en v) k' k (mkbs (concat ls) false 0) (mkbs (concat ls') false 0) [] ps' ps r' r) as [X Y]; [repeat split; exact CC|exact H'|exact H|].
      split; [apply prefix_one, X|]. intros _. split; [exact X|]. intros _ O. apply (Y O).
  - assert (X : ps' = []).
    { destruct fmt as [|en]; rewrite load_fold in H'.
      - apply (fold_free (ascii_points_next ft v) push_body k' (mkas [] false 0 j) [] ps' r'); [|exact H']. intros a s' N. exact (ascii_points_nil ft v (mkas [] false 0 j) eq_refl a s' N).
      - apply (fold_free (simple_next (binary_next (vd_count v) (binary_vertex en v))) push_body k' (mkbs [] false 0) [] ps' r'); [|exact H']. apply binary_points_nil. reflexivity. }
    apply EX; [rewrite X; apply prefix_nil|]. right. unfold load_ply_points in H. rewrite HF in H. injection H as _ <-. discriminate.
Qed.
Definition ply_body (m : mesh (pt3 F64)) (x : mesh_item) : mesh (pt3 F64) * outcome (with_line PlyError) unit := let (m, r) := add_item m x in (m, simple r).
Lemma ply_body_fst m x : fst (ply_body m x) = fst (mesh_add PlyInvalidMeshIndices m x).
Proof. destruct x as [p|[[a b] c]]; cbn [ply_body add_item mesh_add]; [reflexivity|]. unfold ply_body. cbn [add_item]. destruct (try_add_connection m a b c) as [m' [u|e|]]; reflexivity. Qed.
Lemma ply_body_grows m x : mgrows m (fst (ply_body m x)). Proof. rewrite ply_body_fst. apply mesh_add_grows. Qed.
Lemma exact_shows m' m : mgrows mesh_empty m' -> mgrows m' m -> exists s' s, shows m' s' /\ shows m s /\ mesh_prefix s' s.
Proof.
  intros G0 G. destruct (G0 _ empty_abs empty_ok) as (s0 & A0 & F0 & _). destruct (G s0 A0 F0) as (s2 & A2 & F2 & P1 & P2). exists s0, s2. split; [apply abs_shows; assumption|]. split; [apply abs_shows; assumption|]. split; assumption.
Qed.
Lemma ply_mesh_grown ft k file m r : load_ply_mesh ft k file = Some (m, r) -> mgrows mesh_empty m.
Proof.
  unfold load_ply_mesh. intros H. destruct (load_header h_start 0 (raw_lines file)) as [[[[fmt v [f|]] ls] j]|e|]; try (injection H as <- _; apply mgrows_refl).
  destruct (reserve 24 (vd_count v) && reserve 8 (w64 (3 * fd_count f)))%bool; [|injection H as <- _; apply mgrows_refl].
  destruct fmt as [|en]; apply (fold_grows _ ply_body mgrows mgrows_refl mgrows_trans ply_body_grows) in H; exact H.
Qed.
Lemma ply_mesh_cut ft k k' part file m r m' r' : prefix part file -> load_ply_mesh ft k file = Some (m, r) -> load_ply_mesh ft k' part = Some (m', r') ->
  exists s' s, shows m' s' /\ shows m s /\ mesh_prefix_and_one s' s /\ (binary_file file -> mesh_prefix s' s /\ (r = Ok tt -> r' = Ok tt -> m' = m)).
Proof.
  intros P H H'. pose proof (ply_mesh_grown _ _ _ _ _ H) as GM. pose proof (ply_mesh_grown _ _ _ _ _ H') as GM'.
  assert (EX : mgrows m' m -> (r = Ok tt -> r' = Ok tt -> m' = m) -> exists s' s, shows m' s' /\ shows m s /\ mesh_prefix_and_one s' s /\ (binary_file file -> mesh_prefix s' s /\ (r = Ok tt -> r' = Ok tt -> m' = m))).
  { intros G O. destruct (exact_shows m' m GM' G) as (s' & s & S' & S & PP). exists s', s. split; [exact S'|]. split; [exact S|]. split; [left; exact PP|]. intros _. split; [exact PP|exact O]. }
  unfold load_ply_mesh in H'. destruct (load_header h_start 0 (raw_lines part)) as [[[[fmt v [f|]] ls] j]|e|] eqn:HP; try (injection H' as <- <-; apply EX; [exact GM|intros _ N; discriminate]).
  destruct (reserve 24 (vd_count v) && reserve 8 (w64 (3 * fd_count f)))%bool eqn:RS; [|injection H' as <- <-; apply EX; [exact GM|intros _ N; discriminate]].
  destruct (file_header_cut part file _ _ _ P HP) as [(ls' & HF & CL & CC)|(-> & e & HF)].
  - unfold load_ply_mesh in H. rewrite HF, RS in H. destruct fmt as [|en].
    + destruct (sim_one (ascii_mesh_next ft v f) (ascii_mesh_next ft v f) ply_body mgrows mgrows_refl mgrows_trans ply_body_grows (irel arel) (ascii_mesh_cut ft v f) k' k (IPoints (mkas ls false 0 j)) (IPoints (mkas ls' false 0 j)) mesh_empty m' m r' r)
        as (m0 & G0 & G & O); [repeat split; exact CL|exact H'|exact H|].
      destruct (mesh_one_shows PlyInvalidMeshIndices m0 m' m G0 G) as (s' & s & S' & S & PP). { destruct O as [O|[x O]]; [left; exact O|right; exists x; rewrite O; apply ply_body_fst]. }
      exists s', s. split; [exact S'|]. split; [exact S|]. split; [exact PP|]. intros B. destruct (B _ _ _ HF).
    + destruct (sim_fails (simple_next (binary_mesh_next en v f)) (simple_next (binary_mesh_next en v f)) ply_body mgrows mgrows_refl mgrows_trans ply_body_grows (irel brel) (binary_mesh_cut en v f) k' k
        (IPoints (mkbs (concat ls) false 0)) (IPoints (mkbs (concat ls') false 0)) mesh_empty m' m r' r) as [X Y]; [repeat split; exact CC|exact H'|exact H|].
      apply EX; [exact X|]. intros _ O. apply (Y O).
  - assert (X : m' = mesh_empty).
    { destruct fmt as [|en].
      - apply (fold_free (ascii_mesh_next ft v f) ply_body k' (IPoints (mkas [] false 0 j)) mesh_empty m' r'); [|exact H']. apply ascii_mesh_free. reflexivity.
      - apply (fold_free (simple_next (binary_mesh_next en v f)) ply_body k' (IPoints (mkbs [] false 0)) mesh_empty m' r'); [|exact H']. apply binary_mesh_nil. reflexivity. }
    apply EX; [rewrite X; exact GM|]. unfold load_ply_mesh in H. rewrite HF in H. injection H as _ <-. discriminate.
Qed.
(** The second line decides. *)
Lemma format_kept h line h' : header_line h line = Ok (More h') -> h_ply h = true -> forall f, h_format h = Some f -> h_format h' = Some f /\ h_ply h' = true.
Proof.
  unfold header_line. destruct h as [o n p s f0 nv nf x y z b b1 b2 a ct it fb fa]. cbn [h_ply h_format]. intros H -> f ->. cbn [negb] in H. destruct (starts_with (str "comment") line || starts_with (str "obj_info") line)%bool; [injection H as <-; split; reflexivity|].
  destruct (match nv with None => starts_with (str "element vertex") line | Some _ => false end). { destruct (element_count VertexElement line); try discriminate. injection H as <-. split; reflexivity. }
  destruct (match nf with None => starts_with (str "element face") line | Some _ => false end). { destruct (element_count FaceElement line); try discriminate. injection H as <-. split; reflexivity. }
  destruct (starts_with (str "property") line).
  - destruct s; [discriminate|..].
    + unfold vertex_property in H. destruct (match tl (to_words line) with [] => Err InvalidProperty | w :: _ => type_of w end) as [t|e|]; cbn [obind] in H; try discriminate. destruct (nth_error (tl (to_words line)) 1) as [id|]; try discriminate.
      repeat match type of H with context [bytes_eqb ?u ?v] => destruct (bytes_eqb u v) end.
      all: try (destruct (vertex_type t); cbn [obind] in H; try discriminate; destruct (set_order _ _); cbn [obind] in H; try discriminate; injection H as <-; split; reflexivity).
      destruct (n =? 0)%N; [injection H as <-; split; reflexivity|]. destruct (n =? 1)%N; [injection H as <-; split; reflexivity|]. destruct (n =? 2)%N; injection H as <-; split; reflexivity.
    + unfold face_property in H. destruct (starts_with (str "property list") line).
      * destruct (contains line (str "vertex_indices") || contains line (str "vertex_index"))%bool; [|injection H as <-; split; reflexivity].
        destruct (match tl (tl (to_words line)) with [] => Err InvalidProperty | w :: _ => obind (type_of w) face_type end); cbn [obind] in H; try discriminate. destruct (match tl (tl (tl (to_words line))) with [] => Err InvalidProperty | w :: _ => obind (type_of w) face_type end); cbn [obind] in H; try discriminate. injection H as <-. split; reflexivity.
      * destruct (match tl (to_words line) with [] => Err InvalidProperty | w :: _ => type_of w end); cbn [obind] in H; try discriminate. destruct ct; injection H as <-; split; reflexivity.
  - destruct (bytes_eqb line (str "end_header")); [|discriminate]. destruct (finish _) as [[hd|]|e|]; discriminate.
Qed.
Lemma format_found h line hd : header_line h line = Ok (Found hd) -> forall f, h_format h = Some f -> exists v d, hd = mkheader f v d.
Proof.
  intros H f F. pose proof (found_line _ _ _ H) as ->. unfold header_line in H. destruct h as [o n p s f0 nv nf x y z b b1 b2 a ct it fb fa]. cbn [h_format] in F. subst f0. destruct p; [|discriminate].
  assert (X : exists h, h_format h = Some f /\ finish h = Ok (Some hd)).
  { exists (mkh o n true s (Some f) nv nf x y z b b1 b2 a ct it fb fa). split; [reflexivity|]. set (h := mkh o n true s (Some f) nv nf x y z b b1 b2 a ct it fb fa) in *.
    assert (H2 : obind (finish h) (fun r => match r with Some hd => Ok (Found hd) | None => Err LoadHeaderInvalid end) = Ok (Found hd)) by (destruct nv, nf; exact H).
    destruct (finish h) as [[hd'|]|e|]; cbn [obind] in H2; try discriminate. injection H2 as ->. reflexivity. }
  clear H. destruct X as (h & F & H). unfold finish in H. rewrite F in H. destruct (h_nv h); [|discriminate]. destruct (h_x h); [|discriminate]. destruct (h_y h); [|discriminate]. destruct (h_z h); [|discriminate]. destruct (order_of (h_order h)); cbn [obind] in H; try discriminate. injection H as <-. eexists. eexists. reflexivity.
Qed.
Lemma format_header ls : forall h i hd l j f, load_header h i ls = Ok (hd, l, j) -> h_ply h = true -> h_format h = Some f -> exists v d, hd = mkheader f v d.
Proof.
  induction ls as [|x ls IH]; intros h i hd l j f H P F; [discriminate|]. cbn [load_header] in H. destruct (header_line h (trim_line x)) as [[h'|hd']|e|] eqn:HL; try discriminate; cbn [at_line] in H.
  - destruct (format_kept _ _ _ HL P f F) as [F' P']. apply (IH _ _ _ _ _ _ H P' F').
  - injection H as <- _ _. apply (format_found _ _ _ HL f F).
Qed.
