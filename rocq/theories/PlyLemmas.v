(** Lemmas for the .ply format. *)
From Verif Require Import Base BaseLemmas Num GeomSpec FloatSpec MeshModel MeshSpec MeshLemmas IoModel IoSpec IoLemmas ByteModel ByteSpec ByteLemmas StlModel StlLemmas PlyModel PlySpec.
From Coq Require Import ZifyBool ZifyNat ZifyN.
Open Scope nat_scope.

(** ** words *)
Lemma white_word c : is_whitespace c = false -> word_char c.
Proof. intros H. unfold word_char. destruct (Ascii.eqb_spec c space) as [->|_]; [discriminate H|]. destruct (Ascii.eqb_spec c tab) as [->|_]; [discriminate H|reflexivity]. Qed.
Lemma word_words w : word w -> Forall word_char w /\ w <> [].
Proof. intros (N & F). split; [|exact N]. eapply Forall_impl; [|exact F]. intros c. apply white_word. Qed.
Lemma word_line w : Forall (fun c => is_whitespace c = false) w -> is_line w.
Proof. intros F I. rewrite Forall_forall in F. specialize (F _ I). discriminate F. Qed.
Lemma last_in {A} (l : list A) d : l <> [] -> In (last l d) l.
Proof. induction l as [|a [|b l] IH]; intros H; [contradiction|left; reflexivity|]. right. apply IH. discriminate. Qed.
Lemma word_last w : word w -> is_whitespace (last w nl) = false.
Proof. intros (N & F). rewrite Forall_forall in F. apply F, last_in, N. Qed.
Lemma trim_word a w : word w -> trim_line ((a ++ w) ++ [nl]) = a ++ w.
Proof. intros W. apply trim_line_id. right. rewrite last_app_ne by apply W. apply word_last, W. Qed.
Lemma number_is_word w : Forall number_char w -> w <> [] -> word w.
Proof. intros F N. split; [exact N|]. apply Forall_forall. intros c I. apply (number_white w F c I). Qed.
Lemma usize_word n : word (print_usize n). Proof. apply number_is_word; apply print_usize_chars. Qed.
Lemma word_of_str s : forallb (fun c => negb (is_whitespace c)) (str s) = true -> str s <> [] -> word (str s).
Proof. intros F N. split; [exact N|]. apply Forall_forall. intros c I. rewrite forallb_forall in F. apply F in I. destruct (is_whitespace c); [discriminate I|reflexivity]. Qed.
Lemma spelled_word t w : spelled t w -> word w.
Proof. destruct t; intros [<-|[<-|[]]]; apply word_of_str; first [reflexivity|discriminate]. Qed.
Lemma spelled_type t w : spelled t w -> type_of w = Ok t.
Proof. destruct t; intros [<-|[<-|[]]]; reflexivity. Qed.
Lemma words_cons w s : word w -> to_words (w ++ space :: s) = w :: to_words s.
Proof. intros W. destruct (word_words w W). apply words_word; assumption. Qed.
Lemma words_one w : word w -> to_words w = [w].
Proof. intros W. destruct (word_words w W). apply words_last; assumption. Qed.
Lemma join_cons w ws : ws <> [] -> join (w :: ws) = w ++ space :: join ws.
Proof. destruct ws; [contradiction|reflexivity]. Qed.
Lemma words_join ws : Forall word ws -> to_words (join ws) = ws.
Proof.
  induction 1 as [|w ws W F IH]; [reflexivity|]. destruct ws as [|v ws]; [apply words_one, W|]. rewrite join_cons by discriminate. rewrite words_cons by exact W. rewrite IH. reflexivity.
Qed.
Lemma join_line ws : Forall word ws -> is_line (join ws).
Proof.
  induction 1 as [|w ws W F IH]; [intros []|]. destruct ws as [|v ws]; [apply word_line, W|]. rewrite join_cons by discriminate.
  apply is_line_app; [apply word_line, W|]. intros [E|I]; [discriminate E|apply IH, I].
Qed.
Lemma join_last ws : Forall word ws -> ws <> [] -> is_whitespace (last (join ws) nl) = false.
Proof.
  induction 1 as [|w ws W F IH]; intros N; [contradiction|]. destruct ws as [|v ws]; [apply word_last, W|]. rewrite join_cons by discriminate.
  rewrite last_app_ne by discriminate. assert (J : join (v :: ws) <> []). { inversion F as [|? ? V ? E1]. destruct V as (V & _). destruct ws; [exact V|]. rewrite join_cons by discriminate. destruct v; [destruct (V eq_refl)|discriminate]. }
  change (space :: join (v :: ws)) with ([space] ++ join (v :: ws)). rewrite last_app_ne by exact J. apply IH. discriminate.
Qed.
Lemma trim_join ws : Forall word ws -> trim_line (join ws ++ [nl]) = join ws.
Proof. intros F. apply trim_line_id. destruct ws as [|w ws]; [left; reflexivity|right]. apply join_last; [exact F|discriminate]. Qed.

(** ** the header *)
Inductive steps : hstate -> list bytes -> hstate -> Prop :=
| StepsNil h : steps h [] h
| StepsCons h l h1 ls h2 : header_line h (trim_line (l ++ [nl])) = Ok (More h1) -> steps h1 ls h2 -> steps h (l :: ls) h2.
Lemma steps_app h ls h1 ls' h2 : steps h ls h1 -> steps h1 ls' h2 -> steps h (ls ++ ls') h2.
Proof. intros A B. induction A as [|h l h1' ls h2' E S IH]; [exact B|]. cbn [app]. eapply StepsCons; [exact E|]. apply IH, B. Qed.
Lemma load_steps h ls h' : steps h ls h' -> forall i rest, load_header h i (map (fun l => l ++ [nl]) ls ++ rest) = load_header h' (i + lenN ls)%N rest.
Proof.
  induction 1 as [h|h l h1 ls h2 E S IH]; intros i rest; [cbn [map app]; f_equal; unfold lenN; cbn [length]; lia|].
  cbn [map app load_header]. rewrite E. cbn [at_line]. rewrite IH. f_equal. unfold lenN. cbn [length]. lia.
Qed.
Lemma comment_trim l : comment l -> starts_with (str "comment") (trim_line (l ++ [nl])) || starts_with (str "obj_info") (trim_line (l ++ [nl])) = true.
Proof.
  assert (P : forall p l t, stripped l t -> (exists r, l = p ++ r) -> p <> [] -> is_whitespace (last p nl) = false -> exists r, t = p ++ r).
  { intros p l0 t (ws & E & F & _) (r & E2) Np Lp. rewrite E in E2. destruct (Nat.le_gt_cases (length p) (length t)) as [L|L].
    - exists (skipn (length p) t). rewrite <- (firstn_skipn (length p) t) at 1. f_equal.
      assert (Q : firstn (length p) (t ++ ws) = firstn (length p) (p ++ r)) by (rewrite E2; reflexivity). rewrite firstn_app, firstn_app, Nat.sub_diag, firstn_all in Q.
      replace (length p - length t) with 0 in Q by lia. cbn [firstn] in Q. rewrite !app_nil_r in Q. exact Q.
    - exfalso. assert (I : In (last p nl) ws); [|rewrite Forall_forall in F; rewrite (F _ I) in Lp; discriminate Lp].
      assert (Q : skipn (length t) (t ++ ws) = skipn (length t) (p ++ r)) by (rewrite E2; reflexivity). rewrite skipn_app, skipn_all, Nat.sub_diag in Q. cbn [skipn app] in Q. rewrite Q. rewrite skipn_app.
      apply in_or_app. left. rewrite <- (firstn_skipn (length t) p) at 1. rewrite last_app_ne; [apply last_in|]; intros Z; apply (f_equal (@length _)) in Z; rewrite skipn_length in Z; cbn in Z; lia. }
  assert (S : forall p r, starts_with p (p ++ r) = true).
  { intros p r. unfold starts_with. replace (strip_prefix p (p ++ r)) with (Some r); [reflexivity|]. symmetry. induction p as [|c p IH]; [reflexivity|]. cbn. rewrite Ascii.eqb_refl. exact IH. }
  intros (L & r & [E|E]); destruct (P _ _ _ (trim_line_spec l nl) (ex_intro _ r E)) as (q & Q); try discriminate; try reflexivity; rewrite Q, S; [reflexivity|apply Bool.orb_true_r].
Qed.
Lemma comments_steps h cs : Forall comment cs -> steps h cs h.
Proof. induction 1 as [|c cs C F IH]; [constructor|]. eapply StepsCons; [|exact IH]. unfold header_line. rewrite (comment_trim c C). destruct h; reflexivity. Qed.

Lemma prop_words p : prop_ok p -> to_words (prop_line p) = [str "property"; p_word p; p_name p].
Proof.
  intros (S & W). unfold prop_line. change (str "property " ++ p_word p ++ [space] ++ p_name p) with (str "property" ++ space :: (p_word p ++ space :: p_name p)).
  rewrite words_cons by (apply word_of_str; [reflexivity|discriminate]). rewrite words_cons by (eapply spelled_word, S). rewrite words_one by exact W. reflexivity.
Qed.
Lemma prop_trim p : prop_ok p -> trim_line (prop_line p ++ [nl]) = prop_line p.
Proof.
  intros (S & W). unfold prop_line. replace (str "property " ++ p_word p ++ [space] ++ p_name p) with ((str "property " ++ p_word p ++ [space]) ++ p_name p) by (rewrite <- !app_assoc; reflexivity). apply trim_word, W.
Qed.
Lemma prop_is_line p : prop_ok p -> is_line (prop_line p).
Proof.
  intros (S & W). unfold prop_line. apply is_line_app; [intros I; cbn in I; repeat (destruct I as [I|I]; [discriminate I|]); exact I|]. apply is_line_app; [apply word_line, (spelled_word _ _ S)|].
  apply is_line_app; [intros [E|[]]; discriminate E|apply word_line, W].
Qed.
(** The line in the state of reading vertex properties. *)
Lemma vertex_prop_line h p : prop_ok p -> h_ply h = true -> h_format h <> None -> h_nv h <> None -> h_state h = SVertex ->
  header_line h (trim_line (prop_line p ++ [nl])) = obind (vertex_property h (prop_line p)) (fun h => Ok (More h)).
Proof.
  intros P H1 H2 H3 H4. rewrite prop_trim by exact P. unfold header_line. destruct h as [o n pl s f nv nf x y z b b1 b2 a ct it fb fa]. cbn [h_ply h_format h_nv h_state] in *. subst pl s.
  destruct f; [|contradiction]. destruct nv; [|contradiction]. destruct nf; reflexivity.
Qed.
Lemma vertex_prop_eq h p : prop_ok p -> vertex_property h (prop_line p) =
  let t := p_type p in let id := p_name p in
      let '(mkh o n p s f nv nf x y z b b1 b2 a ct it fb fa) := h in
      if bytes_eqb id (str "x") then obind (vertex_type t) (fun v => obind (set_order h CX) (fun o => Ok (mkh o (n + 1) p s f nv nf (Some v) y z b b1 b2 a ct it fb fa)))
      else if bytes_eqb id (str "y") then obind (vertex_type t) (fun v => obind (set_order h CY) (fun o => Ok (mkh o (n + 1) p s f nv nf x (Some v) z b b1 b2 a ct it fb fa)))
      else if bytes_eqb id (str "z") then obind (vertex_type t) (fun v => obind (set_order h CZ) (fun o => Ok (mkh o (n + 1) p s f nv nf x y (Some v) b b1 b2 a ct it fb fa)))
      else if (n =? 0)%N then Ok (mkh o n p s f nv nf x y z (bw_add b t) b1 b2 a ct it fb fa)
      else if (n =? 1)%N then Ok (mkh o n p s f nv nf x y z b (bw_add b1 t) b2 a ct it fb fa)
      else if (n =? 2)%N then Ok (mkh o n p s f nv nf x y z b b1 (bw_add b2 t) a ct it fb fa)
      else Ok (mkh o n p s f nv nf x y z b b1 b2 (bw_add a t) ct it fb fa).
Proof.
  intros P. unfold vertex_property. rewrite (prop_words p P). cbn [tl nth_error]. rewrite (spelled_type _ _ (proj1 P)). cbn [obind]. reflexivity.
Qed.
Definition bw_plus (b : bytes_words) (ps : list prop) : bytes_words := fold_left (fun b p => bw_add b (p_type p)) ps b.
Definition plain (ps : list prop) : Prop := Forall (fun p => prop_ok p /\ is_coord (p_name p) = false) ps.
Lemma not_coord n : is_coord n = false -> bytes_eqb n (str "x") = false /\ bytes_eqb n (str "y") = false /\ bytes_eqb n (str "z") = false.
Proof. unfold is_coord. intros H. apply Bool.orb_false_elim in H as (H & C). apply Bool.orb_false_elim in H as (A & B). auto. Qed.
Lemma gap_steps ps : plain ps -> forall o n f nv nf x y z b b1 b2 a ct it fb fa,
  steps (mkh o n true SVertex (Some f) (Some nv) nf x y z b b1 b2 a ct it fb fa) (map prop_line ps)
    (if (n =? 0)%N then mkh o n true SVertex (Some f) (Some nv) nf x y z (bw_plus b ps) b1 b2 a ct it fb fa
     else if (n =? 1)%N then mkh o n true SVertex (Some f) (Some nv) nf x y z b (bw_plus b1 ps) b2 a ct it fb fa
     else if (n =? 2)%N then mkh o n true SVertex (Some f) (Some nv) nf x y z b b1 (bw_plus b2 ps) a ct it fb fa
     else mkh o n true SVertex (Some f) (Some nv) nf x y z b b1 b2 (bw_plus a ps) ct it fb fa).
Proof.
  induction 1 as [|p ps (P & C) F IH]; intros.
  - cbn [map bw_plus fold_left]. destruct (n =? 0)%N, (n =? 1)%N, (n =? 2)%N; constructor.
  - cbn [map]. eapply StepsCons.
    + rewrite vertex_prop_line by first [exact P|reflexivity|discriminate]. rewrite vertex_prop_eq by exact P. cbv zeta. destruct (not_coord _ C) as (-> & -> & ->).
      instantiate (1 := if (n =? 0)%N then _ else if (n =? 1)%N then _ else if (n =? 2)%N then _ else _).
      destruct (n =? 0)%N; [reflexivity|]. destruct (n =? 1)%N; [reflexivity|]. destruct (n =? 2)%N; reflexivity.
    + unfold bw_plus. cbn [fold_left]. specialize (IH o n f nv nf x y z).
      destruct (n =? 0)%N; [apply IH|]. destruct (n =? 1)%N; [apply IH|]. destruct (n =? 2)%N; apply IH.
Qed.
Definition name_of (c : Xyz) : bytes := str match c with CX => "x" | CY => "y" | CZ => "z" end.
Definition vt (t : PType) : VertexType := match t with PFloat => VFloat | _ => VDouble end.
Lemma vt_ok t : t = PFloat \/ t = PDouble -> vertex_type t = Ok (vt t). Proof. intros [->| ->]; reflexivity. Qed.
Definition put (c d : Xyz) (v : VertexType) (old : option VertexType) : option VertexType :=
  match c, d with CX, CX | CY, CY | CZ, CZ => Some v | _, _ => old end.
Lemma coord_step c p : prop_ok p -> p_name p = name_of c -> p_type p = PFloat \/ p_type p = PDouble -> forall o n f nv nf x y z b b1 b2 a ct it fb fa, (n < lenN o)%N ->
  steps (mkh o n true SVertex (Some f) (Some nv) nf x y z b b1 b2 a ct it fb fa) [prop_line p]
    (mkh (setN o n c) (n + 1) true SVertex (Some f) (Some nv) nf (put c CX (vt (p_type p)) x) (put c CY (vt (p_type p)) y) (put c CZ (vt (p_type p)) z) b b1 b2 a ct it fb fa).
Proof.
  intros P E T o n f nv nf x y z b b1 b2 a ct it fb fa L. eapply StepsCons; [|constructor]. rewrite vertex_prop_line by first [exact P|reflexivity|discriminate]. rewrite vertex_prop_eq by exact P. cbv zeta. rewrite E, (vt_ok _ T).
  unfold set_order. cbn [h_found h_order]. destruct (N.ltb_spec n (lenN o)); [|lia]. destruct c; reflexivity.
Qed.
(** A table of properties around three coordinate columns. *)
Record layout : Type := mklay { l0 : list prop; q1 : prop; l1 : list prop; q2 : prop; l2 : list prop; q3 : prop; l3 : list prop; k1 : Xyz; k2 : Xyz; k3 : Xyz }.
Definition lay_props (l : layout) : list prop := l0 l ++ q1 l :: l1 l ++ q2 l :: l2 l ++ q3 l :: l3 l.
Definition float_prop (p : prop) : Prop := p_type p = PFloat \/ p_type p = PDouble.
Record lay_ok (l : layout) : Prop := {
  lay0 : plain (l0 l); lay1 : plain (l1 l); lay2 : plain (l2 l); lay3 : plain (l3 l);
  lq1 : prop_ok (q1 l) /\ p_name (q1 l) = name_of (k1 l) /\ float_prop (q1 l);
  lq2 : prop_ok (q2 l) /\ p_name (q2 l) = name_of (k2 l) /\ float_prop (q2 l);
  lq3 : prop_ok (q3 l) /\ p_name (q3 l) = name_of (k3 l) /\ float_prop (q3 l);
  lk : k1 l <> k2 l /\ k1 l <> k3 l /\ k2 l <> k3 l }.
(** The type recorded for a coordinate. *)
Definition lay_type (l : layout) (c : Xyz) : VertexType :=
  vt (p_type (match c, k1 l, k2 l with CX, CX, _ | CY, CY, _ | CZ, CZ, _ => q1 l | CX, _, CX | CY, _, CY | CZ, _, CZ => q2 l | _, _, _ => q3 l end)).
Lemma layout_steps l f nv nf ct it fb fa : lay_ok l ->
  steps (mkh [CX; CX; CX] 0 true SVertex (Some f) (Some nv) nf None None None bw0 bw0 bw0 bw0 ct it fb fa) (map prop_line (lay_props l))
    (mkh [k1 l; k2 l; k3 l] 3 true SVertex (Some f) (Some nv) nf (Some (lay_type l CX)) (Some (lay_type l CY)) (Some (lay_type l CZ))
      (bw_plus bw0 (l0 l)) (bw_plus bw0 (l1 l)) (bw_plus bw0 (l2 l)) (bw_plus bw0 (l3 l)) ct it fb fa).
Proof.
  intros [G0 G1 G2 G3 (P1 & N1 & T1) (P2 & N2 & T2) (P3 & N3 & T3) (D1 & D2 & D3)]. unfold lay_props.
  rewrite map_app. eapply steps_app; [apply (gap_steps _ G0)|]. cbn [map N.eqb].
  change (prop_line (q1 l) :: map prop_line (l1 l ++ q2 l :: l2 l ++ q3 l :: l3 l)) with ([prop_line (q1 l)] ++ map prop_line (l1 l ++ q2 l :: l2 l ++ q3 l :: l3 l)).
  eapply steps_app; [apply (coord_step (k1 l)); [assumption|assumption|assumption|reflexivity]|]. rewrite map_app. eapply steps_app; [apply (gap_steps _ G1)|]. cbn [map N.eqb].
  change (prop_line (q2 l) :: map prop_line (l2 l ++ q3 l :: l3 l)) with ([prop_line (q2 l)] ++ map prop_line (l2 l ++ q3 l :: l3 l)).
  eapply steps_app; [apply (coord_step (k2 l)); [assumption|assumption|assumption|reflexivity]|]. rewrite map_app. eapply steps_app; [apply (gap_steps _ G2)|]. cbn [map N.eqb].
  change (prop_line (q3 l) :: map prop_line (l3 l)) with ([prop_line (q3 l)] ++ map prop_line (l3 l)).
  eapply steps_app; [apply (coord_step (k3 l)); [assumption|assumption|assumption|reflexivity]|].
  match goal with |- steps ?h _ ?h' => replace h' with
    (if (0 + 1 + 1 + 1 =? 0)%N then h' else if (0 + 1 + 1 + 1 =? 1)%N then h' else if (0 + 1 + 1 + 1 =? 2)%N then h' else h') by reflexivity end.
  unfold lay_type. destruct (k1 l), (k2 l), (k3 l); try congruence; apply (gap_steps _ G3).
Qed.
(** The faces. *)
Lemma face_prop_line h p : prop_ok p -> h_ply h = true -> h_format h <> None -> h_nv h <> None -> h_nf h <> None -> h_state h = SFace ->
  header_line h (trim_line (prop_line p ++ [nl])) = Ok (More (match h_ctype h with
    | Some _ => let '(mkh o n p' s f nv nf x y z b b1 b2 a ct it fb fa) := h in mkh o n p' s f nv nf x y z b b1 b2 a ct it fb (bw_add fa (p_type p))
    | None => let '(mkh o n p' s f nv nf x y z b b1 b2 a ct it fb fa) := h in mkh o n p' s f nv nf x y z b b1 b2 a ct it (bw_add fb (p_type p)) fa end)).
Proof.
  intros P H1 H2 H3 H4 H5. rewrite prop_trim by exact P. unfold header_line. destruct h as [o n pl s f nv nf x y z b b1 b2 a ct it fb fa]. cbn [h_ply h_format h_nv h_nf h_state h_ctype] in *. subst pl s.
  destruct f; [|contradiction]. destruct nv; [|contradiction]. destruct nf; [|contradiction].
  change (starts_with (str "comment") (prop_line p)) with false. change (starts_with (str "obj_info") (prop_line p)) with false. cbn [orb negb].
  change (starts_with (str "property") (prop_line p)) with true. cbv iota. unfold face_property.
  assert (L : starts_with (str "property list") (prop_line p) = false).
  { destruct P as (S & W). unfold prop_line. destruct (p_type p); destruct S as [<-|[<-|[]]]; reflexivity. }
  rewrite L, (prop_words p P). cbn [tl]. rewrite (spelled_type _ _ (proj1 P)). cbn [obind]. destruct ct; reflexivity.
Qed.
Lemma fgap_steps ps : Forall prop_ok ps -> forall o n f nv nf x y z b b1 b2 a ct it fb fa,
  steps (mkh o n true SFace (Some f) (Some nv) (Some nf) x y z b b1 b2 a ct it fb fa) (map prop_line ps)
    (match ct with Some _ => mkh o n true SFace (Some f) (Some nv) (Some nf) x y z b b1 b2 a ct it fb (bw_plus fa ps)
     | None => mkh o n true SFace (Some f) (Some nv) (Some nf) x y z b b1 b2 a ct it (bw_plus fb ps) fa end).
Proof.
  induction 1 as [|p ps P F IH]; intros.
  - destruct ct; constructor.
  - cbn [map]. eapply StepsCons; [apply (face_prop_line _ p P); first [reflexivity|discriminate]|]. cbn [h_ctype]. unfold bw_plus. cbn [fold_left]. destruct ct; apply IH.
Qed.
Lemma integer_face t : integer_type t -> face_type t = Ok t. Proof. intros (A & B). destruct t; first [reflexivity|congruence]. Qed.
Lemma contains_app needle b : forall a, needle <> [] -> contains (a ++ needle ++ b) needle = true.
Proof.
  intros a N. assert (S : forall p r, starts_with p (p ++ r) = true).
  { intros p r. unfold starts_with. replace (strip_prefix p (p ++ r)) with (Some r); [reflexivity|]. symmetry. induction p as [|c p IH]; [reflexivity|]. cbn. rewrite Ascii.eqb_refl. exact IH. }
  induction a as [|c a IH]; cbn [app].
  - specialize (S needle b). destruct (needle ++ b) as [|c r] eqn:E; [destruct needle; [contradiction|discriminate E]|]. cbn [contains]. rewrite S. reflexivity.
  - cbn [contains]. rewrite IH. apply Bool.orb_true_r.
Qed.
Definition list_line (d : face_decl) : bytes := str "property list " ++ d_cword d ++ [space] ++ d_iword d ++ [space] ++ d_name d.
Lemma name_word d : decl_ok d -> word (d_name d).
Proof. intros (_ & _ & _ & _ & _ & _ & _ & [E|E]); rewrite E; apply word_of_str; first [reflexivity|discriminate]. Qed.
Lemma list_words d : decl_ok d -> to_words (list_line d) = [str "property"; str "list"; d_cword d; d_iword d; d_name d].
Proof.
  intros D. pose proof (name_word d D) as W. destruct D as (_ & _ & _ & S1 & S2 & _). unfold list_line.
  change (str "property list " ++ d_cword d ++ [space] ++ d_iword d ++ [space] ++ d_name d) with (str "property" ++ space :: (str "list" ++ space :: (d_cword d ++ space :: (d_iword d ++ space :: d_name d)))).
  rewrite !words_cons, words_one; [reflexivity|exact W|eapply spelled_word, S2|eapply spelled_word, S1| |]; apply word_of_str; first [reflexivity|discriminate].
Qed.
Lemma list_split d : list_line d = (str "property list " ++ d_cword d ++ [space] ++ d_iword d ++ [space]) ++ d_name d.
Proof. unfold list_line. rewrite <- !app_assoc. reflexivity. Qed.
Lemma list_step d : decl_ok d -> forall o n f nv nf x y z b b1 b2 a ct it fb fa,
  steps (mkh o n true SFace (Some f) (Some nv) (Some nf) x y z b b1 b2 a ct it fb fa) [list_line d]
    (mkh o n true SFace (Some f) (Some nv) (Some nf) x y z b b1 b2 a (Some (d_ctype d)) (Some (d_itype d)) fb fa).
Proof.
  intros D o n f nv nf x y z b b1 b2 a ct it fb fa. eapply StepsCons; [|constructor]. rewrite list_split, (trim_word _ _ (name_word d D)), <- list_split. unfold header_line.
  change (starts_with (str "comment") (list_line d)) with false. change (starts_with (str "obj_info") (list_line d)) with false. cbn [orb negb].
  change (starts_with (str "property") (list_line d)) with true. cbv iota. unfold face_property. change (starts_with (str "property list") (list_line d)) with true. cbv iota.
  assert (C : contains (list_line d) (str "vertex_indices") || contains (list_line d) (str "vertex_index") = true).
  { rewrite list_split. pose proof D as (_ & _ & _ & _ & _ & _ & _ & [E|E]); rewrite E; set (pre := str "property list " ++ _).
    - rewrite <- (app_nil_r (str "vertex_indices")) at 1. rewrite (contains_app (str "vertex_indices") [] pre) by discriminate. reflexivity.
    - apply Bool.orb_true_intro. right. rewrite <- (app_nil_r (str "vertex_index")) at 1. apply contains_app. discriminate. }
  rewrite C, (list_words d D). cbn [tl]. destruct D as (_ & _ & _ & S1 & S2 & I1 & I2 & _). rewrite (spelled_type _ _ S1), (spelled_type _ _ S2). cbn [obind]. rewrite (integer_face _ I1), (integer_face _ I2). reflexivity.
Qed.
Lemma decl_steps d : decl_ok d -> forall o n f nv x y z b b1 b2 a,
  steps (mkh o n true SVertex (Some f) (Some nv) None x y z b b1 b2 a None None bw0 bw0) (decl_lines d)
    (mkh o n true SFace (Some f) (Some nv) (Some (d_count d)) x y z b b1 b2 a (Some (d_ctype d)) (Some (d_itype d)) (bw_plus bw0 (d_before d)) (bw_plus bw0 (d_after d))).
Proof.
  intros D o n f nv x y z b b1 b2 a. pose proof D as (C & B & A & _). unfold decl_lines. eapply StepsCons.
  - rewrite (trim_word _ _ (usize_word _)). unfold header_line.
    change (starts_with (str "comment") (str "element face " ++ print_usize (d_count d))) with false. change (starts_with (str "obj_info") (str "element face " ++ print_usize (d_count d))) with false. cbn [orb negb].
    change (starts_with (str "element face") (str "element face " ++ print_usize (d_count d))) with true. cbv iota. unfold element_count.
    change (str "element face " ++ print_usize (d_count d)) with (str "element" ++ space :: (str "face" ++ space :: print_usize (d_count d))).
    rewrite !words_cons, words_one; [|apply usize_word| |]; [|apply word_of_str; first [reflexivity|discriminate]|apply word_of_str; first [reflexivity|discriminate]]. cbn [nth_error]. rewrite usize_of_print by exact C. reflexivity.
  - eapply steps_app; [apply (fgap_steps _ B)|]. cbv iota. fold (list_line d). change (list_line d :: map prop_line (d_after d)) with ([list_line d] ++ map prop_line (d_after d)).
    eapply steps_app; [apply (list_step d D)|]. apply (fgap_steps _ A).
Qed.
(** The header. *)
Definition lay_data (l : layout) (nv : N) (o : VertexOrder) : vertex_data :=
  mkvd nv o (lay_type l CX) (lay_type l CY) (lay_type l CZ) (bw_plus bw0 (l0 l)) (bw_plus bw0 (l1 l)) (bw_plus bw0 (l2 l)) (bw_plus bw0 (l3 l)).
Definition decl_data (d : face_decl) : face_data := mkfd (d_count d) (d_ctype d) (d_itype d) (bw_plus bw0 (d_before d)) (bw_plus bw0 (d_after d)).
Lemma load_header_ok f cs nv l d o rest : Forall comment cs -> (nv < 2 ^ 64)%N -> lay_ok l -> match d with Some d => decl_ok d | None => True end -> order_of [k1 l; k2 l; k3 l] = Ok o ->
  load_header h_start 0 (map (fun l => l ++ [nl]) (header_lines f cs nv (lay_props l) d) ++ rest) =
  Ok (mkheader f (lay_data l nv o) (option_map decl_data d), rest, lenN (header_lines f cs nv (lay_props l) d)).
Proof.
  intros C V L D O. set (h3 := mkh [k1 l; k2 l; k3 l] 3 true match d with Some _ => SFace | None => SVertex end (Some f) (Some nv) (option_map d_count d) (Some (lay_type l CX)) (Some (lay_type l CY)) (Some (lay_type l CZ))
      (bw_plus bw0 (l0 l)) (bw_plus bw0 (l1 l)) (bw_plus bw0 (l2 l)) (bw_plus bw0 (l3 l)) (option_map d_ctype d) (option_map d_itype d)
      (match d with Some d => bw_plus bw0 (d_before d) | None => bw0 end) (match d with Some d => bw_plus bw0 (d_after d) | None => bw0 end)).
  set (pre := [str "ply"; format_line f] ++ cs ++ (str "element vertex " ++ print_usize nv) :: map prop_line (lay_props l) ++ decl_list d).
  assert (E : header_lines f cs nv (lay_props l) d = pre ++ [str "end_header"]).
  { unfold header_lines, pre. rewrite <- !app_assoc. cbn [app]. do 3 f_equal. cbn [app]. rewrite <- app_assoc. reflexivity. }
  rewrite E, map_app, <- app_assoc. assert (S : steps h_start pre h3).
  { unfold pre. eapply steps_app; [eapply StepsCons; [reflexivity|eapply StepsCons; [|constructor]]|eapply steps_app; [apply comments_steps, C|]].
    - instantiate (1 := mkh [CX; CX; CX] 0 true SMeta (Some f) None None None None None bw0 bw0 bw0 bw0 None None bw0 bw0). destruct f as [|[|]]; reflexivity.
    - eapply StepsCons.
      + rewrite (trim_word _ _ (usize_word _)). unfold header_line.
        change (starts_with (str "comment") (str "element vertex " ++ print_usize nv)) with false. change (starts_with (str "obj_info") (str "element vertex " ++ print_usize nv)) with false. cbn [orb negb].
        change (starts_with (str "element vertex") (str "element vertex " ++ print_usize nv)) with true. cbv iota. unfold element_count.
        change (str "element vertex " ++ print_usize nv) with (str "element" ++ space :: (str "vertex" ++ space :: print_usize nv)).
        rewrite !words_cons, words_one; [|apply usize_word| |]; [|apply word_of_str; first [reflexivity|discriminate]|apply word_of_str; first [reflexivity|discriminate]]. cbn [nth_error]. rewrite usize_of_print by exact V. reflexivity.
      + eapply steps_app; [apply layout_steps, L|]. destruct d as [d|]; [apply (decl_steps d D)|constructor]. }
  rewrite (load_steps _ _ _ S). cbn [map app load_header]. change (trim_line (str "end_header" ++ [nl])) with (str "end_header").
  assert (F : header_line h3 (str "end_header") = Ok (Found (mkheader f (lay_data l nv o) (option_map decl_data d)))).
  { assert (FI : finish h3 = Ok (Some (mkheader f (lay_data l nv o) (option_map decl_data d)))) by (unfold finish; cbn [h_format h_nv h_x h_y h_z h_order h3]; rewrite O; destruct d; reflexivity).
    unfold header_line. rewrite FI. unfold h3. destruct d; reflexivity. }
  rewrite F. cbn [at_line]. do 2 f_equal. rewrite lenN_app. change (lenN [str "end_header"]) with 1%N. lia.
Qed.
(** Every table with coordinate columns has a layout. *)
Lemma filter_none {A B} (f : B -> bool) (g : A -> B) l : filter f (map g l) = [] -> Forall (fun x => f (g x) = false) l.
Proof. induction l as [|a l IH]; intros H; constructor; cbn [map filter] in H; destruct (f (g a)) eqn:E; try discriminate H; auto. Qed.
Lemma filter_some {A B} (f : B -> bool) (g : A -> B) l n r : filter f (map g l) = n :: r -> exists b p rest, l = b ++ p :: rest /\ g p = n /\ f n = true /\ Forall (fun x => f (g x) = false) b /\ filter f (map g rest) = r.
Proof.
  induction l as [|a l IH]; intros H; [discriminate H|]. cbn [map filter] in H. destruct (f (g a)) eqn:E.
  - injection H as H1 H2. exists [], a, l. subst n. auto.
  - destruct (IH H) as (b & p & rest & -> & G & T & F & R). exists (a :: b), p, rest. split; [reflexivity|]. auto.
Qed.
Lemma layout_exists ps c1 c2 c3 : Forall prop_ok ps -> float_coords ps -> coord_order ps = [name_of c1; name_of c2; name_of c3] -> c1 <> c2 -> c1 <> c3 -> c2 <> c3 ->
  exists l, ps = lay_props l /\ lay_ok l /\ k1 l = c1 /\ k2 l = c2 /\ k3 l = c3.
Proof.
  intros P FC H D1 D2 D3. unfold coord_order in H.
  destruct (filter_some _ _ _ _ _ H) as (b0 & p1 & r1 & E1 & N1 & T1 & F0 & H1). destruct (filter_some _ _ _ _ _ H1) as (b1 & p2 & r2 & E2 & N2 & T2 & F1 & H2).
  destruct (filter_some _ _ _ _ _ H2) as (b2 & p3 & b3 & E3 & N3 & T3 & F2 & H3). pose proof (filter_none _ _ _ H3) as F3.
  subst r2 r1 ps. exists (mklay b0 p1 b1 p2 b2 p3 b3 c1 c2 c3). split; [reflexivity|]. split; [|auto].
  apply Forall_app in P as (P0 & P). apply Forall_cons_iff in P as (Q1 & P). apply Forall_app in P as (P1 & P). apply Forall_cons_iff in P as (Q2 & P). apply Forall_app in P as (P2 & P). apply Forall_cons_iff in P as (Q3 & P3).
  assert (G : forall l, Forall prop_ok l -> Forall (fun x => is_coord (p_name x) = false) l -> plain l).
  { intros l A B. unfold plain. rewrite Forall_forall in *. intros x I. split; auto. }
  split; cbn; auto; split; auto; split; auto; apply FC; repeat (apply in_or_app; right; cbn); auto using in_eq, in_cons; try (rewrite N1; exact T1); try (rewrite N2; exact T2); try (rewrite N3; exact T3).
  - apply in_cons, in_or_app. right. apply in_eq.
  - apply in_cons, in_or_app. right. apply in_cons, in_or_app. right. apply in_eq.
Qed.

(** ** rows *)
Definition comp (c : Xyz) (p : pt3 F64) : T F64 := match c with CX => px p | CY => py p | CZ => pz p end.
Lemma bw_words_plus ps : forall b, bw_words (bw_plus b ps) = (bw_words b + lenN ps)%N.
Proof. induction ps as [|p ps IH]; intros b; [unfold lenN; cbn; lia|]. unfold bw_plus. cbn [fold_left]. change (fold_left (fun b p => bw_add b (p_type p)) ps) with (fun b => bw_plus b ps). cbv beta. rewrite IH. cbn [bw_add bw_words]. unfold lenN. cbn [length]. lia. Qed.
Definition sizes (ps : list prop) : N := fold_right N.add 0%N (map (fun p => size_bytes (p_type p)) ps).
Lemma bw_bytes_plus ps : forall b, bw_bytes (bw_plus b ps) = (bw_bytes b + sizes ps)%N.
Proof. induction ps as [|p ps IH]; intros b; [unfold sizes; cbn; lia|]. unfold bw_plus. cbn [fold_left]. change (fold_left (fun b p => bw_add b (p_type p)) ps) with (fun b => bw_plus b ps). cbv beta. rewrite IH. unfold sizes. cbn [bw_add bw_bytes map fold_right]. lia. Qed.
Lemma split_at {A B} (l1 : list A) x l2 (r : list B) : length r = length (l1 ++ x :: l2) -> exists r1 y r2, r = r1 ++ y :: r2 /\ length r1 = length l1 /\ length r2 = length l2.
Proof.
  intros H. rewrite app_length in H. cbn [length] in H. destruct (skipn (length l1) r) as [|y r2] eqn:E.
  - apply (f_equal (@length _)) in E. rewrite skipn_length in E. cbn in E. lia.
  - exists (firstn (length l1) r), y, r2. rewrite <- E, firstn_skipn. split; [reflexivity|]. split; [rewrite firstn_length; lia|]. apply (f_equal (@length _)) in E. rewrite skipn_length in E. cbn in E. lia.
Qed.
Lemma nth_middle {A} (l1 : list A) x l2 : nth_error (l1 ++ x :: l2) (length l1) = Some x.
Proof. rewrite nth_error_app2 by lia. rewrite Nat.sub_diag. reflexivity. Qed.
Lemma nth_app_cases {A} (l1 : list A) x l2 i y : nth_error (l1 ++ x :: l2) i = Some y -> (i < length l1 /\ nth_error l1 i = Some y) \/ (i = length l1 /\ y = x) \/ (exists j, i = length l1 + S j /\ nth_error l2 j = Some y).
Proof.
  intros H. destruct (Nat.lt_trichotomy i (length l1)) as [L|[L|L]].
  - left. rewrite nth_error_app1 in H by lia. auto.
  - right. left. subst i. rewrite nth_middle in H. injection H as H. auto.
  - right. right. rewrite nth_error_app2 in H by lia. exists (i - length l1 - 1). split; [lia|]. replace (i - length l1) with (S (i - length l1 - 1)) in H by lia. exact H.
Qed.
Lemma name_inj c d : name_of c = name_of d -> c = d. Proof. destruct c, d; first [reflexivity|discriminate]. Qed.
Lemma plain_not l i p c : plain l -> nth_error l i = Some p -> p_name p <> name_of c.
Proof. intros F H E. unfold plain in F. rewrite Forall_forall in F. apply nth_error_In in H. apply F in H as (_ & H). rewrite E in H. destruct c; discriminate H. Qed.
(** The column of a coordinate. *)
Lemma cell_index l i p c : lay_ok l -> nth_error (lay_props l) i = Some p -> p_name p = name_of c ->
  (c = k1 l /\ i = length (l0 l) /\ p = q1 l) \/ (c = k2 l /\ i = length (l0 l) + S (length (l1 l)) /\ p = q2 l) \/ (c = k3 l /\ i = length (l0 l) + S (length (l1 l) + S (length (l2 l))) /\ p = q3 l).
Proof.
  intros [G0 G1 G2 G3 (_ & N1 & _) (_ & N2 & _) (_ & N3 & _) _] H E. unfold lay_props in H.
  destruct (nth_app_cases _ _ _ _ _ H) as [(_ & K)|[(I & ->)|(j & I & K)]]; [destruct (plain_not _ _ _ _ G0 K E)| |].
  - left. split; [|auto]. apply name_inj. congruence.
  - right. destruct (nth_app_cases _ _ _ _ _ K) as [(_ & K')|[(J & ->)|(j' & J & K')]]; [destruct (plain_not _ _ _ _ G1 K' E)| |].
    + left. split; [apply name_inj; congruence|]. split; [lia|reflexivity].
    + right. destruct (nth_app_cases _ _ _ _ _ K') as [(_ & K2)|[(J2 & ->)|(j2 & J2 & K2)]]; [destruct (plain_not _ _ _ _ G2 K2 E)| |destruct (plain_not _ _ _ _ G3 K2 E)].
      split; [apply name_inj; congruence|]. split; [lia|reflexivity].
Qed.
Lemma row_split {B} l (row : list B) : length row = length (lay_props l) -> exists r0 w1 r1 w2 r2 w3 r3,
  row = r0 ++ w1 :: r1 ++ w2 :: r2 ++ w3 :: r3 /\ length r0 = length (l0 l) /\ length r1 = length (l1 l) /\ length r2 = length (l2 l) /\ length r3 = length (l3 l).
Proof.
  intros H. unfold lay_props in H. destruct (split_at _ _ _ _ H) as (r0 & w1 & t1 & E0 & L0 & H1). destruct (split_at _ _ _ _ H1) as (r1 & w2 & t2 & E1 & L1 & H2). destruct (split_at _ _ _ _ H2) as (r2 & w3 & r3 & E2 & L2 & L3).
  exists r0, w1, r1, w2, r2, w3, r3. subst. auto.
Qed.
Lemma row_nth {B} (r0 : list B) w1 r1 w2 r2 w3 r3 a b c : length r0 = a -> length r1 = b -> length r2 = c ->
  nth_error (r0 ++ w1 :: r1 ++ w2 :: r2 ++ w3 :: r3) a = Some w1 /\ nth_error (r0 ++ w1 :: r1 ++ w2 :: r2 ++ w3 :: r3) (a + S b) = Some w2 /\ nth_error (r0 ++ w1 :: r1 ++ w2 :: r2 ++ w3 :: r3) (a + S (b + S c)) = Some w3.
Proof.
  intros <- <- <-. split; [apply nth_middle|]. split; rewrite nth_error_app2 by lia.
  - replace (length r0 + S (length r1) - length r0) with (S (length r1)) by lia. cbn [nth_error]. apply nth_middle.
  - replace (length r0 + S (length r1 + S (length r2)) - length r0) with (S (length r1 + S (length r2))) by lia. cbn [nth_error]. rewrite nth_error_app2 by lia.
    replace (length r1 + S (length r2) - length r1) with (S (length r2)) by lia. cbn [nth_error]. apply nth_middle.
Qed.
Lemma skip_app {A} (a b : list A) n : n = lenN a -> skipn (N.to_nat n) (a ++ b) = b.
Proof. intros ->. unfold lenN. rewrite Nat2N.id, skipn_app, skipn_all, Nat.sub_diag. reflexivity. Qed.
Definition twist (l : layout) (o : VertexOrder) (p : pt3 F64) : pt3 F64 := point_with_order (comp (k1 l) p) (comp (k2 l) p) (comp (k3 l) p) o.
Lemma by_letter (P : Xyz -> Prop) : P CX -> P CY -> P CZ -> forall c, P c. Proof. intros A B C [| |]; assumption. Qed.
Lemma text_vertex ft l nv o row p : lay_ok l -> text_row ft (lay_props l) row p -> ascii_vertex ft (lay_data l nv o) (join row) = Ok (twist l o p).
Proof.
  intros L (LR & W & x & y & z & CX' & CY' & CZ' & FX & FY & FZ). destruct (row_split l row LR) as (r0 & w1 & r1 & w2 & r2 & w3 & r3 & E & L0 & L1 & L2 & L3).
  assert (C : forall c, exists w, cell (lay_props l) row (name_of c) w /\ f64_of ft w = Some (comp c p)) by (apply by_letter; eauto).
  destruct (row_nth r0 w1 r1 w2 r2 w3 r3 _ _ _ L0 L1 L2) as (R1 & R2 & R3). rewrite <- E in R1, R2, R3.
  assert (V : f64_of ft w1 = Some (comp (k1 l) p) /\ f64_of ft w2 = Some (comp (k2 l) p) /\ f64_of ft w3 = Some (comp (k3 l) p)).
  { pose proof (lk _ L) as (D1 & D2 & D3). split; [|split].
    - destruct (C (k1 l)) as (w & (i & q & I & N & R) & F). destruct (cell_index _ _ _ _ L I N) as [(K & -> & _)|[(K & _)|(K & _)]]; [congruence|congruence|congruence].
    - destruct (C (k2 l)) as (w & (i & q & I & N & R) & F). destruct (cell_index _ _ _ _ L I N) as [(K & _)|[(K & -> & _)|(K & _)]]; [congruence|congruence|congruence].
    - destruct (C (k3 l)) as (w & (i & q & I & N & R) & F). destruct (cell_index _ _ _ _ L I N) as [(K & _)|[(K & _)|(K & -> & _)]]; [congruence|congruence|congruence]. }
  destruct V as (V1 & V2 & V3). unfold ascii_vertex. rewrite words_join by exact W. rewrite E. cbn [vd_before vd_between1 vd_between2 lay_data vd_order]. rewrite !bw_words_plus. cbn [bw0 bw_words].
  unfold skip_words. rewrite skip_app by (unfold lenN; lia). unfold next_f64 at 1. rewrite V1. cbn [obind ok_or].
  rewrite skip_app by (unfold lenN; lia). unfold next_f64 at 1. rewrite V2. cbn [obind ok_or].
  rewrite skip_app by (unfold lenN; lia). unfold next_f64 at 1. rewrite V3. reflexivity.
Qed.
Lemma skip_bytes_app n a b : n = lenN a -> skip_bytes n (a ++ b) = Ok b.
Proof. intros ->. unfold skip_bytes, lenN. rewrite Nat2N.id, take_app by reflexivity. reflexivity. Qed.
Lemma read_vertex_ok en t b x rest : t = PFloat \/ t = PDouble -> lenN b = size_bytes t -> binary_float en t b x -> read_vertex_type en (vt t) (b ++ rest) = Ok (x, rest).
Proof.
  intros T L (v & E & ->). unfold lenN in L. destruct T as [->| ->]; cbn [size_bytes vt read_vertex_type] in *.
  - unfold read_f32. rewrite read_uint_app by lia. rewrite (encodes_unique en b _ v (uint_encodes en b) E). reflexivity.
  - unfold read_f64. rewrite read_uint_app by lia. rewrite (encodes_unique en b _ v (uint_encodes en b) E). reflexivity.
Qed.
Lemma sizes_ok ps rows : Forall2 (fun q (b : bytes) => lenN b = size_bytes (p_type q)) ps rows -> sizes ps = lenN (concat rows).
Proof. induction 1 as [|q b ps rows E F IH]; [reflexivity|]. unfold sizes in *. cbn [map fold_right concat]. rewrite lenN_app, IH, E. reflexivity. Qed.
Lemma binary_vertex_ok en l nv o row p rest : lay_ok l -> binary_row en (lay_props l) row p ->
  lay_type l CX = vt (p_type (q1 l)) -> lay_type l CY = vt (p_type (q2 l)) -> lay_type l CZ = vt (p_type (q3 l)) -> binary_vertex en (lay_data l nv o) (concat row ++ rest) = Ok (twist l o p, rest).
Proof.
  intros L (F & CX' & CY' & CZ') T1 T2 T3. assert (LR : length row = length (lay_props l)) by (clear -F; induction F; cbn; lia).
  destruct (row_split l row LR) as (r0 & w1 & r1 & w2 & r2 & w3 & r3 & E & L0 & L1 & L2 & L3).
  assert (C : forall c, binary_cell en (lay_props l) row (name_of c) (comp c p)) by (apply by_letter; assumption).
  destruct (row_nth r0 w1 r1 w2 r2 w3 r3 _ _ _ L0 L1 L2) as (R1 & R2 & R3). rewrite <- E in R1, R2, R3.
  pose proof (lk _ L) as (D1 & D2 & D3).
  assert (V1 : binary_float en (p_type (q1 l)) w1 (comp (k1 l) p)).
  { destruct (C (k1 l)) as (i & q & b & I & N & R & X). destruct (cell_index _ _ _ _ L I N) as [(K & -> & ->)|[(K & _)|(K & _)]]; [|congruence|congruence]. replace w1 with b by congruence. exact X. }
  assert (V2 : binary_float en (p_type (q2 l)) w2 (comp (k2 l) p)).
  { destruct (C (k2 l)) as (i & q & b & I & N & R & X). destruct (cell_index _ _ _ _ L I N) as [(K & _)|[(K & -> & ->)|(K & _)]]; [congruence| |congruence]. replace w2 with b by congruence. exact X. }
  assert (V3 : binary_float en (p_type (q3 l)) w3 (comp (k3 l) p)).
  { destruct (C (k3 l)) as (i & q & b & I & N & R & X). destruct (cell_index _ _ _ _ L I N) as [(K & _)|[(K & _)|(K & -> & ->)]]; [congruence|congruence|]. replace w3 with b by congruence. exact X. }
  rewrite E in F. unfold lay_props in F. assert (FS : forall {A B} (R : A -> B -> Prop) a1 x a2 b1 y b2, length b1 = length a1 -> Forall2 R (a1 ++ x :: a2) (b1 ++ y :: b2) -> Forall2 R a1 b1 /\ R x y /\ Forall2 R a2 b2).
  { clear. intros A B R a1. induction a1 as [|a a1 IH]; intros x a2 [|b b1] y b2 LE F; try discriminate LE.
    - inversion F; subst. auto.
    - inversion F as [|? ? ? ? H1 H2]; subst. destruct (IH x a2 b1 y b2) as (U & V & W); [cbn in LE; lia|exact H2|]. auto. }
  destruct (FS _ _ _ _ _ _ _ _ _ L0 F) as (S0 & Z1 & F1). destruct (FS _ _ _ _ _ _ _ _ _ L1 F1) as (S1 & Z2 & F2). destruct (FS _ _ _ _ _ _ _ _ _ L2 F2) as (S2 & Z3 & S3).
  rewrite E. rewrite concat_app. cbn [concat]. rewrite concat_app. cbn [concat]. rewrite concat_app. cbn [concat]. rewrite <- !app_assoc.
  unfold binary_vertex. cbn [vd_before vd_between1 vd_between2 vd_after lay_data vd_order vd_first vd_snd vd_third]. rewrite !bw_bytes_plus. cbn [bw0 bw_bytes N.add].
  rewrite (sizes_ok _ _ S0), (sizes_ok _ _ S1), (sizes_ok _ _ S2), (sizes_ok _ _ S3). rewrite T1, T2, T3.
  destruct L as [_ _ _ _ (_ & _ & Y1) (_ & _ & Y2) (_ & _ & Y3) _].
  rewrite skip_bytes_app by reflexivity. cbn [obind]. rewrite (read_vertex_ok en _ w1 _ _ Y1 Z1 V1). cbn [obind].
  rewrite skip_bytes_app by reflexivity. cbn [obind]. rewrite (read_vertex_ok en _ w2 _ _ Y2 Z2 V2). cbn [obind].
  rewrite skip_bytes_app by reflexivity. cbn [obind]. rewrite (read_vertex_ok en _ w3 _ _ Y3 Z3 V3). cbn [obind].
  rewrite skip_bytes_app by reflexivity. reflexivity.
Qed.
Lemma three_ids a b c : (a < 2 ^ 64)%N -> (b < 2 ^ 64)%N -> (c < 2 ^ 64)%N -> collect_index_line (face_text (a, b, c)) = Some (a, b, c).
Proof.
  intros A B C. unfold collect_index_line, face_text. rewrite words_join by (repeat constructor; try apply usize_word; discriminate). change (bytes_eqb (str "3") (str "3")) with true. cbv iota.
  unfold next_usize. rewrite !usize_of_print by assumption. reflexivity.
Qed.
Lemma face_words f : let '(a, b, c) := f in Forall word [str "3"; print_usize a; print_usize b; print_usize c].
Proof. destruct f as [[a b] c]. repeat constructor; try apply usize_word; discriminate. Qed.
Lemma read_index_ok en t b v rest : integer_type t -> binary_index en t b v -> read_face_type en t (b ++ rest) = Ok (v, rest).
Proof.
  intros T (L & E & S). unfold lenN in L. assert (V : (match en with Little => le_value b | Big => be_value b end) = v) by (apply (encodes_unique en b); [apply uint_encodes|exact E]).
  destruct t; cbn [size_bytes] in L; destruct T as (T1 & T2); try congruence; unfold read_face_type, read_signed, read_unsigned; rewrite read_uint_app by lia; rewrite V; try reflexivity; unfold to_signed; unfold lenN in S; rewrite L in S.
  all: assert (P1 : (256 ^ 1 = 256)%N) by reflexivity; assert (P2 : (256 ^ 2 = 65536)%N) by reflexivity; assert (P4 : (256 ^ 4 = 4294967296)%N) by reflexivity;
    assert (Q1 : (2 ^ (8 * N.of_nat 1 - 1) = 128)%N) by reflexivity; assert (Q2 : (2 ^ (8 * N.of_nat 2 - 1) = 32768)%N) by reflexivity; assert (Q4 : (2 ^ (8 * N.of_nat 4 - 1) = 2147483648)%N) by reflexivity.
  all: match goal with |- context [(?x <? ?y)%N] => destruct (N.ltb_spec x y) as [G|G] end; [unfold signed_usize; rewrite Z.mod_small by (rewrite ?P1, ?P2, ?P4 in S; lia); rewrite N2Z.id; reflexivity|rewrite ?P1, ?P2, ?P4 in S; rewrite ?Q1, ?Q2, ?Q4 in G; lia].
Qed.
Lemma binary_face_ok en d f row rest : decl_ok d -> binary_face_row en d f row -> binary_face en (decl_data d) (row ++ rest) = Ok (f, rest).
Proof.
  intros D. destruct f as [[a b] c]. intros (be & n & i & j & k & af & -> & LB & LA & In & Ii & Ij & Ik). destruct D as (_ & _ & _ & _ & _ & T1 & T2 & _).
  unfold binary_face. cbn [decl_data fd_before fd_after fd_ctype fd_itype]. rewrite !bw_bytes_plus. cbn [bw0 bw_bytes N.add]. rewrite <- !app_assoc.
  unfold sizes. rewrite <- LB, <- LA. rewrite skip_bytes_app by reflexivity. cbn [obind]. rewrite (read_index_ok en _ n 3 _ T1 In). cbn [obind]. change (negb (3 =? 3)%N) with false. cbv iota.
  rewrite (read_index_ok en _ i a _ T2 Ii). cbn [obind]. rewrite (read_index_ok en _ j b _ T2 Ij). cbn [obind]. rewrite (read_index_ok en _ k c _ T2 Ik). cbn [obind]. rewrite skip_bytes_app by reflexivity. reflexivity.
Qed.

(** ** iterating *)
Inductive yields {S E A} (next : S -> option (outcome E A) * S) : S -> list A -> S -> Prop :=
| YNil s : yields next s [] s
| YCons s a s1 l s2 : next s = (Some (Ok a), s1) -> yields next s1 l s2 -> yields next s (a :: l) s2.
Lemma yields_app {S E A} (next : S -> option (outcome E A) * S) s l s1 l' s2 : yields next s l s1 -> yields next s1 l' s2 -> yields next s (l ++ l') s2.
Proof. induction 1 as [|s a s1' l s2' E1 Y IH]; intros H; [exact H|]. cbn [app]. eapply YCons; [exact E1|apply IH, H]. Qed.
Lemma yields_load {S E A} (next : S -> option (outcome E A) * S) s l s' : yields next s l s' -> forall k acc, load_loop next (length l + k) s acc = load_loop next k s' (acc ++ l).
Proof.
  induction 1 as [|s a s1 l s2 E1 Y IH]; intros k acc; [rewrite app_nil_r; reflexivity|]. cbn [length plus load_loop]. rewrite E1, IH, <- app_assoc. reflexivity.
Qed.
Lemma yields_simple {S E A} (next : S -> option (outcome E A) * S) s l s' : yields next s l s' -> yields (simple_next next) s l s'.
Proof. induction 1 as [|s a s1 l s2 E1 Y IH]; [constructor|]. eapply YCons; [|exact IH]. unfold simple_next. rewrite E1. reflexivity. Qed.
Inductive folds {E A M} (body : M -> A -> M * outcome E unit) : M -> list A -> M -> Prop :=
| FNil m : folds body m [] m
| FCons m a m1 l m2 : body m a = (m1, Ok tt) -> folds body m1 l m2 -> folds body m (a :: l) m2.
Lemma folds_app {E A M} (body : M -> A -> M * outcome E unit) m l m1 l' m2 : folds body m l m1 -> folds body m1 l' m2 -> folds body m (l ++ l') m2.
Proof. induction 1 as [|m a m1' l m2' E1 Y IH]; intros H; [exact H|]. cbn [app]. eapply FCons; [exact E1|apply IH, H]. Qed.
Lemma yields_fold {S E A M} (next : S -> option (outcome E A) * S) (body : M -> A -> M * outcome E unit) s l s' : yields next s l s' -> forall m m' k, folds body m l m' -> fold_loop next body (length l + k) s m = fold_loop next body k s' m'.
Proof.
  induction 1 as [|s a s1 l s2 E1 Y IH]; intros m m' k F; inversion F as [|? ? m1 ? ? B F']; subst; [reflexivity|]. cbn [length plus fold_loop]. rewrite E1, B. apply IH, F'.
Qed.
Lemma yields_mesh {S E} (P : S -> option (outcome E (pt3 F64)) * S) (F : S -> option (outcome E face3) * S) sw s ps s1 s2 fs s3 :
  yields P s ps s1 -> P s1 = (None, s2) -> yields F (sw s2) fs s3 ->
  exists t, yields (mesh_next P F sw) (IPoints s) (map MPoint ps ++ map MFace fs) t /\ fst (mesh_next P F sw t) = map_item MFace (fst (F s3)).
Proof.
  intros Y E1 Z.
  assert (A : yields (mesh_next P F sw) (IPoints s) (map MPoint ps) (IPoints s1)).
  { clear E1 Z. induction Y as [|s a s' l s'' E2 Y IH]; [constructor|]. cbn [map]. eapply YCons; [|exact IH]. cbn [mesh_next]. rewrite E2. reflexivity. }
  assert (B : forall u us v, yields F u us v -> yields (mesh_next P F sw) (IFaces u) (map MFace us) (IFaces v)).
  { induction 1 as [|u a u' l u'' E2 Y2 IH]; [constructor|]. cbn [map]. eapply YCons; [|exact IH]. cbn [mesh_next]. rewrite E2. reflexivity. }
  inversion Z as [u EQ|u a u' us v E2 Z' EQ]; subst.
  - exists (IPoints s1). rewrite app_nil_r. split; [exact A|]. cbn [mesh_next]. rewrite E1. destruct (F (sw s2)); reflexivity.
  - exists (IFaces s3). split; [|cbn [mesh_next]; destruct (F s3); reflexivity]. eapply yields_app; [exact A|]. cbn [map]. eapply YCons; [|apply B, Z']. cbn [mesh_next]. rewrite E1, E2. reflexivity.
Qed.
(** The points and faces of text lines. *)
Lemma ascii_points_yield ft v lines pts rest : Forall2 (fun l p => ascii_vertex ft v (trim_line l) = Ok p) lines pts -> forall c i, (c + lenN pts <= vd_count v)%N ->
  yields (ascii_points_next ft v) (mkas (lines ++ rest) false c i) pts (mkas rest false (c + lenN pts) (i + lenN pts)).
Proof.
  induction 1 as [|l p lines pts E F IH]; intros c i L.
  - unfold lenN. cbn [length N.of_nat]. rewrite !N.add_0_r. constructor.
  - unfold lenN in L. cbn [length] in L. eapply YCons.
    + unfold ascii_points_next. cbn [as_done as_current as_read as_line app next_line]. destruct (N.ltb_spec c (vd_count v)); [|lia]. rewrite E. reflexivity.
    + replace (c + lenN (p :: pts))%N with (c + 1 + lenN pts)%N by (unfold lenN; cbn [length]; lia). replace (i + lenN (p :: pts))%N with (i + 1 + lenN pts)%N by (unfold lenN; cbn [length]; lia). apply IH. unfold lenN. lia.
Qed.
Lemma ascii_faces_yield d lines fs rest : Forall2 (fun l f => collect_index_line (trim_line l) = Some f) lines fs -> forall c i, (c + lenN fs <= fd_count d)%N ->
  yields (ascii_faces_next d) (mkas (lines ++ rest) false c i) fs (mkas rest false (c + lenN fs) (i + lenN fs)).
Proof.
  induction 1 as [|l p lines pts E F IH]; intros c i L.
  - unfold lenN. cbn [length N.of_nat]. rewrite !N.add_0_r. constructor.
  - unfold lenN in L. cbn [length] in L. eapply YCons.
    + unfold ascii_faces_next. cbn [as_done as_current as_read as_line app next_line]. destruct (N.ltb_spec c (fd_count d)); [|lia]. rewrite E. reflexivity.
    + replace (c + lenN (p :: pts))%N with (c + 1 + lenN pts)%N by (unfold lenN; cbn [length]; lia). replace (i + lenN (p :: pts))%N with (i + 1 + lenN pts)%N by (unfold lenN; cbn [length]; lia). apply IH. unfold lenN. lia.
Qed.
Lemma binary_yield {A} n (fetch : bytes -> outcome PlyError (A * bytes)) chunks xs rest : Forall2 (fun b x => forall r, fetch (b ++ r) = Ok (x, r)) chunks xs -> forall c, (c + lenN xs <= n)%N ->
  yields (binary_next n fetch) (mkbs (concat chunks ++ rest) false c) xs (mkbs rest false (c + lenN xs)).
Proof.
  induction 1 as [|b x chunks xs E F IH]; intros c L.
  - unfold lenN. cbn [length N.of_nat]. rewrite !N.add_0_r. constructor.
  - unfold lenN in L. cbn [length] in L. eapply YCons.
    + unfold binary_next. cbn [bs_done bs_current bs_read concat]. destruct (N.ltb_spec c n); [|lia]. rewrite <- app_assoc, E. reflexivity.
    + replace (c + lenN (x :: xs))%N with (c + 1 + lenN xs)%N by (unfold lenN; cbn [length]; lia). apply IH. unfold lenN. lia.
Qed.
Lemma ascii_points_end ft v ls c i : c = vd_count v -> ascii_points_next ft v (mkas ls false c i) = (None, mkas ls true c i).
Proof. intros ->. unfold ascii_points_next. cbn [as_done as_current as_read as_line]. rewrite N.ltb_irrefl, N.eqb_refl. reflexivity. Qed.
Lemma ascii_points_eof ft v c i : (c < vd_count v)%N -> ascii_points_next ft v (mkas [] false c i) =
  if (c + 1 =? vd_count v)%N then (None, mkas [] true (c + 1) i) else (Some (Err (WNone LoadVertexCountIncorrect)), mkas [] true (c + 1) i).
Proof. intros L. unfold ascii_points_next. cbn [as_done as_current as_read as_line next_line]. destruct (N.ltb_spec c (vd_count v)); [|lia]. destruct (c + 1 =? vd_count v)%N; reflexivity. Qed.
Lemma ascii_faces_end d ls c i : c = fd_count d -> ascii_faces_next d (mkas ls false c i) = (None, mkas ls true c i).
Proof. intros ->. unfold ascii_faces_next. cbn [as_done as_current as_read as_line]. rewrite N.ltb_irrefl. reflexivity. Qed.
Lemma ascii_faces_eof d c i : (c <= fd_count d)%N -> fst (ascii_faces_next d (mkas [] false c i)) = None.
Proof. intros L. unfold ascii_faces_next. cbn [as_done as_current as_read as_line next_line]. destruct (N.ltb_spec c (fd_count d)); reflexivity. Qed.
Lemma binary_end {A} n (fetch : bytes -> outcome PlyError (A * bytes)) s c : c = n -> binary_next n fetch (mkbs s false c) = (None, mkbs s true c).
Proof. intros ->. unfold binary_next. cbn [bs_done bs_current bs_read]. rewrite N.ltb_irrefl. reflexivity. Qed.
(** Building the mesh. *)
Definition add_simple (m : mesh (pt3 F64)) (x : mesh_item) : mesh (pt3 F64) * outcome (with_line PlyError) unit := let (m, r) := add_item m x in (m, simple r).
Lemma add_points ps : forall m, folds add_simple m (map MPoint ps) (Mesh (pc m ++ ps) (topology m)).
Proof.
  induction ps as [|p ps IH]; intros m; [rewrite app_nil_r; destruct m; constructor|]. cbn [map]. eapply FCons; [unfold add_simple, add_item; reflexivity|].
  specialize (IH (fst (add_vertex m p))). unfold add_vertex in *. cbn [fst pc topology] in *. rewrite <- app_assoc in IH. exact IH.
Qed.
Lemma add_faces (vs : list (pt3 F64)) fs : forall gs m, faces_ok (MSpec vs fs) -> abs_ok m (MSpec vs gs) -> exists m', folds add_simple m (map MFace fs) m' /\ abs_ok m' (MSpec vs (gs ++ fs)).
Proof.
  induction fs as [|[[a b] c] fs IH]; intros gs m OK A; [exists m; rewrite app_nil_r; split; [constructor|exact A]|].
  destruct (OK a b c (or_introl eq_refl)) as (Ra & Rb & Rc & Nab & Nac & Nbc). unfold in_range in *. cbn [svs] in *.
  set (m1 := Mesh (pc m) (topology m ++ [a; b; c])).
  assert (A1 : abs_ok m1 (MSpec vs (gs ++ [(a, b, c)]))). { destruct A as (A1 & A2). split; [exact A1|]. cbn [topology m1 sfs] in *. rewrite flat_app, A2. reflexivity. }
  destruct (IH _ m1 ltac:(intros a' b' c' I; apply OK; right; exact I) A1) as (m' & F & A'). exists m'. split; [|rewrite <- app_assoc in A'; exact A'].
  cbn [map]. eapply FCons; [|exact F]. unfold add_simple, add_item, try_add_connection. destruct A as (A2 & _). rewrite A2. cbn [svs]. unfold lenN.
  destruct (N.leb_spec (N.of_nat (length vs)) a); [lia|]. destruct (N.leb_spec (N.of_nat (length vs)) b); [lia|]. destruct (N.leb_spec (N.of_nat (length vs)) c); [lia|]. cbn [orb].
  destruct (N.eqb_spec a b); [contradiction|]. destruct (N.eqb_spec a c); [contradiction|]. destruct (N.eqb_spec b c); [contradiction|]. cbn [orb].
  cbn [svs] in A2. unfold m1. rewrite A2, <- ?app_assoc. reflexivity.
Qed.
Lemma add_all (vs : list (pt3 F64)) fs : faces_ok (MSpec vs fs) -> exists m', folds add_simple mesh_empty (map MPoint vs ++ map MFace fs) m' /\ shows m' (MSpec vs fs).
Proof.
  intros OK. destruct (add_faces vs fs [] (Mesh vs []) OK) as (m' & F & A); [split; reflexivity|]. exists m'. split; [|apply abs_shows; assumption].
  eapply folds_app; [apply (add_points vs mesh_empty)|exact F].
Qed.
(** Points first, faces after. *)
Lemma load_mesh {S} (P : S -> option (outcome (with_line PlyError) (pt3 F64)) * S) (F : S -> option (outcome (with_line PlyError) face3) * S) sw s vs s1 s2 fs s3 k :
  yields P s vs s1 -> P s1 = (None, s2) -> yields F (sw s2) fs s3 -> fst (F s3) = None -> faces_ok (MSpec vs fs) -> length vs + length fs < k ->
  exists m, fold_loop (mesh_next P F sw) add_simple k (IPoints s) mesh_empty = Some (m, Ok tt) /\ shows m (MSpec vs fs).
Proof.
  intros Y E Z E3 OK L. destruct (yields_mesh P F sw s vs s1 s2 fs s3 Y E Z) as (t & YM & ET). destruct (add_all vs fs OK) as (m & FO & SH). exists m. split; [|exact SH].
  replace k with (length (map MPoint vs ++ map MFace fs) + Datatypes.S (k - 1 - length vs - length fs)) by (rewrite app_length, !map_length; lia).
  rewrite (yields_fold _ _ _ _ _ YM _ _ _ FO). cbn [fold_loop]. rewrite E3 in ET. cbn [map_item] in ET. destruct (mesh_next P F sw t) as [r t']. cbn [fst] in ET. subst r. reflexivity.
Qed.
Lemma simple_mesh {S} (P : S -> option (outcome PlyError (pt3 F64)) * S) (F : S -> option (outcome PlyError face3) * S) sw t : simple_next (mesh_next P F sw) t = mesh_next (simple_next P) (simple_next F) sw t.
Proof.
  unfold simple_next, mesh_next. destruct t as [s|s].
  - destruct (P s) as [[[p|e|]|] s']; try reflexivity. destruct (F (sw s')) as [[[p|e|]|] s'']; reflexivity.
  - destruct (F s) as [[[p|e|]|] s'']; reflexivity.
Qed.
Lemma fold_ext {S E A M} (n1 n2 : S -> option (outcome E A) * S) (body : M -> A -> M * outcome E unit) : (forall s, n1 s = n2 s) -> forall k s m, fold_loop n1 body k s m = fold_loop n2 body k s m.
Proof. intros H. induction k as [|k IH]; intros s m; [reflexivity|]. cbn [fold_loop]. rewrite H. destruct (n2 s) as [[[a|e|]|] s']; try reflexivity. destruct (body m a) as [m' [u|e|]]; try reflexivity. apply IH. Qed.
Lemma reserve_ok nv nf : fits nv nf -> reserve 24 nv && reserve 8 (w64 (3 * nf)) = true.
Proof.
  intros (A & B). unfold reserve, w64. apply andb_true_intro. split; apply N.ltb_lt; [exact A|]. rewrite N.mod_small by (cbn [N.pow]; lia). lia.
Qed.

(** ** files *)
Ltac concrete_line := let I := fresh in intros I; cbn in I; repeat (destruct I as [I|I]; [discriminate I|]); exact I.
Lemma decl_is_line d : decl_ok d -> Forall is_line (decl_lines d).
Proof.
  intros D. pose proof (name_word d D) as W. destruct D as (_ & B & A & S1 & S2 & _). unfold decl_lines.
  assert (P : forall ps, Forall prop_ok ps -> Forall is_line (map prop_line ps)) by (intros ps F; apply Forall_map; eapply Forall_impl; [|exact F]; apply prop_is_line).
  constructor; [apply is_line_app; [concrete_line|apply word_line, usize_word]|]. apply Forall_app. split; [apply P, B|]. constructor; [|apply P, A].
  apply is_line_app; [concrete_line|]. apply is_line_app; [apply word_line, (spelled_word _ _ S1)|]. apply is_line_app; [concrete_line|]. apply is_line_app; [apply word_line, (spelled_word _ _ S2)|]. apply is_line_app; [concrete_line|]. apply word_line, W.
Qed.
Lemma header_is_line f cs nv ps d : header_ok cs nv ps d -> Forall is_line (header_lines f cs nv ps d).
Proof.
  intros (C & _ & P & _ & D). unfold header_lines. apply Forall_app. split; [constructor; [concrete_line|constructor; [destruct f as [|[|]]; concrete_line|constructor]]|]. apply Forall_app. split; [eapply Forall_impl; [|exact C]; intros c (L & _); exact L|].
  constructor; [apply is_line_app; [concrete_line|apply word_line, usize_word]|]. apply Forall_app. split; [apply Forall_map; eapply Forall_impl; [|exact P]; apply prop_is_line|].
  apply Forall_app. split; [destruct d; [apply decl_is_line, D|constructor]|]. constructor; [concrete_line|constructor].
Qed.
(** A file whose coordinate columns have the names [c1], [c2], [c3]. *)
Lemma file_header f cs nv ps d c1 c2 c3 body : header_ok cs nv ps d -> coord_order ps = [name_of c1; name_of c2; name_of c3] -> c1 <> c2 -> c1 <> c3 -> c2 <> c3 ->
  exists l o, ps = lay_props l /\ lay_ok l /\ k1 l = c1 /\ k2 l = c2 /\ k3 l = c3 /\ order_of [c1; c2; c3] = Ok o /\
  load_header h_start 0 (raw_lines (unlines (header_lines f cs nv ps d) ++ body)) = Ok (mkheader f (lay_data l nv o) (option_map decl_data d), raw_lines body, lenN (header_lines f cs nv ps d)).
Proof.
  intros H CO D1 D2 D3. pose proof H as (C & V & P & FC & D). destruct (layout_exists ps c1 c2 c3 P FC CO D1 D2 D3) as (l & -> & L & K1 & K2 & K3).
  assert (O : exists o, order_of [c1; c2; c3] = Ok o) by (destruct c1, c2, c3; try congruence; eexists; reflexivity). destruct O as (o & O). exists l, o. repeat (split; [first [reflexivity|assumption]|]).
  rewrite raw_unlines by (apply header_is_line, H). apply load_header_ok; try assumption. rewrite K1, K2, K3. exact O.
Qed.
Lemma rows_yield ft l nv o rows pts rest : lay_ok l -> Forall2 (text_row ft (lay_props l)) rows pts -> Forall2 (fun r p => ascii_vertex ft (lay_data l nv o) (trim_line r) = Ok p) (map (fun r => join r ++ [nl]) rows) (map (twist l o) pts) /\
  raw_lines (unlines (map join rows) ++ rest) = map (fun r => join r ++ [nl]) rows ++ raw_lines rest.
Proof.
  intros L F. split.
  - induction F as [|r p rows pts T F IH]; constructor; [|exact IH]. rewrite trim_join by apply T. apply text_vertex; assumption.
  - rewrite raw_unlines.
    + rewrite map_map. reflexivity.
    + apply Forall_map. induction F as [|r p rows pts T F IH]; constructor; [apply join_line, T|exact IH].
Qed.
Lemma faces_yield fs rest : Forall (fun '(a, b, c) => a < 2 ^ 64 /\ b < 2 ^ 64 /\ c < 2 ^ 64)%N fs -> Forall2 (fun l f => collect_index_line (trim_line l) = Some f) (map (fun f => face_text f ++ [nl]) fs) fs /\
  raw_lines (unlines (map face_text fs) ++ rest) = map (fun f => face_text f ++ [nl]) fs ++ raw_lines rest.
Proof.
  intros F. assert (W : forall f, Forall word (let '(a, b, c) := f in [str "3"; print_usize a; print_usize b; print_usize c])) by (intros [[a b] c]; apply (face_words (a, b, c))).
  split.
  - induction F as [|f fs B F IH]; constructor; [|exact IH]. specialize (W f). destruct f as [[a b] c]. unfold face_text at 1. rewrite trim_join by exact W. apply (three_ids a b c); apply B.
  - rewrite raw_unlines; [rewrite map_map; reflexivity|]. apply Forall_map, Forall_forall. intros f _. specialize (W f). destruct f as [[a b] c]. apply join_line, W.
Qed.
Lemma map_lenN {A B} (f : A -> B) l : lenN (map f l) = lenN l. Proof. unfold lenN. rewrite map_length. reflexivity. Qed.
Lemma Forall2_lenN {A B} (R : A -> B -> Prop) l m : Forall2 R l m -> lenN l = lenN m.
Proof. induction 1 as [|a b l m H F IH]; [reflexivity|]. unfold lenN in *. cbn [length]. lia. Qed.
Lemma unlines_app a b : unlines (a ++ b) = unlines a ++ unlines b. Proof. unfold unlines. apply flat_map_app. Qed.
Lemma unlines_length ls : length ls <= length (unlines ls).
Proof. induction ls as [|l ls IH]; [apply le_n|]. unfold unlines in *. cbn [flat_map]. rewrite !app_length. cbn [length]. lia. Qed.
Section Text.
Variables (ft : FText) (cs : list bytes) (ps : list prop) (c1 c2 c3 : Xyz).
Hypothesis CO : coord_order ps = [name_of c1; name_of c2; name_of c3].
Hypothesis D1 : c1 <> c2. Hypothesis D2 : c1 <> c3. Hypothesis D3 : c2 <> c3.
Definition twisted (p : pt3 F64) : pt3 F64 := match order_of [c1; c2; c3] with Ok o => point_with_order (comp c1 p) (comp c2 p) (comp c3 p) o | _ => p end.
Lemma text_points nv d rows pts rest k : header_ok cs nv ps d -> nv = lenN rows -> (24 * nv < 2 ^ 63)%N -> Forall2 (text_row ft ps) rows pts -> length rows < k ->
  load_ply_points ft k (unlines (header_lines FAscii cs nv ps d) ++ unlines (map join rows) ++ rest) = Some (map twisted pts, Ok tt).
Proof.
  intros H NV R F L. destruct (file_header FAscii cs nv ps d c1 c2 c3 (unlines (map join rows) ++ rest) H CO D1 D2 D3) as (l & o & E & LO & K1 & K2 & K3 & O & LH).
  unfold load_ply_points. rewrite LH. unfold reserve. cbn [vd_count lay_data]. apply N.ltb_lt in R. rewrite R. rewrite E in F. destruct (rows_yield ft l nv o rows pts rest LO F) as (Y & RL). rewrite RL.
  pose proof (Forall2_lenN _ _ _ F) as LP.
  pose proof (ascii_points_yield ft (lay_data l nv o) _ _ (raw_lines rest) Y 0 (lenN (header_lines FAscii cs nv ps d))) as YY. rewrite map_lenN in YY. specialize (YY ltac:(cbn [vd_count lay_data]; lia)).
  replace k with (length (map (twist l o) pts) + S (k - 1 - length rows)) by (rewrite map_length; unfold lenN in LP; lia). rewrite (yields_load _ _ _ _ YY). cbn [load_loop]. rewrite ascii_points_end by (cbn [vd_count lay_data]; lia).
  f_equal. f_equal. cbn [app]. apply map_ext. intros p. unfold twisted, twist. rewrite O, K1, K2, K3. reflexivity.
Qed.
Lemma text_mesh nv d rows pts fs rest k : header_ok cs nv ps (Some d) -> nv = lenN rows -> d_count d = lenN fs -> fits nv (lenN fs) -> Forall2 (text_row ft ps) rows pts -> faces_ok (MSpec (map twisted pts) fs) -> length rows + length fs < k ->
  exists m, load_ply_mesh ft k (unlines (header_lines FAscii cs nv ps (Some d)) ++ unlines (map join rows) ++ unlines (map face_text fs) ++ rest) = Some (m, Ok tt) /\ shows m (MSpec (map twisted pts) fs).
Proof.
  intros H NV NF R F OK L. destruct (file_header FAscii cs nv ps (Some d) c1 c2 c3 (unlines (map join rows) ++ unlines (map face_text fs) ++ rest) H CO D1 D2 D3) as (l & o & E & LO & K1 & K2 & K3 & O & LH).
  unfold load_ply_mesh. rewrite LH. cbn [option_map]. cbn [vd_count lay_data fd_count decl_data]. rewrite NF, (reserve_ok _ _ R). pose proof (Forall2_lenN _ _ _ F) as LP.
  assert (TW : map twisted pts = map (twist l o) pts) by (apply map_ext; intros p; unfold twisted, twist; rewrite O, K1, K2, K3; reflexivity). rewrite TW in *.
  assert (FB : Forall (fun '(a, b, c) => a < 2 ^ 64 /\ b < 2 ^ 64 /\ c < 2 ^ 64)%N fs).
  { apply Forall_forall. intros [[a b] c] I. destruct (OK a b c I) as (RA & RB & RC & _). unfold in_range in *. cbn [svs] in *. rewrite map_length in *. destruct H as (_ & V & _). unfold lenN in *. lia. }
  rewrite E in F. destruct (rows_yield ft l nv o rows pts (unlines (map face_text fs) ++ rest) LO F) as (Y & RL). rewrite RL. destruct (faces_yield fs rest FB) as (Z & RF). rewrite RF.
  pose proof (ascii_points_yield ft (lay_data l nv o) _ _ (map (fun f => face_text f ++ [nl]) fs ++ raw_lines rest) Y 0 (lenN (header_lines FAscii cs nv ps (Some d)))) as YY. rewrite map_lenN in YY. specialize (YY ltac:(cbn [vd_count lay_data]; lia)).
  pose proof (ascii_faces_yield (decl_data d) _ _ (raw_lines rest) Z 0 (lenN (header_lines FAscii cs nv ps (Some d)) + lenN pts)%N) as ZZ. specialize (ZZ ltac:(cbn [fd_count decl_data]; lia)).
  refine (load_mesh _ _ (fun s => mkas (as_read s) false 0 (as_line s)) _ _ _ (mkas (map (fun f => face_text f ++ [nl]) fs ++ raw_lines rest) true (0 + lenN pts) (lenN (header_lines FAscii cs nv ps (Some d)) + lenN pts)) _ _ k YY _ ZZ _ OK _).
  - apply ascii_points_end. cbn [vd_count lay_data]. lia.
  - rewrite ascii_faces_end; [reflexivity|]. cbn [fd_count decl_data]. lia.
  - rewrite map_length. unfold lenN in LP. lia.
Qed.
End Text.
Section Binary.
Variables (en : endian) (cs : list bytes) (ps : list prop) (c1 c2 c3 : Xyz).
Hypothesis CO : coord_order ps = [name_of c1; name_of c2; name_of c3].
Hypothesis D1 : c1 <> c2. Hypothesis D2 : c1 <> c3. Hypothesis D3 : c2 <> c3.
Hypothesis ST : one_type ps \/ (c1 = CX /\ c2 = CY /\ c3 = CZ).
Lemma types_ok l : ps = lay_props l -> lay_ok l -> k1 l = c1 -> k2 l = c2 -> k3 l = c3 -> lay_type l CX = vt (p_type (q1 l)) /\ lay_type l CY = vt (p_type (q2 l)) /\ lay_type l CZ = vt (p_type (q3 l)).
Proof.
  intros E L K1 K2 K3. unfold lay_type. rewrite K1, K2. destruct ST as [(t & T)|(-> & -> & ->)]; [|auto].
  destruct L as [_ _ _ _ (_ & N1 & _) (_ & N2 & _) (_ & N3 & _) _].
  assert (C : forall c, is_coord (name_of c) = true) by (intros [| |]; reflexivity).
  assert (Q1 : p_type (q1 l) = t) by (apply T; [rewrite E; unfold lay_props; apply in_or_app; right; apply in_eq|rewrite N1; apply C]).
  assert (Q2 : p_type (q2 l) = t) by (apply T; [rewrite E; unfold lay_props; apply in_or_app; right; apply in_cons, in_or_app; right; apply in_eq|rewrite N2; apply C]).
  assert (Q3 : p_type (q3 l) = t) by (apply T; [rewrite E; unfold lay_props; apply in_or_app; right; apply in_cons, in_or_app; right; apply in_cons, in_or_app; right; apply in_eq|rewrite N3; apply C]).
  destruct c1, c2; rewrite ?Q1, ?Q2, ?Q3; auto.
Qed.
Lemma brows_yield l nv o rows pts : ps = lay_props l -> lay_ok l -> k1 l = c1 -> k2 l = c2 -> k3 l = c3 -> Forall2 (binary_row en ps) rows pts ->
  Forall2 (fun b p => forall r, binary_vertex en (lay_data l nv o) (b ++ r) = Ok (p, r)) (map (fun r => concat r) rows) (map (twist l o) pts).
Proof.
  intros E L K1 K2 K3 F. destruct (types_ok l E L K1 K2 K3) as (T1 & T2 & T3). rewrite E in F. induction F as [|r p rows pts T F IH]; constructor; [|exact IH]. intros rest. apply binary_vertex_ok; assumption.
Qed.
Lemma binary_points ft nv d rows pts rest k : header_ok cs nv ps d -> nv = lenN rows -> (24 * nv < 2 ^ 63)%N -> Forall2 (binary_row en ps) rows pts -> length rows < k ->
  load_ply_points ft k (unlines (header_lines (FBinary en) cs nv ps d) ++ concat (map (fun r => concat r) rows) ++ rest) = Some (map (twisted c1 c2 c3) pts, Ok tt).
Proof.
  intros H NV R F L. destruct (file_header (FBinary en) cs nv ps d c1 c2 c3 (concat (map (fun r => concat r) rows) ++ rest) H CO D1 D2 D3) as (l & o & E & LO & K1 & K2 & K3 & O & LH).
  unfold load_ply_points. rewrite LH. unfold reserve. cbn [vd_count lay_data]. apply N.ltb_lt in R. rewrite R. rewrite concat_raw. pose proof (Forall2_lenN _ _ _ F) as LP.
  pose proof (brows_yield l nv o rows pts E LO K1 K2 K3 F) as Y.
  pose proof (binary_yield nv _ _ _ rest Y 0) as YY. rewrite map_lenN in YY. specialize (YY ltac:(lia)). apply yields_simple in YY.
  replace k with (length (map (twist l o) pts) + S (k - 1 - length rows)) by (rewrite map_length; unfold lenN in LP; lia). rewrite (yields_load _ _ _ _ YY). cbn [load_loop]. unfold simple_next. rewrite binary_end by lia.
  f_equal. f_equal. cbn [app]. apply map_ext. intros p. unfold twisted, twist. rewrite O, K1, K2, K3. reflexivity.
Qed.
Lemma binary_mesh ft nv d rows pts fs frows rest k : header_ok cs nv ps (Some d) -> nv = lenN rows -> d_count d = lenN fs -> fits nv (lenN fs) -> Forall2 (binary_row en ps) rows pts -> Forall2 (binary_face_row en d) fs frows ->
  faces_ok (MSpec (map (twisted c1 c2 c3) pts) fs) -> length rows + length fs < k ->
  exists m, load_ply_mesh ft k (unlines (header_lines (FBinary en) cs nv ps (Some d)) ++ concat (map (fun r => concat r) rows) ++ concat frows ++ rest) = Some (m, Ok tt) /\ shows m (MSpec (map (twisted c1 c2 c3) pts) fs).
Proof.
  intros H NV NF R F FF OK L. destruct (file_header (FBinary en) cs nv ps (Some d) c1 c2 c3 (concat (map (fun r => concat r) rows) ++ concat frows ++ rest) H CO D1 D2 D3) as (l & o & E & LO & K1 & K2 & K3 & O & LH).
  unfold load_ply_mesh. rewrite LH. cbn [option_map]. cbn [vd_count lay_data fd_count decl_data]. rewrite NF, (reserve_ok _ _ R). rewrite concat_raw. pose proof (Forall2_lenN _ _ _ F) as LP.
  assert (TW : map (twisted c1 c2 c3) pts = map (twist l o) pts) by (apply map_ext; intros p; unfold twisted, twist; rewrite O, K1, K2, K3; reflexivity). rewrite TW in *.
  pose proof (brows_yield l nv o rows pts E LO K1 K2 K3 F) as Y.
  pose proof (binary_yield nv _ _ _ (concat frows ++ rest) Y 0) as YY. rewrite map_lenN in YY. specialize (YY ltac:(lia)). apply yields_simple in YY.
  assert (Z : Forall2 (fun b f => forall r, binary_face en (decl_data d) (b ++ r) = Ok (f, r)) frows fs).
  { destruct H as (_ & _ & _ & _ & D). clear -FF D. induction FF as [|f r fs frows T F IH]; constructor; [|exact IH]. intros rest. apply binary_face_ok; assumption. }
  pose proof (binary_yield (d_count d) _ _ _ rest Z 0) as ZZ. specialize (ZZ ltac:(lia)). apply yields_simple in ZZ.
  unfold binary_mesh_next. rewrite (fold_ext _ _ _ (simple_mesh _ _ _)).
  refine (load_mesh _ _ (fun s => mkbs (bs_read s) false 0) _ _ _ (mkbs (concat frows ++ rest) true (0 + lenN pts)) _ _ k YY _ ZZ _ OK _).
  - unfold simple_next. cbn [vd_count lay_data]. rewrite binary_end by lia. reflexivity.
  - unfold simple_next. cbn [fd_count decl_data]. rewrite binary_end by lia. reflexivity.
  - rewrite map_length. unfold lenN in LP. lia.
Qed.
End Binary.
