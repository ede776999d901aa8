(** Lemmas about the .stl format. *)
From Verif Require Import Base BaseLemmas Num NumLemmas VecModel GeomSpec FloatSpec MeshModel MeshSpec MeshLemmas MeshAlgoModel MeshAlgoSpec MeshAlgoLemmas IoModel IoSpec IoLemmas ByteModel ByteSpec ByteLemmas StlModel StlSpec.
Open Scope nat_scope.

(** ** words *)
Lemma words_sep c s : (c = space \/ c = tab) -> to_words (c :: s) = to_words s.
Proof. intros [-> | ->]; reflexivity. Qed.
Definition word_char (c : ascii) : Prop := Ascii.eqb c space || Ascii.eqb c tab = false.
Lemma words_word w s : Forall word_char w -> w <> [] -> to_words (w ++ space :: s) = w :: to_words s.
Proof.
  intros F N. unfold to_words. rewrite split_app; [apply skip_empty_cons, N| |reflexivity]. rewrite Forall_forall in F. exact F.
Qed.
Lemma words_last w : Forall word_char w -> w <> [] -> to_words w = [w].
Proof. intros F N. unfold to_words. rewrite split_none by (rewrite Forall_forall in F; exact F). rewrite skip_empty_cons by exact N. reflexivity. Qed.
Lemma number_word w : Forall number_char w -> Forall word_char w.
Proof.
  intros F. eapply Forall_impl; [|exact F]. intros c I. unfold word_char. unfold number_char in I. cbn in I. repeat (destruct I as [<-|I]; [reflexivity|]). destruct I.
Qed.
Section Text.
Variable ft : FText.
Hypothesis K : ft_ok ft.
Lemma enums x : Forall number_char (fprint_e ft x). Proof. apply (print_e_chars _ K). Qed.
Lemma enonempty x : fprint_e ft x <> []. Proof. apply (print_e_chars _ K). Qed.
Lemma words_exp p : to_words (str_exp ft p) = [fprint_e ft (px p); fprint_e ft (py p); fprint_e ft (pz p)].
Proof.
  unfold str_exp. cbn [app]. rewrite !words_word by auto using number_word, enums, enonempty. rewrite words_last by auto using number_word, enums, enonempty. reflexivity.
Qed.
Lemma words_point_exp p : printable3 p -> words_point ft (to_words (str_exp ft p)) = Some p.
Proof. intros (X & Y & Z). rewrite words_exp. cbn [words_point]. rewrite !f64_of_print_e by assumption. destruct p; reflexivity. Qed.
Definition vertex_text (p : pt3 F64) : bytes := str "        vertex " ++ str_exp ft p.
Definition normal_text (p : pt3 F64) : bytes := str "facet normal " ++ str_exp ft p.
Lemma words_vertex p : to_words (vertex_text p) = str "vertex" :: to_words (str_exp ft p).
Proof.
  unfold vertex_text. change (str "        vertex " ++ str_exp ft p) with (space :: space :: space :: space :: space :: space :: space :: space :: str "vertex" ++ space :: str_exp ft p).
  rewrite !words_sep by (left; reflexivity). apply words_word; [repeat constructor|discriminate].
Qed.
Lemma words_normal p : to_words (normal_text p) = str "facet" :: str "normal" :: to_words (str_exp ft p).
Proof.
  unfold normal_text. change (str "facet normal " ++ str_exp ft p) with (str "facet" ++ space :: str "normal" ++ space :: str_exp ft p).
  rewrite (words_word (str "facet")) by first [discriminate|repeat constructor]. rewrite (words_word (str "normal")) by first [discriminate|repeat constructor]. reflexivity.
Qed.
Lemma exp_last w p : is_whitespace (last (w ++ str_exp ft p) nl) = false.
Proof. unfold str_exp. rewrite !app_assoc, last_app_ne by apply enonempty. apply last_number; [apply enums|apply enonempty]. Qed.
Lemma trim_exp w p c : trim_line ((w ++ str_exp ft p) ++ [c]) = w ++ str_exp ft p.
Proof. apply trim_line_id. right. apply exp_last. Qed.
Lemma exp_line p : is_line (str_exp ft p).
Proof.
  intros I. unfold str_exp in I. repeat (apply in_app_or in I; destruct I as [I|I]); try exact (number_line _ (enums _) I); destruct I as [I|[]]; discriminate I.
Qed.
Lemma is_line_app a b : is_line a -> is_line b -> is_line (a ++ b).
Proof. intros A B I. apply in_app_or in I. destruct I; auto. Qed.
Ltac concrete_line := let I := fresh in intros I; cbn in I; repeat (destruct I as [I|I]; [discriminate I|]); exact I.
Lemma vertex_line p : is_line (vertex_text p). Proof. apply is_line_app; [concrete_line|apply exp_line]. Qed.
Lemma normal_line p : is_line (normal_text p). Proof. apply is_line_app; [concrete_line|apply exp_line]. Qed.
Definition facet_lines (v1 v2 v3 n : pt3 F64) : list bytes :=
  [normal_text n; str "    outer loop"; vertex_text v1; vertex_text v2; vertex_text v3; str "    endloop"; str "endfacet"].
Lemma facet_unlines v1 v2 v3 n : facet_text ft v1 v2 v3 n = unlines (facet_lines v1 v2 v3 n).
Proof. unfold facet_text, unlines, facet_lines, vertex_text, normal_text. cbn [flat_map]. rewrite !app_nil_r. repeat rewrite <- app_assoc. reflexivity. Qed.
Lemma facet_lines_ok v1 v2 v3 n : Forall is_line (facet_lines v1 v2 v3 n).
Proof. repeat constructor; auto using vertex_line, normal_line; concrete_line. Qed.

Lemma read_vertex_text p : printable3 p -> read_stl_vertex ft (vertex_text p) = Some p.
Proof. intros P. unfold read_stl_vertex. rewrite words_vertex. apply words_point_exp, P. Qed.
Lemma stl_vertex_ok p i ls : printable3 p -> stl_vertex_line ft i ((vertex_text p ++ [nl]) :: ls) = Ok (p, ls, (i + 1)%N).
Proof.
  intros P. unfold stl_vertex_line, stl_line. cbn [next_line]. unfold vertex_text. rewrite trim_exp. fold (vertex_text p). cbn [obind]. rewrite read_vertex_text by exact P. reflexivity.
Qed.
(** the normal the loader makes of a printed one *)
Definition normal_back (n : pt3 F64) : pt3 F64 := match words_point ft (to_words (str_exp ft n)) with Some n => n | None => default_normal end.
Lemma normal_back_id n : printable3 n -> normal_back n = n.
Proof. intros P. unfold normal_back. rewrite words_point_exp by exact P. reflexivity. Qed.
Lemma read_normal n : match read_stl_normal ft (normal_text n) with Some m => m | None => default_normal end = normal_back n.
Proof. unfold read_stl_normal. rewrite words_normal. reflexivity. Qed.
Lemma facet_ok v1 v2 v3 n i ls : printable3 v1 -> printable3 v2 -> printable3 v3 ->
  read_stl_facet ft i (map (fun l => l ++ [nl]) (facet_lines v1 v2 v3 n) ++ ls) = Ok (mkface v1 v2 v3 (normal_back n), ls, (i + 7)%N).
Proof.
  intros P1 P2 P3. unfold facet_lines. cbn [map app]. unfold read_stl_facet, stl_line at 1. cbn [next_line obind]. unfold normal_text. rewrite trim_exp.
  change (trim_start (str "facet normal " ++ str_exp ft n)) with (str "facet normal " ++ str_exp ft n). change (starts_with (str "endsolid") (str "facet normal " ++ str_exp ft n)) with false. change (starts_with (str "facet") (str "facet normal " ++ str_exp ft n)) with true. cbn [negb].
  fold (normal_text n). rewrite read_normal. change (stl_keyword "outer loop" Loop (i + 1) ((str "    outer loop" ++ [nl]) :: (vertex_text v1 ++ [nl]) :: (vertex_text v2 ++ [nl]) :: (vertex_text v3 ++ [nl]) :: (str "    endloop" ++ [nl]) :: (str "endfacet" ++ [nl]) :: ls)) with (@Ok (with_line StlError) _ (tt, (vertex_text v1 ++ [nl]) :: (vertex_text v2 ++ [nl]) :: (vertex_text v3 ++ [nl]) :: (str "    endloop" ++ [nl]) :: (str "endfacet" ++ [nl]) :: ls, (i + 1 + 1)%N)).
  cbn [obind]. do 3 (rewrite stl_vertex_ok by assumption; cbn [obind]).
  change (stl_keyword "endloop" EndLoop (i + 1 + 1 + 1 + 1 + 1) ((str "    endloop" ++ [nl]) :: (str "endfacet" ++ [nl]) :: ls)) with (@Ok (with_line StlError) _ (tt, (str "endfacet" ++ [nl]) :: ls, (i + 1 + 1 + 1 + 1 + 1 + 1)%N)). cbn [obind].
  change (stl_keyword "endfacet" EndFacet (i + 1 + 1 + 1 + 1 + 1 + 1) ((str "endfacet" ++ [nl]) :: ls)) with (@Ok (with_line StlError) _ (tt, ls, (i + 1 + 1 + 1 + 1 + 1 + 1 + 1)%N)). cbn [obind]. do 2 f_equal. lia.
Qed.
End Text.
(** ** the ASCII loop *)
Definition eof (w : with_line StlError) : Prop := info_error w = LoadFileEndReached.
Section Loop.
Variable ft : FText.
Lemma ascii_step k i ls acc : load_loop (stl_ascii_next ft) (S k) (mksa ls false true i) acc =
  match read_stl_facet ft i ls with
  | Ok (f, ls', i') => load_loop (stl_ascii_next ft) k (mksa ls' false true i') (acc ++ [Data f])
  | Err w => match info_error w with LoadFileEndReached => Some (acc, Ok tt) | _ => Some (acc, Err w) end
  | Panic => Some (acc, Panic)
  end.
Proof.
  cbn [load_loop]. unfold stl_ascii_next at 1. cbn [sa_done sa_header sa_line sa_read]. destruct (read_stl_facet ft i ls) as [[[f ls'] i']|w|]; [reflexivity| |reflexivity]. destruct (info_error w); reflexivity.
Qed.
Lemma ascii_header k l ls acc : load_loop (stl_ascii_next ft) k (mksa (l :: ls) false false 0) acc = load_loop (stl_ascii_next ft) k (mksa ls false true 1) acc.
Proof. destruct k; reflexivity. Qed.
Lemma ascii_header_nil k acc : load_loop (stl_ascii_next ft) k (mksa [] false false 0) acc = load_loop (stl_ascii_next ft) k (mksa [] false true 1) acc.
Proof. destruct k; reflexivity. Qed.
Lemma ascii_eof k i acc : load_loop (stl_ascii_next ft) (S k) (mksa [] false true i) acc = Some (acc, Ok tt).
Proof. rewrite ascii_step. reflexivity. Qed.
Lemma ascii_facets (ts : list stl_face) : ft_ok ft -> Forall (fun t => printable3 (sf_a t) /\ printable3 (sf_b t) /\ printable3 (sf_c t)) ts -> forall k i rest acc,
  load_loop (stl_ascii_next ft) (length ts + k) (mksa (flat_map (fun t => map (fun l => l ++ [nl]) (facet_lines ft (sf_a t) (sf_b t) (sf_c t) (sf_n t))) ts ++ rest) false true i) acc
  = load_loop (stl_ascii_next ft) k (mksa rest false true (i + 7 * lenN ts)%N) (acc ++ map (fun t => Data (mkface (sf_a t) (sf_b t) (sf_c t) (normal_back ft (sf_n t)))) ts).
Proof.
  intros K. induction ts as [|t ts IH]; intros F k i rest acc.
  - cbn [length Nat.add flat_map map app]. rewrite app_nil_r. f_equal. f_equal. unfold lenN. cbn [length]. lia.
  - inversion F as [|? ? (A & B & C) F2]; subst. cbn [length Nat.add flat_map]. rewrite ascii_step, <- app_assoc, facet_ok by assumption. rewrite IH by exact F2. cbn [map]. rewrite <- app_assoc. cbn [app]. f_equal. f_equal. unfold lenN. cbn [length]. lia.
Qed.
End Loop.

(** ** parsers that read a fixed number of lines *)
Definition parser (A : Type) : Type := N -> list bytes -> outcome (with_line StlError) (A * list bytes * N).
Definition bindp {A B} (p : parser A) (q : A -> parser B) : parser B := fun i ls => obind (p i ls) (fun '(a, ls, i) => q a i ls).
Definition ends {A} (r : outcome (with_line StlError) A) : Prop := match r with Err w => eof w | _ => False end.
Definition stable {A} (d : nat) (p : parser A) : Prop := forall i ls j,
  match p i ls with
  | Ok (a, rest, i') => d <= length ls /\ rest = skipn d ls /\ i' = (i + N.of_nat d)%N /\ (d <= j -> p i (firstn j ls) = Ok (a, firstn (j - d) rest, i')) /\ (j < d -> ends (p i (firstn j ls)))
  | Err w => eof w -> ends (p i (firstn j ls))
  | Panic => False
  end.
Lemma skip_skip {A} : forall b a (l : list A), skipn a (skipn b l) = skipn (b + a) l.
Proof. induction b as [|b IH]; intros a l; [reflexivity|]. destruct l as [|x l]; [rewrite !skipn_nil; reflexivity|]. cbn [skipn Nat.add]. apply IH. Qed.
Lemma stable_ret {A} (a : A) : stable 0 (fun i ls => Ok (a, ls, i)).
Proof. intros i ls j. split; [lia|]. split; [reflexivity|]. split; [lia|]. split; [intros _; rewrite Nat.sub_0_r; reflexivity|lia]. Qed.
Lemma stable_bind {A B} d1 d2 (p : parser A) (q : A -> parser B) : stable d1 p -> (forall a, stable d2 (q a)) -> stable (d1 + d2) (bindp p q).
Proof.
  intros P Q i ls j. unfold bindp. specialize (P i ls j). destruct (p i ls) as [[[a rest] i']|w|]; cbn [obind]; [| |exact P].
  - destruct P as (L1 & -> & -> & S1 & S2). pose proof (Q a (i + N.of_nat d1)%N (skipn d1 ls) (j - d1)) as Q'. destruct (q a (i + N.of_nat d1)%N (skipn d1 ls)) as [[[b rest] i'']|w|]; [| |exact Q'].
    + destruct Q' as (L2 & -> & -> & T1 & T2). rewrite skipn_length in L2. split; [lia|]. split; [apply skip_skip|]. split; [lia|]. split; intros H.
      * rewrite S1 by lia. cbn [obind]. rewrite T1 by lia. do 2 f_equal. f_equal. f_equal. lia.
      * destruct (Nat.lt_ge_cases j d1) as [C|C].
        -- specialize (S2 C). destruct (p i (firstn j ls)) as [x|w|]; [destruct S2|exact S2|destruct S2].
        -- rewrite S1 by lia. cbn [obind]. apply T2. lia.
    + intros W. destruct (Nat.lt_ge_cases j d1) as [C|C].
      * specialize (S2 C). destruct (p i (firstn j ls)) as [x|w'|]; [destruct S2|exact S2|destruct S2].
      * rewrite S1 by lia. cbn [obind]. apply Q', W.
  - intros W. specialize (P W). destruct (p i (firstn j ls)) as [x|w'|]; [destruct P|exact P|destruct P].
Qed.
Lemma stable_line : stable 1 stl_line.
Proof.
  intros i ls j. unfold stl_line. destruct ls as [|l ls]; cbn [next_line]; [intros _; rewrite firstn_nil; reflexivity|].
  split; [cbn; lia|]. split; [reflexivity|]. split; [lia|]. split; intros H; [|assert (j = 0) as -> by lia; reflexivity]. destruct j; [lia|]. cbn [firstn next_line]. rewrite Nat.sub_succ, Nat.sub_0_r. reflexivity.
Qed.
(** a step that reads no line: it passes or fails with another error *)
Lemma stable_check {A} (r : N -> outcome (with_line StlError) A) : (forall i, match r i with Ok _ => True | Err w => True | Panic => False end) ->
  stable 0 (fun i ls => obind (r i) (fun a => Ok (a, ls, i))).
Proof.
  intros H i ls j. specialize (H i). destruct (r i) as [a|w|]; cbn [obind]; [|intros W; exact W|exact H]. split; [lia|]. split; [reflexivity|]. split; [lia|]. split; [intros _; rewrite Nat.sub_0_r; reflexivity|lia].
Qed.
Lemma stable_ext {A} d (p q : parser A) : (forall i ls, p i ls = q i ls) -> stable d p -> stable d q.
Proof. intros E S i ls j. specialize (S i ls j). rewrite <- !E. exact S. Qed.
Lemma stable_keyword word e : stable 1 (stl_keyword word e).
Proof.
  change 1 with (1 + 0). eapply stable_ext; [|apply (stable_bind 1 0 stl_line (fun l i ls => obind (if starts_with (str word) (trim_start l) then Ok tt else Err (WLine i (trim_start l) e)) (fun a => Ok (a, ls, i))))]; [|apply stable_line|].
  - intros i ls. unfold bindp, stl_keyword. destruct (stl_line i ls) as [[[l r] i']|w|]; cbn [obind]; [|reflexivity..]. destruct (starts_with (str word) (trim_start l)); reflexivity.
  - intros l. apply (stable_check (fun i => if starts_with (str word) (trim_start l) then Ok tt else Err (WLine i (trim_start l) e))); intros; destruct (starts_with (str word) (trim_start l)); exact Logic.I || reflexivity.
Qed.
Lemma stable_vertex ft : stable 1 (stl_vertex_line ft).
Proof.
  change 1 with (1 + 0). eapply stable_ext; [|apply (stable_bind 1 0 stl_line (fun l i ls => obind (at_line i l (ok_or (read_stl_vertex ft l) StlVertex)) (fun a => Ok (a, ls, i))))]; [|apply stable_line|].
  - intros i ls. unfold bindp, stl_vertex_line. destruct (stl_line i ls) as [[[l r] i']|w|]; reflexivity.
  - intros l. apply (stable_check (fun i => at_line i l (ok_or (read_stl_vertex ft l) StlVertex))); intros; destruct (read_stl_vertex ft l); exact Logic.I || reflexivity.
Qed.
Definition start_check (ft : FText) (l : bytes) (i : N) : outcome (with_line StlError) (pt3 F64) :=
  let line := trim_start l in
  if starts_with (str "endsolid") line then Err (WLine i line LoadFileEndReached)
  else if negb (starts_with (str "facet") line) then Err (WLine i line Facet)
  else Ok match read_stl_normal ft line with Some n => n | None => default_normal end.
Lemma stable_facet ft : stable 7 (read_stl_facet ft).
Proof.
  pose (rest := fun n => bindp (stl_keyword "outer loop" Loop) (fun _ => bindp (stl_vertex_line ft) (fun a => bindp (stl_vertex_line ft) (fun b => bindp (stl_vertex_line ft) (fun c =>
     bindp (stl_keyword "endloop" EndLoop) (fun _ => bindp (stl_keyword "endfacet" EndFacet) (fun _ i ls => Ok (mkface a b c n, ls, i)))))))).
  assert (R : forall n, stable 6 (rest n)).
  { intros n. unfold rest. repeat (eapply (stable_bind 1 _); [first [apply stable_keyword|apply stable_vertex]|intros ?]). apply stable_ret. }
  eapply stable_ext; [|apply (stable_bind 1 6 stl_line (fun l => bindp (fun i ls => obind (start_check ft l i) (fun a => Ok (a, ls, i))) rest))]; [|apply stable_line|].
  - intros i ls. unfold bindp at 1, read_stl_facet. destruct (stl_line i ls) as [[[l r] i']|w|]; cbn [obind]; [|reflexivity..]. unfold bindp at 1, start_check. destruct (starts_with (str "endsolid") (trim_start l)); [reflexivity|]. destruct (starts_with (str "facet") (trim_start l)); [|reflexivity].
    cbn [negb obind]. unfold rest, bindp. destruct (stl_keyword "outer loop" Loop i' r) as [[[u1 r1] i1]|w|]; cbn [obind]; [|reflexivity..]. destruct (stl_vertex_line ft i1 r1) as [[[a r2] i2]|w|]; cbn [obind]; [|reflexivity..]. destruct (stl_vertex_line ft i2 r2) as [[[b r3] i3]|w|]; cbn [obind]; [|reflexivity..].
    destruct (stl_vertex_line ft i3 r3) as [[[c r4] i4]|w|]; cbn [obind]; [|reflexivity..]. destruct (stl_keyword "endloop" EndLoop i4 r4) as [[[u5 r5] i5]|w|]; cbn [obind]; [|reflexivity..]. destruct (stl_keyword "endfacet" EndFacet i5 r5) as [[[u6 r6] i6]|w|]; reflexivity.
  - intros l. change 6 with (0 + 6). apply stable_bind; [|exact R]. apply stable_check.
    intros i. unfold start_check. destruct (starts_with _ _); [exact Logic.I|]. destruct (negb _); exact Logic.I.
Qed.
(** ** saving *)
Lemma normal_cases (a b c : pt3 F64) : (exists n, corners_normal a b c = Ok n) \/ (unwrap_res (corners_normal a b c) = Panic /\ forall n, corners_normal a b c <> Ok n).
Proof. destruct (corners_normal a b c) as [n|e|]; [left; eauto|right; split; [reflexivity|discriminate]..]. Qed.
Definition saved (s : mspec (pt3 F64)) (f : face3) (t : stl_face) : Prop := corners s f = Some (sf_a t, sf_b t, sf_c t) /\ corners_normal (sf_a t) (sf_b t) (sf_c t) = Ok (sf_n t).
Definition panics_at (s : mspec (pt3 F64)) (f : face3) : Prop := exists a b c, corners s f = Some (a, b, c) /\ forall n, corners_normal a b c <> Ok n.
Lemma save_loop ft m s : shows m s -> (3 * N.of_nat (length (sfs s)) < 2 ^ 64)%N -> forall fs pre out, sfs s = pre ++ fs ->
  (exists ts, for_range (length fs) (lenN pre) (fun i out =>
    obind (unwrap_opt (face_vertices m i)) (fun '(v1, v2, v3) =>
    obind (unwrap_res (mesh_face_normal m i)) (fun n =>
    Ok (out ++ facet_text ft v1 v2 v3 n)))) out = Ok (out ++ flat_map (fun t => facet_text ft (sf_a t) (sf_b t) (sf_c t) (sf_n t)) ts) /\ Forall2 (saved s) fs ts) \/
  (for_range (length fs) (lenN pre) (fun i out =>
    obind (unwrap_opt (face_vertices m i)) (fun '(v1, v2, v3) =>
    obind (unwrap_res (mesh_face_normal m i)) (fun n =>
    Ok (out ++ facet_text ft v1 v2 v3 n)))) out = Panic /\ Exists (panics_at s) fs).
Proof.
  intros (_ & _ & _ & _ & FV) B. induction fs as [|[[a b] c] fs IH]; intros pre out E.
  - left. exists []. split; [cbn [length for_range flat_map]; rewrite app_nil_r; reflexivity|constructor].
  - assert (NE : nth_error (sfs s) (N.to_nat (lenN pre)) = Some (a, b, c)).
    { rewrite E. unfold lenN. rewrite Nat2N.id, nth_error_app2, Nat.sub_diag by lia. reflexivity. }
    assert (LB : (3 * lenN pre + 2 < 2 ^ 64)%N) by (rewrite E, app_length in B; cbn [length] in B; unfold lenN; lia).
    destruct (FV (lenN pre) a b c LB NE) as (p & q & r & P & Q & R & V). cbn [length for_range]. unfold mesh_face_normal at 1 3. rewrite V. cbn [unwrap_opt obind].
    assert (CO : corners s (a, b, c) = Some (p, q, r)) by (unfold corners; rewrite P, Q, R; reflexivity).
    destruct (normal_cases p q r) as [(n & NN)|(NN & NO)]; rewrite NN; cbn [unwrap_res obind].
    + replace (lenN pre + 1)%N with (lenN (pre ++ [(a, b, c)])) by (unfold lenN; rewrite app_length; cbn [length]; lia).
      destruct (IH (pre ++ [(a, b, c)]) (out ++ facet_text ft p q r n) ltac:(rewrite <- app_assoc; exact E)) as [(ts & H & F)|(H & F)].
      * left. exists (mkface p q r n :: ts). rewrite H. split; [cbn [flat_map sf_a sf_b sf_c sf_n]; rewrite <- app_assoc; reflexivity|]. constructor; [|exact F]. split; assumption.
      * right. split; [exact H|right; exact F].
    + right. split; [reflexivity|]. left. exists p, q, r. split; assumption.
Qed.
Lemma facets_unlines ft ts : flat_map (fun t => facet_text ft (sf_a t) (sf_b t) (sf_c t) (sf_n t)) ts = flat_map (fun l => l ++ [nl]) (flat_map (fun t => facet_lines ft (sf_a t) (sf_b t) (sf_c t) (sf_n t)) ts).
Proof. induction ts as [|t ts IH]; [reflexivity|]. cbn [flat_map]. rewrite flat_map_app, IH, facet_unlines. reflexivity. Qed.
Lemma save_cases ft m s : shows m s -> (3 * N.of_nat (length (sfs s)) < 2 ^ 64)%N ->
  (exists ts, save_stl_ascii ft m = Ok (unlines (str "solid STL generated by rust-3d" :: flat_map (fun t => facet_lines ft (sf_a t) (sf_b t) (sf_c t) (sf_n t)) ts ++ [str "endsolid STL generated by rust-3d"])) /\ Forall2 (saved s) (sfs s) ts) \/
  (save_stl_ascii ft m = Panic /\ Exists (panics_at s) (sfs s)).
Proof.
  intros S B. pose proof S as (_ & _ & NF & _). unfold save_stl_ascii. rewrite NF, Nat2N.id. change 0%N with (lenN (@nil face3)).
  destruct (save_loop ft m s S B (sfs s) [] (str "solid STL generated by rust-3d" ++ [nl]) eq_refl) as [(ts & H & F)|(H & F)].
  - left. exists ts. rewrite H. cbn [obind]. split; [|exact F]. f_equal. unfold unlines. cbn [flat_map]. rewrite flat_map_app. cbn [flat_map]. rewrite app_nil_r, <- !app_assoc. rewrite facets_unlines. reflexivity.
  - right. rewrite H. split; [reflexivity|exact F].
Qed.
(** ** cut files *)
Lemma load_loop_app {S E A} (next : S -> option (outcome E A) * S) : forall k s acc acc' r, load_loop next k s acc = Some (acc', r) -> exists items, acc' = acc ++ items.
Proof.
  induction k as [|k IH]; intros s acc acc' r H; [discriminate|]. cbn [load_loop] in H. destruct (next s) as [[[a|e|]|] s'].
  - destruct (IH _ _ _ _ H) as (it & ->). exists (a :: it). rewrite <- app_assoc. reflexivity.
  - injection H as <- _. exists []. symmetry. apply app_nil_r.
  - injection H as <- _. exists []. symmetry. apply app_nil_r.
  - injection H as <- _. exists []. symmetry. apply app_nil_r.
Qed.
Lemma cut_run ft : forall k i ls j acc items, load_loop (stl_ascii_next ft) k (mksa ls false true i) acc = Some (acc ++ items, Ok tt) ->
  load_loop (stl_ascii_next ft) k (mksa (firstn j ls) false true i) acc = Some (acc ++ firstn (j / 7) items, Ok tt).
Proof.
  induction k as [|k IH]; intros i ls j acc items H; [discriminate|]. rewrite ascii_step in *. pose proof (stable_facet ft i ls j) as ST. destruct (read_stl_facet ft i ls) as [[[f rest] i']|w|].
  - destruct ST as (L & R & I' & S1 & S2). destruct (load_loop_app _ _ _ _ _ _ H) as (it & E). rewrite <- app_assoc in E. apply app_inv_head in E. subst items.
    change (acc ++ [Data f] ++ it) with (acc ++ ([Data f] ++ it)) in H. rewrite app_assoc in H. destruct (Nat.lt_ge_cases j 7) as [C|C].
    + specialize (S2 C). destruct (read_stl_facet ft i (firstn j ls)) as [x|w|]; [destruct S2| |destruct S2]. unfold ends, eof in S2. rewrite S2. rewrite Nat.div_small by exact C. cbn [firstn]. rewrite app_nil_r. reflexivity.
    + rewrite S1 by exact C. rewrite (IH _ _ _ _ _ H). replace (j / 7) with (S ((j - 7) / 7)); [cbn [app firstn]; rewrite <- app_assoc; reflexivity|].
      replace j with ((j - 7) + 1 * 7) at 2 by lia. rewrite Nat.div_add by lia. lia.
  - assert (W : eof w) by (unfold eof; destruct (info_error w); try reflexivity; discriminate). unfold eof in W. rewrite W in H. injection H as E.
    assert (items = []) as -> by (apply (app_inv_head acc); rewrite app_nil_r; symmetry; exact E). specialize (ST W). destruct (read_stl_facet ft i (firstn j ls)) as [x|w'|]; [destruct ST| |destruct ST]. unfold ends, eof in ST. rewrite ST, firstn_nil, app_nil_r. reflexivity.
  - destruct ST.
Qed.
(** ** binary *)
Lemma triangle_ok r s : length r = 50 -> read_stl_triangle (r ++ s) = Ok (mkface (record_point r 3) (record_point r 6) (record_point r 9) (record_point r 0), s).
Proof.
  intros L. unfold read_stl_triangle. rewrite (take_app 50 r s L). do 50 (destruct r as [|? r]; [discriminate|]). destruct r; [|discriminate]. reflexivity.
Qed.
Lemma binary_step k s n c acc : load_loop stl_binary_next (S k) (mksb s false true n c) acc =
  if (c <? n)%N then match read_stl_triangle s with
    | Ok (f, r) => load_loop stl_binary_next k (mksb r false true n (c + 1)) (acc ++ [Data f])
    | Err e => Some (acc, Err (WNone e))
    | Panic => Some (acc, Panic)
    end else Some (acc, Ok tt).
Proof.
  cbn [load_loop]. unfold stl_binary_next at 1. cbn [sb_done sb_header sb_n sb_current sb_read negb]. destruct (c <? n)%N; [|reflexivity]. destruct (read_stl_triangle s) as [[f r]|e|]; reflexivity.
Qed.
Definition record_face (r : bytes) : stl_face := mkface (record_point r 3) (record_point r 6) (record_point r 9) (record_point r 0).
Lemma binary_records recs : Forall (fun r => length r = 50) recs -> forall k s n c acc, (c + lenN recs <= n)%N ->
  load_loop stl_binary_next (length recs + k) (mksb (concat recs ++ s) false true n c) acc = load_loop stl_binary_next k (mksb s false true n (c + lenN recs)) (acc ++ map (fun r => Data (record_face r)) recs).
Proof.
  induction recs as [|r recs IH]; intros F k s n c acc L.
  - cbn [length concat map app Nat.add]. rewrite app_nil_r. f_equal. f_equal. unfold lenN. cbn [length]. lia.
  - inversion F as [|? ? F1 F2]; subst. cbn [length Nat.add concat]. rewrite binary_step. unfold lenN in L. cbn [length] in L. destruct (c <? n)%N eqn:C; [|apply N.ltb_ge in C; lia].
    rewrite <- app_assoc, triangle_ok by exact F1. rewrite IH by (exact F2 || (unfold lenN; lia)). cbn [map]. rewrite <- app_assoc. f_equal. f_equal. unfold lenN. cbn [length]. lia.
Qed.
Lemma short_triangle s : length s < 50 -> read_stl_triangle s = Err StlAccessFile.
Proof. intros L. unfold read_stl_triangle. rewrite take_short by exact L. reflexivity. Qed.
(** ** the mesh with shared vertices *)
From Coq Require Import ZifyBool ZifyNat ZifyN.
Section Unique.
Context (same : pt3 F64 -> pt3 F64 -> bool) (Q : equality same).
Definition grow (l : list (pt3 F64)) (p : pt3 F64) : list (pt3 F64) := if existsb (fun z => same z p) l then l else l ++ [p].
Lemma grow_more l p : exists more, grow l p = l ++ more.
Proof. unfold grow. destruct (existsb _ l); [exists []; symmetry; apply app_nil_r|exists [p]; reflexivity]. Qed.
Lemma key_snoc map (l : list (pt3 F64)) p : key_ok map l -> key_ok ((p, lenN l) :: map) (l ++ [p]).
Proof.
  intros [K1 K2]. split.
  - intros x v [H|H].
    + injection H as <- <-. rewrite nthN_app. destruct (N.ltb_spec (lenN l) (lenN l)) as [C|C]; [lia|]. rewrite N.sub_diag. reflexivity.
    + specialize (K1 _ _ H). pose proof (nthN_Some_lt _ _ _ K1). rewrite nthN_app. destruct (N.ltb_spec v (lenN l)); [exact K1|lia].
  - intros x H. apply in_app_or in H as [H|[H|[]]]; [destruct (K2 x H) as (v & V); exists v; right; exact V|subst x; exists (lenN l); left; reflexivity].
Qed.
Lemma unique_vertex_ok m map p : key_ok map (pc m) -> fresh same (pc m) ->
  exists id m' map', unique_vertex same (m, map) p = (id, (m', map')) /\ key_ok map' (pc m') /\ fresh same (pc m') /\ topology m' = topology m /\ pc m' = grow (pc m) p /\
    exists y, nthN (pc m') id = Some y /\ same y p = true.
Proof.
  intros K F. pose proof (map_get_seen same map (pc m) p K) as S. unfold unique_vertex, grow. rewrite <- S. destruct (map_get same map p) as [id|] eqn:G.
  - exists id, m, map. split; [reflexivity|]. repeat (split; [assumption||reflexivity|]). destruct (map_get_In same map p id G) as (y & I & Sy). exists y. split; [apply (proj1 K), I|exact Sy].
  - exists (num_vertices m), (fst (add_vertex m p)), ((p, num_vertices m) :: map). split; [reflexivity|]. cbn [add_vertex fst pc topology]. unfold num_vertices. split; [apply key_snoc, K|]. split.
    { apply fresh_snoc; [exact F|]. intros y Y. destruct (existsb (fun z => same z p) (pc m)) eqn:X; [discriminate S|]. destruct (same y p) eqn:D; [|reflexivity].
      rewrite <- X. symmetry. apply existsb_exists. exists y. split; assumption. }
    split; [reflexivity|]. split; [reflexivity|]. exists p. split; [|apply (eq_refl_b same Q)]. rewrite nthN_app. destruct (N.ltb_spec (lenN (pc m)) (lenN (pc m))); [lia|]. rewrite N.sub_diag. reflexivity.
Qed.
Definition proper (t : stl_face) : bool := negb (same (sf_a t) (sf_b t) || same (sf_a t) (sf_c t) || same (sf_b t) (sf_c t)).
Definition face_of (l : list (pt3 F64)) (t : stl_face) (f : face3) : Prop := let '(a, b, c) := f in
  exists p q r, nthN l a = Some p /\ nthN l b = Some q /\ nthN l c = Some r /\ same p (sf_a t) = true /\ same q (sf_b t) = true /\ same r (sf_c t) = true.
Definition triangle_points (t : stl_face) : list (pt3 F64) := [sf_a t; sf_b t; sf_c t].
Lemma nthN_more {A} (l more : list A) i x : nthN l i = Some x -> nthN (l ++ more) i = Some x.
Proof. intros H. pose proof (nthN_Some_lt _ _ _ H). rewrite nthN_app. destruct (N.ltb_spec i (lenN l)); [exact H|lia]. Qed.
Lemma face_more l more t f : face_of l t f -> face_of (l ++ more) t f.
Proof. destruct f as [[a b] c]. intros (p & q & r & A & B & C & D). exists p, q, r. repeat split; try (apply nthN_more; assumption); apply D. Qed.
Lemma ids_differ l i j p q x y : fresh same l -> nthN l i = Some p -> nthN l j = Some q -> same p x = true -> same q y = true -> (i =? j)%N = same x y.
Proof.
  intros F I J X Y. destruct (same x y) eqn:S.
  - apply N.eqb_eq. destruct (N.eq_dec i j) as [E|E]; [exact E|exfalso]. assert (T : same p q = true).
    { apply (eq_trans_b same Q _ x); [exact X|]. apply (eq_trans_b same Q _ y); [exact S|]. apply (eq_sym_b same Q), Y. }
    rewrite (fresh_no_two same Q l F (N.to_nat i) (N.to_nat j) p q) in T; [discriminate| | |lia]; rewrite <- nthN_nth_error; assumption.
  - apply N.eqb_neq. intros ->. assert (p = q) by congruence. subst q. rewrite (eq_trans_b same Q x p y) in S; [discriminate|apply (eq_sym_b same Q), X|exact Y].
Qed.
Definition built (nm : list (pt3 F64)) (ts : list stl_face) (s : mesh (pt3 F64) * list (pt3 F64 * N) * list (pt3 F64)) : Prop :=
  let '(m, map, normals) := s in
  key_ok map (pc m) /\ fresh same (pc m) /\ pc m = fold_left grow (flat_map triangle_points ts) [] /\ normals = nm ++ List.map sf_n (filter proper ts) /\
  exists fs, topology m = flat fs /\ Forall2 (face_of (pc m)) (filter proper ts) fs /\ Forall (fun '(a, b, c) => a <> b /\ a <> c /\ b <> c) fs.
Lemma built_step nm ts s t : built nm ts s -> built nm (ts ++ [t]) (unique_step same s (Data t)).
Proof.
  destruct s as [[m map] normals]. intros (K & F & V & NM & fs & TO & FF & FD). unfold unique_step.
  destruct (unique_vertex_ok m map (sf_a t) K F) as (ida & m1 & p1 & -> & K1 & F1 & T1 & V1 & ya & A1 & A2). cbn beta iota.
  destruct (unique_vertex_ok m1 p1 (sf_b t) K1 F1) as (idb & m2 & p2 & -> & K2 & F2 & T2 & V2 & yb & B1 & B2). cbn beta iota.
  destruct (unique_vertex_ok m2 p2 (sf_c t) K2 F2) as (idc & m3 & p3 & -> & K3 & F3 & T3 & V3 & yc & C1 & C2). cbn beta iota.
  destruct (grow_more (pc m) (sf_a t)) as (e1 & E1). destruct (grow_more (pc m1) (sf_b t)) as (e2 & E2). destruct (grow_more (pc m2) (sf_c t)) as (e3 & E3).
  rewrite <- V1 in E1. rewrite <- V2 in E2. rewrite <- V3 in E3.
  assert (A3 : nthN (pc m3) ida = Some ya) by (rewrite E3, E2, <- app_assoc; apply nthN_more, A1).
  assert (B3 : nthN (pc m3) idb = Some yb) by (rewrite E3; apply nthN_more, B1).
  assert (VV : pc m3 = fold_left grow (flat_map triangle_points (ts ++ [t])) []).
  { rewrite flat_map_app, fold_left_app, <- V. cbn [flat_map triangle_points app fold_left]. rewrite <- V1, <- V2, <- V3. reflexivity. }
  assert (GG : forall t' f, face_of (pc m) t' f -> face_of (pc m3) t' f).
  { intros t' f H. rewrite E3, E2, E1, <- !app_assoc. apply face_more, H. }
  assert (FF3 : Forall2 (face_of (pc m3)) (filter proper ts) fs) by (clear -FF GG; induction FF; constructor; auto).
  assert (PT : filter proper (ts ++ [t]) = filter proper ts ++ (if proper t then [t] else [])).
  { rewrite filter_app. cbn [filter]. destruct (proper t); reflexivity. }
  pose proof (nthN_Some_lt _ _ _ A3) as LA. pose proof (nthN_Some_lt _ _ _ B3) as LB. pose proof (nthN_Some_lt _ _ _ C1) as LC. unfold try_add_connection.
  destruct (N.leb_spec (lenN (pc m3)) ida); [lia|]. destruct (N.leb_spec (lenN (pc m3)) idb); [lia|]. destruct (N.leb_spec (lenN (pc m3)) idc); [lia|]. cbn [orb].
  assert (DD : (ida =? idb)%N || (ida =? idc)%N || (idb =? idc)%N = negb (proper t)).
  { unfold proper. rewrite negb_involutive, (ids_differ (pc m3) ida idb ya yb (sf_a t) (sf_b t)), (ids_differ (pc m3) ida idc ya yc (sf_a t) (sf_c t)), (ids_differ (pc m3) idb idc yb yc (sf_b t) (sf_c t)) by assumption. reflexivity. }
  destruct (proper t) eqn:PP; cbn [negb] in DD; rewrite DD; unfold built; cbn [pc topology].
  - split; [exact K3|]. split; [exact F3|]. split; [exact VV|]. split; [rewrite PT, map_app, NM, app_assoc; reflexivity|]. exists (fs ++ [(ida, idb, idc)]).
    split; [rewrite flat_app, T3, T2, T1, TO, <- !app_assoc; reflexivity|]. split.
    + rewrite PT. apply Forall2_app; [exact FF3|]. constructor; [|constructor]. exists ya, yb, yc. repeat split; assumption.
    + apply Forall_app. split; [exact FD|]. constructor; [|constructor]. lia.
  - split; [exact K3|]. split; [exact F3|]. split; [exact VV|]. split; [rewrite PT, app_nil_r; exact NM|]. exists fs. split; [rewrite T3, T2, T1; exact TO|]. split; [rewrite PT, app_nil_r; exact FF3|exact FD].
Qed.
Lemma built_all nm ts : forall ts0 s, built nm ts0 s -> built nm (ts0 ++ ts) (fold_left (unique_step same) (map Data ts) s).
Proof.
  induction ts as [|t ts IH]; intros ts0 s H; [rewrite app_nil_r; exact H|]. cbn [map fold_left]. replace (ts0 ++ t :: ts) with ((ts0 ++ [t]) ++ ts) by (rewrite <- app_assoc; reflexivity). apply IH, built_step, H.
Qed.
Lemma built_start nm : built nm [] (mesh_empty, [], nm).
Proof.
  split; [split; [intros ? ? []|intros ? []]|]. split; [intros i j x y Hi; destruct i; discriminate|]. split; [reflexivity|]. split; [symmetry; apply app_nil_r|]. exists []. repeat split; constructor.
Qed.
Lemma grow_pack l : forall map packed ids, key_ok map packed -> fst (pack_loop same l map packed ids) = fold_left grow l packed.
Proof.
  induction l as [|x l IH]; intros map packed ids K; [reflexivity|]. cbn [pack_loop fold_left]. unfold grow at 2. rewrite <- (map_get_seen same map packed x K). destruct (map_get same map x); rewrite IH; auto using key_snoc.
Qed.
Lemma grow_firsts l : fold_left grow l [] = first_occurrences same l.
Proof. rewrite <- (pack_firsts same Q l). symmetry. apply grow_pack. split; [intros ? ? []|intros ? []]. Qed.
End Unique.
(** ** deciding equality of points *)
Definition sf_dec : forall x y : SpecFloat.spec_float, {x = y} + {x <> y}.
Proof. decide equality; try apply Bool.bool_dec; try apply Pos.eq_dec; apply Z.eq_dec. Defined.
Definition pt_dec (p q : pt3 F64) : {p = q} + {p <> q}.
Proof. decide equality; apply sf_dec. Defined.
Definition peq (p q : pt3 F64) : bool := if pt_dec p q then true else false.
Lemma peq_true p q : peq p q = true <-> p = q. Proof. unfold peq. destruct (pt_dec p q); split; congruence. Qed.
Lemma peq_equality : equality peq.
Proof. split; intros; rewrite ?peq_true in *; congruence. Qed.
Lemma decides_peq same l x y : decides same l -> In x l -> In y l -> same x y = peq x y.
Proof. intros D X Y. apply Bool.eq_iff_eq_true. rewrite (D x y X Y), peq_true. reflexivity. Qed.
Section Same.
Context (same : pt3 F64 -> pt3 F64 -> bool) (l : list (pt3 F64)) (D : decides same l).
Lemma get_peq (map : list (pt3 F64 * N)) p : incl (List.map fst map) l -> In p l -> map_get same map p = map_get peq map p.
Proof.
  intros I P. induction map as [|[y v] map IH]; [reflexivity|]. cbn [map_get]. rewrite (decides_peq same l y p) by (auto; apply I; left; reflexivity). rewrite IH by (intros z Z; apply I; right; exact Z). reflexivity.
Qed.
Lemma vertex_peq m map p : incl (List.map fst map) l -> In p l -> unique_vertex same (m, map) p = unique_vertex peq (m, map) p /\ incl (List.map fst (snd (snd (unique_vertex peq (m, map) p)))) l.
Proof.
  intros I P. unfold unique_vertex. rewrite get_peq by assumption. destruct (map_get peq map p); split; try reflexivity; [exact I|]. cbn [snd List.map fst]. intros z [<-|Z]; [exact P|apply I, Z].
Qed.
Lemma step_peq s t : incl (List.map fst (snd (fst s))) l -> incl (triangle_points t) l -> unique_step same s (Data t) = unique_step peq s (Data t) /\ incl (List.map fst (snd (fst (unique_step peq s (Data t))))) l.
Proof.
  destruct s as [[m map] nm]. cbn [fst snd]. intros I T. assert (In (sf_a t) l /\ In (sf_b t) l /\ In (sf_c t) l) as (A & B & C) by (repeat split; apply T; cbn; auto). unfold unique_step.
  destruct (vertex_peq m map (sf_a t) I A) as (-> & I1). destruct (unique_vertex peq (m, map) (sf_a t)) as [ida [m1 p1]].
  destruct (vertex_peq m1 p1 (sf_b t) I1 B) as (-> & I2). destruct (unique_vertex peq (m1, p1) (sf_b t)) as [idb [m2 p2]].
  destruct (vertex_peq m2 p2 (sf_c t) I2 C) as (-> & I3). destruct (unique_vertex peq (m2, p2) (sf_c t)) as [idc [m3 p3]].
  split; [reflexivity|]. destruct (try_add_connection m3 ida idb idc) as [m4 [x|e|]]; exact I3.
Qed.
Lemma fold_peq ts : forall s, incl (List.map fst (snd (fst s))) l -> incl (flat_map triangle_points ts) l -> fold_left (unique_step same) (map Data ts) s = fold_left (unique_step peq) (map Data ts) s.
Proof.
  induction ts as [|t ts IH]; intros s I T; [reflexivity|]. cbn [map fold_left]. destruct (step_peq s t I) as (-> & I'); [intros z Z; apply T, in_or_app; left; exact Z|]. apply IH; [exact I'|intros z Z; apply T, in_or_app; right; exact Z].
Qed.
Lemma filter_peq x r : In x l -> incl r l -> filter (fun y => negb (same x y)) r = filter (fun y => negb (peq x y)) r.
Proof. intros X I. induction r as [|y r IH]; [reflexivity|]. cbn [filter]. rewrite (decides_peq same l x y) by (auto; apply I; left; reflexivity). rewrite IH by (intros z Z; apply I; right; exact Z). reflexivity. Qed.
Lemma firsts_incl f (r : list (pt3 F64)) : incl (first_occurrences f r) r.
Proof. induction r as [|x r IH]; [intros z []|]. cbn [first_occurrences]. intros z [<-|Z]; [left; reflexivity|]. apply filter_In in Z as (Z & _). right. apply IH, Z. Qed.
Lemma firsts_peq r : incl r l -> first_occurrences same r = first_occurrences peq r.
Proof.
  induction r as [|x r IH]; intros I; [reflexivity|]. cbn [first_occurrences]. rewrite IH by (intros z Z; apply I; right; exact Z). f_equal. apply filter_peq; [apply I; left; reflexivity|]. intros z Z. apply I. right. apply (firsts_incl _ _ _ Z).
Qed.
Lemma proper_peq ts : incl (flat_map triangle_points ts) l -> filter (proper same) ts = filter (proper peq) ts.
Proof.
  induction ts as [|t ts IH]; intros I; [reflexivity|]. cbn [filter]. rewrite IH by (intros z Z; apply I, in_or_app; right; exact Z).
  assert (In (sf_a t) l /\ In (sf_b t) l /\ In (sf_c t) l) as (A & B & C) by (repeat split; apply I; cbn; auto). unfold proper. rewrite !(decides_peq same l) by assumption. reflexivity.
Qed.
End Same.
Lemma neqb_printable x y : printable x -> printable y -> (@neqb F64 x y = true <-> x = y).
Proof.
  intros (_ & FX & MX) (_ & FY & MY). assert (Z : forall s, SpecFloat.S754_zero s <> minus_zero -> s = false) by (intros [|] H; [destruct (H eq_refl)|reflexivity]).
  destruct x as [sx|sx| |sx mx ex]; destruct y as [sy|sy| |sy my ey]; try destruct FX; try destruct FY; cbn.
  - rewrite (Z sx MX), (Z sy MY). split; reflexivity.
  - split; [destruct sy|]; discriminate.
  - split; [destruct sx|]; discriminate.
  - split.
    + destruct sx, sy; try discriminate; destruct (ex ?= ey)%Z eqn:E; try discriminate; apply Z.compare_eq in E; subst ey; change (Pos.compare_cont Eq mx my) with (mx ?= my)%positive; destruct (mx ?= my)%positive eqn:M; try discriminate; apply Pos.compare_eq in M; subst; reflexivity.
    + intros [= -> -> ->]. rewrite Z.compare_refl. change (Pos.compare_cont Eq my my) with (my ?= my)%positive. rewrite Pos.compare_refl. destruct sy; reflexivity.
Qed.
