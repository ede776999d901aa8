From Verif Require Import Base BaseLemmas Num GeomSpec FloatSpec IoModel IoSpec IoLemmas MeshModel LineModel DeriveModel EditModel PointTextModel PointTextSpec PointTextLemmas ShowModel ShowSpec.

Lemma cut_at (d : ascii) : forall a b s t, ~ In d a -> ~ In d b -> a ++ d :: s = b ++ d :: t -> a = b /\ s = t.
Proof.
  induction a as [|x a IH]; intros [|y b] s t A B E.
  - injection E as ->. split; reflexivity.
  - injection E as -> _. elim B. left. reflexivity.
  - injection E as <- _. elim A. left. reflexivity.
  - injection E as -> E. apply IH in E; [|intros H; apply A; right; exact H|intros H; apply B; right; exact H]. destruct E as (-> & ->). split; reflexivity.
Qed.
(** A character numbers are not written with. *)
Definition nonum (d : ascii) : Prop := forallb (fun c => negb (Ascii.eqb c d)) (str "0123456789+-.eEinfNa") = true.
Lemma nonum_in d w : nonum d -> Forall number_char w -> ~ In d w.
Proof. intros N F I. pose proof (number_neq d w N F d I) as E. rewrite Ascii.eqb_refl in E. discriminate. Qed.
Section Ft.
Context (ft : FText) (FT : ft_ok ft).
Lemma print_in d x : nonum d -> ~ In d (fprint ft x).
Proof. intros N. apply nonum_in; [exact N|]. apply (print_chars ft FT). Qed.
Lemma print_inj x y : printable x -> printable y -> fprint ft x = fprint ft y -> x = y.
Proof. intros X Y E. apply (parse_print ft FT) in X. apply (parse_print ft FT) in Y. congruence. Qed.
Lemma comma_app s : comma ++ s = ","%char :: space :: s.
Proof. reflexivity. Qed.
Lemma list2_inj d p q s t : nonum d -> printable2 p -> printable2 q -> list2 ft p ++ d :: s = list2 ft q ++ d :: t -> p = q /\ s = t.
Proof.
  intros D (P1 & P2) (Q1 & Q2). unfold list2. rewrite <- !app_assoc, !comma_app. intros E.
  apply cut_at in E; [|apply print_in; reflexivity..]. destruct E as (E1 & E). injection E as E. apply cut_at in E; [|apply print_in, D..].
  destruct E as (E2 & E). apply print_inj in E1, E2; try assumption. destruct p, q. cbn in *. subst. split; reflexivity.
Qed.
Lemma list3_inj d p q s t : nonum d -> printable3 p -> printable3 q -> list3 ft p ++ d :: s = list3 ft q ++ d :: t -> p = q /\ s = t.
Proof.
  intros D (P1 & P2 & P3) (Q1 & Q2 & Q3). unfold list3. rewrite <- !app_assoc, !comma_app. intros E.
  apply cut_at in E; [|apply print_in; reflexivity..]. destruct E as (E1 & E). injection E as E.
  apply cut_at in E; [|apply print_in; reflexivity..]. destruct E as (E2 & E). injection E as E. apply cut_at in E; [|apply print_in, D..].
  destruct E as (E3 & E). apply print_inj in E1, E2, E3; try assumption. destruct p, q. cbn in *. subst. split; reflexivity.
Qed.
Lemma show_pt2_inj p q : printable2 p -> printable2 q -> show_pt2 ft p = show_pt2 ft q -> p = q.
Proof. intros P Q E. injection E as E. apply (list2_inj ")"%char) in E; [tauto|reflexivity|assumption..]. Qed.
Lemma show_pt3_inj p q : printable3 p -> printable3 q -> show_pt3 ft p = show_pt3 ft q -> p = q.
Proof. intros P Q E. injection E as E. apply (list3_inj ")"%char) in E; [tauto|reflexivity|assumption..]. Qed.
Lemma pair2_inj a b c d : printable2 a -> printable2 b -> printable2 c -> printable2 d ->
  str "(" ++ list2 ft a ++ str " -> " ++ list2 ft b ++ str ")" = str "(" ++ list2 ft c ++ str " -> " ++ list2 ft d ++ str ")" -> a = c /\ b = d.
Proof.
  intros A B C D E. injection E as E. apply (list2_inj space) in E; [|reflexivity|assumption..]. destruct E as (-> & E). injection E as E.
  apply (list2_inj ")"%char) in E; [tauto|reflexivity|assumption..].
Qed.
Lemma pair3_inj a b c d : printable3 a -> printable3 b -> printable3 c -> printable3 d ->
  str "(" ++ list3 ft a ++ str " -> " ++ list3 ft b ++ str ")" = str "(" ++ list3 ft c ++ str " -> " ++ list3 ft d ++ str ")" -> a = c /\ b = d.
Proof.
  intros A B C D E. injection E as E. apply (list3_inj space) in E; [|reflexivity|assumption..]. destruct E as (-> & E). injection E as E.
  apply (list3_inj ")"%char) in E; [tauto|reflexivity|assumption..].
Qed.
End Ft.
Lemma show_cloud_inj {P} (show : P -> bytes) (ok : P -> Prop) : (forall p, ~ In nl (show p)) -> (forall p q, ok p -> ok q -> show p = show q -> p = q) ->
  forall ps qs, Forall ok ps -> Forall ok qs -> show_cloud show ps = show_cloud show qs -> ps = qs.
Proof.
  intros L I. induction ps as [|p ps IH]; intros [|q qs] A B E; cbn [show_cloud app] in E.
  - reflexivity.
  - destruct (show q); discriminate.
  - destruct (show p); discriminate.
  - apply cut_at in E; [|apply L..]. destruct E as (E1 & E2). inversion A; subst. inversion B; subst. f_equal; [apply I; assumption|apply IH; assumption].
Qed.
Lemma show_lines {P} (show : P -> bytes) ps : show_cloud show ps = unlines (map show ps).
Proof. induction ps as [|p r IH]; [reflexivity|]. cbn [show_cloud map unlines flat_map]. unfold unlines in IH. rewrite IH, <- app_assoc. reflexivity. Qed.
Lemma usize_inj a b : print_usize a = print_usize b -> a = b.
Proof. intros E. pose proof (parse_N_print a) as A. pose proof (parse_N_print b) as B. congruence. Qed.
Lemma usize_in d n : nonum d -> ~ In d (print_usize n).
Proof. intros N. apply nonum_in; [exact N|]. apply print_usize_chars. Qed.
Lemma show_face_inj f g : show_face f = show_face g -> f = g.
Proof.
  destruct f as [[a b] c], g as [[a' b'] c']. intros E. injection E as E. apply (cut_at ","%char) in E; [|apply usize_in; reflexivity..]. destruct E as (E1 & E). injection E as E.
  apply (cut_at ","%char) in E; [|apply usize_in; reflexivity..]. destruct E as (E2 & E). injection E as E. apply (cut_at ")"%char) in E; [|apply usize_in; reflexivity..]. destruct E as (E3 & _).
  apply usize_inj in E1, E2, E3. congruence.
Qed.

(** ** Counting characters *)
Lemma occurs_app d a b : occurs d (a ++ b) = (occurs d a + occurs d b)%nat.
Proof. unfold occurs. rewrite filter_app, app_length. reflexivity. Qed.
Lemma occurs_0 d w : ~ In d w -> occurs d w = 0%nat.
Proof.
  unfold occurs. intros H. induction w as [|x w IH]; [reflexivity|]. cbn [filter]. destruct (Ascii.eqb_spec d x) as [->|D]; [elim H; left; reflexivity|].
  apply IH. intros K. apply H. right. exact K.
Qed.
Lemma show_chars2 ft p (FT : ft_ok ft) : occurs ","%char (show_pt2 ft p) = 1%nat /\ occurs ">"%char (show_pt2 ft p) = 0%nat.
Proof.
  unfold show_pt2, list2. rewrite !occurs_app. rewrite !(occurs_0 _ (fprint ft _)) by (apply (print_in ft FT); reflexivity). split; reflexivity.
Qed.
Lemma show_chars3 ft p (FT : ft_ok ft) : occurs ","%char (show_pt3 ft p) = 2%nat /\ occurs ">"%char (show_pt3 ft p) = 0%nat.
Proof.
  unfold show_pt3, list3. rewrite !occurs_app. rewrite !(occurs_0 _ (fprint ft _)) by (apply (print_in ft FT); reflexivity). split; reflexivity.
Qed.
Lemma show_charsl2 ft p (FT : ft_ok ft) : occurs ","%char (show_line2 ft p) = 2%nat /\ occurs ">"%char (show_line2 ft p) = 1%nat.
Proof.
  unfold show_line2, list2. rewrite !occurs_app. rewrite !(occurs_0 _ (fprint ft _)) by (apply (print_in ft FT); reflexivity). split; reflexivity.
Qed.
Lemma show_charsl3 ft p (FT : ft_ok ft) : occurs ","%char (show_line3 ft p) = 4%nat /\ occurs ">"%char (show_line3 ft p) = 1%nat.
Proof.
  unfold show_line3, list3. rewrite !occurs_app. rewrite !(occurs_0 _ (fprint ft _)) by (apply (print_in ft FT); reflexivity). split; reflexivity.
Qed.
Lemma pt_nl2 ft p (FT : ft_ok ft) : ~ In nl (show_pt2 ft p).
Proof.
  unfold show_pt2, list2. rewrite !in_app_iff. intros [H|[[H|[H|H]]|H]]; try (apply (print_in ft FT nl) in H; [exact H|reflexivity]); cbn in H; intuition discriminate.
Qed.
Lemma pt_nl3 ft p (FT : ft_ok ft) : ~ In nl (show_pt3 ft p).
Proof.
  unfold show_pt3, list3. rewrite !in_app_iff. intros [H|[[H|[H|[H|[H|H]]]]|H]]; try (apply (print_in ft FT nl) in H; [exact H|reflexivity]); cbn in H; intuition discriminate.
Qed.

(** ** Parsing *)
(** The first word of a text that starts with a parenthesis. *)
Lemma first_word s : exists w ws, skip_empty (pieces space ("("%char :: s)) = ("("%char :: w) :: ws.
Proof.
  pose proof (split_ne (fun c => Ascii.eqb c space) s) as NE. fold (pieces space s) in NE.
  assert (H : pieces space ("("%char :: s) = match pieces space s with [] => [["("%char]] | w :: ws => ("("%char :: w) :: ws end) by reflexivity.
  rewrite H. destruct (pieces space s) as [|w ws]; [congruence|]. exists w, (skip_empty ws). reflexivity.
Qed.
Lemma paren3 {A} (E : pos3 F64 A) ft s : no_parentheses ft -> parse3 E ft ("("%char :: s) = Err ParseError.
Proof.
  intros N. rewrite parse3_words. destruct (first_word s) as (w & ws & ->). assert (F : fparse ft ("("%char :: w) = None) by (apply N; left; reflexivity).
  destruct ws as [|b [|c [|]]]; cbn [of_words3]; try reflexivity. rewrite F. reflexivity.
Qed.
Lemma paren2 {A} (E : pos2 F64 A) ft s : no_parentheses ft -> parse2 E ft ("("%char :: s) = Err ParseError.
Proof.
  intros N. rewrite parse2_words. destruct (first_word s) as (w & ws & ->). assert (F : fparse ft ("("%char :: w) = None) by (apply N; left; reflexivity).
  destruct ws as [|b [|]]; cbn [of_words2]; try reflexivity. rewrite F. reflexivity.
Qed.
Lemma parse3_err {A} (E : pos3 F64 A) ft s : parse3 E ft s = Err ParseError \/ exists p, parse3 E ft s = Ok p.
Proof.
  rewrite parse3_words. destruct (skip_empty (pieces space s)) as [|a [|b [|c [|]]]]; cbn [of_words3]; auto.
  destruct (fparse ft a), (fparse ft b), (fparse ft c); eauto.
Qed.
Lemma parse2_err {A} (E : pos2 F64 A) ft s : parse2 E ft s = Err ParseError \/ exists p, parse2 E ft s = Ok p.
Proof.
  rewrite parse2_words. destruct (skip_empty (pieces space s)) as [|a [|b [|]]]; cbn [of_words2]; auto.
  destruct (fparse ft a), (fparse ft b); eauto.
Qed.
Lemma cloud_paren {P A} (show : P -> bytes) (parse : bytes -> res A) : (forall p, ~ In nl (show p)) -> (forall p, show p <> []) -> (forall p, parse (show p) = Err ParseError) ->
  (forall s, parse s = Err ParseError \/ exists p, parse s = Ok p) -> forall ps, cloud_parse parse (show_cloud show ps) = Err ParseError.
Proof.
  intros L NE B D ps. destruct (cloud_parse_err parse (show_cloud show ps) D) as [H|(qs & H)]; [exact H|]. exfalso.
  apply cloud_parse_ok in H. destruct H as (N & ls & AP & F). rewrite show_lines in AP.
  assert (AP' : apart nl (unlines (map show ps)) (map show ps)) by (apply apart_lines, Forall_map, Forall_forall; intros p _; split; [apply NE|apply L]).
  apply apart_is in AP, AP'. rewrite AP in AP'. clear AP. rewrite AP' in F. clear AP' ls. destruct ps as [|p ps]; [inversion F; subst; congruence|]. cbn [map] in F. inversion F; subst. cbv beta in *. match goal with H : parse (show p) = Ok _ |- _ => rewrite B in H; discriminate end.
Qed.
Lemma parse_digits_chars limit w : forall acc n, parse_digits limit acc w = Some n -> ~ In "("%char w.
Proof.
  induction w as [|c w IH]; intros acc n H; [intros []|]. intros [->|I].
  - cbn in H. discriminate.
  - cbn [parse_digits] in H. destruct (digit_value c); [|discriminate]. destruct (_ <? _)%N; [|discriminate]. apply IH in H. contradiction.
Qed.
Lemma parse_N_paren w : In "("%char w -> parse_N w = None.
Proof.
  intros I. unfold parse_N. destruct w as [|c w]; [destruct I|]. destruct (parse_digits _ 0 (c :: w)) eqn:E; [|reflexivity]. apply parse_digits_chars in E. contradiction.
Qed.
Lemma parse_Z_paren w : In "("%char w -> parse_Z w = None.
Proof.
  intros I. unfold parse_Z. destruct w as [|c w]; [reflexivity|]. destruct (Ascii.eqb_spec c "-"%char) as [->|D].
  - destruct I as [E|I]; [discriminate|]. rewrite parse_N_paren by exact I. reflexivity.
  - rewrite parse_N_paren by exact I. reflexivity.
Qed.
Lemma split_in (f : ascii -> bool) c s : f c = false -> In c s -> exists w, In w (split_on f s) /\ In c w.
Proof.
  intros F. induction s as [|x s IH]; [intros []|]. intros I. cbn [split_on]. pose proof (split_ne f s) as NE. destruct (f x) eqn:X.
  - destruct I as [->|I]; [congruence|]. destruct (IH I) as (w & W & C). exists w. split; [right; exact W|exact C].
  - destruct (split_on f s) as [|w ws]; [congruence|]. destruct I as [->|I]; [exists (c :: w); split; left; reflexivity|].
    destruct (IH I) as (v & [->|V] & C); [exists (x :: v); split; [left; reflexivity|right; exact C]|exists v; split; [right; exact V|exact C]].
Qed.
Lemma demo_paren : no_parentheses demo.
Proof.
  intros w I. unfold demo, fparse, demo_parse. destruct (split_in (fun c => Ascii.eqb c "e"%char) "("%char w eq_refl I) as (v & V & C). apply parse_Z_paren in C.
  destruct (split_on _ w) as [|a [|b [|]]]; [reflexivity| | |reflexivity].
  - destruct V as [->|[]]. rewrite C. reflexivity.
  - destruct V as [->|[->|[]]]; rewrite C; [reflexivity|]. destruct (parse_Z a) as [[]|]; reflexivity.
Qed.
