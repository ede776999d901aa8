(** Lemmas on positions as text. *)
From Verif Require Import Base BaseLemmas Num GeomSpec FloatSpec IoModel IoSpec IoLemmas BBoxModel KdModel FilterModel EditModel PointTextModel PointTextSpec.
From Coq Require Import Lia.

Notation pieces d := (split_on (fun c => Ascii.eqb c d)).
Lemma skip_next_filter ws : match skip_next ws with None => skip_empty ws = [] | Some (w, r) => skip_empty ws = w :: skip_empty r /\ w <> [] end.
Proof. induction ws as [|[|c w] ws IH]; cbn; [reflexivity|exact IH|split; [reflexivity|discriminate]]. Qed.
Lemma split_ne f s : split_on f s <> [].
Proof. destruct s as [|c s]; cbn; [discriminate|]. destruct (f c); [discriminate|]. destruct (split_on f s); discriminate. Qed.
Lemma apart_of d s : apart d s (skip_empty (pieces d s)).
Proof.
  assert (G : forall n s, (length s <= n)%nat -> apart d s (skip_empty (pieces d s))).
  { clear s. induction n as [|n IH]; intros s L.
    { destruct s; [constructor|cbn in L; lia]. }
    assert (Q : (forall c, In c s -> Ascii.eqb c d = false) \/ exists w t, s = w ++ d :: t /\ forall c, In c w -> Ascii.eqb c d = false).
    { clear L. induction s as [|c s IHs]; [left; intros ? []|]. destruct (Ascii.eqb c d) eqn:E.
      - right. apply Ascii.eqb_eq in E. subst c. exists [], s. split; [reflexivity|intros ? []].
      - destruct IHs as [H|(w & t & -> & H)].
        + left. intros x [<-|I]; auto.
        + right. exists (c :: w), t. split; [reflexivity|]. intros x [<-|I]; auto. }
    destruct Q as [H|(w & t & -> & H)].
    - rewrite split_none by exact H. destruct s as [|c s]; [constructor|]. cbn [skip_empty filter].
      replace (c :: s) with ((c :: s) ++ []) at 1 by apply app_nil_r. constructor; [discriminate| |left; reflexivity|constructor].
      intros I. specialize (H d I). rewrite Ascii.eqb_refl in H. discriminate.
    - rewrite split_app by (auto; apply Ascii.eqb_refl).
      assert (T : apart d (d :: t) (skip_empty (pieces d t))) by (constructor; apply IH; rewrite app_length in L; cbn in L; lia).
      destruct w as [|c w]; [exact T|]. cbn [skip_empty filter]. constructor; [discriminate| |right; eexists; reflexivity|exact T].
      intros I. specialize (H d I). rewrite Ascii.eqb_refl in H. discriminate. }
  apply (G (length s)). lia.
Qed.
Lemma apart_is d s ws : apart d s ws -> skip_empty (pieces d s) = ws.
Proof.
  induction 1 as [|s ws A IH|w s ws W I S A IH]; [reflexivity| |].
  - cbn [split_on]. rewrite Ascii.eqb_refl. exact IH.
  - assert (F : forall c, In c w -> Ascii.eqb c d = false) by (intros c Ic; apply eqb_false; intros ->; contradiction).
    destruct S as [->|[s' ->]].
    + rewrite app_nil_r, split_none by exact F. cbn in IH. subst ws. destruct w; [congruence|reflexivity].
    + rewrite split_app by (auto; apply Ascii.eqb_refl). cbn [split_on] in IH. rewrite Ascii.eqb_refl in IH. cbn [skip_empty filter] in *.
      destruct w; [congruence|]. rewrite <- IH. reflexivity.
Qed.
Lemma apart_iff d s ws : apart d s ws <-> skip_empty (pieces d s) = ws.
Proof. split; [apply apart_is|intros <-; apply apart_of]. Qed.

Lemma next_number_words ft ws : next_number ft ws = match skip_empty ws with
  | [] => Err ParseError
  | w :: r => match fparse ft w with Some x => match skip_next ws with Some (_, r) => Ok (x, r) | None => Err ParseError end | None => Err ParseError end
  end.
Proof.
  unfold next_number. pose proof (skip_next_filter ws) as S. destruct (skip_next ws) as [[w r]|]; [destruct S as [-> _]; reflexivity|rewrite S; reflexivity].
Qed.
(** The parsers as functions of the words. *)
Definition of_words3 {A} (E : pos3 F64 A) (ft : FText) (ws : list bytes) : res A :=
  match ws with
  | [a; b; c] => match fparse ft a, fparse ft b, fparse ft c with Some x, Some y, Some z => Ok (new3 E x y z) | _, _, _ => Err ParseError end
  | _ => Err ParseError
  end.
Definition of_words2 {A} (E : pos2 F64 A) (ft : FText) (ws : list bytes) : res A :=
  match ws with
  | [a; b] => match fparse ft a, fparse ft b with Some x, Some y => Ok (new2 E x y) | _, _ => Err ParseError end
  | _ => Err ParseError
  end.
Lemma parse3_words {A} (E : pos3 F64 A) ft s : parse3 E ft s = of_words3 E ft (skip_empty (pieces space s)).
Proof.
  unfold parse3. set (ws := pieces space s). clearbody ws. unfold next_number. pose proof (skip_next_filter ws) as S1.
  destruct (skip_next ws) as [[a r]|]; [|rewrite S1; reflexivity]. destruct S1 as [-> _].
  destruct (fparse ft a) as [x|] eqn:Fa; cbn [obind]; [|destruct (skip_empty r) as [|? [|? [|]]]; cbn; rewrite ?Fa; reflexivity].
  pose proof (skip_next_filter r) as S2. destruct (skip_next r) as [[b r2]|]; [|rewrite S2; reflexivity]. destruct S2 as [-> _].
  destruct (fparse ft b) as [y|] eqn:Fb; cbn [obind]; [|destruct (skip_empty r2) as [|? [|]]; cbn; rewrite ?Fa, ?Fb; reflexivity].
  pose proof (skip_next_filter r2) as S3. destruct (skip_next r2) as [[c r3]|]; [|rewrite S3; reflexivity]. destruct S3 as [-> _].
  destruct (fparse ft c) as [z|] eqn:Fc; cbn [obind]; [|destruct (skip_empty r3) as [|? ?]; cbn; rewrite ?Fa, ?Fb, ?Fc; reflexivity].
  pose proof (skip_next_filter r3) as S4. destruct (skip_next r3) as [[d r4]|].
  - destruct S4 as [-> _]. reflexivity.
  - rewrite S4. cbn. rewrite Fa, Fb, Fc. reflexivity.
Qed.
Lemma parse2_words {A} (E : pos2 F64 A) ft s : parse2 E ft s = of_words2 E ft (skip_empty (pieces space s)).
Proof.
  unfold parse2. set (ws := pieces space s). clearbody ws. unfold next_number. pose proof (skip_next_filter ws) as S1.
  destruct (skip_next ws) as [[a r]|]; [|rewrite S1; reflexivity]. destruct S1 as [-> _].
  destruct (fparse ft a) as [x|] eqn:Fa; cbn [obind]; [|destruct (skip_empty r) as [|? [|]]; cbn; rewrite ?Fa; reflexivity].
  pose proof (skip_next_filter r) as S2. destruct (skip_next r) as [[b r2]|]; [|rewrite S2; reflexivity]. destruct S2 as [-> _].
  destruct (fparse ft b) as [y|] eqn:Fb; cbn [obind]; [|destruct (skip_empty r2) as [|? ?]; cbn; rewrite ?Fa, ?Fb; reflexivity].
  pose proof (skip_next_filter r2) as S3. destruct (skip_next r2) as [[c r3]|].
  - destruct S3 as [-> _]. reflexivity.
  - rewrite S3. cbn. rewrite Fa, Fb. reflexivity.
Qed.

Lemma cloud_to_str_app {A} (f : A -> bytes) ps : forall acc, fold_left (fun result p => result ++ f p ++ [nl]) ps acc = acc ++ unlines (map f ps).
Proof. induction ps as [|p ps IH]; intros acc; cbn; [symmetry; apply app_nil_r|]. rewrite IH. unfold unlines. rewrite <- !app_assoc. reflexivity. Qed.
Lemma cloud_lines_skip {A} (parse : bytes -> res A) ls : forall pc, cloud_lines parse ls pc = cloud_lines parse (skip_empty ls) pc.
Proof.
  induction ls as [|[|c l] ls IH]; intros pc; cbn [cloud_lines skip_empty filter]; [reflexivity|apply IH|]. destruct (parse (c :: l)); cbn; auto.
Qed.
Lemma cloud_lines_ok {A} (parse : bytes -> res A) : forall ls pc ps, (forall l, In l ls -> l <> []) ->
  cloud_lines parse ls pc = Ok ps <-> exists qs, ps = pc ++ qs /\ Forall2 (fun l p => parse l = Ok p) ls qs.
Proof.
  induction ls as [|l ls IH]; intros pc ps NE.
  - cbn. split; [intros H; injection H as <-; exists []; split; [symmetry; apply app_nil_r|constructor]|].
    intros (qs & -> & F). inversion F. rewrite app_nil_r. reflexivity.
  - assert (L : l <> []) by (apply NE; left; reflexivity). destruct l as [|c l]; [congruence|]. cbn [cloud_lines].
    destruct (parse (c :: l)) as [p|e|] eqn:P; cbn [obind].
    + rewrite IH by (intros; apply NE; right; assumption). split.
      * intros (qs & -> & F). exists (p :: qs). split; [rewrite <- app_assoc; reflexivity|constructor; assumption].
      * intros (qs & -> & F). inversion F as [|? q ? qs' P' F']; subst. exists qs'. rewrite P in P'. injection P' as <-.
        split; [rewrite <- app_assoc; reflexivity|assumption].
    + split; [discriminate|]. intros (qs & _ & F). inversion F; congruence.
    + split; [discriminate|]. intros (qs & _ & F). inversion F; congruence.
Qed.
Lemma apart_words d s ws : apart d s ws -> forall w, In w ws -> w <> [].
Proof. induction 1 as [|s ws A IH|w s ws W I S A IH]; intros x Ix; [contradiction|auto|]. destruct Ix as [<-|Ix]; auto. Qed.
Lemma cloud_parse_ok {A} (parse : bytes -> res A) s ps :
  cloud_parse parse s = Ok ps <-> ps <> [] /\ exists ls, apart nl s ls /\ Forall2 (fun l p => parse l = Ok p) ls ps.
Proof.
  unfold cloud_parse. rewrite cloud_lines_skip. pose proof (apart_of nl s) as AP.
  assert (NE := apart_words _ _ _ AP). set (ls := skip_empty (pieces nl s)) in *.
  assert (Q := cloud_lines_ok parse ls []). split.
  - intros H. destruct (cloud_lines parse ls []) as [pc|e|] eqn:C; try discriminate. cbn [obind] in H. destruct pc as [|p pc]; [discriminate|]. injection H as <-.
    split; [discriminate|]. destruct (proj1 (Q _ NE) eq_refl) as (qs & E & F). cbn in E. subst qs. exists ls. split; assumption.
  - intros (N & ls' & A' & F). apply apart_is in A'. fold ls in A'. subst ls'. rewrite (proj2 (Q ps NE)) by (exists ps; split; [reflexivity|assumption]).
    cbn [obind]. destruct ps; [congruence|reflexivity].
Qed.
Lemma cloud_parse_err {A} (parse : bytes -> res A) s : (forall l, parse l = Err ParseError \/ exists p, parse l = Ok p) ->
  cloud_parse parse s = Err ParseError \/ exists ps, cloud_parse parse s = Ok ps.
Proof.
  intros H. unfold cloud_parse. assert (G : forall ls pc, cloud_lines parse ls pc = Err ParseError \/ exists ps, cloud_lines parse ls pc = Ok ps).
  { induction ls as [|[|c l] ls IH]; intros pc; cbn [cloud_lines]; [eauto|auto|]. destruct (H (c :: l)) as [->|[p ->]]; cbn [obind]; auto. }
  destruct (G (pieces nl s) []) as [->|[ps ->]]; cbn [obind]; [auto|]. destruct ps; eauto.
Qed.
Lemma apart_join d s t ws vs : apart d s ws -> apart d t vs -> apart d (s ++ d :: t) (ws ++ vs).
Proof.
  intros A B. induction A as [|s ws A IH|w s ws W I S A IH].
  - constructor. exact B.
  - cbn [app]. constructor. exact IH.
  - rewrite <- app_assoc. cbn [app]. constructor; auto. destruct S as [->|[s' ->]]; right; eexists; reflexivity.
Qed.
Lemma forall2_app {A B} (R : A -> B -> Prop) l1 l2 m1 m2 : Forall2 R l1 m1 -> Forall2 R l2 m2 -> Forall2 R (l1 ++ l2) (m1 ++ m2).
Proof. induction 1; intros; cbn; [assumption|constructor; auto]. Qed.
Lemma apart_lines ls : Forall (fun l => l <> [] /\ is_line l) ls -> apart nl (unlines ls) ls.
Proof.
  induction 1 as [|l ls [L I] F IH]; [constructor|]. cbn. rewrite <- app_assoc. constructor; [exact L|exact I|right; eexists; reflexivity|].
  cbn [app]. constructor. exact IH.
Qed.
Lemma apart_three d a b c : a <> [] -> b <> [] -> c <> [] -> ~ In d a -> ~ In d b -> ~ In d c -> apart d (a ++ [d] ++ b ++ [d] ++ c) [a; b; c].
Proof.
  intros A B C A' B' C'. constructor; auto; [right; eexists; reflexivity|]. cbn [app]. constructor. constructor; auto; [right; eexists; reflexivity|]. constructor.
  rewrite <- (app_nil_r c) at 1. constructor; auto. constructor.
Qed.
Lemma apart_two d a b : a <> [] -> b <> [] -> ~ In d a -> ~ In d b -> apart d (a ++ [d] ++ b) [a; b].
Proof.
  intros A B A' B'. constructor; auto; [right; eexists; reflexivity|]. cbn [app]. constructor. rewrite <- (app_nil_r b) at 1. constructor; auto. constructor.
Qed.
Lemma print_word ft x : ft_ok ft -> fprint ft x <> [] /\ ~ In space (fprint ft x) /\ ~ In nl (fprint ft x) /\ ~ In cr (fprint ft x).
Proof.
  intros F. destruct (print_chars ft F x) as [C N]. split; [exact N|]. rewrite Forall_forall in C.
  split; [|split]; intros I; specialize (C _ I); unfold number_char in C; cbn in C; repeat (destruct C as [C|C]; [discriminate|]); contradiction.
Qed.
