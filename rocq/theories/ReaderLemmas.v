From Verif Require Import Base BaseLemmas Num MatrixModel IoModel IoSpec IoLemmas ByteModel MeshModel StlModel PlyModel ScanModel ScannerModel ReaderModel ReaderSpec.
From Coq Require Import Lia Wf_nat.

(** ** What a reader holds *)
Inductive holds (tail : reader) : reader -> bytes -> Prop :=
| holds_end : holds tail tail []
| holds_int r b : holds tail r b -> holds tail (Interrupted :: r) b
| holds_chunk c r b : c <> [] -> holds tail r b -> holds tail (Chunk c :: r) (c ++ b).
Lemma holds_steady tail r : steady r -> holds tail (r ++ tail) (sent r).
Proof.
  intros S. induction S as [|e r He S IH]; [constructor|]. destruct e as [c| |]; cbn [app sent flat_map].
  - constructor; assumption.
  - constructor. exact IH.
  - contradiction.
Qed.
Lemma holds_put tail c r b : holds tail r b -> holds tail (put_back c r) (c ++ b).
Proof. intros H. destruct c; [exact H|]. constructor; [discriminate|exact H]. Qed.

(** ** Lines *)
Lemma until_nl_some c : forall l rest, until_nl c = Some (l, rest) -> c = l ++ rest /\ forall b, read_until (c ++ b) = (l, rest ++ b).
Proof.
  induction c as [|a c IH]; intros l rest E; [discriminate|]. cbn [until_nl] in E. cbn [app read_until]. destruct (Ascii.eqb a nl) eqn:Q.
  - injection E as <- <-. split; [reflexivity|]. intros b. reflexivity.
  - destruct (until_nl c) as [[l0 r0]|] eqn:U; [|discriminate]. injection E as <- <-. destruct (IH l0 r0 eq_refl) as (-> & R). split; [reflexivity|].
    intros b. rewrite R. reflexivity.
Qed.
Lemma until_nl_none c : until_nl c = None -> ~ In nl c /\ forall b, read_until (c ++ b) = let (l, t) := read_until b in (c ++ l, t).
Proof.
  induction c as [|a c IH]; intros E; [split; [intros []|intros b; cbn; destruct (read_until b); reflexivity]|]. cbn [until_nl] in E. cbn [app read_until]. destruct (Ascii.eqb a nl) eqn:Q; [discriminate|].
  destruct (until_nl c) as [[l0 r0]|]; [discriminate|]. destruct (IH eq_refl) as (N & R). split.
  - intros [->|I]; [|exact (N I)]. rewrite Ascii.eqb_refl in Q. discriminate.
  - intros b. rewrite R. destruct (read_until b); reflexivity.
Qed.
Lemma until_nl_in c l rest : until_nl c = Some (l, rest) -> In nl c /\ In nl l.
Proof.
  revert l rest. induction c as [|a c IH]; intros l rest E; [discriminate|]. cbn [until_nl] in E. destruct (Ascii.eqb a nl) eqn:Q.
  - injection E as <- <-. apply Ascii.eqb_eq in Q as ->. split; left; reflexivity.
  - destruct (until_nl c) as [[l0 r0]|] eqn:U; [|discriminate]. injection E as <- <-. destruct (IH l0 r0 eq_refl). split; right; assumption.
Qed.
Lemma read_until_line tail r b : holds tail r b -> In nl b -> forall acc, exists r', read_until_from acc r = (Some (acc ++ fst (read_until b)), r') /\ holds tail r' (snd (read_until b)).
Proof.
  induction 1 as [|r b H IH|c r b NE H IH]; intros I acc; [destruct I| |].
  - cbn [read_until_from]. apply IH. exact I.
  - cbn [read_until_from]. destruct c as [|c0 c]; [congruence|]. destruct (until_nl (c0 :: c)) as [[l rest]|] eqn:U.
    + destruct (until_nl_some _ _ _ U) as (_ & R). rewrite (R b). cbn [fst snd]. eexists. split; [reflexivity|]. apply holds_put. exact H.
    + destruct (until_nl_none _ U) as (N & R). rewrite (R b). apply in_app_or in I as [I|I]; [contradiction|]. destruct (IH I (acc ++ c0 :: c)) as (r' & E & H').
      destruct (read_until b) as [l t]. cbn [fst snd] in *. exists r'. split; [rewrite E, <- app_assoc; reflexivity|exact H'].
Qed.
Lemma read_until_torn tail r b : holds tail r b -> ~ In nl b -> forall acc,
  read_until_from acc r = read_until_from (acc ++ b) tail.
Proof.
  induction 1 as [|r b H IH|c r b NE H IH]; intros N acc; [rewrite app_nil_r; reflexivity| |].
  - cbn [read_until_from]. apply IH. exact N.
  - cbn [read_until_from]. destruct c as [|c0 c]; [congruence|]. destruct (until_nl (c0 :: c)) as [[l rest]|] eqn:U.
    + exfalso. apply N. apply in_or_app. left. exact (proj1 (until_nl_in _ _ _ U)).
    + rewrite IH by (intros I; apply N; apply in_or_app; right; exact I). rewrite <- app_assoc. reflexivity.
Qed.

(** ** Readers as lists of lines *)
Inductive offers (P : reader -> Prop) : reader -> list bytes -> Prop :=
| offers_nil r r' o : read_until_from [] r = (o, r') -> o = None \/ o = Some [] -> P r' -> offers P r []
| offers_cons r raw r' ls : read_until_from [] r = (Some raw, r') -> raw <> [] -> offers P r' ls -> offers P r (raw :: ls).
Lemma offers_fetch P r ls : offers P r ls -> match ls with
  | [] => exists r', fetch_from r = (None, r') /\ P r'
  | raw :: ls => exists r', fetch_from r = (Some (trim_line raw), r') /\ offers P r' ls
  end.
Proof.
  destruct 1 as [r r' o E [-> | ->] HP|r raw r' ls E NE O]; unfold fetch_from; rewrite E; eauto.
  destruct raw; [congruence|]. eauto.
Qed.
Lemma raw_lines_eq b : b <> [] -> raw_lines b = fst (read_until b) :: raw_lines (snd (read_until b)).
Proof.
  induction b as [|c b IH]; intros NE; [congruence|]. cbn [raw_lines read_until]. destruct (Ascii.eqb c nl); [reflexivity|].
  destruct b as [|c' b]; [reflexivity|]. rewrite IH by discriminate. destruct (read_until (c' :: b)); reflexivity.
Qed.
Lemma read_until_split b : b = fst (read_until b) ++ snd (read_until b).
Proof. induction b as [|c b IH]; [reflexivity|]. cbn [read_until]. destruct (Ascii.eqb c nl); [reflexivity|]. destruct (read_until b); cbn in *. congruence. Qed.
Lemma read_until_ne b : b <> [] -> fst (read_until b) <> [].
Proof. destruct b as [|c b]; [congruence|]. intros _. cbn [read_until]. destruct (Ascii.eqb c nl); [discriminate|]. destruct (read_until b); discriminate. Qed.
Lemma read_until_nl_app b t : In nl b -> read_until (b ++ t) = (fst (read_until b), snd (read_until b) ++ t).
Proof.
  induction b as [|c b IH]; intros I; [destruct I|]. cbn [app read_until]. destruct (Ascii.eqb c nl) eqn:Q; [reflexivity|].
  destruct I as [->|I]; [rewrite Ascii.eqb_refl in Q; discriminate|]. rewrite (IH I). destruct (read_until b); reflexivity.
Qed.
Lemma read_until_no b : ~ In nl b -> read_until b = (b, []).
Proof.
  induction b as [|c b IH]; intros N; [reflexivity|]. cbn [read_until]. rewrite (eqb_false c nl) by (intros ->; apply N; left; reflexivity).
  rewrite IH by (intros I; apply N; right; exact I). reflexivity.
Qed.
Lemma short b : b <> [] -> (length (snd (read_until b)) < length b)%nat.
Proof. intros NE. pose proof (read_until_ne b NE). pose proof (f_equal (@length ascii) (read_until_split b)) as L. rewrite app_length in L. destruct (fst (read_until b)); [congruence|]. cbn in L. lia. Qed.
Lemma steady_offers_aux n : forall b r, (length b <= n)%nat -> holds [] r b -> offers (fun r => r = []) r (raw_lines b).
Proof.
  induction n as [n IH] using lt_wf_ind. intros b r L H. destruct b as [|c b'].
  - apply (offers_nil _ r [] (Some [])); [|right; reflexivity|reflexivity]. rewrite (read_until_torn _ _ _ H) by (intros []). reflexivity.
  - set (b := c :: b') in *. assert (NE : b <> []) by discriminate. rewrite (raw_lines_eq b NE). destruct (in_dec Ascii.ascii_dec nl b) as [I|N].
    + destruct (read_until_line _ _ _ H I []) as (r' & E & H'). pose proof (short b NE). apply (offers_cons _ r _ r'); [exact E|apply read_until_ne; exact NE|].
      apply (IH (length (snd (read_until b)))); [lia|lia|exact H'].
    + rewrite (read_until_no b N). cbn [fst snd raw_lines]. apply (offers_cons _ r b []); [rewrite (read_until_torn _ _ _ H N); reflexivity|exact NE|].
      apply (offers_nil _ [] [] (Some [])); [reflexivity|right; reflexivity|reflexivity].
Qed.
Lemma steady_offers r : steady r -> offers (fun r => r = []) r (raw_lines (sent r)).
Proof. intros S. apply (steady_offers_aux (length (sent r))); [lia|]. rewrite <- (app_nil_r r) at 1. apply holds_steady. exact S. Qed.
Lemma broken_offers_aux (P : reader -> Prop) r2 torn n : P r2 -> ~ In nl torn -> forall w r, (length w <= n)%nat -> (w = [] \/ exists w', w = w' ++ [nl]) -> holds (Failure :: r2) r (w ++ torn) -> offers P r (raw_lines w).
Proof.
  intros HP N. induction n as [n IH] using lt_wf_ind. intros w r L W H. destruct w as [|c w'].
  - apply (offers_nil _ r r2 None); [|left; reflexivity|exact HP]. rewrite (read_until_torn _ _ _ H N). reflexivity.
  - set (b := c :: w') in *. assert (NE : b <> []) by discriminate. rewrite (raw_lines_eq b NE).
    assert (I : In nl b). { destruct W as [W|(w & ->)]; [congruence|]. apply in_or_app. right. left. reflexivity. }
    destruct (read_until_line _ _ _ H (in_or_app _ _ _ (or_introl I)) []) as (r' & E & H'). rewrite (read_until_nl_app b torn I) in E, H'. cbn [fst snd app] in *.
    pose proof (short b NE). apply (offers_cons _ r _ r'); [exact E|apply read_until_ne; exact NE|].
    apply (IH (length (snd (read_until b)))); [lia|lia| |exact H'].
    destruct W as [W|(w & W)]; [congruence|]. pose proof (read_until_split b) as SP. destruct (snd (read_until b)) as [|x y] eqn:Q; [left; reflexivity|]. right.
    assert (X : x :: y <> []) by discriminate. destruct (exists_last X) as (q & z & EQ). exists q. rewrite EQ in *. rewrite W, app_assoc in SP. apply app_inj_tail in SP as [_ <-]. reflexivity.
Qed.
Lemma broken_offers (P : reader -> Prop) b whole r1 r2 : steady r1 -> sent r1 = b -> whole_lines b whole -> P r2 -> offers P (r1 ++ Failure :: r2) (raw_lines whole).
Proof.
  intros S E (torn & -> & N & W) HP. apply (broken_offers_aux P r2 torn (length whole) HP N whole); [lia|exact W|]. rewrite <- E. apply holds_steady. exact S.
Qed.
(** the loops do not run out of steps *)
Definition weight (r : reader) : nat := fold_right (fun e n => match e with Chunk b => length b + n | _ => n end)%nat 0%nat r.
Lemma weight_put c r : weight (put_back c r) = (length c + weight r)%nat. Proof. destruct c; reflexivity. Qed.
Lemma read_until_weight r : forall acc l r', read_until_from acc r = (Some l, r') -> (weight r' + length l <= weight r + length acc)%nat.
Proof.
  induction r as [|e r IH]; intros acc l r' E.
  - cbn in E. injection E as <- <-. cbn. lia.
  - destruct e as [c| |]; cbn [read_until_from] in E.
    + destruct c as [|c0 c]; [injection E as <- <-; change (weight (Chunk [] :: r)) with (weight r); lia|]. destruct (until_nl (c0 :: c)) as [[l0 rest]|] eqn:U.
      * injection E as <- <-. rewrite weight_put, app_length. destruct (until_nl_some _ _ _ U) as (EQ & _). apply (f_equal (@length ascii)) in EQ. rewrite app_length in EQ. change (weight (Chunk (c0 :: c) :: r)) with (length (c0 :: c) + weight r)%nat. lia.
      * apply IH in E. rewrite app_length in E. change (weight (Chunk (c0 :: c) :: r)) with (length (c0 :: c) + weight r)%nat. lia.
    + apply IH in E. exact E.
    + discriminate.
Qed.
Lemma offers_length P r ls : offers P r ls -> (length ls < calls_left r)%nat.
Proof.
  induction 1 as [r r' o _ _ _|r raw r' ls E NE O IH]; [unfold calls_left; cbn; lia|]. apply read_until_weight in E. change (calls_left r) with (S (weight r)). change (calls_left r') with (S (weight r')) in IH.
  destruct raw; [congruence|]. cbn in *. lia.
Qed.

(** ** Loops *)
Lemma load_loop_sim {S1 S2 E A} (R : S1 -> S2 -> Prop) (next1 : S1 -> option (outcome E A) * S1) (next2 : S2 -> option (outcome E A) * S2) :
  (forall s1 s2, R s1 s2 -> fst (next1 s1) = fst (next2 s2) /\ (forall a, fst (next1 s1) = Some (Ok a) -> R (snd (next1 s1)) (snd (next2 s2)))) ->
  forall k s1 s2 acc, R s1 s2 -> load_loop next1 k s1 acc = load_loop next2 k s2 acc.
Proof.
  intros H. induction k as [|k IH]; intros s1 s2 acc HR; [reflexivity|]. cbn [load_loop]. destruct (H s1 s2 HR) as (EQ & N). destruct (next1 s1) as [o1 t1], (next2 s2) as [o2 t2]. cbn [fst snd] in *. subst o2.
  destruct o1 as [[a|e|]|]; try reflexivity. apply IH. apply (N a). reflexivity.
Qed.
Lemma fold_loop_sim {S1 S2 E A M} (R : S1 -> S2 -> Prop) (next1 : S1 -> option (outcome E A) * S1) (next2 : S2 -> option (outcome E A) * S2) (body : M -> A -> M * outcome E unit) :
  (forall s1 s2, R s1 s2 -> fst (next1 s1) = fst (next2 s2) /\ (forall a, fst (next1 s1) = Some (Ok a) -> R (snd (next1 s1)) (snd (next2 s2)))) ->
  forall k s1 s2 m, R s1 s2 -> fold_loop next1 body k s1 m = fold_loop next2 body k s2 m.
Proof.
  intros H. induction k as [|k IH]; intros s1 s2 m HR; [reflexivity|]. cbn [fold_loop]. destruct (H s1 s2 HR) as (EQ & N). destruct (next1 s1) as [o1 t1], (next2 s2) as [o2 t2]. cbn [fst snd] in *. subst o2.
  destruct o1 as [[a|e|]|]; try reflexivity. destruct (body m a) as [m' [u|e|]]; try reflexivity. apply IH. apply (N a). reflexivity.
Qed.

(** ** xy and xyz *)
Section Lines.
Variable P : reader -> Prop.
Inductive xy_sim : xy_reader -> xy_state -> Prop :=
| xy_sim_intro r ls d i o : offers P r ls -> xy_sim (mkxyr r d i o) (mkxy ls d i o).
Lemma xy_next_sim {A} minimum (point : ascii -> bytes -> outcome XyError A) s1 s2 : xy_sim s1 s2 ->
  fst (xy_next_from minimum point s1) = fst (xy_next minimum point s2) /\ (forall a, fst (xy_next_from minimum point s1) = Some (Ok a) -> xy_sim (snd (xy_next_from minimum point s1)) (snd (xy_next minimum point s2))).
Proof.
  destruct 1 as [r ls d i o O]. unfold xy_next_from, xy_next. cbn [xyr_read xyr_done xyr_line xyr_delim xy_read xy_done xy_line xy_delim].
  destruct d; [split; [reflexivity|discriminate]|]. apply offers_fetch in O. destruct ls as [|raw ls]; destruct O as (r' & -> & O); cbn [next_line]; [split; [reflexivity|discriminate]|].
  destruct (xy_delimiter minimum o (trim_line raw)) as [dl|e|]; cbn [fst snd]; try (split; [reflexivity|discriminate]).
  destruct (point dl (trim_line raw)) as [p|e|]; cbn [fst snd at_line]; split; try reflexivity; try discriminate. intros a _. constructor. exact O.
Qed.
Lemma xy_load_sim {A} minimum (point : ascii -> bytes -> outcome XyError A) k r ls : offers P r ls ->
  load_loop (xy_next_from minimum point) k (mkxyr r false 0 None) [] = load_loop (xy_next minimum point) k (mkxy ls false 0 None) [].
Proof. intros O. apply (load_loop_sim xy_sim); [apply xy_next_sim|constructor; exact O]. Qed.

(** ** obj, off, pts and gcode *)
Inductive line_sim {S} : line_reader S -> line_state S -> Prop :=
| line_sim_intro r ls d i s : offers P r ls -> line_sim (mklr r d i s) (mkls ls d i s).
Lemma line_loop_sim {S E A} (step : S -> bytes -> line_step S E A) ls : forall n r i s, offers P r ls -> (length ls < n)%nat ->
  fst (line_loop_from step n r i s) = fst (line_loop step ls i s) /\ (forall a, fst (line_loop_from step n r i s) = Some (Ok a) -> line_sim (snd (line_loop_from step n r i s)) (snd (line_loop step ls i s))).
Proof.
  induction ls as [|raw ls IH]; intros n r i s O L; (destruct n as [|n]; [cbn in L; lia|]); cbn [line_loop_from line_loop]; apply offers_fetch in O; destruct O as (r' & -> & O).
  - split; [reflexivity|discriminate].
  - destruct (step s (trim_line raw)) as [s'|o s'|s']; [apply IH; [exact O|cbn in L; lia]| |split; [reflexivity|discriminate]].
    cbn [fst snd]. split; [reflexivity|]. intros a _. constructor. exact O.
Qed.
Lemma line_next_sim {S E A} (step : S -> bytes -> line_step S E A) s1 s2 : line_sim s1 s2 ->
  fst (line_next_from step s1) = fst (line_next step s2) /\ (forall a, fst (line_next_from step s1) = Some (Ok a) -> line_sim (snd (line_next_from step s1)) (snd (line_next step s2))).
Proof.
  destruct 1 as [r ls d i s O]. unfold line_next_from, line_next. cbn [lr_read lr_done lr_line lr_own ls_read ls_done ls_line ls_own].
  destruct d; [split; [reflexivity|discriminate]|]. apply line_loop_sim; [exact O|]. exact (offers_length _ _ _ O).
Qed.
Lemma line_load_sim {S E A} (step : S -> bytes -> line_step S E A) k r ls s : offers P r ls ->
  load_loop (line_next_from step) k (mklr r false 0 s) [] = load_loop (line_next step) k (mkls ls false 0 s) [].
Proof. intros O. apply (load_loop_sim line_sim); [apply line_next_sim|constructor; exact O]. Qed.
Lemma line_fold_sim {S E A M} (step : S -> bytes -> line_step S E A) (body : M -> A -> M * outcome (with_line E) unit) k r ls s m : offers P r ls ->
  fold_loop (line_next_from step) body k (mklr r false 0 s) m = fold_loop (line_next step) body k (mkls ls false 0 s) m.
Proof. intros O. apply (fold_loop_sim line_sim); [apply line_next_sim|constructor; exact O]. Qed.

(** ** ptx *)
Definition lsim {E A} (o1 : outcome E (A * reader)) (o2 : outcome E (A * list bytes)) : Prop :=
  match o1, o2 with
  | Ok (a, r), Ok (b, ls) => a = b /\ offers P r ls
  | Err e, Err f => e = f
  | Panic, Panic => True
  | _, _ => False
  end.
Lemma ptx_fetch_sim i r ls : offers P r ls -> lsim (ptx_fetch_from i r) (ptx_fetch i ls).
Proof. intros O. apply offers_fetch in O. unfold ptx_fetch_from, ptx_fetch. destruct ls as [|raw ls]; destruct O as (r' & -> & O); cbn; auto. Qed.
Lemma ptx_matrix_sim ft i r ls : offers P r ls -> lsim (ptx_matrix_line_from ft i r) (ptx_matrix_line ft i ls).
Proof.
  intros O. unfold ptx_matrix_line_from, ptx_matrix_line. pose proof (ptx_fetch_sim i r ls O) as S. destruct (ptx_fetch_from i r) as [[l1 r1]|e|], (ptx_fetch i ls) as [[l2 ls2]|e'|]; cbn in S; try contradiction; cbn [obind].
  - destruct S as [-> S]. destruct (at_line (i + 1) l2 (ptx_row ft l2)); cbn; auto.
  - exact S.
  - exact I.
Qed.
Inductive ptx_sim : ptx_reader -> ptx_state -> Prop :=
| ptx_sim_intro r ls d i todo must m : offers P r ls -> ptx_sim (mkptxr r d i todo must m) (mkptx ls d i todo must m).
Definition osim {E S1 S2} (R : S1 -> S2 -> Prop) (o1 : outcome E S1) (o2 : outcome E S2) : Prop :=
  match o1, o2 with Ok a, Ok b => R a b | Err e, Err f => e = f | Panic, Panic => True | _, _ => False end.
Ltac fstep L := match goal with |- osim _ (obind ?x _) (obind ?y _) =>
  let S := fresh "S" in assert (S : lsim x y) by (apply L; assumption);
  destruct x as [[? ?]|?|], y as [[? ?]|?|]; cbn in S; try contradiction; cbn [obind]; [destruct S as [-> S]|exact S|exact I] end.
Lemma ptx_header_sim ft c i r ls : offers P r ls -> osim ptx_sim (ptx_header_from ft c i r) (ptx_header ft c i ls).
Proof.
  intros O. unfold ptx_header_from, ptx_header. fstep ptx_fetch_sim. destruct (at_line _ _ (ok_or (usize_of _) PtxRows)) as [rows|e|]; cbn [obind]; [|reflexivity|exact I].
  do 4 fstep ptx_fetch_sim. do 4 (fstep ptx_matrix_sim; repeat match goal with p : (_ * _)%type |- _ => destruct p end).
  cbn. constructor. assumption.
Qed.
Lemma ptx_next_sim ft s1 s2 : ptx_sim s1 s2 -> fst (ptx_next_from ft s1) = fst (ptx_next ft s2) /\ (forall a, fst (ptx_next_from ft s1) = Some (Ok a) -> ptx_sim (snd (ptx_next_from ft s1)) (snd (ptx_next ft s2))).
Proof.
  destruct 1 as [r ls d i todo must m O]. unfold ptx_next_from, ptx_next. destruct d; [split; [reflexivity|discriminate]|]. destruct (todo =? 0)%N.
  - apply offers_fetch in O. destruct ls as [|raw ls]; destruct O as (r' & -> & O); cbn [next_line]; [split; [reflexivity|discriminate]|].
    destruct (usize_of (trim_line raw)) as [c|]; cbn [obind]; [|split; [reflexivity|discriminate]]. pose proof (ptx_header_sim ft c (i + 1) r' ls O) as S.
    destruct (ptx_header_from ft c (i + 1) r') as [t1|e|], (ptx_header ft c (i + 1) ls) as [t2|e'|]; cbn in S; try contradiction; cbn [fst snd]; subst; try (split; [reflexivity|discriminate]).
    split; [destruct S; reflexivity|]. intros a _. exact S.
  - pose proof (ptx_fetch_sim i r ls O) as S. destruct (ptx_fetch_from i r) as [[l1 r1]|e|], (ptx_fetch i ls) as [[l2 ls2]|e'|]; cbn in S; try contradiction; cbn [fst snd]; subst; try (split; [reflexivity|discriminate]).
    destruct S as [-> S]. split; [reflexivity|]. intros a _. constructor. exact S.
Qed.
Lemma ptx_load_sim ft k r ls : offers P r ls -> load_ptx_from ft k r = fold_loop (ptx_next ft) push_data k (mkptx ls false 0 0 false m4_identity) [].
Proof. intros O. apply (fold_loop_sim ptx_sim); [apply ptx_next_sim|constructor; exact O]. Qed.
End Lines.
