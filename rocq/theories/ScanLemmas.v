(** Proofs about the line based formats: words, running over lines. *)
From Verif Require Import Base BaseLemmas Num GeomSpec VecModel MeshModel MeshSpec MeshLemmas MatrixLemmas IoModel IoSpec IoLemmas PlyModel PlySpec PlyLemmas PlyTotalLemmas ScanModel ScanSpec.
From Coq Require Import Lia ZifyBool ZifyNat ZifyN.
Local Open Scope nat_scope.

(** ** words *)
Section Words.
Context (sep : ascii -> Prop) (f : ascii -> bool) (SF : forall c, sep c <-> f c = true).
Definition wordsof (l : bytes) : list bytes := skip_empty (split_on f l).
Lemma not_sep c : ~ sep c <-> f c = false.
Proof. rewrite SF. destruct (f c); split; congruence. Qed.
Lemma split_ne l : split_on f l <> [].
Proof. destruct l as [|c r]; [discriminate|]. cbn [split_on]. destruct (f c); [discriminate|]. destruct (split_on f r); discriminate. Qed.
Lemma words_sep c l : sep c -> wordsof (c :: l) = wordsof l.
Proof. intros S. apply SF in S. unfold wordsof. cbn [split_on]. rewrite S. reflexivity. Qed.
Lemma words_seps bl l : Forall sep bl -> wordsof (bl ++ l) = wordsof l.
Proof. induction 1 as [|c bl S F IH]; [reflexivity|]. cbn [app]. rewrite words_sep by exact S. exact IH. Qed.
Lemma split_word w r : Forall (fun c => ~ sep c) w -> (r = [] \/ exists c s, r = c :: s /\ sep c) -> exists ws, split_on f (w ++ r) = w :: ws /\ wordsof r = skip_empty ws.
Proof.
  intros F R. induction F as [|c w S F IH].
  - cbn [app]. destruct R as [->|(c & s & -> & S)]; [exists []; split; reflexivity|]. exists (split_on f s). cbn [split_on]. apply SF in S. rewrite S. split; [reflexivity|]. unfold wordsof. cbn [split_on]. rewrite S. reflexivity.
  - destruct IH as (ws & E & W). exists ws. split; [|exact W]. cbn [app split_on]. apply not_sep in S. rewrite S. rewrite E. reflexivity.
Qed.
Lemma spells_sound l ws : spells sep l ws -> wordsof l = ws.
Proof.
  induction 1 as [bl F|bl w r ws F N W R Sp IH].
  - rewrite <- (app_nil_r bl). rewrite words_seps by exact F. reflexivity.
  - rewrite words_seps by exact F. destruct (split_word w r W R) as (vs & E & V). unfold wordsof. rewrite E. cbn [skip_empty filter]. destruct w as [|c w]; [congruence|]. rewrite <- IH, V. reflexivity.
Qed.
Lemma spells_sep c l ws : sep c -> spells sep l ws -> spells sep (c :: l) ws.
Proof.
  intros S H. destruct H as [bl F|bl w r ws F N W R Sp]; [apply SpEnd; constructor; assumption|].
  change (c :: bl ++ w ++ r) with ((c :: bl) ++ w ++ r). apply SpWord; try assumption. constructor; assumption.
Qed.
Lemma spells_inv l w ws : spells sep l (w :: ws) -> exists bl r, l = bl ++ w ++ r /\ Forall sep bl /\ Forall (fun c => ~ sep c) w /\ (r = [] \/ exists c s, r = c :: s /\ sep c) /\ spells sep r ws.
Proof. intros H. remember (w :: ws) as v eqn:V. destruct H as [bl F|bl u r us F N W R Sp]; [discriminate|]. injection V as -> ->. exists bl, r. auto. Qed.
Lemma spells_complete l : spells sep l (wordsof l).
Proof.
  induction l as [|c l IH]; [apply SpEnd; constructor|]. destruct (f c) eqn:C.
  - rewrite words_sep by (apply SF; exact C). apply spells_sep; [apply SF; exact C|exact IH].
  - apply not_sep in C. unfold wordsof in *. destruct l as [|d l].
    { cbn [split_on]. apply not_sep in C. rewrite C. apply not_sep in C. cbn [skip_empty filter]. apply (SpWord sep [] [c] [] []); [constructor|discriminate|repeat constructor; assumption|left; reflexivity|apply SpEnd; constructor]. }
    cbn [split_on] in *. destruct (f d) eqn:D.
    + assert (E : f c = false) by (apply not_sep; exact C). rewrite E. cbn [skip_empty filter]. cbn [skip_empty filter] in IH.
      apply (SpWord sep [] [c] (d :: l)); [constructor|discriminate|repeat constructor; assumption|right; exists d, l; split; [reflexivity|apply SF; exact D]|exact IH].
    + assert (E : f c = false) by (apply not_sep; exact C). rewrite E. pose proof (split_ne l) as NE. destruct (split_on f l) as [|w' ws]; [congruence|].
      cbn [skip_empty filter] in *. apply spells_inv in IH as (bl & r & E1 & F & W & R & Sp).
      destruct bl as [|b bl].
      * cbn [app] in E1. rewrite E1. apply (SpWord sep [] (c :: d :: w') r); [constructor|discriminate|constructor; assumption|exact R|exact Sp].
      * exfalso. inversion F as [|? ? H1 H2]; subst. cbn [app] in E1. injection E1 as -> _. apply SF in H1. congruence.
Qed.
Lemma spells_iff l ws : spells sep l ws <-> wordsof l = ws.
Proof. split; [apply spells_sound|intros <-; apply spells_complete]. Qed.
End Words.
Lemma blank_iff c : blank c <-> Ascii.eqb c space || Ascii.eqb c tab = true.
Proof. unfold blank. rewrite Bool.orb_true_iff, !Ascii.eqb_eq. reflexivity. Qed.
Lemma blank_words l ws : spells blank l ws <-> to_words l = ws.
Proof. exact (spells_iff blank _ blank_iff l ws). Qed.
Lemma space_iff c : is_space c <-> Ascii.eqb c space = true.
Proof. unfold is_space. rewrite Ascii.eqb_eq. reflexivity. Qed.
Lemma space_words l ws : spells is_space l ws <-> skip_empty (split_on (fun c => Ascii.eqb c space) l) = ws.
Proof. exact (spells_iff is_space _ space_iff l ws). Qed.

(** ** lines *)
Lemma line_trim l t : line_of l t -> trim_line (l ++ [nl]) = t.
Proof.
  intros (_ & ws & E & F & L). subst l. unfold trim_line. rewrite !rev_app_distr. cbn [rev app tl].
  assert (SK : forall a b, Forall (fun c => is_whitespace c = true) a -> skip_whitespace (a ++ b) = skip_whitespace b).
  { intros a b Fa. induction Fa as [|c a W Fa IH]; [reflexivity|]. cbn [app skip_whitespace]. rewrite W. exact IH. }
  rewrite SK by (apply Forall_rev; exact F). destruct (rev t) as [|c r] eqn:R.
  - apply (f_equal (@rev _)) in R. rewrite rev_involutive in R. subst t. reflexivity.
  - assert (T : t = rev r ++ [c]) by (apply (f_equal (@rev _)) in R; rewrite rev_involutive in R; exact R). subst t. rewrite last_last in L.
    cbn [skip_whitespace]. assert (W : is_whitespace c = false) by (destruct (rev r ++ [c]) eqn:Q; [destruct (rev r); discriminate|exact L]). rewrite W. cbn [rev]. reflexivity.
Qed.
Lemma lines_trim ls ts : Forall2 line_of ls ts -> Forall is_line ls /\ map trim_line (map (fun l => l ++ [nl]) ls) = ts /\ raw_lines (unlines ls) = map (fun l => l ++ [nl]) ls.
Proof.
  intros F. assert (L : Forall is_line ls) by (induction F as [|l t ls ts H F IH]; constructor; [apply H|exact IH]). split; [exact L|]. split.
  - induction F as [|l t ls ts H F IH]; [reflexivity|]. inversion L; subst. cbn [map]. rewrite (line_trim l t H). rewrite IH by assumption. reflexivity.
  - pose proof (raw_unlines ls [] L) as R. rewrite app_nil_r in R. rewrite R. cbn [raw_lines]. rewrite app_nil_r. reflexivity.
Qed.
Lemma unlines_count ls : length ls <= length (unlines ls).
Proof. induction ls as [|l ls IH]; [cbn; lia|]. cbn [unlines flat_map length]. change (flat_map (fun l => l ++ [nl]) ls) with (unlines ls). rewrite !app_length. cbn [length]. lia. Qed.

(** ** running *)
Section Run.
Context {S E A : Type} (step : S -> bytes -> line_step S E A).
(** The lines [ts] lead from [s] to [s'] and give the elements [l]. *)
Inductive runs : S -> list bytes -> list A -> S -> Prop :=
| RNil s : runs s [] [] s
| RSkip s t s1 ts l s2 : step s t = LSkip s1 -> runs s1 ts l s2 -> runs s (t :: ts) l s2
| RItem s t a s1 ts l s2 : step s t = LItem (Ok a) s1 -> runs s1 ts l s2 -> runs s (t :: ts) (a :: l) s2.
Lemma runs_app s ts l s1 ts' l' s2 : runs s ts l s1 -> runs s1 ts' l' s2 -> runs s (ts ++ ts') (l ++ l') s2.
Proof. induction 1; intros H'; [exact H'| |]; cbn [app]; [eapply RSkip|eapply RItem]; eauto. Qed.
Lemma runs_length s ts l s' : runs s ts l s' -> length l <= length ts.
Proof. induction 1; cbn [length]; lia. Qed.
Context {M : Type} (body : M -> A -> M * outcome (with_line E) unit).
Lemma fold_next k : forall (s s' : line_state S) m, line_next step s = line_next step s' -> fold_loop (line_next step) body k s m = fold_loop (line_next step) body k s' m.
Proof. destruct k; intros s s' m H; [reflexivity|]. cbn [fold_loop]. rewrite H. reflexivity. Qed.
Lemma fold_runs s ts l s' : runs s ts l s' -> forall raws rest i m m' k, map trim_line raws = ts -> folds body m l m' ->
  fold_loop (line_next step) body (length l + k) (mkls (raws ++ rest) false i s) m = fold_loop (line_next step) body k (mkls rest false (i + lenN ts) s') m'.
Proof.
  induction 1 as [s|s t s1 ts l s2 St R IH|s t a s1 ts l s2 St R IH]; intros raws rest i m m' k T F.
  - destruct raws; [|discriminate]. inversion F; subst. cbn [app length plus]. unfold lenN. cbn [length]. rewrite N.add_0_r. reflexivity.
  - destruct raws as [|raw raws]; [discriminate|]. cbn [map] in T. injection T as T1 T2. rewrite (fold_next _ _ (mkls (raws ++ rest) false (i + 1) s1)).
    + rewrite (IH raws rest (i + 1)%N m m' k T2 F). do 2 f_equal. unfold lenN. cbn [length]. lia.
    + unfold line_next. cbn [ls_done ls_read ls_line ls_own app line_loop]. rewrite T1, St. reflexivity.
  - destruct raws as [|raw raws]; [discriminate|]. cbn [map] in T. injection T as T1 T2. inversion F as [|? ? m1 ? ? B F']; subst.
    cbn [length plus fold_loop]. unfold line_next at 1. cbn [ls_done ls_read ls_line ls_own app line_loop]. rewrite St. cbn [at_line]. rewrite B.
    rewrite (IH raws rest (i + 1)%N m1 m' k eq_refl F'). do 2 f_equal. unfold lenN. cbn [length]. lia.
Qed.
Lemma fold_runs_from ls ts rest : Forall2 line_of ls ts -> forall s l s' m m' k, runs s ts l s' -> folds body m l m' -> length (unlines (ls ++ rest)) < k -> Forall is_line rest ->
  exists k', fold_loop (line_next step) body k (line_new (unlines (ls ++ rest)) s) m = fold_loop (line_next step) body (Datatypes.S (length rest + k')) (mkls (map (fun l => l ++ [nl]) rest) false (lenN ts) s') m'.
Proof.
  intros F s l s' m m' k R B K LR. destruct (lines_trim ls ts F) as (L & T & _). unfold line_new.
  pose proof (raw_unlines (ls ++ rest) [] ltac:(apply Forall_app; split; assumption)) as RU. rewrite app_nil_r in RU. rewrite RU. cbn [raw_lines]. rewrite app_nil_r, map_app.
  pose proof (runs_length _ _ _ _ R) as RL. pose proof (unlines_count (ls ++ rest)) as UC. rewrite app_length in UC. assert (LT : length ts = length ls) by (rewrite <- T, !map_length; reflexivity).
  exists (k - length l - length rest - 1). replace k with (length l + Datatypes.S (length rest + (k - length l - length rest - 1))) at 1 by lia.
  rewrite (fold_runs s ts l s' R _ _ 0%N m m' _ T B). rewrite N.add_0_l. reflexivity.
Qed.
(** All lines are fine. *)
Lemma scan_ok ls ts s l s' m m' k : Forall2 line_of ls ts -> runs s ts l s' -> folds body m l m' -> length (unlines ls) < k ->
  fold_loop (line_next step) body k (line_new (unlines ls) s) m = Some (m', Ok tt).
Proof.
  intros F R B K. destruct (fold_runs_from ls ts [] F s l s' m m' k R B) as (k' & H); [rewrite app_nil_r; exact K|constructor|]. rewrite app_nil_r in H. rewrite H. reflexivity.
Qed.
(** The line after [ls] ends the iteration, with or without an error, or the body fails. *)
Lemma scan_stop ls ts s l s' m m' k x t rest s2 : Forall2 line_of ls ts -> runs s ts l s' -> folds body m l m' -> line_of x t -> Forall is_line rest -> length (unlines (ls ++ x :: rest)) < k ->
  step s' t = LStop s2 -> fold_loop (line_next step) body k (line_new (unlines (ls ++ x :: rest)) s) m = Some (m', Ok tt).
Proof.
  intros F R B X LR K St. destruct (fold_runs_from ls ts (x :: rest) F s l s' m m' k R B K) as (k' & H); [constructor; [apply X|exact LR]|]. rewrite H. cbn [length fold_loop map]. unfold line_next. cbn [ls_done ls_read ls_line ls_own line_loop].
  rewrite (line_trim x t X), St. reflexivity.
Qed.
Lemma scan_err ls ts s l s' m m' k x t rest e s2 : Forall2 line_of ls ts -> runs s ts l s' -> folds body m l m' -> line_of x t -> Forall is_line rest -> length (unlines (ls ++ x :: rest)) < k ->
  step s' t = LItem (Err e) s2 -> fold_loop (line_next step) body k (line_new (unlines (ls ++ x :: rest)) s) m = Some (m', Err (WLine (lenN ls + 1) t e)).
Proof.
  intros F R B X LR K St. destruct (fold_runs_from ls ts (x :: rest) F s l s' m m' k R B K) as (k' & H); [constructor; [apply X|exact LR]|]. rewrite H. cbn [length fold_loop map]. unfold line_next. cbn [ls_done ls_read ls_line ls_own line_loop].
  rewrite (line_trim x t X), St. cbn [at_line]. rewrite (Forall2_lenN _ _ _ F). reflexivity.
Qed.
Lemma scan_body ls ts s l s' m m' k x t rest a s2 m2 r : Forall2 line_of ls ts -> runs s ts l s' -> folds body m l m' -> line_of x t -> Forall is_line rest -> length (unlines (ls ++ x :: rest)) < k ->
  step s' t = LItem (Ok a) s2 -> body m' a = (m2, r) -> r <> Ok tt -> fold_loop (line_next step) body k (line_new (unlines (ls ++ x :: rest)) s) m = Some (m2, r).
Proof.
  intros F R B X LR K St Bo Ne. destruct (fold_runs_from ls ts (x :: rest) F s l s' m m' k R B K) as (k' & H); [constructor; [apply X|exact LR]|]. rewrite H. cbn [length fold_loop map]. unfold line_next at 1. cbn [ls_done ls_read ls_line ls_own line_loop].
  rewrite (line_trim x t X), St. cbn [at_line]. rewrite Bo. destruct r as [[]|e|]; [congruence|reflexivity|reflexivity].
Qed.
End Run.
(** A loop that pushes is a loop with a body. *)
Definition push {E A} (l : list A) (a : A) : list A * outcome E unit := (l ++ [a], Ok tt).
Lemma load_fold {S E A} (next : S -> option (outcome E A) * S) k : forall s acc, load_loop next k s acc = fold_loop next push k s acc.
Proof. induction k as [|k IH]; intros s acc; [reflexivity|]. cbn [load_loop fold_loop]. destruct (next s) as [[[a|e|]|] s']; [|reflexivity..]. cbn [push]. apply IH. Qed.
Lemma folds_push {E A} (l : list A) : forall acc, folds (E := E) push acc l (acc ++ l).
Proof. induction l as [|a l IH]; intros acc; [rewrite app_nil_r; constructor|]. econstructor; [reflexivity|]. specialize (IH (acc ++ [a])). rewrite <- app_assoc in IH. exact IH. Qed.

(** ** coordinates *)
Lemma three_ok {E} ft (e : E) ws p : coords ft ws p -> three_f64 ft e ws = Ok p.
Proof. intros (x & y & z & rest & -> & X & Y & Z). unfold three_f64. cbn [next_f64]. rewrite X. cbn [obind next_f64]. rewrite Y. cbn [obind next_f64]. rewrite Z. cbn [obind]. destruct p; reflexivity. Qed.
Lemma three_err {E} ft (e : E) ws : (forall p, ~ coords ft ws p) -> three_f64 ft e ws = Err e.
Proof.
  intros N. unfold three_f64. destruct ws as [|x ws]; [reflexivity|]. cbn [next_f64]. destruct (f64_of ft x) as [vx|] eqn:X; [|reflexivity]. cbn [obind].
  destruct ws as [|y ws]; [reflexivity|]. cbn [next_f64]. destruct (f64_of ft y) as [vy|] eqn:Y; [|reflexivity]. cbn [obind].
  destruct ws as [|z ws]; [reflexivity|]. cbn [next_f64]. destruct (f64_of ft z) as [vz|] eqn:Z; [|reflexivity]. cbn [obind].
  destruct (N (mk3 vx vy vz)). exists x, y, z, ws. auto.
Qed.
Lemma point_ok {E} ft (e : E) t p : point_text ft t p -> three_f64 ft e (to_words t) = Ok p.
Proof. intros (ws & Sp & C). apply blank_words in Sp. rewrite Sp. apply three_ok, C. Qed.
Lemma point_err {E} ft (e : E) t : (forall p, ~ point_text ft t p) -> three_f64 ft e (to_words t) = Err e.
Proof. intros N. apply three_err. intros p C. apply (N p). exists (to_words t). split; [apply blank_words; reflexivity|exact C]. Qed.
Lemma count_ok {E} (e : E) t n : count_text t n -> exists ws, next_count e (to_words t) = Ok (n, ws).
Proof. intros (w & ws & Sp & U). apply blank_words in Sp. rewrite Sp. exists ws. unfold next_count. cbn [next_usize]. rewrite U. reflexivity. Qed.
Lemma count_err {E} (e : E) t : (forall n, ~ count_text t n) -> next_count e (to_words t) = Err e.
Proof.
  intros N. unfold next_count. destruct (to_words t) as [|w ws] eqn:W; [reflexivity|]. cbn [next_usize]. destruct (usize_of w) as [n|] eqn:U; [|reflexivity].
  destruct (N n). exists w, ws. split; [apply blank_words; exact W|exact U].
Qed.
Lemma words_prefix c l : ~ blank c -> to_words (c :: space :: l) = [c] :: to_words l.
Proof.
  intros B. apply blank_words. apply (SpWord blank [] [c] (space :: l)); [constructor|discriminate|repeat constructor; exact B|right; exists space, l; split; [reflexivity|left; reflexivity]|].
  apply spells_sep; [left; reflexivity|]. apply blank_words. reflexivity.
Qed.
Lemma starts_iff p s : starts_with p s = true <-> exists r, s = p ++ r.
Proof.
  unfold starts_with. split.
  - revert s. induction p as [|a p IH]; intros s; cbn [strip_prefix]; [intros _; exists s; reflexivity|]. destruct s as [|b s]; [discriminate|]. destruct (Ascii.eqb_spec a b) as [->|N]; [|discriminate].
    intros H. destruct (IH s H) as (r & ->). exists r. reflexivity.
  - intros (r & ->). induction p as [|a p IH]; [reflexivity|]. cbn [app strip_prefix]. rewrite Ascii.eqb_refl. exact IH.
Qed.
Lemma starts_no p s : (forall r, s <> p ++ r) -> starts_with p s = false.
Proof. intros N. destruct (starts_with p s) eqn:H; [|reflexivity]. apply starts_iff in H as (r & E). destruct (N r E). Qed.
Lemma starts_app p r : starts_with p (p ++ r) = true. Proof. apply starts_iff. exists r. reflexivity. Qed.
