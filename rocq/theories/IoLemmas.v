From Verif Require Import Base BaseLemmas Num GeomSpec FloatSpec IoModel IoSpec.
From Coq Require Import ZifyBool ZifyNat ZifyN.

(** ** Lines *)
Lemma eqb_nl c : Ascii.eqb c nl = true <-> c = nl. Proof. apply Ascii.eqb_eq. Qed.
Lemma eqb_false a b : a <> b -> Ascii.eqb a b = false. Proof. intros H. destruct (Ascii.eqb_spec a b); congruence. Qed.
Lemma read_until_raw s : read_until s = match raw_lines s with [] => ([], []) | l :: ls => (l, concat ls) end.
Proof.
  assert (C : forall s, concat (raw_lines s) = s).
  { induction s0 as [|c r IH]; [reflexivity|]. cbn [raw_lines]. destruct (Ascii.eqb c nl); [cbn; rewrite IH; reflexivity|].
    destruct (raw_lines r) as [|l ls]; cbn in *; rewrite <- IH; reflexivity. }
  induction s as [|c r IH]; [reflexivity|]. cbn [read_until raw_lines]. destruct (Ascii.eqb c nl); [rewrite C; reflexivity|].
  rewrite IH. destruct (raw_lines r) as [|l ls] eqn:E; reflexivity.
Qed.
Lemma concat_raw s : concat (raw_lines s) = s.
Proof.
  induction s as [|c r IH]; [reflexivity|]. cbn [raw_lines]. destruct (Ascii.eqb c nl); [cbn; rewrite IH; reflexivity|].
  destruct (raw_lines r) as [|l ls]; cbn in *; rewrite <- IH; reflexivity.
Qed.
Lemma raw_ne s : ~ In [] (raw_lines s).
Proof.
  induction s as [|c r IH]; [intros []|]. cbn [raw_lines]. destruct (Ascii.eqb c nl); [intros [H|H]; [discriminate|exact (IH H)]|].
  destruct (raw_lines r) as [|l ls]; intros [H|H]; try discriminate; [destruct H|]. apply IH. right. exact H.
Qed.
Lemma fetch_line_raw s : fetch_line s = match next_line (raw_lines s) with None => None | Some (l, ls) => Some (l, concat ls) end.
Proof.
  unfold fetch_line. rewrite read_until_raw. pose proof (raw_ne s) as N. destruct (raw_lines s) as [|l ls]; [reflexivity|]. cbn [next_line].
  destruct l; [exfalso; apply N; left; reflexivity|reflexivity].
Qed.
Lemma raw_line_app l s : is_line l -> raw_lines (l ++ nl :: s) = (l ++ [nl]) :: raw_lines s.
Proof.
  induction l as [|c l IH]; intros N; [cbn [app raw_lines]; rewrite (proj2 (eqb_nl nl) eq_refl); reflexivity|].
  cbn [app raw_lines]. rewrite eqb_false by (intros ->; apply N; left; reflexivity). rewrite IH by (intros I; apply N; right; exact I). reflexivity.
Qed.
Lemma raw_unlines ls s : Forall is_line ls -> raw_lines (unlines ls ++ s) = map (fun l => l ++ [nl]) ls ++ raw_lines s.
Proof.
  induction 1 as [|l ls N F IH]; [reflexivity|]. cbn [unlines flat_map map app]. rewrite <- !app_assoc. cbn [app]. rewrite raw_line_app by exact N. f_equal. exact IH.
Qed.
Lemma raw_last l : is_line l -> l <> [] -> raw_lines l = [l].
Proof.
  induction l as [|c l IH]; intros N E; [congruence|]. cbn [raw_lines]. rewrite eqb_false by (intros ->; apply N; left; reflexivity).
  destruct l as [|d l]; [reflexivity|]. rewrite IH; [reflexivity| |discriminate]. intros I. apply N. right. exact I.
Qed.
Lemma skip_ws_spec s : exists ws, s = ws ++ skip_whitespace s /\ Forall (fun c => is_whitespace c = true) ws /\
  match skip_whitespace s with [] => True | c :: _ => is_whitespace c = false end.
Proof.
  induction s as [|c r IH]; [exists []; split; [reflexivity|split; [constructor|exact I]]|]. cbn [skip_whitespace]. destruct (is_whitespace c) eqn:W.
  - destruct IH as (ws & E & F & L). exists (c :: ws). cbn [app]. rewrite <- E. split; [reflexivity|]. split; [constructor; assumption|exact L].
  - exists []. split; [reflexivity|]. split; [constructor|exact W].
Qed.
Lemma last_rev_cons {A} (l : list A) a d : last (rev (a :: l)) d = a. Proof. cbn [rev]. apply last_last. Qed.
Lemma trim_line_spec l c : stripped l (trim_line (l ++ [c])).
Proof.
  unfold trim_line. rewrite rev_app_distr. cbn [rev app tl]. destruct (skip_ws_spec (rev l)) as (ws & E & F & L). exists (rev ws).
  split; [|split; [apply Forall_rev; exact F|]].
  - rewrite <- (rev_involutive l), E at 1. rewrite rev_app_distr. reflexivity.
  - destruct (skip_whitespace (rev l)) as [|x r]; [exact I|]. destruct (rev (x :: r)) eqn:Q; [cbn [rev] in Q; symmetry in Q; apply app_cons_not_nil in Q; destruct Q|].
    rewrite <- Q, last_rev_cons. exact L.
Qed.
Lemma trim_line_id l c : l = [] \/ is_whitespace (last l nl) = false -> trim_line (l ++ [c]) = l.
Proof.
  intros H. unfold trim_line. rewrite rev_app_distr. cbn [rev app tl]. destruct (rev l) as [|x r] eqn:E.
  - apply (f_equal (@rev _)) in E. rewrite rev_involutive in E. rewrite E. reflexivity.
  - apply (f_equal (@rev _)) in E. rewrite rev_involutive in E. destruct H as [->|H]; [cbn [rev] in E; apply app_cons_not_nil in E; destruct E|].
    rewrite E, last_rev_cons in H. cbn [skip_whitespace]. rewrite H, E. reflexivity.
Qed.

(** ** Words *)
Lemma split_none f s : (forall c, In c s -> f c = false) -> split_on f s = [s].
Proof. induction s as [|c s IH]; intros H; [reflexivity|]. cbn [split_on]. rewrite H by (left; reflexivity). rewrite IH by (intros; apply H; right; assumption). reflexivity. Qed.
Lemma split_app f w d s : (forall c, In c w -> f c = false) -> f d = true -> split_on f (w ++ d :: s) = w :: split_on f s.
Proof.
  induction w as [|c w IH]; intros H D; cbn [app split_on]; [rewrite D; reflexivity|]. rewrite H by (left; reflexivity). rewrite IH; [reflexivity| |exact D]. intros; apply H; right; assumption.
Qed.
Lemma number_not_in (P : ascii -> bool) w : forallb (fun c => negb (P c)) (str "0123456789+-.eEinfNa") = true -> Forall number_char w -> forall c, In c w -> P c = false.
Proof.
  intros F N c I. rewrite forallb_forall in F. rewrite Forall_forall in N. specialize (F c (N c I)). destruct (P c); [discriminate|reflexivity].
Qed.
Lemma number_ascii w : Forall number_char w -> is_ascii w = true.
Proof.
  intros N. apply forallb_forall. intros c I. pose proof (number_not_in (fun c => negb (N_of_ascii c <? 128)%N) w eq_refl N c I) as H. cbn in H. destruct (N_of_ascii c <? 128)%N; [reflexivity|discriminate].
Qed.
Lemma number_white w : Forall number_char w -> forall c, In c w -> is_whitespace c = false.
Proof. apply number_not_in. reflexivity. Qed.
Lemma number_neq d w : forallb (fun c => negb (Ascii.eqb c d)) (str "0123456789+-.eEinfNa") = true -> Forall number_char w -> forall c, In c w -> Ascii.eqb c d = false.
Proof. intros F. apply (number_not_in (fun c => Ascii.eqb c d)). exact F. Qed.
Lemma number_line w : Forall number_char w -> is_line w.
Proof. intros N I. pose proof (number_neq nl w eq_refl N nl I) as E. rewrite (proj2 (eqb_nl nl) eq_refl) in E. discriminate. Qed.
Lemma delim_not_number d : delimiter d -> forallb (fun c => negb (Ascii.eqb c d)) (str "0123456789+-.eEinfNa") = true.
Proof. intros [->|[->|[->| ->]]]; reflexivity. Qed.
Lemma delim_not_nl d : delimiter d -> d <> nl.
Proof. intros [->|[->|[->| ->]]]; discriminate. Qed.
Lemma f64_of_print ft x : ft_ok ft -> printable x -> f64_of ft (fprint ft x) = Some x.
Proof. intros K P. unfold f64_of, from_ascii. rewrite number_ascii by apply (print_chars _ K). apply (parse_print _ K), P. Qed.
Lemma f64_of_print_e ft x : ft_ok ft -> printable x -> f64_of ft (fprint_e ft x) = Some x.
Proof. intros K P. unfold f64_of, from_ascii. rewrite number_ascii by apply (print_e_chars _ K). apply (parse_print_e _ K), P. Qed.
Lemma skip_empty_cons w ws : w <> [] -> skip_empty (w :: ws) = w :: skip_empty ws.
Proof. intros H. cbn [skip_empty filter]. destruct w; [congruence|reflexivity]. Qed.
Lemma last_app_ne {A} (l m : list A) d : m <> [] -> last (l ++ m) d = last m d.
Proof. intros H. destruct (exists_last H) as (m' & z & ->). rewrite app_assoc, !last_last. reflexivity. Qed.
Lemma last_number w : Forall number_char w -> w <> [] -> is_whitespace (last w nl) = false.
Proof. intros F N. destruct (exists_last N) as (m & z & ->). rewrite last_last. apply (number_white _ F). apply in_or_app. right. left. reflexivity. Qed.

(** ** Numbers in decimal *)
Lemma digit_value_digit n : (n < 10)%N -> digit_value (digit n) = Some n.
Proof. intros H. unfold digit_value, digit. rewrite N_ascii_embedding by lia. destruct (48 <=? 48 + n)%N eqn:A; [|lia]. destruct (48 + n <=? 57)%N eqn:B; [|lia]. cbn [andb]. f_equal. lia. Qed.
Lemma digit_number n : (n < 10)%N -> number_char (digit n).
Proof. intros H. assert (C : forallb (fun k => existsb (Ascii.eqb (digit (N.of_nat k))) (str "0123456789+-.eEinfNa")) (seq 0 10) = true) by reflexivity.
  rewrite forallb_forall in C. specialize (C (N.to_nat n)). rewrite N2Nat.id in C. lapply C; [|apply in_seq; lia]. intros E. apply existsb_exists in E. destruct E as (x & I & Q). apply Ascii.eqb_eq in Q. unfold number_char. rewrite Q. exact I. Qed.
Lemma parse_digits_app limit a s t acc : parse_digits limit acc s = Some a -> parse_digits limit acc (s ++ t) = parse_digits limit a t.
Proof.
  revert acc. induction s as [|c s IH]; intros acc H; [cbn in *; congruence|]. cbn [app parse_digits] in *. destruct (digit_value c) as [d|]; [|discriminate].
  destruct (acc * 10 + d <? limit)%N; [|discriminate]. apply IH, H.
Qed.
(* the digits printed for n, followed by acc *)
Lemma print_go_spec limit k n acc : (n < limit)%N -> (n < 10 ^ N.of_nat k)%N -> (0 < k)%nat ->
  exists ds, print_go k n acc = ds ++ acc /\ ds <> [] /\ Forall (fun c => exists d, (d < 10)%N /\ c = digit d) ds /\ parse_digits limit 0 ds = Some n.
Proof.
  revert n acc. induction k as [|k IH]; intros n acc L B K; [lia|]. cbn [print_go].
  assert (M : (n mod 10 < 10)%N) by (apply N.mod_lt; lia). pose proof (N.div_mod n 10 ltac:(lia)) as DM.
  destruct (n <? 10)%N eqn:T.
  - exists [digit (n mod 10)]. split; [reflexivity|]. split; [discriminate|]. split; [constructor; [eauto|constructor]|]. cbn [parse_digits]. rewrite digit_value_digit by exact M.
    rewrite N.mod_small by lia. cbn [N.mul N.add]. replace (0 * 10 + n)%N with n by lia. destruct (n <? limit)%N eqn:E; [reflexivity|lia].
  - destruct k as [|k]; [cbn in B; lia|]. set (q := (n / 10)%N) in *. set (r := (n mod 10)%N) in *.
    assert (BQ : (q < 10 ^ N.of_nat (S k))%N).
    { replace (N.of_nat (S (S k))) with (N.succ (N.of_nat (S k))) in B by lia. rewrite N.pow_succ_r' in B. unfold q. apply N.div_lt_upper_bound; [lia|exact B]. }
    destruct (IH q (digit r :: acc)) as (ds & E & NE & F & P); [apply N.le_lt_trans with n; [unfold q; apply N.div_le_upper_bound; lia|exact L]|exact BQ|lia|].
    exists (ds ++ [digit r]). split; [rewrite E, <- app_assoc; reflexivity|]. split; [intros Z; symmetry in Z; apply app_cons_not_nil in Z; exact Z|].
    split; [apply Forall_app; split; [exact F|constructor; [eauto|constructor]]|]. rewrite (parse_digits_app _ _ _ _ _ P). cbn [parse_digits]. rewrite digit_value_digit by exact M.
    replace (q * 10 + r)%N with n by lia. destruct (n <? limit)%N eqn:X; [reflexivity|lia].
Qed.
Lemma size_pow n : (n < 10 ^ N.of_nat (S (N.size_nat n)))%N.
Proof.
  assert (H : (n < 2 ^ N.size n)%N) by apply N.size_gt. assert (E : N.size n = N.of_nat (N.size_nat n)).
  { destruct n as [|p]; [reflexivity|]. cbn [N.size N.size_nat]. clear H. induction p as [p IH|p IH|]; cbn [Pos.size Pos.size_nat]; [rewrite Nat2N.inj_succ, <- IH; reflexivity..|reflexivity]. }
  rewrite E in H. replace (N.of_nat (S (N.size_nat n))) with (N.succ (N.of_nat (N.size_nat n))) by lia. rewrite N.pow_succ_r'.
  assert (2 ^ N.of_nat (N.size_nat n) <= 10 ^ N.of_nat (N.size_nat n))%N by (apply N.pow_le_mono_l; lia). lia.
Qed.
Lemma print_usize_spec limit n : (n < limit)%N -> print_usize n <> [] /\ Forall (fun c => exists d, (d < 10)%N /\ c = digit d) (print_usize n) /\ parse_digits limit 0 (print_usize n) = Some n.
Proof.
  intros L. unfold print_usize. destruct (print_go_spec limit (S (N.size_nat n)) n [] L (size_pow n) ltac:(lia)) as (ds & E & NE & F & P). rewrite app_nil_r in E. rewrite E. auto.
Qed.
Lemma print_usize_chars n : Forall number_char (print_usize n) /\ print_usize n <> [].
Proof.
  destruct (print_usize_spec (n + 1) n ltac:(lia)) as (NE & F & _). split; [|exact NE]. eapply Forall_impl; [|exact F]. intros c (d & D & ->). apply digit_number, D.
Qed.
Lemma digit_not_plus d : (d < 10)%N -> Ascii.eqb (digit d) "+"%char = false.
Proof.
  intros H. destruct (Ascii.eqb_spec (digit d) "+"%char) as [E|E]; [|reflexivity]. apply (f_equal N_of_ascii) in E. unfold digit in E. rewrite N_ascii_embedding in E by lia. change (N_of_ascii "+"%char) with 43%N in E. lia.
Qed.
Lemma parse_uint_print limit n : (n < limit)%N -> parse_uint limit (print_usize n) = Some n.
Proof.
  intros L. destruct (print_usize_spec limit n L) as (NE & F & P). destruct (print_usize n) as [|c r]; [congruence|]. cbn [parse_uint].
  inversion F as [|? ? (d & D & ->) ?]; subst. rewrite digit_not_plus by exact D. exact P.
Qed.
Lemma usize_of_print n : (n < 2 ^ 64)%N -> usize_of (print_usize n) = Some n.
Proof. intros L. unfold usize_of, from_ascii. rewrite number_ascii by apply print_usize_chars. apply parse_uint_print, L. Qed.

(** ** The example printer *)
Lemma parse_N_print n : parse_N (print_usize n) = Some n.
Proof.
  assert (B : (n < 10 ^ (1 + lenN (print_usize n)))%N).
  { destruct (print_usize_spec (n + 1) n ltac:(lia)) as (_ & F & P). revert P. generalize (n + 1)%N. intros limit.
    assert (G : forall s acc m, Forall (fun c => exists d, (d < 10)%N /\ c = digit d) s -> parse_digits limit acc s = Some m -> (m < (acc + 1) * 10 ^ (1 + lenN s))%N).
    { induction s as [|c s IH]; intros acc m FF H.
      - cbn in H. injection H as <-. unfold lenN. cbn [length]. change (10 ^ (1 + N.of_nat 0))%N with 10%N. lia.
      - inversion FF as [|? ? (d & D & ->) FF']; subst. cbn [parse_digits] in H. rewrite digit_value_digit in H by exact D. destruct (acc * 10 + d <? limit)%N; [|discriminate].
        specialize (IH _ _ FF' H). unfold lenN in *. cbn [length]. rewrite Nat2N.inj_succ. replace (1 + N.succ (N.of_nat (length s)))%N with (N.succ (1 + N.of_nat (length s))) by lia. rewrite N.pow_succ_r'. set (z := (10 ^ (1 + N.of_nat (length s)))%N) in *. nia. }
    intros P. specialize (G _ _ _ F P). lia. }
  destruct (print_usize_spec _ n B) as (NE & _ & P). unfold parse_N. destruct (print_usize n); [congruence|exact P].
Qed.
Lemma digit_not_minus d : (d < 10)%N -> Ascii.eqb (digit d) "-"%char = false.
Proof.
  intros H. destruct (Ascii.eqb_spec (digit d) "-"%char) as [E|E]; [|reflexivity]. apply (f_equal N_of_ascii) in E. unfold digit in E. rewrite N_ascii_embedding in E by lia. change (N_of_ascii "-"%char) with 45%N in E. lia.
Qed.
Lemma parse_Z_print z : parse_Z (print_Z z) = Some z.
Proof.
  assert (K : forall n, parse_Z (print_usize n) = Some (Z.of_N n)).
  { intros n. pose proof (parse_N_print n) as P. destruct (print_usize_spec (n + 1) n ltac:(lia)) as (NE & F & _). destruct (print_usize n) as [|c r]; [congruence|]. cbn [parse_Z].
    inversion F as [|? ? (d & D & ->) ?]; subst. rewrite digit_not_minus by exact D. rewrite P. reflexivity. }
  unfold print_Z. destruct z as [|p|p]; [exact (K 0%N)|exact (K (Npos p))|]. cbn [parse_Z]. change (Ascii.eqb "-"%char "-"%char) with true. cbv iota. rewrite parse_N_print. reflexivity.
Qed.
Lemma print_Z_chars z : Forall number_char (print_Z z) /\ print_Z z <> [] /\ forall c, In c (print_Z z) -> Ascii.eqb c "e"%char = false.
Proof.
  assert (K : forall n c, In c (print_usize n) -> Ascii.eqb c "e"%char = false).
  { intros n c I. destruct (print_usize_spec (n + 1) n ltac:(lia)) as (_ & F & _). rewrite Forall_forall in F. destruct (F c I) as (d & D & ->).
    destruct (Ascii.eqb_spec (digit d) "e"%char) as [E|E]; [|reflexivity]. apply (f_equal N_of_ascii) in E. unfold digit in E. rewrite N_ascii_embedding in E by lia. change (N_of_ascii "e"%char) with 101%N in E. lia. }
  unfold print_Z. destruct z as [|p|p].
  - split; [apply print_usize_chars|]. split; [apply print_usize_chars|apply K].
  - split; [apply print_usize_chars|]. split; [apply print_usize_chars|apply K].
  - split; [constructor; [cbn; tauto|apply print_usize_chars]|]. split; [discriminate|]. intros c [<-|I]; [reflexivity|exact (K _ c I)].
Qed.
Lemma sf_eqb_eq a b : sf_eqb a b = true -> a = b.
Proof.
  destruct a as [s|s| |s m e], b as [t|t| |t n f]; cbn [sf_eqb]; intros H; try discriminate; try reflexivity; try (apply Bool.eqb_prop in H; subst; reflexivity).
  apply andb_prop in H. destruct H as [H H3]. apply andb_prop in H. destruct H as [H1 H2]. apply Bool.eqb_prop in H1. apply Pos.eqb_eq in H2. apply Z.eqb_eq in H3. subst. reflexivity.
Qed.
Lemma demo_ok : ft_ok demo.
Proof.
  assert (C : forall x, Forall number_char (demo_print x) /\ demo_print x <> []).
  { intros x. unfold demo_print. destruct (integer_of x) as [z|]; [split; apply print_Z_chars|].
    assert (N : Forall number_char (str "NaN") /\ str "NaN" <> []) by (split; [repeat constructor; cbn; tauto|discriminate]).
    destruct (x : SpecFloat.spec_float) as [s|s| |s m e]; try exact N. split.
    - apply Forall_app. split; [apply print_Z_chars|]. constructor; [cbn; tauto|apply print_Z_chars].
    - intros H. symmetry in H. apply app_cons_not_nil in H. exact H. }
  assert (P : forall x, printable x -> demo_parse (demo_print x) = Some x).
  { intros x (D & F & M). unfold demo_print, demo_parse. destruct (integer_of x) as [z|] eqn:I.
    - rewrite split_none by apply print_Z_chars. rewrite parse_Z_print. cbn [option_map]. f_equal. unfold integer_of in I. destruct (x : SpecFloat.spec_float) as [s|s| |s m e]; try discriminate.
      + injection I as <-. destruct s; [exfalso; apply M; reflexivity|]. vmeq.
      + destruct (sf_eqb _ _) eqn:E in I; [|discriminate]. injection I as <-. apply sf_eqb_eq, E.
    - destruct (x : SpecFloat.spec_float) as [s|s| |s m e]; try contradiction; [discriminate|].
      rewrite split_app by (try apply print_Z_chars; reflexivity). rewrite split_none by apply print_Z_chars. rewrite !parse_Z_print. destruct s; reflexivity. }
  split; assumption.
Qed.

(** ** xy and xyz *)
Lemma raw_length s : (length (raw_lines s) <= length s)%nat.
Proof. induction s as [|c r IH]; [reflexivity|]. cbn [raw_lines]. destruct (Ascii.eqb c nl); [cbn [length]; lia|]. destruct (raw_lines r) as [|l ls]; cbn [length] in *; lia. Qed.
Lemma raw_concat_firstn n s : raw_lines (concat (firstn n (raw_lines s))) = firstn n (raw_lines s).
Proof.
  revert n. induction s as [|c r IH]; intros n; [destruct n; reflexivity|]. cbn [raw_lines]. destruct (Ascii.eqb c nl) eqn:E.
  - destruct n as [|n]; [reflexivity|]. cbn [firstn concat app raw_lines]. rewrite E, IH. reflexivity.
  - destruct n as [|n]; [reflexivity|]. specialize (IH (S n)). destruct (raw_lines r) as [|l ls] eqn:R.
    + cbn [firstn concat app raw_lines]. rewrite E, firstn_nil. reflexivity.
    + cbn [firstn concat app raw_lines] in *. rewrite E, IH. reflexivity.
Qed.
Section Xy.
Context {A : Type} (m : nat) (point : ascii -> bytes -> outcome XyError A).
(** the whole loop as a recursion over the lines *)
Fixpoint xy_run (ls : list bytes) (i : N) (d : option ascii) (acc : list A) : list A * outcome (with_line XyError) unit :=
  match ls with
  | [] => (acc, Ok tt)
  | raw :: r =>
      let line := trim_line raw in
      match xy_delimiter m d line with
      | Ok c => match point c line with
                | Ok p => xy_run r (i + 1)%N (Some c) (acc ++ [p])
                | Err e => (acc, Err (WLine (i + 1) line e))
                | Panic => (acc, Panic)
                end
      | Err e => (acc, Err (WLine (i + 1) line e))
      | Panic => (acc, Panic)
      end
  end.
Lemma xy_loop ls : forall k i d acc, (length ls < k)%nat -> load_loop (xy_next m point) k (mkxy ls false i d) acc = Some (xy_run ls i d acc).
Proof.
  induction ls as [|raw r IH]; intros k i d acc L; (destruct k as [|k]; [lia|]); cbn [load_loop xy_run]; unfold xy_next; cbn [xy_done xy_read xy_line xy_delim next_line]; [reflexivity|].
  destruct (xy_delimiter m d (trim_line raw)) as [c|e|]; [|reflexivity..]. destruct (point c (trim_line raw)) as [p|e|]; [|reflexivity..]. apply IH. cbn [length] in L. lia.
Qed.
Lemma xy_run_good d : forall (xs : list (bytes * A)) rest i acc, Forall (fun x => point d (trim_line (fst x)) = Ok (snd x)) xs ->
  xy_run (map fst xs ++ rest) i (Some d) acc = xy_run rest (i + lenN xs)%N (Some d) (acc ++ map snd xs).
Proof.
  induction xs as [|[raw p] xs IH]; intros rest i acc F; [cbn [map app]; rewrite app_nil_r; unfold lenN; cbn [length]; rewrite N.add_0_r; reflexivity|].
  inversion F as [|? ? F1 F2]; subst. cbn [fst snd] in F1. cbn [map app xy_run fst snd xy_delimiter]. rewrite F1, IH by exact F2. rewrite <- app_assoc. f_equal. unfold lenN. cbn [length]. lia.
Qed.
Lemma xy_run_start d (xs : list (bytes * A)) rest : xs <> [] -> (forall x, In x xs -> estimate_delimiter m (trim_line (fst x)) = Some d) ->
  Forall (fun x => point d (trim_line (fst x)) = Ok (snd x)) xs -> xy_run (map fst xs ++ rest) 0 None [] = xy_run rest (lenN xs) (Some d) (map snd xs).
Proof.
  intros N E F. transitivity (xy_run (map fst xs ++ rest) 0 (Some d) []); [|rewrite xy_run_good by exact F; reflexivity].
  destruct xs as [|[raw p] xs]; [congruence|]. cbn [map app fst xy_run xy_delimiter]. specialize (E (raw, p) (or_introl eq_refl)). cbn [fst] in E. rewrite E. reflexivity.
Qed.
(** what was pushed before an error is what the lines before it contain *)
Lemma xy_run_prefix : forall ls i d acc acc' i' line e, xy_run ls i d acc = (acc', Err (WLine i' line e)) ->
  exists n, (n < length ls)%nat /\ i' = (i + N.of_nat n + 1)%N /\ length acc' = (length acc + n)%nat /\ nth_error (map trim_line ls) n = Some line /\ xy_run (firstn n ls) i d acc = (acc', Ok tt).
Proof.
  induction ls as [|raw r IH]; intros i d acc acc' i' line e H; [discriminate|]. cbn [xy_run] in H.
  assert (K : forall e0, (acc, @Err (with_line XyError) unit (WLine (i + 1) (trim_line raw) e0)) = (acc', Err (WLine i' line e)) -> exists n, (n < length (raw :: r))%nat /\ i' = (i + N.of_nat n + 1)%N /\ length acc' = (length acc + n)%nat /\ nth_error (map trim_line (raw :: r)) n = Some line /\ xy_run (firstn n (raw :: r)) i d acc = (acc', Ok tt)).
  { intros e0 [= <- <- <- _]. exists 0%nat. cbn. repeat split; lia. }
  destruct (xy_delimiter m d (trim_line raw)) as [c|e0|] eqn:D; [|eapply K; exact H|discriminate].
  destruct (point c (trim_line raw)) as [p|e0|] eqn:P; [|eapply K; exact H|discriminate].
  destruct (IH _ _ _ _ _ _ _ H) as (n & L & E1 & E2 & E3 & E4). exists (S n). cbn [length]. split; [lia|]. split; [lia|]. split; [rewrite E2, app_length; cbn [length]; lia|]. split; [exact E3|].
  cbn [firstn xy_run]. rewrite D, P. exact E4.
Qed.
(** never anything but points or such an error *)
Lemma xy_run_cases : (forall c l, point c l <> Panic) -> forall ls i d acc, exists acc', xy_run ls i d acc = (acc', Ok tt) \/ exists i' line e, xy_run ls i d acc = (acc', Err (WLine i' line e)).
Proof.
  intros NP. induction ls as [|raw r IH]; intros i d acc; [exists acc; left; reflexivity|]. cbn [xy_run].
  destruct (xy_delimiter m d (trim_line raw)) as [c|e0|] eqn:D.
  - specialize (NP c (trim_line raw)). destruct (point c (trim_line raw)) as [p|e0|]; [apply IH|exists acc; right; eauto|congruence].
  - exists acc. right. eauto.
  - exfalso. destruct d; cbn [xy_delimiter] in D; [discriminate|]. unfold ok_or in D. destruct (estimate_delimiter m (trim_line raw)); discriminate.
Qed.
(** if a file loads without error, so does every shorter one *)
Lemma xy_run_ok_prefix : forall ls n i d acc acc', xy_run ls i d acc = (acc', Ok tt) -> exists l1 l2, xy_run (firstn n ls) i d acc = (l1, Ok tt) /\ acc' = l1 ++ l2 /\ (n <= length ls -> length l1 = length acc + n)%nat.
Proof.
  induction ls as [|raw r IH]; intros n i d acc acc' H.
  - cbn [xy_run] in H. injection H as <-. rewrite firstn_nil. exists acc, []. rewrite app_nil_r. split; [reflexivity|]. split; [reflexivity|]. cbn [length]. lia.
  - destruct n as [|n]; [cbn [firstn xy_run]; exists acc|].
    + assert (G : forall ls i d acc acc', xy_run ls i d acc = (acc', Ok tt) -> exists l2, acc' = acc ++ l2).
      { clear. induction ls as [|raw r IH]; intros i d acc acc' H; cbn [xy_run] in H; [injection H as <-; exists []; symmetry; apply app_nil_r|].
        destruct (xy_delimiter m d (trim_line raw)) as [c|e0|]; [|discriminate..]. destruct (point c (trim_line raw)) as [p|e0|]; [|discriminate..]. destruct (IH _ _ _ _ H) as [l2 ->]. exists ([p] ++ l2). rewrite app_assoc. reflexivity. }
      destruct (G _ _ _ _ _ H) as [l2 ->]. exists l2. split; [reflexivity|]. split; [reflexivity|]. lia.
    + cbn [firstn xy_run] in *. destruct (xy_delimiter m d (trim_line raw)) as [c|e0|]; [|discriminate..]. destruct (point c (trim_line raw)) as [p|e0|]; [|discriminate..].
      destruct (IH n _ _ _ _ H) as (l1 & l2 & E1 & E2 & E3). exists l1, l2. split; [exact E1|]. split; [exact E2|]. cbn [length]. intros L. rewrite E3 by lia. rewrite app_length. cbn [length]. lia.
Qed.
End Xy.
Lemma xyz_no_panic ft c l : xyz_point ft c l <> Panic.
Proof.
  unfold xyz_point, next_f64. destruct (skip_empty _) as [|w ws]; [discriminate|]. destruct (f64_of ft w); [|discriminate]. cbn [obind].
  destruct ws as [|w2 ws]; [discriminate|]. destruct (f64_of ft w2); [|discriminate]. cbn [obind]. destruct ws as [|w3 ws]; [discriminate|]. destruct (f64_of ft w3); discriminate.
Qed.
Lemma xy_no_panic ft c l : xy_point ft c l <> Panic.
Proof.
  unfold xy_point, next_f64. destruct (skip_empty _) as [|w ws]; [discriminate|]. destruct (f64_of ft w); [|discriminate]. cbn [obind].
  destruct ws as [|w2 ws]; [discriminate|]. destruct (f64_of ft w2); discriminate.
Qed.
(** the lines the savers write *)
Definition xyz_text (ft : FText) (d : ascii) (p : pt3 F64) : bytes := fprint ft (px p) ++ d :: fprint ft (py p) ++ d :: fprint ft (pz p).
Definition xy_text (ft : FText) (d : ascii) (p : pt2 F64) : bytes := fprint ft (x2 p) ++ d :: fprint ft (y2 p).
Lemma in_app_3 {A} (x : A) a b c d : In x (a ++ d :: b ++ d :: c) -> In x a \/ x = d \/ In x b \/ In x c.
Proof. rewrite in_app_iff. cbn [In]. rewrite in_app_iff. cbn [In]. intuition. Qed.
Lemma count_neq d c w : forallb (fun c => negb (Ascii.eqb c d)) (str "0123456789+-.eEinfNa") = true -> c = d -> Forall number_char w -> length (filter (fun x => Ascii.eqb x c) w) = 0%nat.
Proof.
  intros F -> N. induction N as [|x w X N IH]; [reflexivity|]. cbn [filter]. rewrite forallb_forall in F. specialize (F x X). destruct (Ascii.eqb x d); [discriminate|exact IH].
Qed.
Lemma estimate_sep (n : nat) d line : delimiter d -> (0 < n)%nat -> (forall e, delimiter e -> length (filter (fun x => Ascii.eqb x e) line) = if Ascii.eqb d e then n else 0%nat) -> estimate_delimiter n line = Some d.
Proof.
  intros D N H. unfold estimate_delimiter. cbn [find].
  rewrite !H by (unfold delimiter; tauto). destruct D as [->|[->|[->| ->]]]; cbn [Ascii.eqb Bool.eqb space tab ascii_of_N ascii_of_pos N.eqb]; cbv [Ascii.eqb space tab ascii_of_N ascii_of_pos shift one zero Bool.eqb].
  all: repeat (first [rewrite Nat.leb_refl | rewrite (proj2 (Nat.leb_gt n 0) N)]); reflexivity.
Qed.
Lemma filter_app_len {A} (f : A -> bool) a b : length (filter f (a ++ b)) = (length (filter f a) + length (filter f b))%nat.
Proof. rewrite filter_app, app_length. reflexivity. Qed.
Lemma number_count e w : delimiter e -> Forall number_char w -> length (filter (fun x => Ascii.eqb x e) w) = 0%nat.
Proof. intros D N. apply (count_neq e); [apply delim_not_number, D|reflexivity|exact N]. Qed.
Section Texts.
Variable ft : FText.
Hypothesis K : ft_ok ft.
Lemma nums x : Forall number_char (fprint ft x). Proof. apply (print_chars _ K). Qed.
Lemma nonempty x : fprint ft x <> []. Proof. apply (print_chars _ K). Qed.
Lemma xyz_text_estimate d p : delimiter d -> estimate_delimiter 2 (xyz_text ft d p) = Some d.
Proof.
  intros D. apply estimate_sep; [exact D|lia|]. intros e De. unfold xyz_text. rewrite !filter_app_len. cbn [filter]. rewrite (number_count e) by auto using nums.
  destruct (Ascii.eqb d e) eqn:E; cbn [length]; rewrite !filter_app_len; cbn [filter]; rewrite E; cbn [length]; rewrite !(number_count e) by auto using nums; reflexivity.
Qed.
Lemma xy_text_estimate d p : delimiter d -> estimate_delimiter 1 (xy_text ft d p) = Some d.
Proof.
  intros D. apply estimate_sep; [exact D|lia|]. intros e De. unfold xy_text. rewrite !filter_app_len. cbn [filter]. rewrite (number_count e) by auto using nums.
  destruct (Ascii.eqb d e) eqn:E; cbn [length]; rewrite !(number_count e) by auto using nums; reflexivity.
Qed.
Lemma split_delim d x s : delimiter d -> Forall number_char x -> split_on (fun c => Ascii.eqb c d) (x ++ d :: s) = x :: split_on (fun c => Ascii.eqb c d) s.
Proof. intros D N. apply split_app; [apply (number_neq d); [apply delim_not_number, D|exact N]|apply Ascii.eqb_refl]. Qed.
Lemma split_number d x : delimiter d -> Forall number_char x -> split_on (fun c => Ascii.eqb c d) x = [x].
Proof. intros D N. apply split_none. apply (number_neq d); [apply delim_not_number, D|exact N]. Qed.
(** the point read from the printed coordinates, the last one given by any word *)
Lemma xyz_point_word d x y w v : delimiter d -> printable x -> printable y -> Forall number_char w -> w <> [] -> fparse ft w = Some v ->
  xyz_point ft d (fprint ft x ++ d :: fprint ft y ++ d :: w) = Ok (mk3 x y v).
Proof.
  intros D X Y W N P. unfold xyz_point. rewrite !split_delim by auto using nums. rewrite split_number by assumption. rewrite !skip_empty_cons by auto using nonempty. cbn [skip_empty filter next_f64].
  unfold next_f64. rewrite !f64_of_print by assumption. cbn [obind]. rewrite f64_of_print by assumption. cbn [obind]. unfold f64_of, from_ascii. rewrite number_ascii by exact W. rewrite P. reflexivity.
Qed.
Lemma xy_point_word d x w v : delimiter d -> printable x -> Forall number_char w -> w <> [] -> fparse ft w = Some v -> xy_point ft d (fprint ft x ++ d :: w) = Ok (mk2 x v).
Proof.
  intros D X W N P. unfold xy_point. rewrite !split_delim by auto using nums. rewrite split_number by assumption. rewrite !skip_empty_cons by auto using nonempty. cbn [skip_empty filter next_f64].
  unfold next_f64. rewrite !f64_of_print by assumption. cbn [obind]. unfold f64_of, from_ascii. rewrite number_ascii by exact W. rewrite P. reflexivity.
Qed.
Lemma xyz_text_point d p : delimiter d -> printable3 p -> xyz_point ft d (xyz_text ft d p) = Ok p.
Proof. destruct p as [x y z]. intros D (X & Y & Z). cbn [px py pz] in *. apply xyz_point_word; auto using nums, nonempty. apply (parse_print _ K), Z. Qed.
Lemma xy_text_point d p : delimiter d -> printable2 p -> xy_point ft d (xy_text ft d p) = Ok p.
Proof. destruct p as [x y]. intros D (X & Y). cbn [x2 y2] in *. apply xy_point_word; auto using nums, nonempty. apply (parse_print _ K), Y. Qed.
Lemma xyz_text_line d p : delimiter d -> is_line (xyz_text ft d p).
Proof.
  intros D I. unfold xyz_text in I. apply in_app_3 in I. destruct I as [I|[I|[I|I]]]; [exact (number_line _ (nums _) I)|exact (delim_not_nl d D (eq_sym I))|exact (number_line _ (nums _) I)..].
Qed.
Lemma xy_text_line d p : delimiter d -> is_line (xy_text ft d p).
Proof.
  intros D I. unfold xy_text in I. apply in_app_or in I. destruct I as [I|[I|I]]; [exact (number_line _ (nums _) I)|exact (delim_not_nl d D I)|exact (number_line _ (nums _) I)].
Qed.
Lemma xyz_text_trim d p c : trim_line (xyz_text ft d p ++ [c]) = xyz_text ft d p.
Proof.
  apply trim_line_id. right. unfold xyz_text. change (d :: fprint ft (py p) ++ d :: fprint ft (pz p)) with ([d] ++ fprint ft (py p) ++ [d] ++ fprint ft (pz p)). rewrite !app_assoc, last_app_ne by apply nonempty. apply last_number; [apply nums|apply nonempty].
Qed.
Lemma xy_text_trim d p c : trim_line (xy_text ft d p ++ [c]) = xy_text ft d p.
Proof.
  apply trim_line_id. right. unfold xy_text. change (d :: fprint ft (y2 p)) with ([d] ++ fprint ft (y2 p)). rewrite !app_assoc, last_app_ne by apply nonempty. apply last_number; [apply nums|apply nonempty].
Qed.
Lemma save_xyz_unlines d ps : save_xyz ft ps [d] [nl] = unlines (map (xyz_text ft d) ps).
Proof.
  induction ps as [|p ps IH]; [reflexivity|]. cbn [save_xyz flat_map unlines map] in *. unfold unlines in IH. rewrite <- IH. unfold xyz_text. rewrite <- !app_assoc. cbn [app]. rewrite <- !app_assoc. reflexivity.
Qed.
Lemma save_xy_unlines d ps : save_xy ft ps [d] [nl] = unlines (map (xy_text ft d) ps).
Proof.
  induction ps as [|p ps IH]; [reflexivity|]. cbn [save_xy flat_map unlines map] in *. unfold unlines in IH. rewrite <- IH. unfold xy_text. rewrite <- !app_assoc. cbn [app]. rewrite <- ?app_assoc. reflexivity.
Qed.
(** the state after the lines of [ps] *)
Lemma xyz_run_texts d ps rest : delimiter d -> Forall printable3 ps -> ps <> [] ->
  xy_run 2 (xyz_point ft) (map (fun p => xyz_text ft d p ++ [nl] : bytes) ps ++ rest) 0 None [] = xy_run 2 (xyz_point ft) rest (lenN ps) (Some d) ps.
Proof.
  intros D F N. set (xs := map (fun p => ((xyz_text ft d p ++ [nl] : bytes), p)) ps : list (bytes * pt3 F64)). assert (E1 : map (fun p => xyz_text ft d p ++ [nl]) ps = map fst xs) by (unfold xs; rewrite map_map; reflexivity).
  assert (E2 : map snd xs = ps) by (unfold xs; rewrite map_map; apply map_id). assert (E3 : lenN xs = lenN ps) by (unfold lenN, xs; rewrite map_length; reflexivity).
  transitivity (xy_run 2 (xyz_point ft) (map fst xs ++ rest) 0 None []); [rewrite <- E1; reflexivity|]. rewrite (xy_run_start 2 (xyz_point ft) d xs rest).
  - rewrite E2, E3. reflexivity.
  - unfold xs. destruct ps; [congruence|discriminate].
  - intros x I. unfold xs in I. apply in_map_iff in I. destruct I as (p & <- & I). cbn [fst]. rewrite xyz_text_trim. apply xyz_text_estimate, D.
  - apply Forall_forall. intros x I. unfold xs in I. apply in_map_iff in I. destruct I as (p & <- & I). cbn [fst snd]. rewrite xyz_text_trim. apply xyz_text_point; [exact D|]. rewrite Forall_forall in F. apply F, I.
Qed.
Lemma xy_run_texts d ps rest : delimiter d -> Forall printable2 ps -> ps <> [] ->
  xy_run 1 (xy_point ft) (map (fun p => xy_text ft d p ++ [nl]) ps ++ rest) 0 None [] = xy_run 1 (xy_point ft) rest (lenN ps) (Some d) ps.
Proof.
  intros D F N. set (xs := map (fun p => ((xy_text ft d p ++ [nl] : bytes), p)) ps : list (bytes * pt2 F64)). assert (E1 : map (fun p => xy_text ft d p ++ [nl]) ps = map fst xs) by (unfold xs; rewrite map_map; reflexivity).
  assert (E2 : map snd xs = ps) by (unfold xs; rewrite map_map; apply map_id). assert (E3 : lenN xs = lenN ps) by (unfold lenN, xs; rewrite map_length; reflexivity).
  transitivity (xy_run 1 (xy_point ft) (map fst xs ++ rest) 0 None []); [rewrite <- E1; reflexivity|]. rewrite (xy_run_start 1 (xy_point ft) d xs rest).
  - rewrite E2, E3. reflexivity.
  - unfold xs. destruct ps; [congruence|discriminate].
  - intros x I. unfold xs in I. apply in_map_iff in I. destruct I as (p & <- & I). cbn [fst]. rewrite xy_text_trim. apply xy_text_estimate, D.
  - apply Forall_forall. intros x I. unfold xs in I. apply in_map_iff in I. destruct I as (p & <- & I). cbn [fst snd]. rewrite xy_text_trim. apply xy_text_point; [exact D|]. rewrite Forall_forall in F. apply F, I.
Qed.
Lemma load_xyz_run k file : (length (raw_lines file) < k)%nat -> load_xyz ft k file = Some (xy_run 2 (xyz_point ft) (raw_lines file) 0 None []).
Proof. intros L. apply xy_loop, L. Qed.
Lemma load_xy_run k file : (length (raw_lines file) < k)%nat -> load_xy ft k file = Some (xy_run 1 (xy_point ft) (raw_lines file) 0 None []).
Proof. intros L. apply xy_loop, L. Qed.
Lemma raw_save_xyz d ps s : delimiter d -> raw_lines (save_xyz ft ps [d] [nl] ++ s) = map (fun p => xyz_text ft d p ++ [nl]) ps ++ raw_lines s.
Proof. intros D. rewrite save_xyz_unlines, raw_unlines; [rewrite map_map; reflexivity|]. apply Forall_forall. intros l I. apply in_map_iff in I. destruct I as (p & <- & _). apply xyz_text_line, D. Qed.
Lemma raw_save_xy d ps s : delimiter d -> raw_lines (save_xy ft ps [d] [nl] ++ s) = map (fun p => xy_text ft d p ++ [nl]) ps ++ raw_lines s.
Proof. intros D. rewrite save_xy_unlines, raw_unlines; [rewrite map_map; reflexivity|]. apply Forall_forall. intros l I. apply in_map_iff in I. destruct I as (p & <- & _). apply xy_text_line, D. Qed.
End Texts.
Lemma first_line s : (exists l t, is_line l /\ s = l ++ nl :: t) \/ is_line s.
Proof.
  induction s as [|c r IH]; [right; intros []|]. destruct (Ascii.eqb c nl) eqn:E.
  - apply Ascii.eqb_eq in E. subst c. left. exists [], r. split; [intros []|reflexivity].
  - assert (N : c <> nl) by (intros ->; rewrite Ascii.eqb_refl in E; discriminate). destruct IH as [(l & t & L & ->)|L].
    + left. exists (c :: l), t. split; [|reflexivity]. intros [H|H]; [apply N, H|exact (L H)].
    + right. intros [H|H]; [apply N, H|exact (L H)].
Qed.
Lemma raw_split : forall n s, (n < length (raw_lines s))%nat -> exists ls b, Forall is_line ls /\ length ls = n /\ s = unlines ls ++ b /\ b <> [].
Proof.
  induction n as [|n IH]; intros s H.
  - exists [], s. split; [constructor|]. split; [reflexivity|]. split; [reflexivity|]. intros ->. cbn in H. lia.
  - destruct (first_line s) as [(l & t & L & ->)|L].
    + rewrite raw_line_app in H by exact L. cbn [length] in H. destruct (IH t ltac:(lia)) as (ls & b & F & E & -> & B). exists (l :: ls), b. split; [constructor; assumption|]. cbn [length unlines flat_map]. split; [congruence|]. split; [|exact B].
      unfold unlines. rewrite <- !app_assoc. reflexivity.
    + destruct s as [|c s]; [cbn in H; lia|]. rewrite raw_last in H by (exact L || discriminate). cbn in H. lia.
Qed.
Lemma unlines_raw ls : Forall is_line ls -> raw_lines (unlines ls) = map (fun l => l ++ [nl]) ls.
Proof. intros F. rewrite <- (app_nil_r (unlines ls)), raw_unlines by exact F. cbn [raw_lines]. apply app_nil_r. Qed.
Lemma unlines_firstn ls b n : Forall is_line ls -> length ls = n -> firstn n (raw_lines (unlines ls ++ b)) = raw_lines (unlines ls).
Proof. intros F <-. rewrite raw_unlines, unlines_raw by exact F. rewrite firstn_app, map_length, Nat.sub_diag. cbn [firstn]. rewrite app_nil_r, firstn_all2 by (rewrite map_length; apply Nat.le_refl). reflexivity. Qed.
Lemma unlines_nth ls b n line : Forall is_line ls -> length ls = n -> nth_error (map trim_line (raw_lines (unlines ls ++ b))) n = Some line -> exists r, fetch_line b = Some (line, r).
Proof.
  intros F <- H. rewrite raw_unlines in H by exact F. rewrite map_app, nth_error_app2, !map_length, Nat.sub_diag in H by (rewrite !map_length; apply Nat.le_refl). rewrite fetch_line_raw. destruct (raw_lines b) as [|l r]; [discriminate|]. cbn in H. injection H as <-. cbn [next_line]. eexists; reflexivity.
Qed.

Lemma two_words_error ft d x y l : ft_ok ft -> delimiter d -> printable x -> printable y -> l = fprint ft x ++ d :: fprint ft y \/ l = fprint ft x ++ d :: fprint ft y ++ [d] ->
  xyz_point ft d l = Err XyVertex /\ forall c, estimate_delimiter 2 l = Some c -> c = d.
Proof.
  intros K D X Y H. split.
  - assert (W : skip_empty (split_on (fun c => Ascii.eqb c d) l) = [fprint ft x; fprint ft y]).
    { destruct H as [-> | ->].
      - rewrite split_delim, split_number by auto using nums. rewrite !skip_empty_cons by auto using nonempty. reflexivity.
      - rewrite !split_delim by auto using nums. rewrite !skip_empty_cons by auto using nonempty. reflexivity. }
    unfold xyz_point. rewrite W. cbn [next_f64]. unfold next_f64. rewrite !f64_of_print by assumption. cbn [obind]. rewrite !f64_of_print by assumption. reflexivity.
  - intros c E. unfold estimate_delimiter in E. apply find_some in E. destruct E as [I E]. apply Nat.leb_le in E.
    assert (De : delimiter c) by (unfold delimiter; cbn [In] in I; intuition). destruct (Ascii.eqb d c) eqn:Q; [apply Ascii.eqb_eq in Q; congruence|]. exfalso.
    assert (Z : length (filter (fun x0 => Ascii.eqb x0 c) l) = 0%nat); [|lia].
    destruct H as [-> | ->]; rewrite !filter_app_len; cbn [filter]; rewrite Q, ?filter_app_len, !(number_count c) by auto using nums; cbn [filter]; rewrite ?Q; reflexivity.
Qed.
Lemma load_loop_mono {S E A} (next : S -> option (outcome E A) * S) : forall k j s acc r, load_loop next k s acc = Some r -> load_loop next (k + j) s acc = Some r.
Proof.
  induction k as [|k IH]; intros j s acc r H; [discriminate|]. cbn [load_loop Nat.add] in *. destruct (next s) as [[[a|e|]|] s']; try exact H. apply IH, H.
Qed.
Lemma load_loop_le {S E A} (next : S -> option (outcome E A) * S) k k' s acc r : (k <= k')%nat -> load_loop next k s acc = Some r -> load_loop next k' s acc = Some r.
Proof. intros L H. replace k' with (k + (k' - k))%nat by lia. apply load_loop_mono, H. Qed.
