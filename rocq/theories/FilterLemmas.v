(** Lemmas about filters and views. *)
From Verif Require Import Base BaseLemmas FilterModel FilterSpec.

(** ** Combinators *)
Fixpoint fltexp_ind' {T} (Q : fltexp T -> Prop) (base : forall f, Q (FBase f)) (al : Q FAllow) (de : Q FDeny)
  (an : forall a b, Q a -> Q b -> Q (FAnd a b)) (o : forall a b, Q a -> Q b -> Q (FOr a b))
  (xo : forall a b, Q a -> Q b -> Q (FXor a b)) (no : forall a, Q a -> Q (FNot a))
  (ho : forall a b, Q a -> Q b -> Q (FHollow a b))
  (all : forall l, Forall Q l -> Q (FAll l)) (any : forall l, Forall Q l -> Q (FAny l)) (e : fltexp T) : Q e :=
  let go := fltexp_ind' Q base al de an o xo no ho all any in
  let gol := fix gol (l : list (fltexp T)) : Forall Q l :=
    match l with [] => Forall_nil Q | a :: r => @Forall_cons _ Q a r (go a) (gol r) end in
  match e with
  | FBase f => base f
  | FAllow => al
  | FDeny => de
  | FAnd a b => an a b (go a) (go b)
  | FOr a b => o a b (go a) (go b)
  | FXor a b => xo a b (go a) (go b)
  | FNot a => no a (go a)
  | FHollow a b => ho a b (go a) (go b)
  | FAll l => all l (gol l)
  | FAny l => any l (gol l)
  end.
Lemma build_accepts {T} (e : fltexp T) x : fbuild e x = true <-> accepts e x.
Proof.
  induction e as [f| | |a b IA IB|a b IA IB|a b IA IB|a IA|a b IA IB|l IL|l IL] using fltexp_ind'; cbn [fbuild accepts].
  - reflexivity.
  - split; auto.
  - split; [discriminate|intros []].
  - unfold filter_and. rewrite Bool.andb_true_iff, IA, IB. reflexivity.
  - unfold filter_or. rewrite Bool.orb_true_iff, IA, IB. reflexivity.
  - unfold filter_xor. rewrite <- IA, <- IB. destruct (fbuild a x), (fbuild b x); cbn; intuition congruence.
  - unfold filter_negate. rewrite <- IA. destruct (fbuild a x); cbn; intuition congruence.
  - unfold filter_outer_inner, filter_and, filter_negate. rewrite <- IA, <- IB.
    destruct (fbuild a x), (fbuild b x); cbn; intuition congruence.
  - induction IL as [|a l Ha _ IH]; cbn [map filter_all fold_right]; [split; auto|].
    rewrite <- IH, <- Ha. destruct (fbuild a x); cbn; intuition congruence.
  - induction IL as [|a l Ha _ IH]; cbn [map filter_any fold_right]; [split; [discriminate|intros []]|].
    rewrite <- IH, <- Ha. destruct (fbuild a x); cbn; intuition congruence.
Qed.

(** ** Views *)
Lemma nthN_nat {A} (l : list A) : forall i, nthN l i = nth_error l (N.to_nat i).
Proof.
  induction l as [|a r IH]; intro i; cbn [nthN].
  - destruct (N.to_nat i); reflexivity.
  - destruct (N.eqb_spec i 0) as [->|NZ]; [reflexivity|]. rewrite IH.
    replace (N.to_nat i) with (S (N.to_nat (i - 1)))%nat by lia. reflexivity.
Qed.
Section RA.
Context {T : Type}.
Implicit Types (f : T -> bool) (ra : list T).
Lemma collect_allowed_in f ra : forall s i, In i (collect_allowed f s ra) <-> (s <= i)%N /\ accepted_at f ra (i - s).
Proof.
  induction ra as [|x r IH]; intros s i; cbn [collect_allowed].
  - split; [intros []|]. intros [_ (y & H & _)]. destruct (N.to_nat (i - s)); discriminate.
  - assert (E : (s <= i)%N /\ accepted_at f (x :: r) (i - s) <->
      (i = s /\ f x = true) \/ ((s + 1 <= i)%N /\ accepted_at f r (i - (s + 1)))).
    { unfold accepted_at. split.
      - intros [L (y & H & K)]. destruct (N.eq_dec i s) as [->|NE].
        + rewrite N.sub_diag in H. cbn in H. injection H as <-. auto.
        + right. split; [lia|]. replace (N.to_nat (i - s)) with (S (N.to_nat (i - (s + 1))))%nat in H by lia.
          cbn in H. eauto.
      - intros [[-> K]|[L (y & H & K)]].
        + split; [lia|]. rewrite N.sub_diag. exists x. auto.
        + split; [lia|]. replace (N.to_nat (i - s)) with (S (N.to_nat (i - (s + 1))))%nat by lia. exists y. auto. }
    rewrite E. destruct (f x) eqn:Fx; cbn [In]; rewrite IH.
    + split; [intros [->|H]; auto|intros [[-> _]|H]; auto].
    + split; [auto|]. intros [[_ K]|H]; [discriminate|exact H].
Qed.
Lemma set_remove_in l i j : In j (set_remove l i) <-> In j l /\ j <> i.
Proof.
  unfold set_remove. rewrite filter_In. split; intros [H1 H2]; (split; [exact H1|]).
  - intros ->. rewrite N.eqb_refl in H2. discriminate.
  - destruct (N.eqb_spec i j) as [->|]; [congruence|reflexivity].
Qed.
Lemma removes_in rs : forall l j, In j (fold_left set_remove rs l) <-> In j l /\ ~ In j rs.
Proof.
  induction rs as [|r rs IH]; intros l j; cbn [fold_left In]; [tauto|].
  rewrite IH, set_remove_in. intuition.
Qed.
Lemma must_remove_iff f ra i : ra <> [] -> must_remove f ra i = false <-> accepted_at f ra i.
Proof.
  intro NE. unfold must_remove, accepted_at. destruct ra as [|a r]; [congruence|]. set (ra := a :: r) in *.
  assert (L : (1 <= length ra)%nat) by (cbn; lia). clearbody ra. unfold lenN.
  destruct (N.ltb_spec (N.of_nat (length ra) - 1) i) as [H|H].
  - split; [discriminate|]. intros (x & E & _). assert (nth_error ra (N.to_nat i) <> None) by congruence.
    apply nth_error_Some in H0. lia.
  - rewrite nthN_nat. destruct (nth_error ra (N.to_nat i)) as [x|] eqn:E.
    + split; [intro K; exists x; split; [reflexivity|]; destruct (f x); [reflexivity|discriminate]|].
      intros (y & [= <-] & ->). reflexivity.
    + apply nth_error_None in E. lia.
Qed.
Lemma fra_in f ra v i : ra <> [] -> in_view (filter_random_accessible f ra v) i <-> in_view v i /\ accepted_at f ra i.
Proof.
  intro NE. unfold filter_random_accessible. destruct ra as [|a r]; [congruence|]. set (ra := a :: r) in *. clearbody ra.
  destruct v as [|l]; cbn [in_view].
  - rewrite collect_allowed_in, N.sub_0_r. split; [tauto|]. intros [_ H]. split; [lia|exact H].
  - rewrite removes_in, filter_In, <- must_remove_iff by exact NE. destruct (must_remove f ra i); intuition congruence.
Qed.
Lemma all_in fs ra : ra <> [] -> forall v i,
  in_view (filter_all_random_accessible (map filter_random_accessible fs) ra v) i <->
  in_view v i /\ forall f, In f fs -> accepted_at f ra i.
Proof.
  intro NE. unfold filter_all_random_accessible. induction fs as [|f r IH]; intros v i; cbn [map fold_left In].
  - split; [intro H; split; [exact H|intros ? []]|tauto].
  - rewrite IH, fra_in by exact NE. split.
    + intros [[H1 H2] H3]. split; [exact H1|]. intros g [<-|H]; auto.
    + intros [H1 H2]. auto.
Qed.
Lemma union_in a b i : in_view (view_union a b) i <-> in_view a i \/ in_view b i.
Proof.
  destruct a as [|la], b as [|lb]; cbn; try tauto. apply in_app_iff.
Qed.
Lemma any_in fs ra : forall v i, in_view (filter_any_random_accessible fs ra v) i <-> in_view v i \/ exists g, In g fs /\ in_view (g ra v) i.
Proof.
  unfold filter_any_random_accessible. intros v i.
  assert (K : forall w, in_view (fold_left (fun w h => view_union w (h ra v)) fs w) i <-> in_view w i \/ exists g : ra_filter (T := T), In g fs /\ in_view (g ra v) i).
  { induction fs as [|f r IH]; intro w; cbn [fold_left In].
    - split; [tauto|]. intros [H|(g & [] & _)]. exact H.
    - rewrite IH, union_in. split.
      + intros [[H|H]|(g & Hg & H)]; [tauto| |]; right; [exists f; auto|exists g; auto].
      + intros [H|(g & [<-|Hg] & H)]; [tauto|tauto|]. right. exists g. auto. }
  apply K.
Qed.

(** ** apply_view *)
Lemma set_has_iff i l : set_has i l = true <-> In i l.
Proof.
  unfold set_has. rewrite existsb_exists. split.
  - intros (x & H & E). apply N.eqb_eq in E. subst. exact H.
  - intro H. exists i. split; [exact H|apply N.eqb_refl].
Qed.
Lemma ascending_weaken idx : forall a b, (a <= b)%N -> ascending b idx -> ascending a idx.
Proof. destruct idx as [|i r]; cbn; [auto|]. intros a b L [H1 H2]. split; [lia|exact H2]. Qed.
Lemma select_spec (indices : list N) : forall l s, exists idx,
  ascending s idx /\ (forall i, In i idx <-> (s <= i)%N /\ (i < s + lenN l)%N /\ In i indices) /\
  map Some (select (T := T) indices s l) = map (fun i => nth_error l (N.to_nat (i - s))) idx.
Proof.
  induction l as [|x r IH]; intro s.
  - exists []. split; [exact Logic.I|]. split; [|reflexivity]. intro i. cbn. split; [intros []|lia].
  - destruct (IH (s + 1)%N) as (idx & I1 & I2 & I3). cbn [select].
    assert (SH : map (fun i => nth_error r (N.to_nat (i - (s + 1)))) idx = map (fun i => nth_error (x :: r) (N.to_nat (i - s))) idx).
    { apply map_ext_in. intros i Hi. apply I2 in Hi.
      replace (N.to_nat (i - s)) with (S (N.to_nat (i - (s + 1))))%nat by lia. reflexivity. }
    assert (LL : lenN (x :: r) = (lenN r + 1)%N) by (unfold lenN; cbn [length]; lia).
    destruct (set_has s indices) eqn:E.
    + apply set_has_iff in E. exists (s :: idx). split; [|split].
      * cbn. split; [lia|exact I1].
      * intro i. cbn [In]. rewrite I2, LL. split.
        -- intros [<-|(H1 & H2 & H3)]; (split; [lia|split; [lia|assumption]]).
        -- intros (H1 & H2 & H3). destruct (N.eq_dec s i) as [|NE]; [auto|right]. split; [lia|]. split; [lia|exact H3].
      * cbn [map]. rewrite N.sub_diag, I3, SH. reflexivity.
    + exists idx. split; [apply ascending_weaken with (b := (s + 1)%N); [lia|exact I1]|]. split; [|rewrite I3; exact SH].
      intro i. rewrite I2, LL. split; intros (H1 & H2 & H3).
      * split; [lia|]. split; [lia|exact H3].
      * assert (s <> i) by (intros ->; apply set_has_iff in H3; congruence). split; [lia|]. split; [lia|exact H3].
Qed.
Lemma select_ext (a b : list N) l : forall s, (forall i, (s <= i)%N -> set_has i a = set_has i b) -> select (T := T) a s l = select b s l.
Proof.
  induction l as [|x r IH]; intros s H; [reflexivity|]. cbn [select]. rewrite (H s) by lia.
  rewrite (IH (s + 1)%N) by (intros; apply H; lia). reflexivity.
Qed.
Lemma collect_ge f l : forall s i, In i (collect_allowed f s l) -> (s <= i)%N.
Proof. intros s i H. apply collect_allowed_in in H. tauto. Qed.
Lemma select_collect f l : forall s, select (collect_allowed f s l) s l = filter f l.
Proof.
  induction l as [|x r IH]; intro s; [reflexivity|]. cbn [select collect_allowed filter].
  assert (NI : set_has s (collect_allowed f (s + 1)%N r) = false).
  { apply Bool.not_true_is_false. rewrite set_has_iff. intro H. apply collect_ge in H. lia. }
  destruct (f x) eqn:E.
  - replace (set_has s (s :: collect_allowed f (s + 1)%N r)) with true by (cbn; rewrite N.eqb_refl; reflexivity).
    f_equal. rewrite <- (IH (s + 1)%N). apply select_ext. intros i Hi. cbn [set_has existsb].
    destruct (N.eqb_spec i s); [lia|reflexivity].
  - rewrite NI. apply IH.
Qed.
Lemma accepted_lt f ra i : accepted_at f ra i -> (i < lenN ra)%N.
Proof.
  intros (x & H & _). unfold lenN. assert (nth_error ra (N.to_nat i) <> None) by congruence.
  apply nth_error_Some in H0. lia.
Qed.
End RA.
Lemma apply_exact {T} (f : T -> bool) ra idx : (forall i, In i idx <-> accepted_at f ra i) ->
  apply_view ra (Restricted idx) = (filter f ra, Ok tt).
Proof.
  intro H. unfold apply_view.
  assert (E : existsb (fun x => lenN ra <=? x)%N idx = false).
  { apply Bool.not_true_is_false. rewrite existsb_exists. intros (i & Hi & L). apply H, accepted_lt in Hi. apply N.leb_le in L. lia. }
  rewrite E. f_equal. rewrite <- (select_collect f ra 0). apply select_ext. intros i _.
  apply Bool.eq_true_iff_eq. rewrite !set_has_iff, H, collect_allowed_in, N.sub_0_r. split; [intro; split; [lia|assumption]|tauto].
Qed.
Lemma pipeline_all {T} (fs : list (T -> bool)) ra :
  apply_view ra (filter_all_random_accessible (map filter_random_accessible fs) ra Full) =
  (filter (fun x => forallb (fun f => f x) fs) ra, Ok tt).
Proof.
  destruct ra as [|a r].
  - assert (E : forall l v, v = Full -> filter_all_random_accessible (map filter_random_accessible l) (@nil T) v = Full).
    { unfold filter_all_random_accessible. induction l as [|f l IH]; intros v ->; [reflexivity|]. cbn [map fold_left]. apply IH. reflexivity. }
    rewrite E by reflexivity. reflexivity.
  - set (ra := a :: r) in *. assert (NE : ra <> []) by discriminate. clearbody ra.
    pose proof (all_in fs ra NE Full) as A.
    destruct fs as [|f0 fr].
    + cbn. f_equal. clear. induction ra as [|x l IH]; [reflexivity|]. cbn. f_equal. exact IH.
    + destruct (filter_all_random_accessible (map filter_random_accessible (f0 :: fr)) ra Full) as [|idx].
      * exfalso. destruct (A (lenN ra)) as [A1 _]. destruct (A1 Logic.I) as [_ A2].
        specialize (A2 f0 (or_introl eq_refl)). apply accepted_lt in A2. lia.
      * apply apply_exact. intro i. specialize (A i). cbn [in_view] in A. rewrite A. unfold accepted_at. split.
        -- intros [_ H]. destruct (H f0 (or_introl eq_refl)) as (x & Ex & _). exists x. split; [exact Ex|].
           apply forallb_forall. intros f Hf. destruct (H f Hf) as (y & Ey & Fy). congruence.
        -- intros (x & Ex & Fx). split; [exact Logic.I|]. intros f Hf. exists x. split; [exact Ex|].
           rewrite forallb_forall in Fx. apply Fx, Hf.
Qed.
