From Verif Require Import Base SortSpec.

Lemma insert_perm {A} cmp (x : A) l : Permutation (x :: l) (insert_by cmp x l).
Proof.
  induction l as [|y r IH]; cbn [insert_by]; [auto|].
  destruct (cmp x y); auto. rewrite perm_swap. auto.
Qed.
Lemma isort_perm A cmp (l : list A) : Permutation l (isort A cmp l).
Proof.
  induction l as [|x r IH]; [constructor|]. cbn [isort fold_right].
  rewrite <- insert_perm. constructor. exact IH.
Qed.
Lemma insert_in {A} cmp (x y : A) l : In y (insert_by cmp x l) -> y = x \/ In y l.
Proof.
  intro H. apply (Permutation_in _ (Permutation_sym (insert_perm cmp x l))) in H.
  destruct H; auto.
Qed.
Lemma insert_sorted {A} cmp (x : A) l : cmp_ok cmp (x :: l) ->
  StronglySorted (fun a b => cmp a b <> Gt) l ->
  StronglySorted (fun a b => cmp a b <> Gt) (insert_by cmp x l).
Proof.
  intros [Op Tr]. induction l as [|y r IH]; intros S; cbn [insert_by].
  - constructor; auto.
  - inversion S as [|? ? S1 S2]; subst.
    assert (X : cmp x y <> Gt -> Forall (fun b => cmp x b <> Gt) (y :: r)).
    { intro H. constructor; [exact H|]. apply Forall_forall. intros b Hb.
      rewrite Forall_forall in S2. apply (Tr x y b); cbn; auto. }
    destruct (cmp x y) eqn:E; try (constructor; [exact S|apply X; discriminate]).
    constructor.
    + apply IH; [| |exact S1]; cbn in *; intros; [apply Op|eapply Tr with (b := b)]; intuition.
    + apply Forall_forall. intros b Hb. apply insert_in in Hb. destruct Hb as [->|Hb].
      * rewrite (Op x y) by (cbn; auto). rewrite E. discriminate.
      * rewrite Forall_forall in S2. auto.
Qed.
Lemma cmp_ok_sub {A} cmp (l m : list A) : cmp_ok cmp l -> (forall x, In x m -> In x l) -> cmp_ok cmp m.
Proof. intros [Op Tr] I. split; intros; [apply Op|eapply Tr with (b := b)]; auto. Qed.
Lemma isort_sorted A cmp (l : list A) : cmp_ok cmp l ->
  StronglySorted (fun a b => cmp a b <> Gt) (isort A cmp l).
Proof.
  induction l as [|x r IH]; intro C; [constructor|]. cbn [isort fold_right].
  apply insert_sorted.
  - apply (cmp_ok_sub _ _ _ C). intros y [->|Hy]; [left; auto|right].
    apply (Permutation_in _ (Permutation_sym (isort_perm _ cmp r))). exact Hy.
  - apply IH. apply (cmp_ok_sub _ _ _ C). intros; right; auto.
Qed.
Lemma isort_stable A cmp (l : list A) : cmp_ok cmp l -> forall x, In x l ->
  filter (fun y => is_eq (cmp x y)) (isort A cmp l) = filter (fun y => is_eq (cmp x y)) l.
Proof.
  assert (G : forall l, cmp_ok cmp l -> forall z m, cmp_ok cmp (z :: m) -> (forall y, In y l -> In y (z :: m)) ->
     filter (fun y => is_eq (cmp z y)) (isort A cmp l) = filter (fun y => is_eq (cmp z y)) l).
  { clear l. induction l as [|x r IH]; intros C z m Cz Sub; [reflexivity|].
    cbn [isort fold_right]. change (fold_right (insert_by cmp) [] r) with (isort A cmp r).
    assert (P : Permutation r (isort A cmp r)) by apply isort_perm.
    assert (C2 : cmp_ok cmp (z :: x :: isort A cmp r)).
    { apply (cmp_ok_sub _ _ _ Cz). intros y [->|[->|Hy]]; [left; auto|apply Sub; left; auto|].
      apply Sub. right. apply (Permutation_in _ (Permutation_sym P) Hy). }
    transitivity (filter (fun y => is_eq (cmp z y)) (x :: isort A cmp r)).
    - (* z need not be in the list: generalise insert_stable *)
      destruct C2 as [Op Tr]. revert Op Tr. generalize (isort A cmp r) as l. clear.
      induction l as [|y l IH]; intros Op Tr; cbn [insert_by]; [reflexivity|].
      destruct (cmp x y) eqn:E; try reflexivity. cbn [filter] in *. rewrite IH.
      + destruct (is_eq (cmp z y)) eqn:Y, (is_eq (cmp z x)) eqn:X; try reflexivity.
        exfalso. destruct (cmp z y) eqn:Zy; try discriminate. destruct (cmp z x) eqn:Zx; try discriminate.
        assert (cmp x z = Eq) by (rewrite (Op z x), Zx by (cbn; auto); reflexivity).
        apply (Tr x z y); cbn; auto; congruence.
      + intros a b Ha Hb. apply Op; cbn in *; intuition.
      + intros a b c Ha Hb Hc. apply Tr; cbn in *; intuition.
    - cbn [filter]. rewrite (IH (cmp_ok_sub _ _ _ C (fun y H => or_intror H)) z m Cz).
      + reflexivity.
      + intros y Hy. apply Sub. right; auto. }
  intros C x Hx. apply (G l C x l).
  - apply (cmp_ok_sub _ _ _ C). intros y [->|H]; auto.
  - intros; right; auto.
Qed.
Lemma isort_ok : sort_ok isort.
Proof. split; [exact isort_perm|exact isort_sorted|exact isort_stable]. Qed.

(** The contract determines the result. *)
Lemma filter_none {A} (f : A -> bool) l : (forall x, In x l -> f x = false) -> filter f l = [].
Proof. induction l as [|x l IH]; intros H; [reflexivity|]. cbn. rewrite (H x) by (cbn; auto). apply IH. intros; apply H; cbn; auto. Qed.
Lemma sorted_unique {A} (cmp : A -> A -> comparison) : forall l1 l2, cmp_ok cmp l1 -> Permutation l1 l2 ->
  StronglySorted (fun a b => cmp a b <> Gt) l1 -> StronglySorted (fun a b => cmp a b <> Gt) l2 ->
  (forall x, In x l1 -> filter (fun y => is_eq (cmp x y)) l1 = filter (fun y => is_eq (cmp x y)) l2) -> l1 = l2.
Proof.
  induction l1 as [|a r1 IH]; intros l2 OK P S1 S2 F; [symmetry; apply Permutation_nil; exact P|].
  destruct l2 as [|b r2]; [apply Permutation_sym, Permutation_nil in P; discriminate|].
  assert (AA : cmp a a = Eq).
  { destruct OK as [O _]. specialize (O a a (or_introl eq_refl) (or_introl eq_refl)). destruct (cmp a a); cbn in O; congruence. }
  assert (Ia : In a (b :: r2)) by (eapply Permutation_in; [exact P|left; reflexivity]).
  assert (Ib : In b (a :: r1)) by (eapply Permutation_in; [apply Permutation_sym, P|left; reflexivity]).
  assert (AB : a = b \/ cmp a b = Eq).
  { destruct Ia as [->|Ia]; [auto|]. destruct Ib as [->|Ib]; [auto|]. right.
    inversion S1 as [|? ? _ H1]; inversion S2 as [|? ? _ H2]; subst. rewrite Forall_forall in H1, H2.
    specialize (H1 b Ib). specialize (H2 a Ia). destruct OK as [O _]. rewrite (O a b) in H2 by (cbn; auto). destruct (cmp a b); cbn in *; congruence. }
  assert (E : a = b).
  { destruct AB as [E|E]; [exact E|]. specialize (F a (or_introl eq_refl)). cbn in F. rewrite AA, E in F. cbn in F. congruence. }
  subst b. f_equal. inversion S1 as [|? ? T1 _]; inversion S2 as [|? ? T2 _]; subst. apply IH; auto.
  - eapply cmp_ok_sub; [exact OK|]. intros; right; assumption.
  - eapply Permutation_cons_inv; exact P.
  - intros x Ix. specialize (F x (or_intror Ix)). cbn in F. destruct (is_eq (cmp x a)); congruence.
Qed.
Lemma sort_unique s A (cmp : A -> A -> comparison) l : sort_ok s -> cmp_ok cmp l -> s A cmp l = isort A cmp l.
Proof.
  intros S OK. assert (P : Permutation (s A cmp l) (isort A cmp l)).
  { eapply Permutation_trans; [apply Permutation_sym, (sort_perm _ S)|apply (sort_perm _ isort_ok)]. }
  apply (sorted_unique cmp).
  - eapply cmp_ok_sub; [exact OK|]. intros x I. eapply Permutation_in; [apply Permutation_sym, (sort_perm _ S)|exact I].
  - exact P.
  - apply (sort_sorted _ S), OK.
  - apply (sort_sorted _ isort_ok), OK.
  - intros x I. assert (Il : In x l) by (eapply Permutation_in; [apply Permutation_sym, (sort_perm _ S)|exact I]).
    rewrite (sort_stable _ S _ _ _ OK x Il), (sort_stable _ isort_ok _ _ _ OK x Il). reflexivity.
Qed.
