(** Laws of the derived Ord. *)
From Verif Require Import Base Num NumLemmas BBoxModel FilterModel KdModel LineModel NormalModel EditModel CloudModel CloudLemmas MeshModel GeomSpec SortSpec DeriveModel DeriveSpec DeriveLemmas.
From Coq Require Import Floats.SpecFloat.

Record olaws {A} (ok : A -> Prop) (cmp : A -> A -> comparison) : Prop := {
  o_opp : forall a b, ok a -> ok b -> cmp b a = CompOpp (cmp a b);
  o_comb : forall a b d z, ok a -> ok b -> ok d -> comb (cmp a b) (cmp b d) = Some z -> cmp a d = z
}.
Arguments o_opp {A ok cmp}. Arguments o_comb {A ok cmp}.
Lemma olaws_of {A} (ok : A -> Prop) (cmp : A -> A -> comparison) : (forall l, Forall ok l -> cmp_ok cmp l) -> olaws ok cmp.
Proof.
  intros H. split.
  - intros a b A0 B0. apply (H [a; b]); cbn; auto.
  - intros a b d z A0 B0 D0 C. assert (K : cmp_ok cmp [a; b; d]) by auto. destruct K as [K1 K2].
    assert (I1 : In a [a; b; d]) by (cbn; auto). assert (I2 : In b [a; b; d]) by (cbn; auto). assert (I3 : In d [a; b; d]) by (cbn; auto).
    pose proof (K1 a b I1 I2) as Oab. pose proof (K1 b d I2 I3) as Obd. pose proof (K1 a d I1 I3) as Oad.
    pose proof (K2 a b d I1 I2 I3) as T1. pose proof (K2 d b a I3 I2 I1) as T2. pose proof (K2 d a b I3 I1 I2) as T3. pose proof (K2 b d a I2 I3 I1) as T4.
    destruct (cmp a b), (cmp b d), (cmp a d); cbn in *; try discriminate C; injection C as <-; try reflexivity; exfalso;
      rewrite ?Oab, ?Obd, ?Oad in *; try (apply T1; congruence); try (apply T2; congruence); try (apply T3; congruence); try (apply T4; congruence).
Qed.
Lemma olaws_to {A} (ok : A -> Prop) (cmp : A -> A -> comparison) : olaws ok cmp -> forall l, Forall ok l -> cmp_ok cmp l.
Proof.
  intros L l F. rewrite Forall_forall in F. split.
  - intros a b Ha Hb. apply (o_opp L); auto.
  - intros a b d Ha Hb Hd X Y Z. destruct (cmp a b) eqn:E1, (cmp b d) eqn:E2; try congruence;
      assert (Q := o_comb L a b d); rewrite E1, E2 in Q; cbn in Q; specialize (Q _ (F a Ha) (F b Hb) (F d Hd) eq_refl); congruence.
Qed.
Lemma then_opp c d : CompOpp (then_cmp c d) = then_cmp (CompOpp c) (CompOpp d).
Proof. destruct c; reflexivity. Qed.
Lemma then_comb (c1 c2 e1 e2 r1 r2 z : comparison) : comb (then_cmp c1 e1) (then_cmp c2 e2) = Some z ->
  (forall z, comb c1 c2 = Some z -> r1 = z) -> (forall z, comb e1 e2 = Some z -> r2 = z) -> then_cmp r1 r2 = z.
Proof.
  intros C Q1 Q2. destruct c1, c2; cbn [then_cmp] in *; try discriminate C; try (destruct e1; discriminate C); try (rewrite (Q1 _ eq_refl); cbn [then_cmp]).
  - apply Q2, C. - destruct e1; cbn in C; congruence. - destruct e2; cbn in C; congruence. - cbn in C; congruence.
Qed.
Lemma then_olaws {A} (ok1 ok2 ok : A -> Prop) c1 c2 : (forall a, ok a -> ok1 a /\ ok2 a) -> olaws ok1 c1 -> olaws ok2 c2 ->
  olaws ok (fun a b => then_cmp (c1 a b) (c2 a b)).
Proof.
  intros H L1 L2. split.
  - intros a b A0 B0. apply H in A0, B0. rewrite then_opp, (o_opp L1 a b), (o_opp L2 a b) by tauto. reflexivity.
  - intros a b d z A0 B0 D0 C. apply H in A0, B0, D0.
    eapply then_comb; [exact C| |]; intros z1 C1; [apply (o_comb L1 a b d)|apply (o_comb L2 a b d)]; tauto.
Qed.
Lemma field_olaws {A C} (okA : A -> Prop) (ok : C -> Prop) (f : C -> A) c : (forall a, ok a -> okA (f a)) -> olaws okA c -> olaws ok (fun a b => c (f a) (f b)).
Proof. intros H L. split; intros; [apply (o_opp L); auto|apply (o_comb L (f a) (f b) (f d)); auto]. Qed.
Lemma ncompare_olaws : olaws (fun _ : N => True) N.compare.
Proof.
  split; intros.
  - apply N.compare_antisym.
  - destruct (N.compare_spec a b), (N.compare_spec b d); try discriminate; injection H2 as <-; destruct (N.compare_spec a d); try reflexivity; lia.
Qed.
Lemma list_olaws {A} (ok : A -> Prop) c : olaws ok c -> olaws (Forall ok) (list_cmp c).
Proof.
  intros L. split.
  - induction a as [|a l IH]; intros [|b m] FA FB; cbn [list_cmp]; try reflexivity. inversion FA; inversion FB; subst.
    rewrite then_opp, (o_opp L a b), (IH m) by assumption. reflexivity.
  - induction a as [|a l IH]; intros [|b m] [|d n] z FA FB FD C; cbn [list_cmp] in *; try (cbn in C; congruence); try (destruct (then_cmp _ _); cbn in C; congruence).
    inversion FA; inversion FB; inversion FD; subst.
    eapply then_comb; [exact C| |]; intros z1 C1; [apply (o_comb L a b d); assumption|apply (IH m n); assumption].
Qed.
Fixpoint kd_all {A} (ok : A -> Prop) (t : kdtree A) : Prop := match t with KNone => True | KNode l v r _ => kd_all ok l /\ kd_all ok r /\ ok v end.
Lemma kd_olaws {A} (ok : A -> Prop) c : olaws ok c -> olaws (kd_all ok) (kdtree_cmp c).
Proof.
  intros L. split.
  - induction a as [|l IHl v r IHr d]; intros [|l' v' r' d'] FA FB; cbn [kdtree_cmp]; try reflexivity. cbn [kd_all] in FA, FB.
    rewrite !then_opp, (IHl l'), (IHr r'), (o_opp L v v'), (N.compare_antisym d' d) by tauto. rewrite CompOpp_involutive. rewrite (N.compare_antisym d d'). reflexivity.
  - induction a as [|l IHl v r IHr d]; intros [|l' v' r' d'] [|l2 v2 r2 d2] z FA FB FD C; cbn [kdtree_cmp] in *; try (cbn in C; congruence); try (destruct (then_cmp _ _); cbn in C; congruence).
    cbn [kd_all] in *. eapply then_comb; [exact C| |intros z4 C4; eapply (o_comb ncompare_olaws); try exact C4; exact I].
    intros z1 C1. eapply then_comb; [exact C1| |intros z3 C3; apply (o_comb L v v' v2); tauto].
    intros z2 C2. eapply then_comb; [exact C2| |]; intros z5 C5; [apply (IHl l' l2)|apply (IHr r' r2)]; tauto.
Qed.
Lemma pt2_olaws : olaws (no_nan nums2) pt2_cmp.
Proof.
  apply olaws_of. intros l F. apply (cmp_preorder F64_laws (sqr_dist_2d (mk2 n0 n0))). eapply Forall_impl; [|exact F].
  intros p H. unfold no_nan, nums2 in H. apply (origin2_num p). inversion H as [|? ? H1 H2]; inversion H2; subst. intros ax [->| ->]; assumption.
Qed.
Lemma pt3_olaws : olaws (no_nan nums3) pt3_cmp.
Proof.
  apply olaws_of. intros l F. apply (cmp_preorder F64_laws (sqr_dist_3d (mk3 n0 n0 n0))). eapply Forall_impl; [|exact F].
  intros p H. unfold no_nan, nums3 in H. apply (origin3_num p). pose proof (Forall_inv H) as X. pose proof (Forall_inv (Forall_inv_tail H)) as Y.
  pose proof (Forall_inv (Forall_inv_tail (Forall_inv_tail H))) as Z. intros ax [->|[->| ->]]; assumption.
Qed.
