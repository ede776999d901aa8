(** Order laws shared by the two number instances and basic facts about them. *)
From Verif Require Import Base Num.
From Coq Require Import Floats.SpecFloat Reals Lra.

(** Non-NaN values are totally pre-ordered by partial_cmp. *)
Record OrdLaws (NM : Num) (num : T NM -> Prop) : Prop := {
  ol_none : forall a b, ncmp a b = None <-> ~ num a \/ ~ num b;
  ol_dec : forall a, num a \/ ~ num a;
  ol_refl : forall a, num a -> ncmp a a = Some Eq;
  ol_opp : forall (a b : T NM) c, ncmp a b = Some c -> ncmp b a = Some (CompOpp c);
  ol_eq : forall (a b c : T NM) o, ncmp a b = Some Eq -> ncmp b c = o -> ncmp a c = o;
  ol_lt : forall (a b c : T NM), ncmp a b = Some Lt -> ncmp b c = Some Lt -> ncmp a c = Some Lt
}.

Section Laws.
Context {NM : Num} {num : T NM -> Prop} (L : OrdLaws NM num).
Local Open Scope num_scope.
Implicit Types a b c : T NM.

Lemma cmp_num a b (c : comparison) : ncmp a b = Some c -> num a /\ num b.
Proof.
  intro H. destruct (ol_dec _ _ L a) as [A|A], (ol_dec _ _ L b) as [B|B]; auto;
    exfalso; assert (E : ncmp a b = None) by (apply (ol_none _ _ L); auto); congruence.
Qed.
Lemma num_cmp a b : num a -> num b -> exists c : comparison, ncmp a b = Some c.
Proof.
  intros A B. destruct (ncmp a b) eqn:E; eauto. apply (ol_none _ _ L) in E. tauto.
Qed.
Lemma ltb_cmp a b : (a < b) = true <-> ncmp a b = Some Lt.
Proof. unfold nltb. destruct (ncmp a b) as [[]|]; split; congruence. Qed.
Lemma gtb_ltb a b : (a > b) = (b < a).
Proof.
  unfold ngtb, nltb. destruct (ncmp a b) as [c|] eqn:E.
  - rewrite (ol_opp _ _ L _ _ _ E). destruct c; reflexivity.
  - destruct (ncmp b a) as [c|] eqn:E2; auto. apply (ol_opp _ _ L) in E2. congruence.
Qed.
Lemma geb_leb a b : (a >= b) = (b <= a).
Proof.
  unfold ngeb, nleb. destruct (ncmp a b) as [c|] eqn:E.
  - rewrite (ol_opp _ _ L _ _ _ E). destruct c; reflexivity.
  - destruct (ncmp b a) as [c|] eqn:E2; auto. apply (ol_opp _ _ L) in E2. congruence.
Qed.
Lemma ltb_num a b : (a < b) = true -> num a /\ num b.
Proof. intro H. apply ltb_cmp in H. eapply cmp_num; eauto. Qed.
Lemma leb_cases a b : (a <= b) = true <-> (a < b) = true \/ (a == b) = true.
Proof.
  unfold nleb, nltb, neqb. destruct (ncmp a b) as [[]|]; split; intro H; auto;
    try discriminate; destruct H; discriminate.
Qed.
Lemma leb_num a b : (a <= b) = true -> num a /\ num b.
Proof.
  unfold nleb. destruct (ncmp a b) as [c|] eqn:E; [intros _; eapply cmp_num; eauto|discriminate].
Qed.
Lemma leb_refl a : num a -> (a <= a) = true.
Proof. intro H. unfold nleb. rewrite (ol_refl _ _ L a H). reflexivity. Qed.
Lemma eqb_refl a : num a -> (a == a) = true.
Proof. intro H. unfold neqb. rewrite (ol_refl _ _ L a H). reflexivity. Qed.
Lemma eqb_num a b : (a == b) = true -> num a /\ num b.
Proof.
  unfold neqb. destruct (ncmp a b) as [c|] eqn:E; [intros _; eapply cmp_num; eauto|discriminate].
Qed.
Lemma eqb_sym a b : (a == b) = (b == a).
Proof.
  unfold neqb. destruct (ncmp a b) as [c|] eqn:E.
  - rewrite (ol_opp _ _ L _ _ _ E). destruct c; reflexivity.
  - destruct (ncmp b a) as [c|] eqn:E2; auto. apply (ol_opp _ _ L) in E2. congruence.
Qed.
Lemma ltb_irrefl a : (a < a) = false.
Proof.
  destruct (a < a) eqn:E; auto. apply ltb_cmp in E.
  pose proof (ol_opp _ _ L _ _ _ E) as H. cbn in H. congruence.
Qed.
Lemma leb_trans a b c : (a <= b) = true -> (b <= c) = true -> (a <= c) = true.
Proof.
  unfold nleb. destruct (ncmp a b) as [[]|] eqn:E1; try discriminate;
  destruct (ncmp b c) as [[]|] eqn:E2; try discriminate; intros _ _.
  - rewrite (ol_eq _ _ L _ _ _ _ E1 E2). reflexivity.
  - rewrite (ol_eq _ _ L _ _ _ _ E1 E2). reflexivity.
  - apply (ol_opp _ _ L) in E1. apply (ol_opp _ _ L) in E2. cbn in *.
    rewrite (ol_opp _ _ L _ _ _ (ol_eq _ _ L _ _ _ _ E2 E1)). reflexivity.
  - rewrite (ol_lt _ _ L _ _ _ E1 E2). reflexivity.
Qed.
Lemma ltb_leb a b : (a < b) = true -> (a <= b) = true.
Proof. intro H. apply leb_cases; auto. Qed.
Lemma ltb_leb_trans a b c : (a < b) = true -> (b <= c) = true -> (a < c) = true.
Proof.
  intros H1 H2. apply ltb_cmp in H1. apply ltb_cmp. unfold nleb in H2.
  destruct (ncmp b c) as [[]|] eqn:E2; try discriminate.
  - apply (ol_opp _ _ L) in H1. apply (ol_opp _ _ L) in E2. cbn in *.
    exact (ol_opp _ _ L _ _ _ (ol_eq _ _ L _ _ _ _ E2 H1)).
  - exact (ol_lt _ _ L _ _ _ H1 E2).
Qed.
Lemma leb_ltb_trans a b c : (a <= b) = true -> (b < c) = true -> (a < c) = true.
Proof.
  intros H1 H2. apply ltb_cmp in H2. apply ltb_cmp. unfold nleb in H1.
  destruct (ncmp a b) as [[]|] eqn:E2; try discriminate.
  - exact (ol_eq _ _ L _ _ _ _ E2 H2).
  - exact (ol_lt _ _ L _ _ _ E2 H2).
Qed.
Lemma ltb_trans a b c : (a < b) = true -> (b < c) = true -> (a < c) = true.
Proof. intros H1 H2. eapply ltb_leb_trans; eauto using ltb_leb. Qed.
Lemma not_ltb a b : num a -> num b -> (a < b) = false <-> (b <= a) = true.
Proof.
  intros A B. destruct (num_cmp a b A B) as [c E].
  unfold nltb, nleb. rewrite E, (ol_opp _ _ L _ _ _ E). destruct c; cbn; split; congruence.
Qed.
Lemma not_leb a b : num a -> num b -> (a <= b) = false <-> (b < a) = true.
Proof.
  intros A B. destruct (num_cmp a b A B) as [c E].
  unfold nltb, nleb. rewrite E, (ol_opp _ _ L _ _ _ E). destruct c; cbn; split; congruence.
Qed.
Lemma leb_antisym a b : (a <= b) = true -> (b <= a) = true -> (a == b) = true.
Proof.
  intros H1 H2. apply leb_cases in H1 as [H1|H1]; auto.
  pose proof (ltb_leb_trans _ _ _ H1 H2) as H. rewrite ltb_irrefl in H. discriminate.
Qed.
Lemma ltb_not_leb a b : (a < b) = true -> (b <= a) = false.
Proof.
  intro H. destruct (b <= a) eqn:E; auto.
  pose proof (ltb_leb_trans _ _ _ H E) as Hx. rewrite ltb_irrefl in Hx. discriminate.
Qed.
Lemma ltb_not_eqb a b : (a < b) = true -> (a == b) = false.
Proof. intro H. apply ltb_cmp in H. unfold neqb. rewrite H. reflexivity. Qed.
Lemma eqb_leb a b : (a == b) = true -> (a <= b) = true.
Proof. intro H. apply leb_cases; auto. Qed.
Lemma eqb_geb a b : (a == b) = true -> (b <= a) = true.
Proof. intro H. rewrite eqb_sym in H. apply leb_cases; auto. Qed.
Lemma eqb_trans a b c : (a == b) = true -> (b == c) = true -> (a == c) = true.
Proof. intros H1 H2. apply leb_antisym; eauto using leb_trans, eqb_leb, eqb_geb. Qed.
Lemma trichotomy a b : num a -> num b -> (a < b) = true \/ (a == b) = true \/ (b < a) = true.
Proof.
  intros A B. destruct (num_cmp a b A B) as [[] E].
  - right; left. unfold neqb. rewrite E. reflexivity.
  - left. unfold nltb. rewrite E. reflexivity.
  - right; right. unfold nltb. rewrite (ol_opp _ _ L _ _ _ E). reflexivity.
Qed.
Lemma leb_total a b : num a -> num b -> (a <= b) = true \/ (b <= a) = true.
Proof.
  intros A B. destruct (trichotomy a b A B) as [H|[H|H]]; auto using ltb_leb, eqb_leb.
Qed.
End Laws.

(** ** F64 *)
(** A float is a number when it is not NaN. *)
Definition f_num (x : T F64) : Prop := x <> S754_nan.
Definition f_finite (x : T F64) : Prop :=
  match x with S754_zero _ | S754_finite _ _ _ => True | _ => False end.

(* lexicographic rank *)
Definition rk1 (x : spec_float) : Z :=
  match x with
  | S754_infinity true => -2 | S754_infinity false => 2
  | S754_finite true _ _ => -1 | S754_finite false _ _ => 1 | _ => 0 end%Z.
Definition rk2 (x : spec_float) : Z :=
  match x with S754_finite true _ e => - e | S754_finite false _ e => e | _ => 0 end%Z.
Definition rk3 (x : spec_float) : Z :=
  match x with S754_finite true m _ => - Zpos m | S754_finite false m _ => Zpos m | _ => 0 end%Z.
Definition lexc (a1 a2 a3 b1 b2 b3 : Z) : comparison :=
  match (a1 ?= b1)%Z with Eq => match (a2 ?= b2)%Z with Eq => (a3 ?= b3)%Z | c => c end | c => c end.

Lemma SFcompare_rk x y : x <> S754_nan -> y <> S754_nan ->
  SFcompare x y = Some (lexc (rk1 x) (rk2 x) (rk3 x) (rk1 y) (rk2 y) (rk3 y)).
Proof.
  intros Hx Hy. destruct x as [[]|[]| |[] m e], y as [[]|[]| |[] m' e']; try congruence; try reflexivity;
    unfold lexc; cbn [rk1 rk2 rk3 SFcompare Z.compare Pos.compare Pos.compare_cont]; f_equal.
  - change (Z.neg m) with (- Z.pos m)%Z. change (Z.neg m') with (- Z.pos m')%Z.
    change (Z.opp (Z.pos m)) with (- Z.pos m)%Z.
    destruct (Z.compare_spec e e'), (Z.compare_spec (- e) (- e')); try lia; try reflexivity.
Qed.

Lemma F64_laws : OrdLaws F64 f_num.
Proof.
  assert (N : forall x : spec_float, {x = S754_nan} + {x <> S754_nan}).
  { intro x. destruct x; (left; reflexivity) || (right; congruence). }
  split; unfold f_num; cbn -[SFcompare].
  - intros a b. destruct a as [[]|[]| |[] m e], b as [[]|[]| |[] m' e']; cbn; split; intro H;
      try discriminate; auto; try (left; congruence); try (right; congruence);
      destruct H as [H|H]; exfalso; apply H; congruence.
  - intros a. destruct (N a); [right|left]; auto.
  - intros a H. rewrite SFcompare_rk by auto. unfold lexc. rewrite !Z.compare_refl. reflexivity.
  - intros a b c H. destruct (N a) as [->|Ha]; [discriminate|].
    destruct (N b) as [->|Hb]; [destruct a; discriminate|].
    rewrite SFcompare_rk in * by auto. injection H as <-. f_equal. unfold lexc.
    rewrite (Z.compare_antisym (rk1 a)), (Z.compare_antisym (rk2 a)), (Z.compare_antisym (rk3 a)).
    destruct (rk1 a ?= rk1 b)%Z; cbn; auto. destruct (rk2 a ?= rk2 b)%Z; auto.
  - intros a b c o H1 H2. subst o. destruct (N a) as [->|Ha]; [discriminate|].
    destruct (N b) as [->|Hb]; [destruct a; discriminate|].
    destruct (N c) as [->|Hc]. { destruct a, b; try congruence; reflexivity. }
    rewrite (SFcompare_rk b c), (SFcompare_rk a c) by auto. rewrite SFcompare_rk in H1 by auto.
    injection H1 as H1. f_equal. unfold lexc in *.
    destruct (Z.compare_spec (rk1 a) (rk1 b)) as [E1| |]; try discriminate.
    destruct (Z.compare_spec (rk2 a) (rk2 b)) as [E2| |]; try discriminate.
    destruct (Z.compare_spec (rk3 a) (rk3 b)) as [E3| |]; try discriminate.
    rewrite E1, E2, E3. reflexivity.
  - intros a b c H1 H2. destruct (N a) as [->|Ha]; [discriminate|].
    destruct (N b) as [->|Hb]; [destruct a; discriminate|].
    destruct (N c) as [->|Hc]; [destruct b; discriminate|].
    rewrite SFcompare_rk in * by auto. injection H1 as H1. injection H2 as H2. f_equal. unfold lexc in *.
    destruct (Z.compare_spec (rk1 a) (rk1 b)); try discriminate;
    destruct (Z.compare_spec (rk1 b) (rk1 c)); try discriminate;
    destruct (Z.compare_spec (rk1 a) (rk1 c)); try lia; auto.
    destruct (Z.compare_spec (rk2 a) (rk2 b)); try discriminate;
    destruct (Z.compare_spec (rk2 b) (rk2 c)); try discriminate;
    destruct (Z.compare_spec (rk2 a) (rk2 c)); try lia; auto.
    destruct (Z.compare_spec (rk3 a) (rk3 b)); try discriminate;
    destruct (Z.compare_spec (rk3 b) (rk3 c)); try discriminate;
    destruct (Z.compare_spec (rk3 a) (rk3 c)); try lia; auto.
Qed.

Lemma f_finite_num x : f_finite x -> f_num x.
Proof. intros H E. subst. exact H. Qed.

(** ** Reals *)
Lemma RN_laws : OrdLaws RN (fun _ => True).
Proof.
  split; cbn; unfold Rcmp.
  - intros a b. split; [discriminate|tauto].
  - auto.
  - intros a _. destruct (total_order_T a a) as [[H|H]|H]; try (exfalso; lra); auto.
  - intros a b c H. injection H as <-.
    destruct (total_order_T a b) as [[H|H]|H], (total_order_T b a) as [[G|G]|G]; try (exfalso; lra); auto.
  - intros a b c o H <-. injection H as H.
    destruct (total_order_T a b) as [[H1|H1]|H1]; try discriminate. subst. reflexivity.
  - intros a b c H G. injection H as H. injection G as G. f_equal.
    destruct (total_order_T a b) as [[H1|H1]|H1]; try discriminate;
    destruct (total_order_T b c) as [[H2|H2]|H2]; try discriminate;
    destruct (total_order_T a c) as [[H3|H3]|H3]; try (exfalso; lra); auto.
Qed.

Lemma R_ltb (a b : T RN) : nltb a b = true <-> (a < b)%R.
Proof. unfold nltb; cbn; unfold Rcmp. destruct (total_order_T a b) as [[H|H]|H]; split; intro; try discriminate; try lra; auto. Qed.
Lemma R_leb (a b : T RN) : nleb a b = true <-> (a <= b)%R.
Proof. unfold nleb; cbn; unfold Rcmp. destruct (total_order_T a b) as [[H|H]|H]; split; intro; try discriminate; try lra; auto. Qed.
Lemma R_eqb (a b : T RN) : neqb a b = true <-> a = b.
Proof. unfold neqb; cbn; unfold Rcmp. destruct (total_order_T a b) as [[H|H]|H]; split; intro; try discriminate; try lra; auto. Qed.
Lemma R_gtb (a b : T RN) : ngtb a b = true <-> (a > b)%R.
Proof. unfold ngtb; cbn; unfold Rcmp. destruct (total_order_T a b) as [[H|H]|H]; split; intro; try discriminate; try lra; auto. Qed.
Lemma R_geb (a b : T RN) : ngeb a b = true <-> (a >= b)%R.
Proof. unfold ngeb; cbn; unfold Rcmp. destruct (total_order_T a b) as [[H|H]|H]; split; intro; try discriminate; try lra; auto. Qed.

Lemma R_ltb_spec (a b : T RN) : Bool.reflect (a < b)%R (nltb a b).
Proof. apply iff_reflect. symmetry. apply R_ltb. Qed.
Lemma R_leb_spec (a b : T RN) : Bool.reflect (a <= b)%R (nleb a b).
Proof. apply iff_reflect. symmetry. apply R_leb. Qed.
Lemma R_eqb_spec (a b : T RN) : Bool.reflect (a = b) (neqb a b).
Proof. apply iff_reflect. symmetry. apply R_eqb. Qed.
Lemma R_gtb_spec (a b : T RN) : Bool.reflect (a > b)%R (ngtb a b).
Proof. apply iff_reflect. symmetry. apply R_gtb. Qed.
Lemma R_geb_spec (a b : T RN) : Bool.reflect (a >= b)%R (ngeb a b).
Proof. apply iff_reflect. symmetry. apply R_geb. Qed.

Lemma R_n0 : @n0 RN = 0%R. Proof. cbn. lra. Qed.
Lemma R_n1 : @n1 RN = 1%R. Proof. cbn. lra. Qed.
Lemma R_n2 : @n2 RN = 2%R. Proof. cbn. lra. Qed.
Lemma R_nhalf : @nhalf RN = (1/2)%R. Proof. cbn. change (Pos.to_nat 1) with 1%nat. cbn [pow]. lra. Qed.
Lemma R_max a b : @max_f64 RN a b = Rmax a b.
Proof.
  unfold max_f64. destruct (R_gtb_spec a b); unfold Rmax; destruct (Rle_dec a b); lra.
Qed.
