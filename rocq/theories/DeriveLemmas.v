(** Laws of derived comparisons and hashes. *)
From Verif Require Import Base Num NumLemmas BBoxModel FilterModel KdModel LineModel NormalModel EditModel CloudModel CloudLemmas MeshModel HalfEdgeModel PlyModel GeomSpec SortSpec DeriveModel DeriveSpec.
From Coq Require Import Floats.SpecFloat.

(** comparisons put one after the other *)
Definition comb (x y : comparison) : option comparison :=
  match x, y with Gt, _ | _, Gt => None | Eq, Eq => Some Eq | _, _ => Some Lt end.
Lemma lex_comb p1 p2 q1 q2 r1 r2 x y z : comb x y = Some z ->
  lex_cmp p1 q1 = Some x -> lex_cmp p2 q2 = Some y ->
  (forall x y z, comb x y = Some z -> p1 = Some x -> p2 = Some y -> r1 = Some z) ->
  (forall x y z, comb x y = Some z -> q1 = Some x -> q2 = Some y -> r2 = Some z) -> lex_cmp r1 r2 = Some z.
Proof.
  intros C X Y R1 R2. unfold lex_cmp in X, Y.
  destruct p1 as [[]|], p2 as [[]|]; try discriminate; cbn in R1;
    try (injection X as <-); try (injection Y as <-); try (destruct x; discriminate); try discriminate C.
  - rewrite (R1 Eq Eq Eq eq_refl eq_refl eq_refl). cbn [lex_cmp]. eauto.
  - rewrite (R1 Eq Lt Lt eq_refl eq_refl eq_refl). cbn [lex_cmp]. destruct x; cbn in C; congruence.
  - rewrite (R1 Lt Eq Lt eq_refl eq_refl eq_refl). cbn [lex_cmp]. destruct y; cbn in C; congruence.
  - rewrite (R1 Lt Lt Lt eq_refl eq_refl eq_refl). cbn [lex_cmp]. cbn in C. congruence.
Qed.
Lemma lex_opp p q : lex_cmp (option_map CompOpp p) (option_map CompOpp q) = option_map CompOpp (lex_cmp p q).
Proof. destruct p as [[]|]; reflexivity. Qed.

Record laws {A} (c : vals A) (same : A -> A -> Prop) (nums : A -> list (T F64)) : Prop := {
  l_refl : forall a, v_eq c a a = true <-> Forall number (nums a);
  l_sym : forall a b, v_eq c a b = v_eq c b a;
  l_trans : forall a b d, v_eq c a b = true -> v_eq c b d = true -> v_eq c a d = true;
  l_feed : forall a b r s, v_feed c a ++ r = v_feed c b ++ s -> same a b /\ r = s;
  l_same : forall a b, same a b -> v_feed c a = v_feed c b;
  l_zero : forall a b, v_eq c a b = true -> Forall (fun x => x <> S754_zero true) (nums a) ->
    Forall (fun x => x <> S754_zero true) (nums b) -> same a b;
  l_pe : forall a b, v_pcmp c a b = Some Eq <-> v_eq c a b = true;
  l_opp : forall a b, v_pcmp c b a = option_map CompOpp (v_pcmp c a b);
  l_comb : forall a b d x y z, comb x y = Some z -> v_pcmp c a b = Some x -> v_pcmp c b d = Some y -> v_pcmp c a d = Some z;
  l_total : forall a b, Forall number (nums a) -> Forall number (nums b) -> v_pcmp c a b <> None
}.
Arguments l_refl {A c same nums}. Arguments l_sym {A c same nums}. Arguments l_trans {A c same nums}. Arguments l_feed {A c same nums}.
Arguments l_same {A c same nums}. Arguments l_zero {A c same nums}. Arguments l_pe {A c same nums}. Arguments l_opp {A c same nums}.
Arguments l_comb {A c same nums}. Arguments l_total {A c same nums}.

(** The contracts of the traits of a type. *)
Notation contract c nums := (contracts nums (v_eq c) (v_pcmp c) (v_feed c)).
Lemma laws_contract {A} (c : vals A) same nums : laws c same nums -> (forall a b, same a b -> a = b) -> contract c nums.
Proof.
  intros L S. split; [|split].
  - split; [exact (l_refl L)|]. split; [exact (l_sym L)|exact (l_trans L)].
  - split.
    + intros a b r s. split; [|intros [-> ->]; reflexivity]. intros E. destruct (l_feed L a b r s E) as [Q ->]. split; [apply S, Q|reflexivity].
    + intros a b Za Zb E. apply S, (l_zero L a b); assumption.
  - split; [exact (l_pe L)|]. split; [exact (l_opp L)|]. split; [|split; [|exact (l_total L)]].
    + intros a b d X [Y|Y]; [exact (l_comb L a b d Lt Lt Lt eq_refl X Y)|]. apply (l_pe L) in Y. exact (l_comb L a b d Lt Eq Lt eq_refl X Y).
    + intros a b d X Y. apply (l_pe L) in X. exact (l_comb L a b d Eq Lt Lt eq_refl X Y).
Qed.
Lemma contract_laws {A} (c : vals A) nums : contract c nums -> laws c eq nums.
Proof.
  intros ((R & Sy & Tr) & (F & Z) & (Pe & Po & Pt & Pq & Pn)). split; auto.
  - intros a b r s. apply F.
  - intros a b ->. reflexivity.
  - intros a b d x y z C X Y. destruct x, y; try discriminate C; injection C as <-.
    + apply Pe in X, Y. apply Pe. eauto.
    + apply (Pq a b d); [apply Pe, X|exact Y].
    + apply (Pt a b d X). right. apply Pe, Y.
    + apply (Pt a b d X). left. exact Y.
Qed.

(** ** Building blocks *)
Lemma laws_ext {A} (c : vals A) s1 s2 n1 n2 : (forall a b, s1 a b <-> s2 a b) -> (forall a, n1 a = n2 a) -> laws c s1 n1 -> laws c s2 n2.
Proof.
  intros S N L. split; intros; repeat rewrite <- N in *.
  - apply (l_refl L). - apply (l_sym L). - apply (l_trans L _ b); assumption.
  - rewrite <- S. apply (l_feed L _ _ _ _ H). - apply (l_same L), S; assumption.
  - apply S, (l_zero L); assumption. - apply (l_pe L). - apply (l_opp L). - eapply (l_comb L); eassumption. - apply (l_total L); assumption.
Qed.
Lemma double_eq (a b : T F64) : ncmp a b = Some Eq -> a <> S754_zero true -> b <> S754_zero true -> a = b.
Proof.
  destruct a as [[]|[]| |[] m e], b as [[]|[]| |[] m' e']; cbn [ncmp F64 SFcompare]; intros H A B; try congruence.
  - destruct (Z.compare_spec e e') as [->| |]; try discriminate. injection H as H.
    assert (X : Pos.compare_cont Eq m m' = Eq) by (destruct (Pos.compare_cont Eq m m'); cbn in H; congruence). apply Pos.compare_eq in X. congruence.
  - destruct (Z.compare_spec e e') as [->| |]; try discriminate. injection H as H. apply Pos.compare_eq in H. congruence.
Qed.
Lemma neqb_cmp (a b : T F64) : neqb a b = true <-> ncmp a b = Some Eq.
Proof. unfold neqb. destruct (ncmp a b) as [[]|]; split; congruence. Qed.
Lemma ncmp_opp (a b : T F64) : ncmp b a = option_map CompOpp (ncmp a b).
Proof.
  destruct (ncmp a b) as [c|] eqn:E; [apply (ol_opp _ _ F64_laws _ _ _ E)|].
  apply (ol_none _ _ F64_laws) in E. apply (ol_none _ _ F64_laws). tauto.
Qed.
Lemma ncmp_comb (a b d : T F64) x y z : comb x y = Some z -> ncmp a b = Some x -> ncmp b d = Some y -> ncmp a d = Some z.
Proof.
  intros C X Y. destruct x, y; try discriminate C; injection C as <-.
  - exact (ol_eq _ _ F64_laws _ _ _ _ X Y).
  - exact (ol_eq _ _ F64_laws _ _ _ _ X Y).
  - apply (ol_opp _ _ F64_laws) in X, Y. apply (ol_opp _ _ F64_laws d a Gt). exact (ol_eq _ _ F64_laws _ _ _ _ Y X).
  - exact (ol_lt _ _ F64_laws _ _ _ X Y).
Qed.
Lemma double_laws : laws double_vals eq (fun x => [x]).
Proof.
  split; cbn [double_vals v_eq v_pcmp v_feed].
  - intros a. rewrite neqb_cmp. split.
    + intros H. constructor; [|constructor]. intros ->. discriminate H.
    + intros H. inversion H; subst. apply (ol_refl _ _ F64_laws). assumption.
  - intros a b. unfold neqb. rewrite (ncmp_opp a b). destruct (ncmp a b) as [[]|]; reflexivity.
  - intros a b d. apply (eqb_trans F64_laws).
  - intros a b r s H. cbn [app] in H. injection H as -> ->. auto.
  - intros a b ->. reflexivity.
  - intros a b E A B. inversion A; inversion B; subst. apply double_eq; auto. apply neqb_cmp, E.
  - intros a b. symmetry. apply neqb_cmp.
  - apply ncmp_opp.
  - apply ncmp_comb.
  - intros a b A B. inversion A; inversion B; subst. destruct (num_cmp F64_laws a b) as [c E]; [assumption..|]. rewrite E. discriminate.
Qed.
Lemma ncompare_comb a b d x y z : comb x y = Some z -> Some (N.compare a b) = Some x -> Some (N.compare b d) = Some y -> Some (N.compare a d) = Some z.
Proof.
  intros C X Y. injection X as <-. injection Y as <-.
  destruct (N.compare_spec a b), (N.compare_spec b d); try discriminate C; injection C as <-; f_equal; destruct (N.compare_spec a d); try reflexivity; lia.
Qed.
Lemma nat_laws (h : N -> item) : (forall a b, h a = h b -> a = b) ->
  laws (mkvals N.eqb (fun a b => Some (N.compare a b)) (fun a => [h a])) eq (fun _ => []).
Proof.
  intros HI. split; cbn [v_eq v_pcmp v_feed].
  - intros a. rewrite N.eqb_refl. split; auto.
  - apply N.eqb_sym.
  - intros a b d. rewrite !N.eqb_eq. congruence.
  - intros a b r s H. cbn [app] in H. injection H as H ->. split; [apply HI, H|reflexivity].
  - intros a b ->. reflexivity.
  - intros a b E _ _. apply N.eqb_eq, E.
  - intros a b. rewrite N.eqb_eq, <- N.compare_eq_iff. split; congruence.
  - intros a b. cbn. f_equal. apply N.compare_antisym.
  - apply ncompare_comb.
  - discriminate.
Qed.
Lemma usize_laws : laws usize_vals eq (fun _ => []). Proof. apply nat_laws. congruence. Qed.
Lemma byte_laws : laws byte_vals eq (fun _ => []). Proof. apply nat_laws. congruence. Qed.
Lemma field_laws {A C} (c : vals A) same nums (f : C -> A) : laws c same nums -> laws (field c f) (fun a b => same (f a) (f b)) (fun a => nums (f a)).
Proof.
  intros L. split; cbn [field v_eq v_pcmp v_feed]; intros.
  - apply (l_refl L). - apply (l_sym L). - apply (l_trans L _ (f b)); assumption.
  - apply (l_feed L _ _ _ _ H). - apply (l_same L); assumption.
  - apply (l_zero L); assumption. - apply (l_pe L). - apply (l_opp L). - eapply (l_comb L); eassumption. - apply (l_total L); assumption.
Qed.
Lemma more_laws {A C} (s : vals C) (c : vals A) same1 nums1 same nums (f : C -> A) : laws s same1 nums1 -> laws c same nums ->
  laws (more s c f) (fun a b => same1 a b /\ same (f a) (f b)) (fun a => nums1 a ++ nums (f a)).
Proof.
  intros L1 L. split; cbn [more v_eq v_pcmp v_feed].
  - intros a. rewrite Bool.andb_true_iff, (l_refl L1), (l_refl L), Forall_app. reflexivity.
  - intros a b. rewrite (l_sym L1), (l_sym L). reflexivity.
  - intros a b d. rewrite !Bool.andb_true_iff. intros [X1 X2] [Y1 Y2]. split; [exact (l_trans L1 _ _ _ X1 Y1)|exact (l_trans L _ _ _ X2 Y2)].
  - intros a b r t H. rewrite <- !app_assoc in H. apply (l_feed L1) in H. destruct H as [H1 H]. apply (l_feed L) in H. tauto.
  - intros a b [H1 H2]. rewrite (l_same L1 _ _ H1), (l_same L _ _ H2). reflexivity.
  - intros a b. rewrite Bool.andb_true_iff, !Forall_app. intros [E1 E2] [A1 A2] [B1 B2]. split; [apply (l_zero L1)|apply (l_zero L)]; assumption.
  - intros a b. rewrite Bool.andb_true_iff, <- (l_pe L1), <- (l_pe L). unfold lex_cmp. destruct (v_pcmp s a b) as [[]|]; split; intros; tauto || (try split; congruence) || (destruct H; congruence).
  - intros a b. rewrite (l_opp L1 a b), (l_opp L (f a) (f b)). apply lex_opp.
  - intros a b d x y z C0 X Y. eapply lex_comb; [exact C0|exact X|exact Y| |].
    + intros x' y' z' C' X' Y'. exact (l_comb L1 _ _ _ _ _ _ C' X' Y').
    + intros x' y' z' C' X' Y'. exact (l_comb L _ _ _ _ _ _ C' X' Y').
  - intros a b. rewrite !Forall_app. intros [A1 A2] [B1 B2]. pose proof (l_total L1 a b A1 B1). pose proof (l_total L (f a) (f b) A2 B2).
    unfold lex_cmp. destruct (v_pcmp s a b) as [[]|]; congruence.
Qed.
(** lists *)
Section Lists.
Context {A : Type} (c : vals A) (nums : A -> list (T F64)) (L : laws c eq nums).
Lemma list_comb : forall l m n x y z, comb x y = Some z -> list_pcmp (v_pcmp c) l m = Some x -> list_pcmp (v_pcmp c) m n = Some y -> list_pcmp (v_pcmp c) l n = Some z.
Proof.
  induction l as [|a l IH]; intros [|b m] [|d n] x y z C0 X Y; cbn [list_pcmp] in *;
    try (injection X as <-); try (injection Y as <-); try (destruct x; discriminate C0); try discriminate C0; try exact C0.
  - destruct y; cbn in C0; congruence.
  - eapply lex_comb; [exact C0|exact X|exact Y| |].
    + intros x' y' z' C' X' Y'. exact (l_comb L _ _ _ _ _ _ C' X' Y').
    + intros x' y' z' C' X' Y'. exact (IH _ _ _ _ _ C' X' Y').
Qed.
Lemma list_sym : forall l m, list_eq (v_eq c) l m = list_eq (v_eq c) m l.
Proof. induction l as [|a l IH]; intros [|b m]; cbn [list_eq]; try reflexivity. rewrite (l_sym L), IH. reflexivity. Qed.
Lemma list_trans : forall l m n, list_eq (v_eq c) l m = true -> list_eq (v_eq c) m n = true -> list_eq (v_eq c) l n = true.
Proof.
  induction l as [|a l IH]; intros [|b m] [|d n]; cbn [list_eq]; try congruence. rewrite !Bool.andb_true_iff. intros [X1 X2] [Y1 Y2].
  split; [exact (l_trans L _ _ _ X1 Y1)|eauto].
Qed.
Lemma list_refl l : list_eq (v_eq c) l l = true <-> Forall number (flat_map nums l).
Proof. induction l as [|a l IH]; cbn [list_eq flat_map]; [split; auto|]. rewrite Bool.andb_true_iff, (l_refl L), IH, Forall_app. reflexivity. Qed.
Lemma list_zero : forall l m, list_eq (v_eq c) l m = true -> Forall (fun x => x <> S754_zero true) (flat_map nums l) ->
  Forall (fun x => x <> S754_zero true) (flat_map nums m) -> l = m.
Proof.
  induction l as [|a l IH]; intros [|b m]; cbn [list_eq flat_map]; try congruence. rewrite Bool.andb_true_iff, !Forall_app.
  intros [X1 X2] [A1 A2] [B1 B2]. f_equal; [apply (l_zero L); assumption|auto].
Qed.
Lemma list_pe : forall l m, list_pcmp (v_pcmp c) l m = Some Eq <-> list_eq (v_eq c) l m = true.
Proof.
  induction l as [|a l IH]; intros [|b m]; cbn [list_eq list_pcmp]; try (split; congruence).
  rewrite Bool.andb_true_iff, <- (l_pe L), <- IH. unfold lex_cmp. destruct (v_pcmp c a b) as [[]|]; split; intros H; try tauto; try congruence; destruct H; congruence.
Qed.
Lemma list_opp : forall l m, list_pcmp (v_pcmp c) m l = option_map CompOpp (list_pcmp (v_pcmp c) l m).
Proof. induction l as [|a l IH]; intros [|b m]; cbn [list_pcmp]; try reflexivity. rewrite (l_opp L a b), IH. apply lex_opp. Qed.
Lemma list_total : forall l m, Forall number (flat_map nums l) -> Forall number (flat_map nums m) -> list_pcmp (v_pcmp c) l m <> None.
Proof.
  induction l as [|a l IH]; intros [|b m]; cbn [flat_map list_pcmp]; try discriminate. rewrite !Forall_app. intros [A1 A2] [B1 B2].
  pose proof (l_total L a b A1 B1). specialize (IH m A2 B2). unfold lex_cmp. destruct (v_pcmp c a b) as [[]|]; congruence.
Qed.
Lemma list_feed : forall l m r s, length l = length m -> flat_map (v_feed c) l ++ r = flat_map (v_feed c) m ++ s -> l = m /\ r = s.
Proof.
  induction l as [|a l IH]; intros [|b m] r s N; try discriminate N; cbn [flat_map]; [auto|]. rewrite <- !app_assoc. intros H.
  apply (l_feed L) in H. destruct H as [-> H]. destruct (IH m r s) as [-> ->]; auto.
Qed.
Lemma vec_laws : laws (vec_vals c) eq (flat_map nums).
Proof.
  split; cbn [vec_vals v_eq v_pcmp v_feed].
  - apply list_refl. - apply list_sym. - intros a b d. apply list_trans.
  - intros a b r s H. cbn [app] in H. injection H as N H. apply list_feed in H; [exact H|]. unfold lenN in N. lia.
  - intros a b ->. reflexivity.
  - apply list_zero. - apply list_pe. - apply list_opp. - apply list_comb. - apply list_total.
Qed.
Lemma option_laws : laws (option_vals c) eq (fun o => match o with Some a => nums a | None => [] end).
Proof.
  split; cbn [option_vals v_eq v_pcmp v_feed].
  - intros [a|]; [apply (l_refl L)|split; auto].
  - intros [a|] [b|]; auto using (l_sym L).
  - intros [a|] [b|] [d|]; try congruence. apply (l_trans L).
  - intros [a|] [b|] r s H; cbn [app] in H; injection H as H; try discriminate; [apply (l_feed L) in H; destruct H as [-> ->]; auto|auto].
  - intros a b ->. reflexivity.
  - intros [a|] [b|]; try congruence. intros. f_equal. apply (l_zero L); assumption.
  - intros [a|] [b|]; try (split; congruence). apply (l_pe L).
  - intros [a|] [b|]; try reflexivity. apply (l_opp L).
  - intros [a|] [b|] [d|] x y z C0 X Y; try (injection X as <-); try (injection Y as <-); try discriminate C0; try exact C0; try (destruct x; cbn in C0; congruence).
    + exact (l_comb L _ _ _ _ _ _ C0 X Y).
    + destruct y; cbn in C0; congruence.
  - intros [a|] [b|]; try discriminate. apply (l_total L).
Qed.
(** trees *)
Fixpoint kd_nums (t : kdtree A) : list (T F64) := match t with KNone => [] | KNode l v r _ => kd_nums l ++ kd_nums r ++ nums v end.
Lemma kd_laws : laws (kd_vals c) eq kd_nums.
Proof.
  assert (LE : forall (p : option comparison) q, lex_cmp p q = Some Eq <-> p = Some Eq /\ q = Some Eq).
  { intros [[]|] q; cbn [lex_cmp]; split; intros H; try tauto; try congruence; destruct H; congruence. }
  assert (LN : forall (p : option comparison) q, p <> None -> q <> None -> lex_cmp p q <> None) by (intros [[]|] q; cbn [lex_cmp]; congruence).
  split; cbn [kd_vals v_eq v_pcmp v_feed].
  - induction a as [|l IHl v r IHr d]; cbn [kd_eq kd_nums]; [split; auto|].
    rewrite !Bool.andb_true_iff, !Forall_app, IHl, IHr, (l_refl L), (l_refl byte_laws). split; intros; repeat split; try tauto. constructor.
  - induction a as [|l IHl v r IHr d]; intros [|l' v' r' d']; cbn [kd_eq]; try reflexivity.
    rewrite IHl, IHr, (l_sym L), (l_sym byte_laws). reflexivity.
  - induction a as [|l IHl v r IHr d]; intros [|l' v' r' d'] [|l2 v2 r2 d2]; cbn [kd_eq]; try congruence.
    rewrite !Bool.andb_true_iff. intros [[[X1 X2] X3] X4] [[[Y1 Y2] Y3] Y4].
    split; [split; [split|]|]; eauto using (l_trans L), (l_trans byte_laws).
  - induction a as [|l IHl v r IHr d]; intros [|l' v' r' d'] t s H; cbn [kd_feed app] in H; injection H as H; try discriminate; [auto|].
    rewrite <- !app_assoc in H. apply IHl in H. destruct H as [-> H]. apply IHr in H. destruct H as [-> H]. apply (l_feed L) in H. destruct H as [-> H].
    apply (l_feed byte_laws) in H. destruct H as [-> ->]. auto.
  - intros a b ->. reflexivity.
  - induction a as [|l IHl v r IHr d]; intros [|l' v' r' d']; cbn [kd_eq kd_nums]; try congruence.
    rewrite !Bool.andb_true_iff, !Forall_app. intros [[[X1 X2] X3] X4] (A1 & A2 & A3) (B1 & B2 & B3).
    f_equal; auto; [apply (l_zero L)|apply (l_zero byte_laws)]; auto.
  - induction a as [|l IHl v r IHr d]; intros [|l' v' r' d']; cbn [kd_eq kd_pcmp]; try (split; congruence).
    rewrite !LE, !Bool.andb_true_iff, IHl, IHr, (l_pe L), (l_pe byte_laws). reflexivity.
  - induction a as [|l IHl v r IHr d]; intros [|l' v' r' d']; cbn [kd_pcmp]; try reflexivity.
    rewrite IHl, IHr, (l_opp L v v'), (l_opp byte_laws d d'), !lex_opp. reflexivity.
  - induction a as [|l IHl v r IHr d]; intros [|l' v' r' d'] [|l2 v2 r2 d2] x y z C0 X Y; cbn [kd_pcmp] in *;
      try (injection X as <-); try (injection Y as <-); try discriminate C0; try exact C0; try (destruct x; cbn in C0; congruence); try (destruct y; cbn in C0; congruence).
    eapply lex_comb; [exact C0|exact X|exact Y| |intros ? ? ? C' X' Y'; exact (l_comb byte_laws _ _ _ _ _ _ C' X' Y')].
    intros x1 y1 z1 C1 X1 Y1. eapply lex_comb; [exact C1|exact X1|exact Y1| |intros ? ? ? C' X' Y'; exact (l_comb L _ _ _ _ _ _ C' X' Y')].
    intros x2 y2 z2 C2 X2 Y2. eapply lex_comb; [exact C2|exact X2|exact Y2| |]; intros ? ? ? C' X' Y'; eauto.
  - induction a as [|l IHl v r IHr d]; intros [|l' v' r' d']; cbn [kd_nums kd_pcmp]; try discriminate.
    rewrite !Forall_app. intros (A1 & A2 & A3) (B1 & B2 & B3). apply LN; [apply LN; [apply LN; auto|apply (l_total L); auto]|discriminate].
Qed.
End Lists.
Lemma usizes_laws : laws usizes_vals eq (fun _ => []).
Proof.
  pose proof (vec_laws usize_vals _ usize_laws) as L. assert (E : forall l : list N, flat_map (fun _ => [] : list (T F64)) l = []) by (induction l; auto).
  split; cbn [usizes_vals v_eq v_pcmp v_feed].
  - intros a. rewrite <- (E a). apply (l_refl L).
  - apply (l_sym L). - apply (l_trans L).
  - intros a b r s H. cbn [app] in H. injection H as _ -> ->. auto.
  - intros a b ->. reflexivity.
  - intros a b H _ _. apply (l_zero L); [exact H|rewrite E; constructor..].
  - apply (l_pe L). - apply (l_opp L). - apply (l_comb L).
  - intros a b _ _. apply (l_total L); rewrite E; constructor.
Qed.
