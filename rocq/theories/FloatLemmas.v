(** Facts about the arithmetic of doubles: when no NaN arises. *)
From Verif Require Import Base Num NumLemmas GeomSpec.
From Coq Require Import Floats.SpecFloat.

Lemma shr_1_nonneg r : (0 <= shr_m r)%Z -> (0 <= shr_m (shr_1 r))%Z.
Proof. destruct r as [[|[p|p|]|p] b1 b2]; cbn; lia. Qed.
Lemma iter_shr_nonneg p : forall r, (0 <= shr_m r)%Z -> (0 <= shr_m (iter_pos shr_1 p r))%Z.
Proof.
  induction p as [p IH|p IH|]; intros r H; cbn [iter_pos].
  - apply IH, IH, shr_1_nonneg, H.
  - apply IH, IH, H.
  - apply shr_1_nonneg, H.
Qed.
Lemma shr_nonneg r e n : (0 <= shr_m r)%Z -> (0 <= shr_m (fst (shr r e n)))%Z.
Proof. intro H. unfold shr. destruct n; cbn [fst]; auto. apply iter_shr_nonneg, H. Qed.
Lemma shr_fexp_nonneg m e l : (0 <= m)%Z -> (0 <= shr_m (fst (shr_fexp f64_prec f64_emax m e l)))%Z.
Proof. intro H. unfold shr_fexp. apply shr_nonneg. destruct l as [|[]]; exact H. Qed.
Lemma round_ne_nonneg m l : (0 <= m)%Z -> (0 <= round_nearest_even m l)%Z.
Proof. intro H. destruct l as [|[]]; cbn; try lia. destruct (Z.even m); lia. Qed.
Lemma round_aux_num s m e l : (0 <= m)%Z -> binary_round_aux f64_prec f64_emax s m e l <> S754_nan.
Proof.
  intro H. unfold binary_round_aux.
  pose proof (shr_fexp_nonneg m e l H) as H1. destruct (shr_fexp f64_prec f64_emax m e l) as [r1 e1]. cbn [fst] in H1.
  pose proof (shr_fexp_nonneg (round_nearest_even (shr_m r1) (loc_of_shr_record r1)) e1 loc_Exact (round_ne_nonneg _ _ H1)) as H2.
  destruct (shr_fexp f64_prec f64_emax _ _ _) as [r2 e2]. cbn [fst] in H2.
  destruct (shr_m r2); [discriminate| |lia]. destruct (Zle_bool e2 _); discriminate.
Qed.
Lemma round_num s m e : binary_round f64_prec f64_emax s m e <> S754_nan.
Proof. unfold binary_round. destruct (shl_align _ _ _) as [mz ez]. apply round_aux_num. lia. Qed.
Lemma normalize_num m e z : binary_normalize f64_prec f64_emax m e z <> S754_nan.
Proof. destruct m; cbn [binary_normalize]; [discriminate|apply round_num..]. Qed.
Lemma lit_num m e : number (@lit F64 m e).
Proof. apply normalize_num. Qed.

(** Finite doubles. *)
Lemma finite_number a : f_finite a -> number a.
Proof. destruct a; cbn; intros H E; try discriminate; destruct H. Qed.
Lemma add_num (a b : T F64) : f_finite a -> number b -> number (nadd a b).
Proof.
  unfold number. destruct a, b; cbn [f_finite]; intros Ha Hb; try contradiction; cbn; try discriminate; try congruence;
    try (destruct (Bool.eqb _ _); discriminate); try apply normalize_num.
Qed.
Lemma sub_num (a b : T F64) : f_finite a -> f_finite b -> number (nsub a b).
Proof.
  unfold number. destruct a, b; cbn [f_finite]; intros Ha Hb; try contradiction; cbn; try discriminate;
    try (destruct (Bool.eqb _ _); discriminate); try apply normalize_num.
Qed.
Lemma div_core_nonneg m1 e1 m2 e2 : (0 <= fst (fst (SFdiv_core_binary f64_prec f64_emax (Zpos m1) e1 (Zpos m2) e2)))%Z.
Proof.
  unfold SFdiv_core_binary.
  match goal with |- context [Z.div_eucl ?x ?y] =>
    assert (X : (0 <= x)%Z); [|pose proof (Z.div_pos x y X eq_refl) as D; unfold Z.div in D; destruct (Z.div_eucl x y); exact D] end.
  destruct (_ - _)%Z; try lia. rewrite Z.shiftl_nonneg. lia.
Qed.
Lemma div_num (a : T F64) s m e : number a -> number (ndiv a (S754_finite s m e : T F64)).
Proof.
  unfold number. intro Ha. destruct a; cbn; try discriminate; try congruence.
  pose proof (div_core_nonneg m0 e0 m e) as H. unfold SFdiv_core_binary in *.
  destruct (Z.div_eucl _ _) as [q r]. cbn [fst] in H. apply round_aux_num, H.
Qed.
Lemma mid_num (a b : T F64) : f_finite a -> f_finite b -> number (nadd a (ndiv (nsub b a) n2)).
Proof.
  intros Ha Hb. apply add_num; [exact Ha|].
  assert (E : @n2 F64 = S754_finite false 4503599627370496 (-51)) by (vm_compute; reflexivity).
  rewrite E. apply div_num, sub_num; assumption.
Qed.
