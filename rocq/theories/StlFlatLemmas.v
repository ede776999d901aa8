(** Triangles without a direction. *)
From Verif Require Import Base BaseLemmas Num NumLemmas VecModel GeomSpec FloatSpec WrapModel MeshModel MeshSpec StlModel StlSpec.
From Coq Require Import Floats.SpecFloat ZArith Lia.

Lemma corners_normal_iff a b c : (exists n, corners_normal a b c = Ok n) <-> has_direction (normal_vector a b c).
Proof.
  unfold corners_normal, has_direction, norm3_new, abs3. fold (normal_vector a b c). set (l := nsqrt _). unfold nonneg_new.
  assert (Q : flt n0 l <-> (ngeb l n0 = true /\ neqb l n0 = false)).
  { unfold flt, ngeb, neqb. clearbody l. destruct l as [[]|[]| |[] m e]; cbn; (split; [intros H; try discriminate H; split; reflexivity|intros [H1 H2]; first [discriminate H1|discriminate H2|reflexivity]]). }
  rewrite Q. destruct (ngeb l n0); cbn [unwrap obind].
  - destruct (neqb l n0); split; [intros [n H]; discriminate|intros [_ H]; discriminate|auto|intros _; eexists; reflexivity].
  - split; [intros [n H]; discriminate|intros [H _]; discriminate].
Qed.

(** Zero or NaN. *)
Definition zn (x : T F64) : Prop := match x with S754_zero _ | S754_nan => True | _ => False end.
Notation sub := (SFsub f64_prec f64_emax).
Notation mul := (SFmul f64_prec f64_emax).
Notation add := (SFadd f64_prec f64_emax).
Lemma zn_sub x y : zn x -> zn y -> zn (sub x y).
Proof. destruct x as [[]| | |], y as [[]| | |]; cbn; tauto. Qed.
Lemma zn_add x y : zn x -> zn y -> zn (add x y).
Proof. destruct x as [[]| | |], y as [[]| | |]; cbn; tauto. Qed.
Lemma zn_mul_l x y : zn x -> zn (mul x y).
Proof. destruct x, y; cbn; tauto. Qed.
Lemma zn_mul_r x y : zn y -> zn (mul x y).
Proof. destruct x, y; cbn; tauto. Qed.
Lemma zn_sqrt x : zn x -> ~ flt n0 (SFsqrt f64_prec f64_emax x).
Proof. destruct x; cbn; intros []; discriminate. Qed.
Lemma zn_self x : zn (sub x x).
Proof. destruct x as [[]|[]| |s m e]; cbn; auto. rewrite Z.sub_diag. exact I. Qed.
(** Opposite, or both zero or NaN. *)
Definition opp2 (x y : T F64) : Prop := (zn x /\ zn y) \/ y = SFopp x.
Lemma round_aux_opp s m e l : binary_round_aux f64_prec f64_emax (negb s) m e l = SFopp (binary_round_aux f64_prec f64_emax s m e l).
Proof.
  unfold binary_round_aux. destruct (shr_fexp f64_prec f64_emax m e l) as [r1 e1]. destruct (shr_fexp f64_prec f64_emax _ e1 loc_Exact) as [r2 e2]. destruct (shr_m r2); cbn; try reflexivity. destruct (_ <=? _)%Z; reflexivity.
Qed.
Lemma round_opp s m e : binary_round f64_prec f64_emax (negb s) m e = SFopp (binary_round f64_prec f64_emax s m e).
Proof. unfold binary_round. destruct (shl_align m e _) as [m1 e1]. apply round_aux_opp. Qed.
Lemma sub_swap x y : opp2 (sub x y) (sub y x).
Proof.
  destruct x as [[]|[]| |s m e], y as [[]|[]| |s' m' e']; try (left; split; exact I); try (right; reflexivity); try (right; cbn; destruct s; reflexivity); try (right; cbn; destruct s'; reflexivity).
  cbn [SFsub]. rewrite (Z.min_comm e' e). set (k := Z.min e e'). set (z := cond_Zopp s _). set (z' := cond_Zopp s' _). replace (z' - z)%Z with (- (z - z'))%Z by lia.
  destruct (z - z')%Z as [|p|p]; cbn [Z.opp binary_normalize]; [left; split; exact I|right; apply (round_opp false)|right; apply (round_opp true)].
Qed.
Lemma mul_opp_r x y : opp2 x y -> forall u v, opp2 u v -> zn (sub (mul u y) (mul x v)).
Proof.
  intros [[X Y]|E] u v [[U V]|F].
  - apply zn_sub; [apply zn_mul_r, Y|apply zn_mul_l, X].
  - apply zn_sub; [apply zn_mul_r, Y|apply zn_mul_l, X].
  - apply zn_sub; [apply zn_mul_l, U|apply zn_mul_r, V].
  - subst. assert (H : mul u (SFopp x) = mul x (SFopp u) \/ zn (mul u (SFopp x)) /\ zn (mul x (SFopp u))).
    { destruct x as [[]|[]| |[] m e], u as [[]|[]| |[] m' e']; cbn [SFopp SFmul xorb negb]; try (right; split; exact I); left; try reflexivity; rewrite Pos.mul_comm, Z.add_comm; reflexivity. }
    destruct H as [->|[A B]]; [apply zn_self|apply zn_sub; assumption].
Qed.
Lemma no_direction v : zn (px v) -> zn (py v) -> zn (pz v) -> ~ has_direction v.
Proof. intros A B C. apply zn_sqrt. apply zn_add; [apply zn_add|]; apply zn_mul_l; assumption. Qed.
Lemma degenerate_flat a b c : degenerate (a, b, c) -> ~ has_direction (normal_vector a b c).
Proof.
  unfold degenerate, normal_vector. intros [->|[->| ->]]; apply no_direction; cbn [px py pz cross3 conn].
  1-3: apply zn_sub; apply zn_mul_l, zn_self.
  4-6: apply zn_sub; apply zn_mul_r, zn_self.
  all: apply mul_opp_r; apply sub_swap.
Qed.
