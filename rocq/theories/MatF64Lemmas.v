(** Lemmas about matrices in doubles. *)
From Verif Require Import Base BaseLemmas Num NumLemmas BBoxModel GeomSpec FloatSpec FloatLemmas FloatBridge RootLemmas DistSpec DistLemmas DistLemmas2 DistLemmas3 BoxDistLemmas MeanLemmas MatrixModel GridSpec GridLemmas SatF64Spec SatF64Lemmas UnitLemmas MatF64Spec.
From Coq Require Import Floats.SpecFloat Reals Lra Lia Setoid Morphisms.
From Flocq Require Import Core IEEE754.BinarySingleNaN.
Local Open Scope R_scope.

(** ** Equal up to the sign of zero *)
Definition eqv (x y : T F64) : Prop := x = y \/ exists s s', x = S754_zero s /\ y = S754_zero s'.
#[export] Instance eqv_equiv : Equivalence eqv.
Proof.
  split.
  - intros x. left. reflexivity.
  - intros x y [->|(s & s' & -> & ->)]; [left; reflexivity|right; eauto].
  - intros x y z [->|(s & s' & -> & ->)]; [auto|]. intros [<-|(t & t' & _ & ->)]; right; eauto.
Qed.
Lemma zeros s s' : eqv (S754_zero s) (S754_zero s'). Proof. right. eauto. Qed.
Lemma add_zero_l s y : eqv (nadd (S754_zero s : T F64) y) y.
Proof. destruct y as [[]|[]| |[] m e]; destruct s; cbn; first [left; reflexivity|apply zeros]. Qed.
Lemma add_zero_r x s : eqv (nadd x (S754_zero s : T F64)) x.
Proof. destruct x as [[]|[]| |[] m e]; destruct s; cbn; first [left; reflexivity|apply zeros]. Qed.
#[export] Instance add_proper : Proper (eqv ==> eqv ==> eqv) (@nadd F64).
Proof.
  intros x x' HX y y' HY. destruct HX as [->|(s & s' & -> & ->)].
  - destruct HY as [->|(t & t' & -> & ->)]; [reflexivity|]. rewrite !add_zero_r. reflexivity.
  - destruct HY as [->|(t & t' & -> & ->)]; [rewrite !add_zero_l; reflexivity|]. rewrite !add_zero_l. apply zeros.
Qed.
Lemma mul_zero_any s s' y : eqv (nmul (S754_zero s : T F64) y) (nmul (S754_zero s' : T F64) y).
Proof. destruct y as [[]|[]| |[] m e]; destruct s, s'; cbn; first [left; reflexivity|apply zeros]. Qed.
Lemma mul_any_zero s s' y : eqv (nmul y (S754_zero s : T F64)) (nmul y (S754_zero s' : T F64)).
Proof. destruct y as [[]|[]| |[] m e]; destruct s, s'; cbn; first [left; reflexivity|apply zeros]. Qed.
#[export] Instance mul_proper : Proper (eqv ==> eqv ==> eqv) (@nmul F64).
Proof.
  intros x x' HX y y' HY. transitivity (nmul x' y).
  - destruct HX as [->|(s & s' & -> & ->)]; [reflexivity|apply mul_zero_any].
  - destruct HY as [->|(s & s' & -> & ->)]; [reflexivity|apply mul_any_zero].
Qed.
Lemma mul_0_l y : f_finite y -> eqv (nmul (n0 : T F64) y) n0.
Proof. destruct y as [[]|[]| |[] m e]; intros F; try destruct F; cbn; first [left; reflexivity|apply zeros]. Qed.
Lemma mul_0_r y : f_finite y -> eqv (nmul y (n0 : T F64)) n0.
Proof. destruct y as [[]|[]| |[] m e]; intros F; try destruct F; cbn; first [left; reflexivity|apply zeros]. Qed.
Lemma add_0_r x : eqv (nadd x (n0 : T F64)) x. Proof. apply add_zero_r. Qed.
Lemma add_0_l x : eqv (nadd (n0 : T F64) x) x. Proof. apply add_zero_l. Qed.
Lemma val_inj x y : fd x -> fd y -> fval x = fval y -> eqv x y.
Proof.
  intros [DX FX] [DY FY] V. destruct x as [s| | |s m e]; try destruct FX.
  - destruct y as [t| | |t m e]; try destruct FY; [apply zeros|]. exfalso. cbn [fval] in V. symmetry in V. apply Rmult_integral in V. rewrite bp_powerRZ in V. destruct V as [V|V]; [|pose proof (bp_pos e); lra].
    destruct t; apply Rmult_integral in V; destruct V as [V|V]; try lra; apply eq_IZR in V; discriminate.
  - destruct (FloatBridge.lift _ DX) as [a A], (FloatBridge.lift _ DY) as [b B]. rewrite A, B in *. rewrite !fval_B in V. left. f_equal. apply B2R_inj; [|apply finite_B in FY|exact V].
    + destruct a; cbn in A; congruence || reflexivity.
    + destruct b; try reflexivity; try discriminate. exfalso. cbn [B2R] in V. rewrite <- fval_B, <- A in V. cbn [fval] in V. apply Rmult_integral in V. rewrite bp_powerRZ in V. destruct V as [V|V]; [|pose proof (bp_pos e); lra].
      destruct s; apply Rmult_integral in V; destruct V as [V|V]; try lra; apply eq_IZR in V; discriminate.
Qed.
Lemma mul_1_val x y : fd x -> fd y -> fval y = 1 -> eqv (nmul x y) x.
Proof.
  intros [DX FX] [DY FY] V. pose proof (mul_val x y DX DY FX FY) as RD. rewrite V, Rmult_1_r in RD. unfold rounds in RD. rewrite rnd_id in RD by apply fval_fmt, DX.
  pose proof (fval_bound x DX) as B. apply Rabs_lt_inv in B. destruct RD as [(_ & F & W)|[[K _]|[K _]]]; [|lra|lra].
  apply val_inj; [split; [apply double_mul; assumption|exact F]|split; assumption|exact W].
Qed.
Lemma fd_1 : fd (n1 : T F64). Proof. split; [reflexivity|exact I]. Qed.
Lemma fd_0 : fd (n0 : T F64). Proof. split; [reflexivity|exact I]. Qed.
Lemma mul_1_r x : fd x -> eqv (nmul x (n1 : T F64)) x.
Proof. intros F. apply mul_1_val; [exact F|exact fd_1|exact fval_one]. Qed.
Lemma mul_1_l x : fd x -> eqv (nmul (n1 : T F64) x) x.
Proof.
  intros [DX FX]. destruct fd_1 as [DY FY]. pose proof (mul_val n1 x DY DX FY FX) as RD. rewrite fval_one, Rmult_1_l in RD. unfold rounds in RD. rewrite rnd_id in RD by apply fval_fmt, DX.
  pose proof (fval_bound x DX) as B. apply Rabs_lt_inv in B. destruct RD as [(_ & F & W)|[[K _]|[K _]]]; [|lra|lra].
  apply val_inj; [split; [apply double_mul; assumption|exact F]|split; assumption|exact W].
Qed.
Lemma eqv_feq x y : eqv x y -> y <> S754_nan -> feq x y.
Proof.
  intros [->|(s & s' & -> & ->)] N; [|destruct s, s'; reflexivity]. unfold feq, SFeqb. destruct y as [[]|[]| |[] m e]; try reflexivity; [congruence|..]; cbn; rewrite Z.compare_refl, Pos.compare_cont_refl; reflexivity.
Qed.
Lemma rounds_number r z : rounds r z -> z <> S754_nan.
Proof. intros [(_ & F & _)|[[_ ->]|[_ ->]]]; [intros ->; destruct F|discriminate|discriminate]. Qed.
Lemma mul_number x y : fd x -> fd y -> nmul x y <> S754_nan.
Proof. intros [DX FX] [DY FY]. eapply rounds_number, mul_val; assumption. Qed.
Lemma add_number x y : fd x -> fd y -> nadd x y <> S754_nan.
Proof. intros [DX FX] [DY FY]. eapply rounds_number, add_val; assumption. Qed.
Lemma muladd_number x s t : fd x -> fd s -> fd t -> nadd (nmul x s) t <> S754_nan.
Proof.
  intros X S T. pose proof (mul_val x s (proj1 X) (proj1 S) (proj2 X) (proj2 S)) as RD. pose proof (double_mul x s (proj1 X) (proj1 S)) as D.
  destruct RD as [(_ & F & _)|[[_ ->]|[_ ->]]]; [apply add_number; [split; assumption|exact T]|..]; destruct T as [_ T]; destruct t as [[]| | |[] m e]; try destruct T; discriminate.
Qed.
Lemma fin_fd x : fin x -> fd x. Proof. intros [D F]. split; [exact D|apply finite_f, F]. Qed.
Ltac simp_eqv := repeat first [rewrite mul_0_l by (first [assumption|exact I])|rewrite mul_0_r by (first [assumption|exact I])|rewrite mul_1_l by (first [assumption|exact fd_1|exact fd_0])|rewrite mul_1_r by (first [assumption|exact fd_1|exact fd_0])|rewrite add_0_l|rewrite add_0_r].
Lemma row_id x y z : fd x -> f_finite y -> f_finite z -> eqv (nadd (nadd (nadd (nmul x n1) (nmul y n0)) (nmul z n0)) n0) x /\ eqv (nadd (nadd (nadd (nmul y n0) (nmul x n1)) (nmul z n0)) n0) x /\ eqv (nadd (nadd (nadd (nmul y n0) (nmul z n0)) (nmul x n1)) n0) x.
Proof. intros X Y Z. split; [|split]; simp_eqv; reflexivity. Qed.

(** ** Matrices *)
Definition meqv4 (a b : mat4 F64) : Prop := Forall2 eqv (entries4 a) (entries4 b).
Definition meqv3 (a b : mat3 F64) : Prop := Forall2 eqv (entries3 a) (entries3 b).
Definition mfd4 (a : mat4 F64) : Prop := Forall fd (entries4 a).
Definition mfd3 (a : mat3 F64) : Prop := Forall fd (entries3 a).
Ltac fa := repeat match goal with
  | H : Forall2 _ (_ :: _) (_ :: _) |- _ => inversion H; clear H; subst
  | H : Forall2 _ [] [] |- _ => clear H
  | H : Forall _ (_ :: _) |- _ => inversion H; clear H; subst
  | H : Forall _ [] |- _ => clear H end.
Lemma m4_mul_eqv a a' b b' : meqv4 a a' -> meqv4 b b' -> meqv4 (m4_mul a b) (m4_mul a' b').
Proof.
  destruct a, a', b, b'. unfold meqv4, entries4, m4_mul. cbn [MatrixModel.m4_00 MatrixModel.m4_01 MatrixModel.m4_02 MatrixModel.m4_03 MatrixModel.m4_10 MatrixModel.m4_11 MatrixModel.m4_12 MatrixModel.m4_13 MatrixModel.m4_20 MatrixModel.m4_21 MatrixModel.m4_22 MatrixModel.m4_23 MatrixModel.m4_30 MatrixModel.m4_31 MatrixModel.m4_32 MatrixModel.m4_33]. intros A B. fa.
  repeat first [apply Forall2_cons|apply Forall2_nil]; repeat (apply add_proper || apply mul_proper); assumption.
Qed.
Lemma m3_mul_eqv a a' b b' : meqv3 a a' -> meqv3 b b' -> meqv3 (m3_mul a b) (m3_mul a' b').
Proof.
  destruct a, a', b, b'. unfold meqv3, entries3, m3_mul. cbn [MatrixModel.m3_00 MatrixModel.m3_01 MatrixModel.m3_02 MatrixModel.m3_10 MatrixModel.m3_11 MatrixModel.m3_12 MatrixModel.m3_20 MatrixModel.m3_21 MatrixModel.m3_22]. intros A B. fa.
  repeat first [apply Forall2_cons|apply Forall2_nil]; repeat (apply add_proper || apply mul_proper); assumption.
Qed.
Lemma meqv4_trans a b c : meqv4 a b -> meqv4 b c -> meqv4 a c.
Proof.
  destruct a, b, c. unfold meqv4, entries4. cbn [MatrixModel.m4_00 MatrixModel.m4_01 MatrixModel.m4_02 MatrixModel.m4_03 MatrixModel.m4_10 MatrixModel.m4_11 MatrixModel.m4_12 MatrixModel.m4_13 MatrixModel.m4_20 MatrixModel.m4_21 MatrixModel.m4_22 MatrixModel.m4_23 MatrixModel.m4_30 MatrixModel.m4_31 MatrixModel.m4_32 MatrixModel.m4_33]. intros A B. fa. repeat first [apply Forall2_cons|apply Forall2_nil]; etransitivity; eassumption.
Qed.
Lemma meqv3_trans a b c : meqv3 a b -> meqv3 b c -> meqv3 a c.
Proof.
  destruct a, b, c. unfold meqv3, entries3. cbn [MatrixModel.m3_00 MatrixModel.m3_01 MatrixModel.m3_02 MatrixModel.m3_10 MatrixModel.m3_11 MatrixModel.m3_12 MatrixModel.m3_20 MatrixModel.m3_21 MatrixModel.m3_22]. intros A B. fa. repeat first [apply Forall2_cons|apply Forall2_nil]; etransitivity; eassumption.
Qed.
Lemma meqv4_refl a : meqv4 a a. Proof. repeat first [apply Forall2_cons|apply Forall2_nil]; reflexivity. Qed.
Lemma meqv3_refl a : meqv3 a a. Proof. repeat first [apply Forall2_cons|apply Forall2_nil]; reflexivity. Qed.
Ltac fds := repeat match goal with H : fd ?x |- _ => match goal with _ : f_finite x |- _ => fail 1 | _ => pose proof (proj2 H : f_finite x) end end.
Lemma m4_id_rF a : mfd4 a -> meqv4 (m4_mul a m4_identity) a.
Proof.
  destruct a. unfold mfd4, meqv4, entries4, m4_mul, m4_identity. cbn [MatrixModel.m4_00 MatrixModel.m4_01 MatrixModel.m4_02 MatrixModel.m4_03 MatrixModel.m4_10 MatrixModel.m4_11 MatrixModel.m4_12 MatrixModel.m4_13 MatrixModel.m4_20 MatrixModel.m4_21 MatrixModel.m4_22 MatrixModel.m4_23 MatrixModel.m4_30 MatrixModel.m4_31 MatrixModel.m4_32 MatrixModel.m4_33]. intros A. fa. fds.
  repeat first [apply Forall2_cons|apply Forall2_nil]; simp_eqv; reflexivity.
Qed.
Lemma m3_id_rF a : mfd3 a -> meqv3 (m3_mul a m3_identity) a.
Proof.
  destruct a. unfold mfd3, meqv3, entries3, m3_mul, m3_identity. cbn [MatrixModel.m3_00 MatrixModel.m3_01 MatrixModel.m3_02 MatrixModel.m3_10 MatrixModel.m3_11 MatrixModel.m3_12 MatrixModel.m3_20 MatrixModel.m3_21 MatrixModel.m3_22]. intros A. fa. fds.
  repeat first [apply Forall2_cons|apply Forall2_nil]; simp_eqv; reflexivity.
Qed.
Lemma m4_id_lF a : mfd4 a -> meqv4 (m4_mul m4_identity a) a.
Proof.
  destruct a. unfold mfd4, meqv4, entries4, m4_mul, m4_identity. cbn [MatrixModel.m4_00 MatrixModel.m4_01 MatrixModel.m4_02 MatrixModel.m4_03 MatrixModel.m4_10 MatrixModel.m4_11 MatrixModel.m4_12 MatrixModel.m4_13 MatrixModel.m4_20 MatrixModel.m4_21 MatrixModel.m4_22 MatrixModel.m4_23 MatrixModel.m4_30 MatrixModel.m4_31 MatrixModel.m4_32 MatrixModel.m4_33]. intros A. fa. fds.
  repeat first [apply Forall2_cons|apply Forall2_nil]; simp_eqv; reflexivity.
Qed.
Lemma fd_translation x y z : fd x -> fd y -> fd z -> mfd4 (m4_translation x y z).
Proof. intros. repeat first [apply Forall_cons|apply Forall_nil]; first [assumption|exact fd_0|exact fd_1]. Qed.
Definition m4_scale_move (sx sy sz x y z : T F64) : mat4 F64 := mkm4 sx n0 n0 x  n0 sy n0 y  n0 n0 sz z  n0 n0 n0 n1.
Definition m3_scale_move (sx sy x y : T F64) : mat3 F64 := mkm3 sx n0 x  n0 sy y  n0 n0 n1.
Lemma m4_ts x y z sx sy sz : fd x -> fd y -> fd z -> fd sx -> fd sy -> fd sz -> meqv4 (m4_mul (m4_translation x y z) (m4_scale sx sy sz)) (m4_scale_move sx sy sz x y z).
Proof.
  intros. fds. unfold meqv4, entries4, m4_mul, m4_translation, m4_scale, m4_scale_move. cbn [MatrixModel.m4_00 MatrixModel.m4_01 MatrixModel.m4_02 MatrixModel.m4_03 MatrixModel.m4_10 MatrixModel.m4_11 MatrixModel.m4_12 MatrixModel.m4_13 MatrixModel.m4_20 MatrixModel.m4_21 MatrixModel.m4_22 MatrixModel.m4_23 MatrixModel.m4_30 MatrixModel.m4_31 MatrixModel.m4_32 MatrixModel.m4_33].
  repeat first [apply Forall2_cons|apply Forall2_nil]; simp_eqv; reflexivity.
Qed.
Lemma m3_ts x y sx sy : fd x -> fd y -> fd sx -> fd sy -> meqv3 (m3_mul (m3_translation x y) (m3_scale sx sy)) (m3_scale_move sx sy x y).
Proof.
  intros. fds. unfold meqv3, entries3, m3_mul, m3_translation, m3_scale, m3_scale_move. cbn [MatrixModel.m3_00 MatrixModel.m3_01 MatrixModel.m3_02 MatrixModel.m3_10 MatrixModel.m3_11 MatrixModel.m3_12 MatrixModel.m3_20 MatrixModel.m3_21 MatrixModel.m3_22].
  repeat first [apply Forall2_cons|apply Forall2_nil]; simp_eqv; reflexivity.
Qed.
Definition peqv3 (p q : pt3 F64) : Prop := eqv (px p) (px q) /\ eqv (py p) (py q) /\ eqv (pz p) (pz q).
Definition peqv2 (p q : pt2 F64) : Prop := eqv (x2 p) (x2 q) /\ eqv (y2 p) (y2 q).
Lemma act4_eqv p a b : meqv4 a b -> peqv3 (pt3_multiply_m p a) (pt3_multiply_m p b).
Proof.
  destruct a, b. unfold meqv4, entries4, pt3_multiply_m, peqv3. cbn [MatrixModel.m4_00 MatrixModel.m4_01 MatrixModel.m4_02 MatrixModel.m4_03 MatrixModel.m4_10 MatrixModel.m4_11 MatrixModel.m4_12 MatrixModel.m4_13 MatrixModel.m4_20 MatrixModel.m4_21 MatrixModel.m4_22 MatrixModel.m4_23 MatrixModel.m4_30 MatrixModel.m4_31 MatrixModel.m4_32 MatrixModel.m4_33 px py pz]. intros A. fa.
  split; [|split]; repeat (apply add_proper || apply mul_proper); first [assumption|reflexivity].
Qed.
Lemma act3_eqv p a b : meqv3 a b -> peqv2 (pt2_multiply_m p a) (pt2_multiply_m p b).
Proof.
  destruct a, b. unfold meqv3, entries3, pt2_multiply_m, peqv2. cbn [MatrixModel.m3_00 MatrixModel.m3_01 MatrixModel.m3_02 MatrixModel.m3_10 MatrixModel.m3_11 MatrixModel.m3_12 MatrixModel.m3_20 MatrixModel.m3_21 MatrixModel.m3_22 x2 y2]. intros A. fa.
  split; repeat (apply add_proper || apply mul_proper); first [assumption|reflexivity].
Qed.
Lemma act4_sm p sx sy sz x y z : f_finite (px p) -> f_finite (py p) -> f_finite (pz p) ->
  peqv3 (pt3_multiply_m p (m4_scale_move sx sy sz x y z)) (mk3 (nadd (nmul (px p) sx) x) (nadd (nmul (py p) sy) y) (nadd (nmul (pz p) sz) z)).
Proof.
  intros. unfold pt3_multiply_m, peqv3, m4_scale_move. cbn [MatrixModel.m4_00 MatrixModel.m4_01 MatrixModel.m4_02 MatrixModel.m4_03 MatrixModel.m4_10 MatrixModel.m4_11 MatrixModel.m4_12 MatrixModel.m4_13 MatrixModel.m4_20 MatrixModel.m4_21 MatrixModel.m4_22 MatrixModel.m4_23 MatrixModel.m4_30 MatrixModel.m4_31 MatrixModel.m4_32 MatrixModel.m4_33 px py pz].
  split; [|split]; simp_eqv; reflexivity.
Qed.
Lemma act3_sm p sx sy x y : f_finite (x2 p) -> f_finite (y2 p) ->
  peqv2 (pt2_multiply_m p (m3_scale_move sx sy x y)) (mk2 (nadd (nmul (x2 p) sx) x) (nadd (nmul (y2 p) sy) y)).
Proof.
  intros. unfold pt2_multiply_m, peqv2, m3_scale_move. cbn [MatrixModel.m3_00 MatrixModel.m3_01 MatrixModel.m3_02 MatrixModel.m3_10 MatrixModel.m3_11 MatrixModel.m3_12 MatrixModel.m3_20 MatrixModel.m3_21 MatrixModel.m3_22 x2 y2].
  split; simp_eqv; reflexivity.
Qed.

(** ** Whole numbers *)
Definition wh (k : Z) (x : T F64) (v : R) : Prop := exists z, gr 0 x z /\ (Z.abs z <= k)%Z /\ v = IZR z.
Lemma wh_grid k x : (0 <= k)%Z -> on_grid 0 k x -> wh (2 ^ k) x (fval x).
Proof. intros K H. apply grid_gr in H. destruct H as (z & B & G). exists z. split; [exact G|]. split; [exact B|]. rewrite (gr_val _ _ _ G). change (bp 0) with 1. ring. Qed.
Lemma wh_val k x v : wh k x v -> fd x /\ fval x = v.
Proof. intros (z & G & _ & ->). split; [eapply gr_fd, G|]. rewrite (gr_val _ _ _ G). change (bp 0) with 1. ring. Qed.
Lemma wh_mul k l x y u v : wh k x u -> wh l y v -> (k * l <= 2 ^ 53)%Z -> wh (k * l) (nmul x y) (u * v).
Proof.
  intros (a & GA & A & ->) (b & GB & B & ->) H. exists (a * b)%Z. assert (P : (Z.abs (a * b) <= k * l)%Z) by (rewrite Z.abs_mul; apply Z.mul_le_mono_nonneg; lia).
  split; [apply (gr_mul 0 0); [exact GA|exact GB|lia|lia]|]. split; [exact P|]. rewrite mult_IZR. reflexivity.
Qed.
Lemma wh_add k l x y u v : wh k x u -> wh l y v -> (k + l <= 2 ^ 53)%Z -> wh (k + l) (nadd x y) (u + v).
Proof.
  intros (a & GA & A & ->) (b & GB & B & ->) H. exists (a + b)%Z. split; [apply gr_add; [exact GA|exact GB|lia|lia]|]. split; [lia|]. rewrite plus_IZR. reflexivity.
Qed.
Lemma wh_wide k l x v : (k <= l)%Z -> wh k x v -> wh l x v.
Proof. intros L (z & G & B & V). exists z. split; [exact G|]. split; [lia|exact V]. Qed.

(** ** Accuracy of one row *)
Lemma row_acc x y z a b c d S : fd x -> fd y -> fd z -> fd a -> fd b -> fd c -> fd d ->
  S = Rabs (fval x * fval a) + Rabs (fval y * fval b) + Rabs (fval z * fval c) + Rabs (fval d) -> S <= bp 1000 ->
  fd (nadd (nadd (nadd (nmul x a) (nmul y b)) (nmul z c)) d) /\
  Rabs (fval (nadd (nadd (nadd (nmul x a) (nmul y b)) (nmul z c)) d) - (fval x * fval a + fval y * fval b + fval z * fval c + fval d)) <= 5 * ur * S + 4 * eta.
Proof.
  intros X Y Z A B C D ES SB. pose proof ur_small as U. assert (U0 : 0 < ur) by (unfold ur; pose proof (bp_pos (-52)); lra).
  assert (ET : 0 < eta <= / 1000). { unfold eta. pose proof (bp_pos (-1074)). assert (bp (-1074) <= bp (-10)) by (apply bpow_le; lia). change (bp (-10)) with (/ 1024) in *. lra. }
  assert (P1000 : 1 <= bp 1000) by (change 1 with (bp 0); apply bpow_le; lia).
  set (t1 := fval x * fval a) in *. set (t2 := fval y * fval b) in *. set (t3 := fval z * fval c) in *.
  pose proof (Rabs_pos t1) as N1. pose proof (Rabs_pos t2) as N2. pose proof (Rabs_pos t3) as N3. pose proof (Rabs_pos (fval d)) as N4.
  assert (PR : forall u v, fd u -> fd v -> Rabs (fval u * fval v) <= S -> le_e 1001 (nmul u v) /\ Rabs (fval (nmul u v) - fval u * fval v) <= Rabs (fval u * fval v) * ur + eta).
  { intros u v [DU FU] [DV FV] L. destruct (rounds_le (fval u * fval v) (nmul u v) 1001) as [LE V]; [apply mul_val; assumption|apply double_mul; assumption| |lia|].
    - apply Rle_trans with (1 := L), Rle_trans with (1 := SB). apply bpow_le. lia.
    - split; [exact LE|]. rewrite V. destruct (mul_rel (fval u * fval v)) as (e & h & E1 & E2 & ->). replace (fval u * fval v * (1 + e) + h - fval u * fval v) with (fval u * fval v * e + h) by ring.
      apply Rle_trans with (1 := Rabs_triang _ _). rewrite Rabs_mult. apply Rplus_le_compat; [|exact E2]. apply Rmult_le_compat_l; [apply Rabs_pos|exact E1]. }
  destruct (PR x a X A ltac:(fold t1; lra)) as [L1 Q1], (PR y b Y B ltac:(fold t2; lra)) as [L2 Q2], (PR z c Z C ltac:(fold t3; lra)) as [L3 Q3]. fold t1 in Q1. fold t2 in Q2. fold t3 in Q3. clear PR.
  set (p1 := nmul x a) in *. set (p2 := nmul y b) in *. set (p3 := nmul z c) in *.
  assert (TR : forall p t, Rabs (p - t) <= Rabs t * ur + eta -> Rabs p <= 1001 / 1000 * Rabs t + eta).
  { intros p t H. replace p with (t + (p - t)) by ring. apply Rle_trans with (1 := Rabs_triang _ _). pose proof (Rabs_pos t). nra. }
  pose proof (TR _ _ Q1) as M1. pose proof (TR _ _ Q2) as M2. pose proof (TR _ _ Q3) as M3. clear TR.
  destruct (le_add 1001 p1 p2 L1 L2 ltac:(lia)) as [S1 V1]. destruct (le_add 1002 _ p3 S1 (le_wide 1001 1002 _ ltac:(lia) L3) ltac:(lia)) as [S2 V2].
  assert (LD : le_e 1003 d) by (split; [exact D|]; apply Rle_trans with S; [lra|]; apply Rle_trans with (1 := SB); apply bpow_le; lia).
  destruct (le_add 1003 _ d S2 LD ltac:(lia)) as [S3 V3]. split; [apply S3|].
  assert (ST : forall (s w : R) (B : R), Rabs s + Rabs w <= B -> fmt s -> fmt w -> Rabs (rnd (s + w) - (s + w)) <= B * ur /\ Rabs (rnd (s + w)) <= 1001 / 1000 * B).
  { intros s w B0 H F1 F2. pose proof (sum_acc s w B0 F1 F2 H) as E. split; [exact E|]. replace (rnd (s + w)) with (s + w + (rnd (s + w) - (s + w))) by ring. apply Rle_trans with (1 := Rabs_triang _ _). pose proof (Rabs_triang s w). pose proof (Rabs_pos s). pose proof (Rabs_pos w). nra. }
  pose proof (fun x (H : fd x) => fval_fmt x (proj1 H)) as FM.
  destruct (ST (fval p1) (fval p2) _ (Rle_refl _) (FM _ (proj1 L1)) (FM _ (proj1 L2))) as [E1 G1]. rewrite <- V1 in E1, G1.
  destruct (ST (fval (nadd p1 p2)) (fval p3) _ (Rle_refl _) (FM _ (proj1 S1)) (FM _ (proj1 L3))) as [E2 G2]. rewrite <- V2 in E2, G2.
  destruct (ST (fval (nadd (nadd p1 p2) p3)) (fval d) _ (Rle_refl _) (FM _ (proj1 S2)) (FM _ D)) as [E3 _]. rewrite <- V3 in E3.
  set (r1 := fval (nadd p1 p2)) in *. set (r2 := fval (nadd (nadd p1 p2) p3)) in *. set (r3 := fval (nadd (nadd (nadd p1 p2) p3) d)) in *.
  assert (SS : Rabs t1 + Rabs t2 + Rabs t3 + Rabs (fval d) = S) by lra.
  assert (B1 : Rabs (fval p1) + Rabs (fval p2) <= 1002 / 1000 * S + 2 * eta) by lra.
  assert (B2 : Rabs r1 + Rabs (fval p3) <= 1005 / 1000 * S + 4 * eta) by lra.
  assert (B3 : Rabs r2 + Rabs (fval d) <= 1010 / 1000 * S + 5 * eta) by lra.
  assert (C1 : Rabs (r1 - (fval p1 + fval p2)) <= (1002 / 1000 * S + 2 * eta) * ur) by (apply Rle_trans with (1 := E1); apply Rmult_le_compat_r; lra).
  assert (C2 : Rabs (r2 - (r1 + fval p3)) <= (1005 / 1000 * S + 4 * eta) * ur) by (apply Rle_trans with (1 := E2); apply Rmult_le_compat_r; lra).
  assert (C3 : Rabs (r3 - (r2 + fval d)) <= (1010 / 1000 * S + 5 * eta) * ur) by (apply Rle_trans with (1 := E3); apply Rmult_le_compat_r; lra).
  assert (TOT : Rabs (r3 - (t1 + t2 + t3 + fval d)) <= (1002 / 1000 * S + 2 * eta) * ur + (1005 / 1000 * S + 4 * eta) * ur + (1010 / 1000 * S + 5 * eta) * ur + (S * ur + 3 * eta)).
  { assert (Q : Rabs t1 * ur + Rabs t2 * ur + Rabs t3 * ur <= S * ur) by (rewrite <- !Rmult_plus_distr_r; apply Rmult_le_compat_r; lra).
    apply Rabs_le_inv in C1, C2, C3, Q1, Q2, Q3. apply Rabs_le. lra. }
  apply Rle_trans with (1 := TOT). assert (S0 : 0 <= S) by lra. assert (0 <= S * ur) by (apply Rmult_le_pos; lra). assert (eta * ur <= eta / 100) by nra. nra.
Qed.
