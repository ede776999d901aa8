(** Arithmetic on a grid is exact. *)
From Verif Require Import Base BaseLemmas Num NumLemmas GeomSpec FloatSpec FloatBridge RootLemmas DistSpec DistLemmas DistLemmas2 DistLemmas3 BoxDistLemmas MeanSpec MeanLemmas GridSpec.
From Coq Require Import Floats.SpecFloat Reals Lra Lia Psatz.
From Flocq Require Import Core.
Local Open Scope R_scope.

Definition gr (e : Z) (x : T F64) (z : Z) : Prop := fd x /\ fval x = IZR z * bp e.
Lemma grid_gr e k x : on_grid e k x -> exists z, (Z.abs z <= 2 ^ k)%Z /\ gr e x z.
Proof. intros (D & F & z & B & V). exists z. split; [exact B|]. split; [split; [exact D|apply finite_f, F]|]. rewrite V, bp_powerRZ. reflexivity. Qed.
Lemma gr_grid e k x z : gr e x z -> (Z.abs z <= 2 ^ k)%Z -> on_grid e k x.
Proof. intros [[D F] V] B. split; [exact D|]. split; [apply finite_f, F|]. exists z. rewrite bp_powerRZ. auto. Qed.
Lemma grid_fd e k x : on_grid e k x -> fd x. Proof. intros (D & F & _). split; [exact D|apply finite_f, F]. Qed.
Lemma rnd_grid (z e : Z) : (Z.abs z <= 2 ^ 53)%Z -> (-1074 <= e)%Z -> rnd (IZR z * bp e) = IZR z * bp e.
Proof.
  intros H E. apply rnd_id. destruct (Z.eq_dec (Z.abs z) (2 ^ 53)) as [Q|Q].
  - assert (F : fmt (IZR (2 ^ 53) * bp e)). { change (IZR (2 ^ 53)) with (bpow radix2 53). rewrite <- bpow_plus. apply fmt_bpow. lia. }
    destruct (Z.abs_spec z) as [[_ Y]|[_ Y]]; rewrite Y in Q; [rewrite Q; exact F|].
    assert (Z2 : z = (- 2 ^ 53)%Z) by lia. rewrite Z2, opp_IZR, Ropp_mult_distr_l_reverse. apply generic_format_opp, F.
  - apply generic_format_FLT. exists (Float radix2 z e); [reflexivity|cbn; lia|cbn; lia].
Qed.
Lemma grid_bound (z e : Z) : (Z.abs z <= 2 ^ 53)%Z -> (e <= 960)%Z -> Rabs (IZR z * bp e) <= bp 1013.
Proof.
  intros H E. rewrite Rabs_mult, <- abs_IZR, (Rabs_pos_eq (bp e)) by apply Rlt_le, bp_pos.
  apply Rle_trans with (bp 53 * bp e); [apply Rmult_le_compat_r; [apply Rlt_le, bp_pos|]; change (bp 53) with (IZR (2 ^ 53)); apply IZR_le, H|].
  rewrite <- bpow_plus. apply bpow_le. lia.
Qed.
Lemma rounds_grid z e r x : rounds r x -> is_double x -> r = IZR z * bp e -> (Z.abs z <= 2 ^ 53)%Z -> (-1074 <= e <= 960)%Z -> gr e x z.
Proof.
  intros RD D -> B E. destruct (rounds_small _ _ 1013 RD (grid_bound z e B ltac:(lia)) ltac:(lia)) as [F V]. rewrite rnd_grid in V by lia. split; [split; assumption|exact V].
Qed.
Lemma gr_add e x y a b : gr e x a -> gr e y b -> (Z.abs (a + b) <= 2 ^ 53)%Z -> (-1074 <= e <= 960)%Z -> gr e (nadd x y) (a + b).
Proof. intros [[DX FX] VX] [[DY FY] VY] B E. eapply rounds_grid; [apply add_val; assumption|apply double_add; assumption| |exact B|exact E]. rewrite VX, VY, plus_IZR. ring. Qed.
Lemma gr_sub e x y a b : gr e x a -> gr e y b -> (Z.abs (a - b) <= 2 ^ 53)%Z -> (-1074 <= e <= 960)%Z -> gr e (nsub x y) (a - b).
Proof. intros [[DX FX] VX] [[DY FY] VY] B E. eapply rounds_grid; [apply sub_val; assumption|apply double_sub; assumption| |exact B|exact E]. rewrite VX, VY, minus_IZR. ring. Qed.
Lemma gr_mul e f x y a b : gr e x a -> gr f y b -> (Z.abs (a * b) <= 2 ^ 53)%Z -> (-1074 <= e + f <= 960)%Z -> gr (e + f) (nmul x y) (a * b).
Proof. intros [[DX FX] VX] [[DY FY] VY] B E. eapply rounds_grid; [apply mul_val; assumption|apply double_mul; assumption| |exact B|exact E]. rewrite VX, VY, mult_IZR, bpow_plus. ring. Qed.
Lemma gr_neg e x a : gr e x a -> gr e (nneg x) (- a).
Proof. intros [[DX FX] VX]. split; [split; [apply double_neg, DX|apply finite_neg, FX]|]. rewrite fval_neg, VX, opp_IZR. ring. Qed.
Lemma gr_0 e : gr e n0 0. Proof. split; [split; [reflexivity|exact I]|]. change (fval (n0 : T F64)) with 0. ring. Qed.
Lemma gr_val_add e x y a b : gr e x a -> gr e y b -> (Z.abs (a + b) <= 2 ^ 53)%Z -> (-1074 <= e <= 960)%Z -> fval (nadd x y) = fval x + fval y.
Proof. intros X Y B E. destruct (gr_add e x y a b X Y B E) as [_ ->]. destruct X as [_ ->], Y as [_ ->]. rewrite plus_IZR. ring. Qed.
Lemma ncmp_same x y : fd x -> fd y -> ncmp x y = @ncmp RN (fval x) (fval y).
Proof.
  intros [DX FX] [DY FY]. rewrite ncmp_val by assumption. cbn [ncmp RN]. unfold Rcmp. destruct (Rcompare_spec (fval x) (fval y)); destruct (total_order_T (fval x) (fval y)) as [[|]|]; try reflexivity; lra.
Qed.
Lemma nleb_same x y : fd x -> fd y -> nleb x y = @nleb RN (fval x) (fval y). Proof. intros X Y. unfold nleb. rewrite ncmp_same by assumption. reflexivity. Qed.
Lemma nltb_same x y : fd x -> fd y -> nltb x y = @nltb RN (fval x) (fval y). Proof. intros X Y. unfold nltb. rewrite ncmp_same by assumption. reflexivity. Qed.
Lemma ngtb_same x y : fd x -> fd y -> ngtb x y = @ngtb RN (fval x) (fval y). Proof. intros X Y. unfold ngtb. rewrite ncmp_same by assumption. reflexivity. Qed.
Lemma ngeb_same x y : fd x -> fd y -> ngeb x y = @ngeb RN (fval x) (fval y). Proof. intros X Y. unfold ngeb. rewrite ncmp_same by assumption. reflexivity. Qed.
Lemma neqb_same x y : fd x -> fd y -> neqb x y = @neqb RN (fval x) (fval y). Proof. intros X Y. unfold neqb. rewrite ncmp_same by assumption. reflexivity. Qed.
Lemma fval_0 : fval (n0 : T F64) = (n0 : T RN). Proof. rewrite R_n0. reflexivity. Qed.
Lemma gr_fd e x z : gr e x z -> fd x. Proof. intros [H _]. exact H. Qed.
Lemma gr_val e x z : gr e x z -> fval x = IZR z * bp e. Proof. intros [_ H]. exact H. Qed.
