From Verif Require Import Base BaseLemmas Num NumLemmas GeomSpec VecSpec VecModel MatrixModel MatrixSpec CloudModel CloudSpec CloudLemmas InterpModel InterpSpec.
From Coq Require Import Reals Lra Lia ZifyBool ZifyNat ZifyN Arith.Factorial.

(** ** Factorials *)
Local Open Scope N_scope.
Lemma umul_small dbg a b : a * b < 2 ^ 64 -> umul dbg a b = Ok (a * b).
Proof. intros H. unfold umul. destruct (N.ltb_spec (a * b) (2 ^ 64)); [reflexivity|lia]. Qed.
Lemma factorial_app dbg a : forall b i r, factorial_from dbg (a + b) i r = obind (factorial_from dbg a i r) (factorial_from dbg b (i + N.of_nat a)).
Proof.
  induction a as [|a IH]; intros b i r; [cbn; rewrite N.add_0_r; reflexivity|]. cbn [factorial_from Nat.add].
  destruct (umul dbg r i); cbn [obind]; try reflexivity. rewrite IH. replace (i + 1 + N.of_nat a) with (i + N.of_nat (S a)) by lia. reflexivity.
Qed.
Fixpoint factN (k : nat) : N := match k with O => 1 | S k => factN k * N.of_nat (S k) end.
Lemma factN_fact k : factN k = N.of_nat (fact k).
Proof. induction k as [|k IH]; [reflexivity|]. cbn [factN]. rewrite IH. change (fact (S k)) with (S k * fact k)%nat. rewrite Nat2N.inj_mul. lia. Qed.
Lemma factN_pos k : 0 < factN k.
Proof. induction k; cbn [factN]; lia. Qed.
Lemma factN_mono a b : (a <= b)%nat -> factN a <= factN b.
Proof. intros H. induction H as [|b H IH]; [lia|]. cbn [factN]. nia. Qed.
Lemma factN_lt k : (k <= 20)%nat -> factN k < 2 ^ 64.
Proof. intros H. eapply N.le_lt_trans; [apply (factN_mono k 20 H)|]. reflexivity. Qed.
Lemma factorial_small dbg k : (k <= 20)%nat -> factorial_from dbg k 1 1 = Ok (factN k).
Proof.
  induction k as [|k IH]; intros H; [reflexivity|]. rewrite <- Nat.add_1_r at 1. rewrite factorial_app, IH by lia. cbn [obind factorial_from].
  rewrite umul_small; [cbn [obind factN]; f_equal; lia|]. pose proof (factN_lt (S k) H). cbn [factN] in *. replace (1 + N.of_nat k) with (N.of_nat (S k)) by lia. exact H0.
Qed.
Fixpoint binom (n k : nat) : nat :=
  match n, k with
  | _, O => 1
  | O, S _ => 0
  | S n, S k => binom n k + binom n (S k)
  end%nat.
Lemma binom_big n : forall k, (n < k)%nat -> binom n k = 0%nat.
Proof. induction n as [|n IH]; intros [|k] H; try lia; cbn [binom]; [reflexivity|]. rewrite !IH by lia. reflexivity. Qed.
Lemma binom_fact n : forall k, (k <= n)%nat -> N.of_nat (binom n k) * (factN k * factN (n - k)) = factN n.
Proof.
  induction n as [|n IH]; intros [|k] H; try lia; cbn [binom].
  - reflexivity.
  - rewrite Nat.sub_0_r. cbn [factN]. lia.
  - destruct (Nat.eq_dec k n) as [->|D].
    + rewrite (binom_big n (S n)) by lia. specialize (IH n (le_n n)). rewrite Nat.sub_diag in *. cbn [factN] in *. nia.
    + pose proof (IH k ltac:(lia)) as I1. pose proof (IH (S k) ltac:(lia)) as I2.
      replace (n - k)%nat with (S (n - S k)) in I1 by lia. replace (S n - S k)%nat with (S (n - S k)) by lia. cbn [factN] in *.
      rewrite Nat2N.inj_add.
      set (A := N.of_nat (binom n k)) in *. set (B := N.of_nat (binom n (S k))) in *. set (F := factN k) in *. set (G := factN (n - S k)) in *.
      replace (N.of_nat (S n)) with (N.of_nat (S k) + N.of_nat (S (n - S k))) by lia.
      set (x := N.of_nat (S k)) in *. set (y := N.of_nat (S (n - S k))) in *.
      rewrite N.mul_add_distr_r. replace (A * (F * x * (G * y))) with (A * (F * (G * y)) * x) by ring.
      replace (B * (F * x * (G * y))) with (B * (F * x * G) * y) by ring. rewrite I1, I2. ring.
Qed.
Lemma binominal_small dbg n k : (k <= n)%nat -> (n <= 20)%nat -> binominal_coefficient dbg (N.of_nat n) (N.of_nat k) = Ok (N.of_nat (binom n k)).
Proof.
  intros K H. unfold binominal_coefficient, factorial. replace (N.to_nat (N.of_nat n - N.of_nat k)) with (n - k)%nat by lia.
  rewrite !Nat2N.id, !factorial_small by lia. cbn [obind]. pose proof (binom_fact n k K) as B.
  assert (P : 0 < factN k * factN (n - k)) by (pose proof (factN_pos k); pose proof (factN_pos (n - k)); nia).
  pose proof (factN_pos n). pose proof (factN_lt n H) as L.
  assert (P2 : 0 < N.of_nat (binom n k)) by nia.
  rewrite umul_small by nia. cbn [obind]. destruct (N.eqb_spec (factN k * factN (n - k)) 0); [lia|]. f_equal.
  rewrite <- B. apply N.div_mul. lia.
Qed.
(** 21! does not fit, and 66! is a multiple of 2^64. *)
Lemma factorial_debug n : 21 <= n -> factorial true n = Panic.
Proof.
  intros H. unfold factorial. replace (N.to_nat n) with (21 + (N.to_nat n - 21))%nat by lia. rewrite factorial_app. reflexivity.
Qed.
Lemma factorial_stays k : forall i, factorial_from false k i 0 = Ok 0.
Proof. induction k as [|k IH]; intros i; [reflexivity|]. cbn [factorial_from]. rewrite umul_small by lia. cbn [obind]. rewrite N.mul_0_l. apply IH. Qed.
Lemma factorial_release n : 66 <= n -> factorial false n = Ok 0.
Proof.
  intros H. unfold factorial. replace (N.to_nat n) with (66 + (N.to_nat n - 66))%nat by lia. rewrite factorial_app.
  change (factorial_from false 66 1 1) with (@Ok ErrorKind N 0). cbn [obind]. apply factorial_stays.
Qed.

(** ** The loop *)
Lemma push_all {A} (body : N -> res (option A)) (f : N -> A) k : forall i, (forall j, i <= j < i + N.of_nat k -> body j = Ok (Some (f j))) ->
  push_loop k i body = Ok (map (fun j => f (i + N.of_nat j)) (seq 0 k)).
Proof.
  induction k as [|k IH]; intros i H; [reflexivity|]. cbn [push_loop]. rewrite H by lia. cbn [obind].
  rewrite IH by (intros j J; apply H; lia). cbn [obind seq map]. rewrite <- seq_shift, map_map. f_equal. f_equal.
  - f_equal. lia.
  - apply map_ext. intros j. f_equal. lia.
Qed.
Lemma push_len {A} (body : N -> res (option A)) k : forall i l, push_loop k i body = Ok l -> (length l <= k)%nat.
Proof.
  induction k as [|k IH]; intros i l; cbn [push_loop]; [intros [= <-]; reflexivity|].
  destruct (body i) as [o| |]; cbn [obind]; try discriminate. destruct (push_loop k (i + 1) body) as [r| |] eqn:E; cbn [obind]; try discriminate.
  apply IH in E. intros [= <-]. destruct o; cbn [length]; lia.
Qed.

(** ** Bezier *)
Local Open Scope R_scope.
Section Bern.
  Context (t : R).
  Definition bern (n i : nat) : R := INR (binom n i) * pow t i * pow (1 - t) (n - i).
  Lemma bern_0 n : bern (S n) 0 = (1 - t) * bern n 0.
  Proof. unfold bern. replace (S n - 0)%nat with (S n) by lia. rewrite Nat.sub_0_r. destruct n; cbn [binom pow INR]; ring. Qed.
  Lemma bern_S n i : bern (S n) (S i) = (1 - t) * bern n (S i) + t * bern n i.
  Proof.
    unfold bern. cbn [binom]. rewrite plus_INR. replace (S n - S i)%nat with (n - i)%nat by lia. cbn [pow].
    destruct (le_lt_dec (S i) n) as [H|H].
    - replace (n - i)%nat with (S (n - S i)) by lia. cbn [pow]. ring.
    - rewrite (binom_big n (S i)) by lia. cbn [INR]. ring.
  Qed.
  Fixpoint bsum (n i : nat) (l : list R) : R := match l with [] => 0 | a :: r => bern n i * a + bsum n (S i) r end.
  Definition mixr (a b : R) : R := (1 - t) * a + t * b.
  Lemma bsum_step n l : forall a i, (i + length l = S n)%nat ->
    bsum (S n) (S i) l + (1 - t) * bern n i * a = bsum n i (neighbours mixr (a :: l)).
  Proof.
    induction l as [|c l IH]; intros a i H.
    - cbn [bsum neighbours length] in *. replace i with (S n) by lia. unfold bern. rewrite (binom_big n (S n)) by lia. cbn [INR]. ring.
    - change (neighbours mixr (a :: c :: l)) with (mixr a c :: neighbours mixr (c :: l)). cbn [bsum].
      rewrite <- (IH c (S i)) by (cbn [length] in *; lia). rewrite bern_S. unfold mixr. ring.
  Qed.
  Lemma bsum_next n a l : length l = S n -> bsum (S n) 0 (a :: l) = bsum n 0 (neighbours mixr (a :: l)).
  Proof. intros H. cbn [bsum]. rewrite <- (bsum_step n l a 0) by (cbn; lia). rewrite bern_0. ring. Qed.
  Lemma neighbours_len {P} (f : P -> P -> P) l : length (neighbours f l) = (length l - 1)%nat.
  Proof. induction l as [|a [|b l] IH]; [reflexivity|reflexivity|]. change (neighbours f (a :: b :: l)) with (f a b :: neighbours f (b :: l)). cbn [length] in *. rewrite IH. lia. Qed.
  Lemma neighbours_map {P Q} (g : P -> Q) (f : P -> P -> P) (f' : Q -> Q -> Q) l : (forall a b, g (f a b) = f' (g a) (g b)) ->
    map g (neighbours f l) = neighbours f' (map g l).
  Proof.
    intros H. induction l as [|a [|b l] IH]; [reflexivity|reflexivity|].
    change (neighbours f (a :: b :: l)) with (f a b :: neighbours f (b :: l)). change (map g (a :: b :: l)) with (g a :: g b :: map g l).
    change (neighbours f' (g a :: g b :: map g l)) with (f' (g a) (g b) :: neighbours f' (g b :: map g l)). cbn [map]. rewrite H. f_equal. exact IH.
  Qed.
  Lemma bsum_casteljau n : forall ps, length ps = S n ->
    casteljau n t ps = [@mk2 RN (bsum n 0 (map (fun p : pt2 RN => x2 p : R) ps)) (bsum n 0 (map (fun p : pt2 RN => y2 p : R) ps))].
  Proof.
    induction n as [|n IH]; intros ps H.
    - destruct ps as [|p [|q r]]; try discriminate. cbn [casteljau map bsum]. destruct p as [x y]. cbn [x2 y2].
      assert (A : forall v : R, bern 0 0 * v + 0 = v) by (intros v; unfold bern; cbn; ring). rewrite !A. reflexivity.
    - cbn [casteljau]. rewrite IH by (rewrite neighbours_len, H; lia).
      destruct ps as [|p ps]; [discriminate|]. injection H as H.
      rewrite !(neighbours_map _ _ mixr) by (intros a b; reflexivity). cbn [map].
      rewrite !bsum_next by (rewrite map_length; exact H). reflexivity.
  Qed.
  Lemma control_R dbg n (N : (n <= 20)%nat) ps : forall i x y, (i + length ps = S n)%nat ->
    control_loop (NM:=RN) real_powi dbg (N.of_nat n) t (N.of_nat i) ps x y =
      Ok (@mk2 RN (x + bsum n i (map (fun p : pt2 RN => x2 p : R) ps)) (y + bsum n i (map (fun p : pt2 RN => y2 p : R) ps))).
  Proof.
    induction ps as [|p ps IH]; intros i x y H; cbn [control_loop].
    - cbn [map bsum]. rewrite !Rplus_0_r. reflexivity.
    - cbn [length] in H. unfold bernstein_polynomial. rewrite binominal_small by lia. cbn [obind].
      replace (N.of_nat i + 1)%N with (N.of_nat (S i)) by lia. rewrite IH by lia. cbn [map bsum]. unfold bern, real_powi, of_usize.
      replace (N.to_nat (N.of_nat n - N.of_nat i)) with (n - i)%nat by lia. rewrite Nat2N.id. cbn [nadd nmul nsub lit RN T]. unfold n1. cbn [lit RN].
      replace (1 * powerRZ 2 0) with 1 by (cbn; ring). rewrite nat_N_Z, <- INR_IZR_INZ. change (powerRZ 2 0) with 1.
      f_equal. f_equal; (rewrite ?Rplus_assoc, ?Rmult_1_r; reflexivity).
  Qed.
End Bern.
Lemma bezier_R dbg (base : list (pt2 RN)) n : (2 <= length base <= 21)%nat ->
  exists l, interpolate_bezier (NM:=RN) real_powi dbg base n = Ok l /\ length l = N.to_nat n /\
    forall k q, nth_error l k = Some q -> on_bezier base (INR k / INR (N.to_nat n)) q.
Proof.
  intros L. unfold interpolate_bezier. destruct (N.ltb_spec (lenN base) 2); [unfold lenN in *; lia|].
  set (f := fun i : N => let t := (INR (N.to_nat i) / INR (N.to_nat n))%R in
    @mk2 RN (bsum t (length base - 1) 0 (map (fun p : pt2 RN => x2 p : R) base)) (bsum t (length base - 1) 0 (map (fun p : pt2 RN => y2 p : R) base))).
  rewrite (push_all _ f).
  - eexists. split; [reflexivity|]. split; [rewrite map_length, seq_length; reflexivity|].
    intros k q E. rewrite nth_error_map in E. destruct (nth_error (seq 0 (N.to_nat n)) k) as [j|] eqn:J; [|discriminate].
    assert (K : (k < N.to_nat n)%nat) by (rewrite <- (seq_length (N.to_nat n) 0); apply nth_error_Some; congruence).
    rewrite (nth_error_nth' _ 0%nat) in J by (rewrite seq_length; exact K). rewrite seq_nth in J by exact K. cbn in J. injection J as <-.
    cbn [option_map] in E. injection E as <-. unfold on_bezier. rewrite (bsum_casteljau _ (length base - 1)) by lia. unfold f.
    rewrite ?N.add_0_l, Nat2N.id. reflexivity.
  - intros j J. unfold control_polygon. unfold lenN. replace (N.of_nat (length base) - 1)%N with (N.of_nat (length base - 1)) by lia.
    change 0%N with (N.of_nat 0). rewrite control_R by lia. cbn [obind]. f_equal. f_equal. unfold f.
    assert (Ej : (of_usize (NM:=RN) j * (n1 (NM:=RN) / of_usize (NM:=RN) n))%num = (INR (N.to_nat j) / INR (N.to_nat n))%R).
    { unfold of_usize, n1. cbn [lit nmul ndiv RN]. change (powerRZ 2 0) with 1. rewrite !Rmult_1_r. unfold Rdiv. rewrite Rmult_1_l.
      rewrite !INR_IZR_INZ. rewrite !N_nat_Z. reflexivity. }
    cbn [T RN] in *. rewrite Ej. unfold n0. cbn [lit RN]. rewrite Rmult_0_l, !Rplus_0_l. reflexivity.
Qed.

(** ** Walking along a path *)
Lemma seg_R (a b : pt2 RN) : nsqrt (nsq (x2 b - x2 a) + nsq (y2 b - y2 a))%num = rdist2 a b.
Proof. unfold rdist2, sqd2, nsq. cbn [nsqrt nadd nsub nmul RN]. f_equal. match goal with |- @eq _ ?a ?b => change (@eq R a b) end. ring. Qed.
Lemma rdist2_nn (a b : pt2 RN) : 0 <= rdist2 a b.
Proof. apply sqrt_pos. Qed.
Lemma path_nn (ps : list (pt2 RN)) : 0 <= path rdist2 ps.
Proof.
  induction ps as [|a [|b r] IH]; [apply Rle_refl|apply Rle_refl|].
  change (path rdist2 (a :: b :: r)) with (rdist2 a b + path rdist2 (b :: r)). pose proof (rdist2_nn a b). lra.
Qed.
Lemma walk_R (w k : R) ps : forall prev (tv : R), ps <> [] ->
  (tv < w * k \/ match ps with now :: _ => 0 < rdist2 prev now | [] => True end) ->
  tv <= w * k <= tv + path rdist2 (prev :: ps) ->
  exists a b s, walk (NM:=RN) w k prev ps tv = Some (a, b, s) /\ forall point, along point (prev :: ps) (w * k - tv) (point a b s).
Proof.
  induction ps as [|now r IH]; intros prev tv NE C [L U]; [contradiction|]. cbn [walk]. rewrite seg_R.
  change (path rdist2 (prev :: now :: r)) with (rdist2 prev now + path rdist2 (now :: r)) in U.
  pose proof (rdist2_nn prev now) as D. cbn [nadd nmul nsub ndiv RN].
  match goal with |- context [ngeb ?a ?b] => destruct (R_geb_spec a b) as [G|G] end; cbn [T RN] in *.
  - assert (P : 0 < rdist2 prev now) by (destruct C as [C|C]; [lra|exact C]).
    eexists _, _, _. split; [reflexivity|]. intros point.
    replace ((k * w - tv) / (tv + rdist2 prev now - tv)) with ((w * k - tv) / rdist2 prev now) by (f_equal; ring_simplify (tv + rdist2 prev now - tv); lra || ring).
    apply along_here; [exact P|]. lra.
  - apply Rnot_ge_lt in G. destruct r as [|n2 r].
    { cbn [path] in U. lra. }
    destruct (IH now (tv + rdist2 prev now)) as (a & b & s & E & A); [discriminate|left; exact G|split; lra|].
    exists a, b, s. split; [exact E|]. intros point. apply along_next; [lra|].
    replace (w * k - tv - rdist2 prev now) with (w * k - (tv + rdist2 prev now)) by ring. apply A.
Qed.
Lemma usize_R (n : N) : of_usize (NM:=RN) n = INR (N.to_nat n).
Proof. unfold of_usize. cbn [lit RN]. change (powerRZ 2 0) with 1. rewrite Rmult_1_r, INR_IZR_INZ, N_nat_Z. reflexivity. Qed.
Lemma along_R point dbg (a b : pt2 RN) r n : a <> b -> (2 <= n)%N ->
  exists l, interpolate_along (NM:=RN) point dbg (a :: b :: r) n = Ok l /\ length l = N.to_nat n /\
    forall k q, nth_error l k = Some q ->
      along point (a :: b :: r) (INR k * (path rdist2 (a :: b :: r) / (INR (N.to_nat n) - 1))) q.
Proof.
  intros NE H2. assert (P : 0 < rdist2 a b).
  { unfold rdist2. apply sqrt_lt_R0. unfold sqd2. destruct (Req_dec (x2 a) (x2 b)) as [E1|E1], (Req_dec (y2 a) (y2 b)) as [E2|E2].
    - exfalso. apply NE. destruct a, b. cbn in *. congruence.
    - assert (0 < (y2 a - y2 b) * (y2 a - y2 b)) by (apply Rsqr_pos_lt; intros X; apply E2; apply Rminus_diag_uniq; exact X).
      pose proof (Rle_0_sqr (x2 a - x2 b)). unfold Rsqr in *. lra.
    - assert (0 < (x2 a - x2 b) * (x2 a - x2 b)) by (apply Rsqr_pos_lt; intros X; apply E1; apply Rminus_diag_uniq; exact X).
      pose proof (Rle_0_sqr (y2 a - y2 b)). unfold Rsqr in *. lra.
    - assert (0 < (x2 a - x2 b) * (x2 a - x2 b)) by (apply Rsqr_pos_lt; intros X; apply E1; apply Rminus_diag_uniq; exact X).
      pose proof (Rle_0_sqr (y2 a - y2 b)). unfold Rsqr in *. lra. }
  unfold interpolate_along, upred. destruct (N.eqb_spec n 0) as [X0|X0]; [lia|]. cbn [obind tl]. rewrite pc2_length_R.
  set (L := path rdist2 (a :: b :: r)). set (m := INR (N.to_nat n) - 1).
  assert (Em : of_usize (NM:=RN) (n - 1) = m).
  { rewrite usize_R. unfold m. replace (N.to_nat (n - 1)) with (N.to_nat n - 1)%nat by lia. rewrite minus_INR by lia. reflexivity. }
  rewrite Em. cbn [ndiv RN].
  assert (Pm : 0 < m). { unfold m. assert (2 <= INR (N.to_nat n)) by (apply (le_INR 2); lia). lra. }
  assert (LP : 0 <= L) by apply path_nn.
  assert (W : forall j : nat, (j < N.to_nat n)%nat -> exists c d s, walk (NM:=RN) (L / m) (INR j) a (b :: r) 0 = Some (c, d, s) /\
     along point (a :: b :: r) (INR j * (L / m)) (point c d s)).
  { intros j J. destruct (walk_R (L / m) (INR j) (b :: r) a 0) as (c & d & s & E & A); [discriminate|right; exact P| |].
    - fold L. assert (J1 : INR j <= m) by (unfold m; assert (INR (S j) <= INR (N.to_nat n)) by (apply le_INR; lia); rewrite S_INR in *; lra).
      pose proof (pos_INR j). split.
      + apply Rmult_le_pos; [apply Rmult_le_pos; [exact LP|left; apply Rinv_0_lt_compat; exact Pm]|assumption].
      + rewrite Rplus_0_l. replace L with (L / m * m) at 2 by (field; lra). apply Rmult_le_compat_l; [|exact J1].
        apply Rmult_le_pos; [exact LP|left; apply Rinv_0_lt_compat; exact Pm].
    - exists c, d, s. split; [exact E|]. specialize (A point). rewrite Rminus_0_r, Rmult_comm in A. exact A. }
  set (f := fun i : N => match walk (NM:=RN) (L / m) (INR (N.to_nat i)) a (b :: r) 0 with Some (c, d, s) => point c d s | None => a end).
  rewrite (push_all _ f).
  - eexists. split; [reflexivity|]. split; [rewrite map_length, seq_length; reflexivity|].
    intros k q E. rewrite nth_error_map in E. destruct (nth_error (seq 0 (N.to_nat n)) k) as [j|] eqn:J; [|discriminate].
    assert (K : (k < N.to_nat n)%nat) by (rewrite <- (seq_length (N.to_nat n) 0); apply nth_error_Some; congruence).
    rewrite (nth_error_nth' _ 0%nat) in J by (rewrite seq_length; exact K). rewrite seq_nth in J by exact K. cbn in J. injection J as <-.
    cbn [option_map] in E. injection E as <-. unfold f. rewrite ?N.add_0_l, Nat2N.id.
    destruct (W k K) as (c & d & s & E & A). rewrite E. exact A.
  - intros j J. destruct (W (N.to_nat j)) as (c & d & s & E & A); [lia|]. unfold f. rewrite E.
    rewrite usize_R. unfold n0. cbn [lit RN]. rewrite Rmult_0_l. rewrite E. reflexivity.
Qed.
Lemma rdist2_0 (a b : pt2 RN) : rdist2 a b = 0 -> a = b.
Proof.
  intros H. unfold rdist2 in H. apply sqrt_eq_0 in H; unfold sqd2 in *;
    pose proof (Rle_0_sqr (x2 a - x2 b)) as X; pose proof (Rle_0_sqr (y2 a - y2 b)) as Y; unfold Rsqr in *; [|lra].
  assert (X0 : (x2 a - x2 b) * (x2 a - x2 b) = 0) by lra. assert (Y0 : (y2 a - y2 b) * (y2 a - y2 b) = 0) by lra.
  apply Rsqr_0_uniq in X0. apply Rsqr_0_uniq in Y0. apply Rminus_diag_uniq in X0. apply Rminus_diag_uniq in Y0.
  destruct a, b. cbn in *. congruence.
Qed.
Lemma path_0_last (r : list (pt2 RN)) : forall b z, path rdist2 (b :: r) = 0 -> last (b :: r) z = b.
Proof.
  induction r as [|c r IH]; intros b z H; [reflexivity|].
  change (path rdist2 (b :: c :: r)) with (rdist2 b c + path rdist2 (c :: r)) in H. pose proof (rdist2_nn b c). pose proof (path_nn (c :: r)).
  change (last (b :: c :: r) z) with (last (c :: r) z). rewrite IH by lra. symmetry. apply rdist2_0. lra.
Qed.
Lemma along_first point ps d q z : along point ps d q -> d = 0 -> (forall a b, point a b 0 = a) -> q = hd z ps.
Proof.
  intros H E P. destruct H as [a b r d H1 H2|a b r d q H1 H2].
  - subst d. unfold Rdiv. rewrite Rmult_0_l. rewrite P. reflexivity.
  - pose proof (rdist2_nn a b). lra.
Qed.
Lemma along_last point ps d q z : along point ps d q -> d = path rdist2 ps -> (forall a b, point a b 1 = b) -> q = last ps z.
Proof.
  intros H. induction H as [a b r d H1 H2|a b r d q H1 H2 IH]; intros E P;
    change (path rdist2 (a :: b :: r)) with (rdist2 a b + path rdist2 (b :: r)) in E; change (last (a :: b :: r) z) with (last (b :: r) z).
  - pose proof (path_nn (b :: r)). rewrite path_0_last by lra. replace (d / rdist2 a b) with 1; [apply P|]. rewrite E.
    replace (path rdist2 (b :: r)) with 0 by lra. field. lra.
  - apply IH; [lra|exact P].
Qed.
Lemma along_between point ps d q : along point ps d q -> exists a b s l r, ps = l ++ a :: b :: r /\ q = point a b s /\ 0 <= s <= 1.
Proof.
  intros H. induction H as [a b r d H1 H2|a b r d q H1 H2 (c & e & s & l & r' & E & Q & S)].
  - exists a, b, (d / rdist2 a b), [], r. split; [reflexivity|]. split; [reflexivity|]. split.
    + apply Rmult_le_pos; [apply H2|left; apply Rinv_0_lt_compat; exact H1].
    + apply (Rmult_le_reg_r (rdist2 a b)); [exact H1|]. unfold Rdiv. rewrite Rmult_assoc, Rinv_l by lra. lra.
  - exists c, e, s, (a :: l), r'. rewrite E. split; [reflexivity|]. split; assumption.
Qed.
Lemma cosine_eased a b (s : R) : cosine_point (NM:=RN) RT PI a b s = eased a b s.
Proof.
  unfold cosine_point, eased, n1, n2. cbn [nadd nsub nmul ndiv lit RN ncos RT T]. change (powerRZ 2 0) with 1. rewrite !Rmult_1_r.
  rewrite (Rmult_comm s PI). f_equal. match goal with |- @eq _ ?a ?b => change (@eq R a b) end. ring.
Qed.
Lemma along_ext p p' ps d q : (forall a b s, p a b s = p' a b s) -> along p ps d q -> along p' ps d q.
Proof. intros E H. induction H; [rewrite E; apply along_here; assumption|apply along_next; assumption]. Qed.
Lemma too_few {NM} point dbg (base : list (pt2 NM)) n : (length base < 2)%nat -> interpolate_along point dbg base n = Err TooFewPoints.
Proof. intros H. destruct base as [|a [|b r]]; [reflexivity|reflexivity|cbn in H; lia]. Qed.
