(** Symmetry of distances, and distances against true distances. *)
From Verif Require Import Base Num NumLemmas BBoxModel GeomSpec FloatSpec FloatLemmas FloatBridge RootLemmas DistSpec DistLemmas DistLemmas2.
From Coq Require Import Floats.SpecFloat Reals Lra Psatz.
From Flocq Require Import Core.

Section Sym.
Local Open Scope Z_scope.
Lemma round_aux_opp m e l : SpecFloat.binary_round_aux f64_prec f64_emax true m e l = SFopp (SpecFloat.binary_round_aux f64_prec f64_emax false m e l).
Proof.
  unfold SpecFloat.binary_round_aux. destruct (shr_fexp _ _ _ _ _) as [r1 e1]. destruct (shr_fexp _ _ _ _ _) as [r2 e2].
  destruct (shr_m r2); try reflexivity. destruct (_ <=? _); reflexivity.
Qed.
Lemma normalize_opp z e : SpecFloat.binary_normalize f64_prec f64_emax (- z) e false = SpecFloat.binary_normalize f64_prec f64_emax z e false \/
  SpecFloat.binary_normalize f64_prec f64_emax (- z) e false = SFopp (SpecFloat.binary_normalize f64_prec f64_emax z e false).
Proof.
  destruct z as [|p|p]; [left; reflexivity|right..]; cbn [Z.opp SpecFloat.binary_normalize]; unfold SpecFloat.binary_round;
    destruct (shl_align _ _ _) as [m' e'].
  - apply round_aux_opp.
  - rewrite round_aux_opp. destruct (SpecFloat.binary_round_aux _ _ _ _ _ _); cbn; rewrite ?Bool.negb_involutive; reflexivity.
Qed.
Lemma nsq_opp (x : T F64) : nsq (SFopp x : T F64) = nsq x.
Proof. destruct x as [[]|[]| |[] m e]; reflexivity. Qed.
Lemma nsq_sub_comm (x y : T F64) : nsq (nsub x y) = nsq (nsub y x).
Proof.
  destruct x as [sx|sx| |sx mx ex], y as [sy|sy| |sy my ey]; try reflexivity;
    try (destruct sx, sy; reflexivity); try (destruct sx; reflexivity); try (destruct sy; reflexivity).
  cbn [nsub F64 SFsub]. rewrite (Z.min_comm ey ex).
  set (a := cond_Zopp sx _). set (b := cond_Zopp sy _).
  destruct (normalize_opp (b - a) (Z.min ex ey)) as [E|E]; replace (- (b - a)) with (a - b) in E by ring; rewrite E; [reflexivity|apply nsq_opp].
Qed.
Lemma nsq_sub_self (x : T F64) : f_finite x -> nsq (nsub x x) = S754_zero false.
Proof.
  destruct x as [s|s| |s m e]; cbn [f_finite]; try tauto; intros _; [destruct s; reflexivity|].
  cbn [nsub F64 SFsub]. rewrite Z.sub_diag. reflexivity.
Qed.
End Sym.

Local Open Scope R_scope.
Lemma bp_powerRZ e : powerRZ 2 e = bp e.
Proof. rewrite bpow_powerRZ. reflexivity. Qed.
Lemma four_ur : 4 * ur = powerRZ 2 (-51).
Proof. rewrite bp_powerRZ. unfold ur. replace (-51)%Z with (-52 + 1)%Z by reflexivity. rewrite bp_double. field. Qed.
Lemma close_key x D : nn x -> key x < top -> Rabs (key x - D) <= D * (4 * ur) -> close_to x D.
Proof.
  intros [DX [[F P]| ->]] T H; [|cbn in T; lra]. split; [apply finite_f, F|]. rewrite <- four_ur, <- (key_fin x F). exact H.
Qed.
Lemma dist_acc s x1 y1 x2 y2 x3 y3 D : nn s -> key s = rk (rk (sqk x1 y1 + sqk x2 y2) + sqk x3 y3) ->
  is_double x1 -> is_double y1 -> is_double x2 -> is_double y2 -> is_double x3 -> is_double y3 ->
  D = sqrt ((fval x1 - fval y1)^2 + (fval x2 - fval y2)^2 + (fval x3 - fval y3)^2) -> moderate D -> close_to (nsqrt s) D.
Proof.
  intros N E A1 B1 A2 B2 A3 B3 ED M. destruct (sqrt_key s N) as [N' E'].
  pose proof (pow2_ge_0 (fval x1 - fval y1)) as G1. pose proof (pow2_ge_0 (fval x2 - fval y2)) as G2. pose proof (pow2_ge_0 (fval x3 - fval y3)) as G3.
  destruct M as [M|M].
  - assert (Z : (fval x1 - fval y1)^2 + (fval x2 - fval y2)^2 + (fval x3 - fval y3)^2 = 0) by (apply sqrt_eq_0; lra).
    assert (Q : forall x y, (fval x - fval y)^2 = 0 -> sqk x y = 0).
    { intros x y H. unfold sqk. replace (fval x - fval y) with 0 by (symmetry; apply Rsqr_0_uniq; unfold Rsqr; lra).
      assert (R0 : rk 0 = 0) by (apply rk_fix; [apply generic_format_0|apply Rlt_le, top_pos]).
      rewrite Rabs_R0, R0, Rmult_0_l. exact R0. }
    rewrite !Q in E by lra. rewrite !Rplus_0_r in E.
    assert (R0 : rk 0 = 0) by (apply rk_fix; [apply generic_format_0|apply Rlt_le, top_pos]). rewrite !R0 in E.
    rewrite E, Rlt_bool_true, sqrt_0, rnd_0 in E' by apply top_pos. apply close_key; [exact N'|rewrite E'; apply top_pos|].
    rewrite E', M, Rmult_0_l, Rminus_0_r, Rabs_R0. lra.
  - rewrite !bp_powerRZ in M.
    destruct (sum_acc x1 y1 x2 y2 x3 y3 D A1 B1 A2 B2 A3 B3 M) as [T K].
    { rewrite ED, sqrt_sqrt by lra. reflexivity. }
    rewrite <- E in *. rewrite Rlt_bool_true in E' by exact T. pose proof (root_acc _ D (proj1 M) K) as R.
    apply close_key; [exact N'| |rewrite E'; exact R].
    destruct (proj2 N') as [[F P]|I]; [apply key_fin_lt; assumption|].
    exfalso. rewrite I in E'. cbn [key] in E'. rewrite <- E' in R. apply Rabs_le_inv in R. pose proof ur_small.
    pose proof (bp_pos (-480)). assert (top <= 2 * D) by nra.
    assert (2 * D <= bp 512) by (replace 512%Z with (511 + 1)%Z by reflexivity; rewrite bp_double; lra).
    assert (bp 512 < top) by (apply bpow_lt; lia). lra.
Qed.
Lemma accurate3 p q : finite3 p -> finite3 q -> moderate (true_dist3 p q) -> close_to (dist_3d p q) (true_dist3 p q).
Proof.
  intros P Q M. destruct (sqr_key3 p q P Q) as [N E]. apply fin3 in P, Q.
  destruct P as ((? & _) & (? & _) & (? & _)), Q as ((? & _) & (? & _) & (? & _)).
  apply (dist_acc _ _ _ _ _ _ _ _ N E); auto.
Qed.
Lemma accurate2 p q : finite2 p -> finite2 q -> moderate (true_dist2 p q) -> close_to (dist_2d p q) (true_dist2 p q).
Proof.
  intros P Q M. destruct (sqr_key2 p q P Q) as [N E]. apply fin2 in P, Q.
  destruct P as ((? & _) & (? & _)), Q as ((? & _) & (? & _)).
  assert (DZ : is_double (S754_zero false : T F64)) by reflexivity.
  assert (R0 : rk 0 = 0) by (apply rk_fix; [apply generic_format_0|apply Rlt_le, top_pos]).
  apply (dist_acc _ (x2 p) (x2 q) (y2 p) (y2 q) (S754_zero false) (S754_zero false) _ N); auto.
  - rewrite E. unfold sqk at 5. cbn [fval]. rewrite Rminus_0_r, Rabs_R0, R0, Rmult_0_l, R0, Rplus_0_r.
    symmetry. apply rk_fix; [apply rk_fmt|apply rk_le_top].
  - unfold true_dist2, sqd2, real2. cbn [x2 y2 fval]. f_equal. ring.
Qed.
