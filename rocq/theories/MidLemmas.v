(** Lemmas for midpoints in doubles. *)
From Verif Require Import Base BaseLemmas Num NumLemmas BBoxModel GeomSpec FloatSpec FloatBridge RootLemmas DistSpec DistLemmas DistLemmas2 DistLemmas3 MeanSpec MeanLemmas WrapLemmas NdProps BBoxLemmas.
From Coq Require Import Floats.SpecFloat Reals Lra Lia Psatz.
From Flocq Require Import Core.
Local Open Scope R_scope.

Lemma fmt_rnd x : fmt (rnd x). Proof. apply (@generic_format_round radix2 (FLT_exp (-1074) 53) valid_exp_f64 ZnearestE (valid_rnd_N _)). Qed.
Lemma cexp_half x : bp (-1021) <= Rabs x -> cexp radix2 (FLT_exp (-1074) 53) (x * / 2) = (cexp radix2 (FLT_exp (-1074) 53) x - 1)%Z.
Proof.
  intros H. assert (NZ : x <> 0) by (intros ->; rewrite Rabs_R0 in H; pose proof (bp_pos (-1021)); lra).
  assert (M : (-1020 <= mag radix2 x)%Z) by (apply (mag_ge_bpow radix2 x (-1020)); exact H).
  unfold cexp. change (/ 2) with (bpow radix2 (-1)). rewrite mag_mult_bpow by exact NZ. unfold FLT_exp. lia.
Qed.
Lemma rnd_half x : bp (-1021) <= Rabs x -> rnd (x * / 2) = rnd x * / 2.
Proof.
  intros H. pose proof (cexp_half x H) as C. unfold round, F2R, scaled_mantissa. cbn [Fnum Fexp]. rewrite C.
  set (e := cexp radix2 (FLT_exp (-1074) 53) x).
  replace (x * / 2 * bpow radix2 (- (e - 1))) with (x * bpow radix2 (- e)).
  - replace (e - 1)%Z with (e + -1)%Z by lia. rewrite bpow_plus, Rmult_assoc. reflexivity.
  - replace (- (e - 1))%Z with (- e + 1)%Z by lia. rewrite bpow_plus. change (bpow radix2 1) with 2. field.
Qed.
Lemma fmt_small a b : fmt a -> fmt b -> Rabs (a + b) < bp (-1021) -> fmt (a + b).
Proof.
  intros A B L. destruct (fmt_mult a A) as [x X], (fmt_mult b B) as [y Y].
  assert (E : a + b = IZR (x + y) * bp (-1074)) by (rewrite plus_IZR, X, Y; unfold bp; ring).
  rewrite E in *. apply generic_format_FLT. exists (Float radix2 (x + y) (-1074)); [reflexivity| |cbn; lia]. cbn [Fnum].
  rewrite Rabs_mult, (Rabs_pos_eq (bp (-1074))) in L by (pose proof (bp_pos (-1074)); lra).
  assert (R : bp (-1021) = IZR (2 ^ 53) * bp (-1074)).
  { transitivity (bpow radix2 53 * bpow radix2 (-1074)); [rewrite <- bpow_plus; reflexivity|]. reflexivity. }
  rewrite R in L. apply Rmult_lt_reg_r in L; [|apply bp_pos]. rewrite <- abs_IZR in L. apply lt_IZR in L. exact L.
Qed.
(** Halving the rounded sum is rounding the half of the sum. *)
Lemma rnd_mid a b : fmt a -> fmt b -> rnd (rnd (a + b) * / 2) = rnd ((a + b) * / 2).
Proof.
  intros A B. destruct (Rlt_le_dec (Rabs (a + b)) (bp (-1021))) as [L|L].
  - rewrite (rnd_id (a + b)); [reflexivity|apply fmt_small; assumption].
  - rewrite <- rnd_half by exact L. apply rnd_id. apply fmt_rnd.
Qed.
Lemma fval_half : fval (@nhalf F64) = / 2 /\ is_double (@nhalf F64) /\ f_finite (@nhalf F64).
Proof. split; [|split; [reflexivity|exact I]]. vm_compute (@nhalf F64). cbn [fval]. rewrite bp_powerRZ. change (bp (-53)) with (/ 9007199254740992). lra. Qed.

Definition half (a b : T F64) : T F64 := nmul nhalf (nadd a b).
Lemma half_comm a b : half a b = half b a.
Proof. unfold half. rewrite SFadd_comm_f. reflexivity. Qed.
Lemma half_val a b : is_double a -> is_double b -> f_finite a -> f_finite b -> f_finite (nadd a b) ->
  is_double (half a b) /\ f_finite (half a b) /\ fval (half a b) = rnd ((fval a + fval b) * / 2).
Proof.
  intros A B FA FB FS. destruct fval_half as (HV & HD & HF). assert (D : is_double (nadd a b)) by (apply double_add; assumption).
  assert (V : fval (nadd a b) = rnd (fval a + fval b)).
  { destruct (add_val a b A B FA FB) as [(_ & _ & V)|[(_ & E)|(_ & E)]]; [exact V|rewrite E in FS; contradiction..]. }
  split; [apply double_mul; assumption|]. pose proof (mul_val nhalf (nadd a b) HD D HF FS) as M. fold (half a b) in M. rewrite HV, V in M.
  rewrite Rmult_comm in M. pose proof (rnd_mid (fval a) (fval b) (fval_fmt a A) (fval_fmt b B)) as E.
  pose proof (fval_bound _ D) as T. rewrite V in T. apply Rabs_lt_inv in T.
  assert (LE : Rabs (rnd (rnd (fval a + fval b) * / 2)) < top).
  { set (s := rnd (fval a + fval b)) in *. assert (S : fmt s) by (apply fmt_rnd).
    apply Rle_lt_trans with (Rabs s); [|apply Rabs_lt; exact T]. destruct (Rle_dec 0 s) as [P|P].
    - rewrite (Rabs_pos_eq s) by exact P. rewrite Rabs_pos_eq by (rewrite <- rnd_0; apply rnd_le; lra). rewrite <- (rnd_id s S) at 2. apply rnd_le. lra.
    - rewrite (Rabs_left s) by lra. rewrite Rabs_left1 by (rewrite <- rnd_0; apply rnd_le; lra). apply Ropp_le_contravar. rewrite <- (rnd_id s S) at 1. apply rnd_le. lra. }
  unfold rounds in M. rewrite E in LE, M. destruct M as [(_ & F & V2)|[(C & _)|(C & _)]]; [split; [exact F|exact V2]|apply Rabs_lt_inv in LE; exfalso; lra..].
Qed.
Lemma half_nearest a b : is_double a -> is_double b -> f_finite a -> f_finite b -> f_finite (nadd a b) -> nearest (half a b) ((fval a + fval b) / 2).
Proof.
  intros A B FA FB FS. destruct (half_val a b A B FA FB FS) as (D & F & V). split; [exact D|]. split; [apply finite_f, F|].
  intros y DY FY. rewrite V. destruct (@round_N_pt radix2 (FLT_exp (-1074) 53) valid_exp_f64 (fun z => negb (Z.even z)) ((fval a + fval b) / 2)) as [_ N]. apply N, fval_fmt, DY.
Qed.
Lemma half_between a b : is_double a -> is_double b -> f_finite a -> f_finite b -> f_finite (nadd a b) -> fle a b -> fle a (half a b) /\ fle (half a b) b.
Proof.
  intros A B FA FB FS L. destruct (half_val a b A B FA FB FS) as (D & F & V). apply fle_val in L; try assumption.
  split; apply fle_val; try assumption; rewrite V; [rewrite <- (rnd_id (fval a)) at 1 by (apply fval_fmt; exact A)|rewrite <- (rnd_id (fval b)) at 2 by (apply fval_fmt; exact B)]; apply rnd_le; lra.
Qed.
Lemma half_inf a b : is_double a -> is_double b -> f_finite a -> f_finite b -> ~ f_finite (nadd a b) -> ~ f_finite (half a b).
Proof.
  intros A B FA FB FS. unfold half. destruct (add_val a b A B FA FB) as [(_ & F & _)|[(_ & E)|(_ & E)]]; [contradiction|rewrite E; cbn; tauto..].
Qed.
Lemma sum_finite a b : is_double a -> is_double b -> f_finite a -> f_finite b -> Rabs (fval a) <= bp 1022 -> Rabs (fval b) <= bp 1022 -> f_finite (nadd a b).
Proof.
  intros A B FA FB LA LB. refine (proj1 (rounds_small _ _ 1023 (add_val a b A B FA FB) _ _)); [|lia].
  apply Rle_trans with (1 := Rabs_triang _ _). pose proof (bp_double 1022) as Q. change (1022 + 1)%Z with 1023%Z in Q. lra.
Qed.

(** a + (b - a) / 2 with roundings. *)
Definition cr (a b : R) : R := rnd (a + rnd (rnd (b - a) * / 2)).
Lemma rnd_opp x : rnd (- x) = - rnd x.
Proof. apply round_NE_opp. Qed.
Lemma cr_opp a b : cr (- a) (- b) = - cr a b.
Proof.
  unfold cr. replace (- b - - a) with (- (b - a)) by ring. rewrite rnd_opp. replace (- rnd (b - a) * / 2) with (- (rnd (b - a) * / 2)) by ring.
  rewrite rnd_opp, <- Ropp_plus_distr. apply rnd_opp.
Qed.
Lemma ch_between a b : fmt a -> fmt b -> a <= b -> 0 <= rnd (rnd (b - a) * / 2) <= b - a.
Proof.
  intros A B [L|<-].
  - split.
    + rewrite <- rnd_0. apply rnd_le. assert (0 <= rnd (b - a)) by (rewrite <- rnd_0; apply rnd_le; lra). lra.
    + destruct (fmt_mult _ A) as [x Ea], (fmt_mult _ B) as [y Eb]. apply half_le.
      rewrite Ea, Eb in *. pose proof (bp_pos (-1074)). apply Rmult_lt_reg_r in L; auto. apply lt_IZR in L. assert (Q : (1 <= y - x)%Z) by lia. apply IZR_le in Q. rewrite minus_IZR in Q. nra.
  - unfold Rminus. rewrite Rplus_opp_r, rnd_0, Rmult_0_l, rnd_0. lra.
Qed.
Lemma cr_between a b : fmt a -> fmt b -> a <= b -> a <= cr a b <= b.
Proof.
  intros A B L. pose proof (ch_between a b A B L) as H. unfold cr.
  split; [rewrite <- (rnd_id a A) at 1; apply rnd_le; lra|]. apply Rle_trans with (rnd b); [apply rnd_le; lra|rewrite (rnd_id b B); lra].
Qed.

Lemma cr_err a b : fmt a -> fmt b -> a <= b -> Rabs (cr a b - (a + b) / 2) <= bp (-52) * Rmax (Rabs a) (Rabs b) + eta.
Proof.
  intros A B L. set (M := Rmax (Rabs a) (Rabs b)). pose proof (Rmax_l (Rabs a) (Rabs b)) as MA. pose proof (Rmax_r (Rabs a) (Rabs b)) as MB. fold M in MA, MB.
  apply Rabs_le_inv in MA, MB. pose proof (ch_between a b A B L) as H.
  destruct (add_rel b (- a) B ltac:(apply generic_format_opp; exact A)) as (e1 & E1 & D). change (b + - a) with (b - a) in D.
  assert (Hd : Rabs (rnd (rnd (b - a) * / 2) - rnd (b - a) * / 2) <= eta).
  { destruct (Rlt_le_dec (Rabs (rnd (b - a))) (bp (-1021))) as [S|S].
    - eapply Rle_trans; [apply error_le_half_ulp; exact valid_exp_f64|]. rewrite ulp_FLT_small; [unfold eta; lra|reflexivity|].
      rewrite Rabs_mult, (Rabs_pos_eq (/ 2)) by lra. pose proof (Rabs_pos (rnd (b - a))). change (-1074 + 53)%Z with (-1021)%Z. lra.
    - rewrite rnd_half by exact S. rewrite (rnd_id (rnd (b - a))) by apply fmt_rnd. unfold Rminus. rewrite Rplus_opp_r, Rabs_R0. pose proof eta_pos. lra. }
  destruct (add_rel a (rnd (rnd (b - a) * / 2)) A (fmt_rnd _)) as (e2 & E2 & C). fold (cr a b) in C. set (h := rnd (rnd (b - a) * / 2)) in *. rewrite C.
  set (d := rnd (b - a)) in *. assert (U : bp (-52) = 2 * ur) by (unfold ur; lra).
  replace ((a + h) * (1 + e2) - (a + b) / 2) with ((a + h) * e2 + (h - d * / 2) + (b - a) * e1 * / 2) by (rewrite D; field).
  assert (T1 : Rabs ((a + h) * e2) <= ur * M).
  { rewrite Rabs_mult, Rmult_comm. apply Rmult_le_compat; try apply Rabs_pos; [exact E2|]. apply Rabs_le. lra. }
  assert (T2 : Rabs ((b - a) * e1 * / 2) <= ur * M).
  { replace ((b - a) * e1 * / 2) with (e1 * ((b - a) * / 2)) by ring. rewrite Rabs_mult. apply Rmult_le_compat; try apply Rabs_pos; [exact E1|]. apply Rabs_le. lra. }
  eapply Rle_trans; [apply Rabs_triang|]. eapply Rle_trans; [apply Rplus_le_compat_r, Rabs_triang|]. rewrite U. lra.
Qed.
Definition ctr (a b : T F64) : T F64 := nadd a (ndiv (nsub b a) n2).
Lemma cr_any a b : fmt a -> fmt b -> Rmin a b <= cr a b <= Rmax a b /\ Rabs (cr a b - (a + b) / 2) <= bp (-52) * Rmax (Rabs a) (Rabs b) + eta.
Proof.
  intros A B. destruct (Rle_lt_dec a b) as [L|L].
  - rewrite Rmin_left, Rmax_right by exact L. split; [apply cr_between|apply cr_err]; assumption.
  - rewrite Rmin_right, Rmax_left by lra. assert (A' : fmt (- a)) by (apply generic_format_opp; exact A). assert (B' : fmt (- b)) by (apply generic_format_opp; exact B).
    assert (L' : - a <= - b) by lra. pose proof (cr_between _ _ A' B' L') as H. pose proof (cr_err _ _ A' B' L') as E. rewrite cr_opp in H, E. split; [lra|].
    rewrite !Rabs_Ropp in E. replace (- cr a b - (- a + - b) / 2) with (- (cr a b - (a + b) / 2)) in E by field. rewrite Rabs_Ropp in E. exact E.
Qed.
Lemma half_top s : fmt s -> Rabs s < top -> Rabs (rnd (s * / 2)) < top.
Proof.
  intros S T. apply Rle_lt_trans with (Rabs s); [|exact T]. destruct (Rle_dec 0 s) as [P|P].
  - rewrite (Rabs_pos_eq s) by exact P. rewrite Rabs_pos_eq by (rewrite <- rnd_0; apply rnd_le; lra). rewrite <- (rnd_id s S) at 2. apply rnd_le. lra.
  - rewrite (Rabs_left s) by lra. rewrite Rabs_left1 by (rewrite <- rnd_0; apply rnd_le; lra). apply Ropp_le_contravar. rewrite <- (rnd_id s S) at 1. apply rnd_le. lra.
Qed.
Lemma ctr_val a b : is_double a -> is_double b -> f_finite a -> f_finite b -> f_finite (nsub b a) ->
  is_double (ctr a b) /\ f_finite (ctr a b) /\ fval (ctr a b) = cr (fval a) (fval b).
Proof.
  intros A B FA FB FS. pose proof (double_sub b a B A) as D. assert (F2 : f_finite (@n2 F64)) by (rewrite n2_fin; exact I).
  assert (V : fval (nsub b a) = rnd (fval b - fval a)).
  { destruct (sub_val b a B A FB FA) as [(_ & _ & V)|[(_ & E)|(_ & E)]]; [exact V|rewrite E in FS; contradiction..]. }
  pose proof (div_val (nsub b a) n2 D double_n2 FS F2 ltac:(rewrite fval_n2; lra)) as H. rewrite fval_n2, V in H.
  set (h := ndiv (nsub b a) n2) in *. assert (DH : is_double h) by (apply double_div; auto using double_n2).
  pose proof (fval_bound _ D) as T. rewrite V in T. pose proof (half_top _ (fmt_rnd _) T) as TH. unfold Rdiv in H.
  assert (VH : f_finite h /\ fval h = rnd (rnd (fval b - fval a) * / 2)).
  { destruct H as [(_ & F & VH)|[(C & _)|(C & _)]]; [auto|apply Rabs_lt_inv in TH; exfalso; lra..]. }
  destruct VH as [FH VH]. pose proof (add_val a h A DH FA FH) as S. rewrite VH in S. fold (cr (fval a) (fval b)) in S. unfold rounds in S. fold (cr (fval a) (fval b)) in S.
  destruct (cr_any (fval a) (fval b) (fval_fmt a A) (fval_fmt b B)) as [Q _]. pose proof (fval_bound a A) as TA. pose proof (fval_bound b B) as TB. apply Rabs_lt_inv in TA, TB.
  assert (Rmax (fval a) (fval b) < top) by (apply Rmax_lub_lt; lra). assert (- top < Rmin (fval a) (fval b)) by (apply Rmin_glb_lt; lra).
  split; [apply double_add; assumption|]. destruct S as [(_ & F & VS)|[(C & _)|(C & _)]]; [split; assumption|exfalso; lra..].
Qed.
Lemma ctr_inf a b : is_double a -> is_double b -> f_finite a -> f_finite b -> ~ f_finite (nsub b a) -> ~ f_finite (ctr a b).
Proof.
  intros A B FA FB FS. unfold ctr. destruct (sub_val b a B A FB FA) as [(_ & F & _)|[(_ & E)|(_ & E)]]; [contradiction|rewrite E..].
  - change (ndiv (S754_infinity false : T F64) (@n2 F64)) with infinity. rewrite add_inf_r by exact FA. cbn. tauto.
  - change (ndiv (S754_infinity true : T F64) (@n2 F64)) with (S754_infinity true : T F64). destruct a; cbn in *; tauto.
Qed.

(** Points between given ones do not change their bounding box. *)
Lemma fmin_keep l new x : Forall number l -> number x -> (forall v, In v new -> exists w, In w (x :: l) /\ fle w v) -> @fmin F64 (l ++ new) x = fmin l x.
Proof.
  intros L X. unfold fmin at 1. rewrite fold_left_app. fold (@fmin F64 l x). pose proof (fmin_f x l X L) as [_ M].
  induction new as [|v new IH]; intros H; [reflexivity|]. cbn [fold_left]. destruct (H v (or_introl eq_refl)) as (w & I & LW).
  assert (Q : (@fmin F64 l x <= v)%num = true) by exact (leb_trans F64_laws _ _ _ (M w I) LW).
  rewrite (proj2 (not_ltb F64_laws v _ (proj2 (leb_num F64_laws _ _ Q)) (proj1 (leb_num F64_laws _ _ Q))) Q). apply IH. intros u U. apply H. right. exact U.
Qed.
Lemma fmax_keep l new x : Forall number l -> number x -> (forall v, In v new -> exists w, In w (x :: l) /\ fle v w) -> @fmax F64 (l ++ new) x = fmax l x.
Proof.
  intros L X. unfold fmax at 1. rewrite fold_left_app. fold (@fmax F64 l x). pose proof (fmax_f x l X L) as [_ M].
  induction new as [|v new IH]; intros H; [reflexivity|]. cbn [fold_left]. destruct (H v (or_introl eq_refl)) as (w & I & LW).
  assert (Q : (v <= @fmax F64 l x)%num = true) by exact (leb_trans F64_laws _ _ _ LW (M w I)).
  rewrite (gtb_ltb F64_laws), (proj2 (not_ltb F64_laws _ v (proj2 (leb_num F64_laws _ _ Q)) (proj1 (leb_num F64_laws _ _ Q))) Q). apply IH. intros u U. apply H. right. exact U.
Qed.
Lemma bb_keep dbg (ps new : list (pt3 F64)) : Forall number3 ps -> (2 <= length ps)%nat -> (Z.of_nat (length (ps ++ new)) < 2 ^ 31)%Z ->
  (forall v ax, In v new -> axis3 ax -> exists p q, In p ps /\ In q ps /\ fle (ax p) (ax v) /\ fle (ax v) (ax q)) ->
  bb3_from_iterator dbg (ps ++ new) = bb3_from_iterator dbg ps.
Proof.
  intros N L2 B H. rewrite app_length in B. rewrite !bb3_from_spec by (rewrite ?app_length; lia). destruct ps as [|p [|q r]]; cbn [length] in L2; try lia. cbn [app].
  change (q :: r ++ new) with ((q :: r) ++ new). inversion N as [|? ? NP NR]; subst.
  assert (K : forall ax, axis3 ax -> fmin (map ax ((q :: r) ++ new)) (ax p) = fmin (map ax (q :: r)) (ax p) /\ fmax (map ax ((q :: r) ++ new)) (ax p) = fmax (map ax (q :: r)) (ax p)).
  { intros ax A. rewrite map_app. assert (NL : Forall number (map ax (q :: r))) by (apply Forall_map; eapply Forall_impl; [|exact NR]; intros y Y; apply Y, A).
    split; [apply fmin_keep|apply fmax_keep]; try exact NL; try (apply NP, A); intros v V; apply in_map_iff in V as (u & <- & V); destruct (H u ax V A) as (a & b & IA & IB & LA & LB);
      [exists (ax a)|exists (ax b)]; (split; [|assumption]); change (ax p :: map ax (q :: r)) with (map ax (p :: q :: r)); apply in_map; assumption. }
  destruct (K px) as [-> ->]; [left; reflexivity|]. destruct (K py) as [-> ->]; [right; left; reflexivity|]. destruct (K pz) as [-> ->]; [right; right; reflexivity|]. reflexivity.
Qed.
