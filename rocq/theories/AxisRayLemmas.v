(** Lemmas about rays along an axis against boxes in doubles. *)
From Verif Require Import Base BaseLemmas Num NumLemmas BBoxModel GeomSpec FloatSpec FloatLemmas FloatBridge RootLemmas WrapLemmas DistSpec DistLemmas DistLemmas2 DistLemmas3 LineModel AabbModel AabbSpec AabbLemmas BoxDistSpec BoxDistLemmas MeanLemmas UnitSpec UnitLemmas SatF64Lemmas GridKdLemmas GridBoxLemmas ClearSpec ClearLemmas RayGridSpec RayGridLemmas AxisRaySpec.
From Coq Require Import Floats.SpecFloat Reals Lra Lia.
From Flocq Require Import Core.
Local Open Scope R_scope.

Notation pinf := (S754_infinity false : T F64).
Notation minf := (S754_infinity true : T F64).
Lemma fin_val_pos m e : 0 < fval (S754_finite false m e : T F64).
Proof. cbn [fval]. pose proof (IZR_lt 0 (Zpos m) ltac:(reflexivity)). assert (0 < powerRZ 2 e)%R by (apply powerRZ_lt; lra). nra. Qed.
Lemma fin_val_neg m e : fval (S754_finite true m e : T F64) < 0.
Proof. cbn [fval]. pose proof (IZR_lt 0 (Zpos m) ltac:(reflexivity)). assert (0 < powerRZ 2 e)%R by (apply powerRZ_lt; lra). nra. Qed.
Lemma zero_form (d : T F64) : f_finite d -> fval d = 0 -> exists s, d = S754_zero s.
Proof. destruct d as [s|s| |[] m e]; intros F V; try destruct F; [eauto|pose proof (fin_val_neg m e); lra|pose proof (fin_val_pos m e); lra]. Qed.
Lemma pos_form (x : T F64) : f_finite x -> 0 < fval x -> exists m e, x = S754_finite false m e.
Proof. destruct x as [s|s| |[] m e]; intros F V; try destruct F; [cbn in V; lra|pose proof (fin_val_neg m e); lra|eauto]. Qed.
Lemma neg_form (x : T F64) : f_finite x -> fval x < 0 -> exists m e, x = S754_finite true m e.
Proof. destruct x as [s|s| |[] m e]; intros F V; try destruct F; [cbn in V; lra|eauto|pose proof (fin_val_pos m e); lra]. Qed.
(** Signs of differences *)
Lemma sub_sign k x y : le_e k x -> le_e k y -> (-1074 <= k + 1 < 1024)%Z -> le_e (k + 1) (nsub x y) /\ exists g, / 2 <= g <= 2 /\ Rabs (g - 1) <= ur /\ fval (nsub x y) = (fval x - fval y) * g.
Proof.
  intros X Y E. destruct (le_sub k x y X Y E) as [L V]. split; [exact L|]. destruct (add_rel (fval x) (- fval y)) as (e & H & R); [apply fval_fmt, X|apply generic_format_opp, fval_fmt, Y|].
  exists (1 + e). pose proof ur_small. pose proof (Rabs_le_inv _ _ H). split; [lra|]. split; [replace (1 + e - 1) with e by ring; exact H|]. rewrite V. exact R.
Qed.
(** The slab across an axis the ray does not move along *)
Lemma slab0 k lo hi a d : le_e k lo -> le_e k hi -> le_e k a -> (-1074 <= k + 1 < 1024)%Z -> f_finite d -> fval d = 0 -> fval lo < fval hi -> fval a <> fval lo -> fval a <> fval hi ->
  let t1 := nmul (nsub lo a) (ndiv n1 d) in let t2 := nmul (nsub hi a) (ndiv n1 d) in
  (fval lo < fval a < fval hi /\ min64 t1 t2 = minf /\ max64 t1 t2 = pinf) \/
  (~ fval lo <= fval a <= fval hi /\ exists s, min64 t1 t2 = S754_infinity s /\ max64 t1 t2 = S754_infinity s).
Proof.
  intros LL LH LA E FD VD O N1 N2 t1 t2. destruct (zero_form d FD VD) as (s & ->). destruct (sub_sign k lo a LL LA E) as ([[_ F1] _] & g1 & G1 & _ & V1). destruct (sub_sign k hi a LH LA E) as ([[_ F2] _] & g2 & G2 & _ & V2).
  assert (DI : ndiv (n1 : T F64) (S754_zero s) = S754_infinity s) by (destruct s; reflexivity). subst t1 t2. rewrite DI.
  destruct (Rtotal_order (fval a) (fval lo)) as [H|[H|H]]; [|congruence|].
  - right. split; [lra|]. destruct (pos_form _ F1 ltac:(rewrite V1; nra)) as (m1 & e1 & ->). destruct (pos_form _ F2 ltac:(rewrite V2; nra)) as (m2 & e2 & ->). exists s. destruct s; split; reflexivity.
  - destruct (neg_form _ F1 ltac:(rewrite V1; nra)) as (m1 & e1 & ->). destruct (Rtotal_order (fval a) (fval hi)) as [H2|[H2|H2]]; [|congruence|].
    + left. split; [lra|]. destruct (pos_form _ F2 ltac:(rewrite V2; nra)) as (m2 & e2 & ->). destruct s; split; reflexivity.
    + right. split; [lra|]. destruct (neg_form _ F2 ltac:(rewrite V2; nra)) as (m2 & e2 & ->). exists (negb s). destruct s; split; reflexivity.
Qed.
(** The slab across the axis the ray moves along *)
Lemma inv_pm d : fd d -> Rabs (fval d) = 1 -> fd (ndiv n1 d) /\ fval (ndiv n1 d) = fval d.
Proof.
  intros [D F] A. assert (N : fval d <> 0) by (intros Z; rewrite Z, Rabs_R0 in A; lra). pose proof (div_val n1 d eq_refl D I F N) as R. rewrite fval_one in R.
  assert (E : 1 / fval d = fval d). { unfold Rabs in A. destruct (Rcase_abs (fval d)); [replace (fval d) with (-1) by lra|replace (fval d) with 1 by lra]; field. }
  destruct (rounds_same _ d _ R (conj D F) E) as [FF V]. split; [split; [apply double_div; [reflexivity|exact D]|exact FF]|exact V].
Qed.
Lemma nltb_val x y : fd x -> fd y -> nltb x y = true <-> fval x < fval y.
Proof. intros [DX FX] [DY FY]. unfold nltb. rewrite ncmp_val by assumption. destruct (Rcompare_spec (fval x) (fval y)); split; intros; try reflexivity; try discriminate; lra. Qed.
Lemma ngtb_val x y : fd x -> fd y -> ngtb x y = true <-> fval y < fval x.
Proof. intros [DX FX] [DY FY]. unfold ngtb. rewrite ncmp_val by assumption. destruct (Rcompare_spec (fval x) (fval y)); split; intros; try reflexivity; try discriminate; lra. Qed.
Lemma ngeb_val x y : fd x -> fd y -> ngeb x y = true <-> fval y <= fval x.
Proof. intros [DX FX] [DY FY]. unfold ngeb. rewrite ncmp_val by assumption. destruct (Rcompare_spec (fval x) (fval y)); split; intros; try reflexivity; try discriminate; lra. Qed.
Lemma min64_val x y : fd x -> fd y -> fd (min64 x y) /\ fval (min64 x y) = Rmin (fval x) (fval y).
Proof. intros X Y. unfold min64. pose proof (nltb_val x y X Y) as H. destruct (nltb x y); split; try assumption; [rewrite Rmin_left; [reflexivity|apply Rlt_le, H; reflexivity]|rewrite Rmin_right; [reflexivity|]; apply Rnot_lt_le; intros L; apply H in L; discriminate]. Qed.
Lemma max64_val x y : fd x -> fd y -> fd (max64 x y) /\ fval (max64 x y) = Rmax (fval x) (fval y).
Proof. intros X Y. unfold max64. pose proof (ngtb_val x y X Y) as H. destruct (ngtb x y); split; try assumption; [rewrite Rmax_left; [reflexivity|apply Rlt_le, H; reflexivity]|rewrite Rmax_right; [reflexivity|]; apply Rnot_lt_le; intros L; apply H in L; discriminate]. Qed.
Lemma slab1 k lo hi a d : le_e k lo -> le_e k hi -> le_e k a -> (-1074 <= k + 1 < 1024)%Z -> fd d -> Rabs (fval d) = 1 -> fval lo <= fval hi ->
  let t1 := nmul (nsub lo a) (ndiv n1 d) in let t2 := nmul (nsub hi a) (ndiv n1 d) in
  le_e (k + 1) (min64 t1 t2) /\ fd (max64 t1 t2) /\ fval (min64 t1 t2) <= fval (max64 t1 t2) /\ exists g h, Rabs (g - 1) <= ur /\ Rabs (h - 1) <= ur /\
  ((fval d = 1 /\ fval (min64 t1 t2) = (fval lo - fval a) * g /\ fval (max64 t1 t2) = (fval hi - fval a) * h) \/
   (fval d = -1 /\ fval (min64 t1 t2) = - ((fval hi - fval a) * g) /\ fval (max64 t1 t2) = - ((fval lo - fval a) * h))).
Proof.
  intros LL LH LA E FD A O t1 t2. destruct (inv_pm d FD A) as [FI VI].
  destruct (sub_sign k lo a LL LA E) as (L1 & g1 & _ & G1 & V1). destruct (sub_sign k hi a LH LA E) as (L2 & g2 & _ & G2 & V2).
  assert (MO : fval (nsub lo a) <= fval (nsub hi a)). { destruct (le_sub k lo a LL LA E) as [_ ->]. destruct (le_sub k hi a LH LA E) as [_ ->]. apply rnd_le. lra. }
  assert (LI : le_e 0 (ndiv n1 d)) by (split; [exact FI|rewrite VI, A; cbn; lra]).
  assert (T : forall x, le_e (k + 1) x -> le_e (k + 1) (nmul x (ndiv n1 d)) /\ fval (nmul x (ndiv n1 d)) = fval x * fval d).
  { intros x X. destruct (le_mul (k + 1) 0 x _ X LI ltac:(lia)) as [L V]. rewrite Z.add_0_r in L. split; [exact L|]. rewrite V, VI. apply rnd_pm; [apply fval_fmt, X|exact A]. }
  destruct (T _ L1) as [T1 W1]. destruct (T _ L2) as [T2 W2]. fold t1 in T1, W1. fold t2 in T2, W2.
  destruct (min64_val t1 t2 (proj1 T1) (proj1 T2)) as [FM VM]. destruct (max64_val t1 t2 (proj1 T1) (proj1 T2)) as [FX VX].
  split. { split; [exact FM|]. unfold min64. destruct (nltb t1 t2); [apply T1|apply T2]. }
  split; [exact FX|]. split; [rewrite VM, VX; apply Rle_trans with (fval t1); [apply Rmin_l|apply Rmax_l]|].
  assert (S : fval d = 1 \/ fval d = -1) by (unfold Rabs in A; destruct (Rcase_abs (fval d)); lra). destruct S as [S|S]; rewrite S in W1, W2.
  - exists g1, g2. split; [exact G1|]. split; [exact G2|]. left. split; [exact S|]. rewrite VM, VX, W1, W2, Rmin_left, Rmax_right by lra. rewrite V1, V2. split; ring.
  - exists g2, g1. split; [exact G2|]. split; [exact G1|]. right. split; [exact S|]. rewrite VM, VX, W1, W2, Rmin_right, Rmax_left by lra. rewrite V1, V2. split; ring.
Qed.
(** Putting slabs together *)
Lemma max_f_m (l : T F64) : f_finite l -> max64 l minf = l. Proof. destruct l as [s|s| |[] m e]; intros F; try destruct F; reflexivity. Qed.
Lemma max_m_f (l : T F64) : f_finite l -> max64 minf l = l. Proof. destruct l as [s|s| |[] m e]; intros F; try destruct F; reflexivity. Qed.
Lemma max_f_p (l : T F64) : f_finite l -> max64 l pinf = pinf. Proof. destruct l as [s|s| |[] m e]; intros F; try destruct F; reflexivity. Qed.
Lemma max_p_f (l : T F64) : f_finite l -> max64 pinf l = pinf. Proof. destruct l as [s|s| |[] m e]; intros F; try destruct F; reflexivity. Qed.
Lemma min_f_m (l : T F64) : f_finite l -> min64 l minf = minf. Proof. destruct l as [s|s| |[] m e]; intros F; try destruct F; reflexivity. Qed.
Lemma min_m_f (l : T F64) : f_finite l -> min64 minf l = minf. Proof. destruct l as [s|s| |[] m e]; intros F; try destruct F; reflexivity. Qed.
Lemma min_f_p (l : T F64) : f_finite l -> min64 l pinf = l. Proof. destruct l as [s|s| |[] m e]; intros F; try destruct F; reflexivity. Qed.
Lemma min_p_f (l : T F64) : f_finite l -> min64 pinf l = l. Proof. destruct l as [s|s| |[] m e]; intros F; try destruct F; reflexivity. Qed.
Lemma max_ii (s t : bool) : max64 (S754_infinity s : T F64) (S754_infinity t) = S754_infinity (s && t). Proof. destruct s, t; reflexivity. Qed.
Lemma min_ii (s t : bool) : min64 (S754_infinity s : T F64) (S754_infinity t) = S754_infinity (s || t). Proof. destruct s, t; reflexivity. Qed.
Lemma ge_f_p (l : T F64) : f_finite l -> ngeb l pinf = false. Proof. destruct l as [s|s| |[] m e]; intros F; try destruct F; reflexivity. Qed.
Lemma ge_m_f (l : T F64) : f_finite l -> ngeb minf l = false. Proof. destruct l as [s|s| |[] m e]; intros F; try destruct F; reflexivity. Qed.
Lemma axes_ne : (@px F64) <> py /\ (@px F64) <> pz /\ (@py F64) <> pz.
Proof.
  split; [|split]; intros E.
  - apply (f_equal (fun f => f (mk3 (S754_zero false : T F64) (S754_nan : T F64) S754_nan))) in E. discriminate E.
  - apply (f_equal (fun f => f (mk3 (S754_zero false : T F64) (S754_nan : T F64) S754_nan))) in E. discriminate E.
  - apply (f_equal (fun f => f (mk3 (S754_zero false : T F64) (S754_zero false : T F64) S754_nan))) in E. discriminate E.
Qed.
Lemma upto3_le_e k p ax : upto3 k p -> axis3 ax -> le_e k (ax p).
Proof. intros [F B] A. destruct (F ax A) as [D G]. specialize (B ax A). rewrite bp_powerRZ in B. split; [split; [exact D|apply DistLemmas.finite_f, G]|exact B]. Qed.
Lemma upto3_val k b ax : box_upto3 k b -> axis3 ax -> le_e k (ax (min3 b)) /\ le_e k (ax (max3 b)) /\ fval (ax (min3 b)) < fval (ax (max3 b)).
Proof. intros B A. destruct (upto3_le k b ax B A) as (L1 & L2 & O). split; [exact L1|]. split; [exact L2|]. apply flt_val in O; [exact O|apply L1|apply L2|apply L1|apply L2]. Qed.
(** Strictly between the faces across the other axes (an auxiliary notion of the proofs). *)
Definition within (ax : pt3 F64 -> T F64) (o : pt3 F64) (b : bb3 F64) : Prop := forall bx, axis3 bx -> bx <> ax -> fval (bx (min3 b)) < fval (bx o) < fval (bx (max3 b)).
(** The bounds of one slab as they appear in [intersection], src/functions.rs:443-471. *)
Definition tlo (ax : pt3 F64 -> T F64) (o d : pt3 F64) (b : bb3 F64) : T F64 :=
  min64 (nmul (nsub (ax (min3 b)) (ax o)) (ndiv n1 (ax d))) (nmul (nsub (ax (max3 b)) (ax o)) (ndiv n1 (ax d))).
(** The upper one, src/functions.rs:443-471. *)
Definition thi (ax : pt3 F64 -> T F64) (o d : pt3 F64) (b : bb3 F64) : T F64 :=
  max64 (nmul (nsub (ax (min3 b)) (ax o)) (ndiv n1 (ax d))) (nmul (nsub (ax (max3 b)) (ax o)) (ndiv n1 (ax d))).
Lemma intersection_slabs o d b : intersection (mkline3 o d) b =
  let tmin := max64 (max64 (tlo px o d b) (tlo py o d b)) (tlo pz o d b) in let tmax := min64 (min64 (thi px o d b) (thi py o d b)) (thi pz o d b) in
  if ngeb tmax tmin && ngeb tmax n0 then Some (pt3_add o (norm3_mul d tmin)) else None.
Proof. reflexivity. Qed.
Ltac slabs FL FH := cbv zeta; repeat first [rewrite (max_f_m _ FL)|rewrite (max_m_f _ FL)|rewrite (max_f_p _ FL)|rewrite (max_p_f _ FL)|rewrite (min_f_m _ FH)|rewrite (min_m_f _ FH)|rewrite (min_f_p _ FH)|rewrite (min_p_f _ FH)
  |rewrite max_ii; cbn [andb]|rewrite min_ii; cbn [orb]]; rewrite ?(ge_m_f _ FL), ?(ge_f_p _ FH).
Section Decide.
Context (ax : pt3 F64 -> T F64) (A : axis3 ax) (k : Z) (K : (-1074 <= k + 1 < 1024)%Z) (o d : pt3 F64) (b : bb3 F64) (O : upto3 k o) (D : along ax d) (B : box_upto3 k b) (OFF : off_faces ax o b).
Lemma other bx : axis3 bx -> bx <> ax -> (fval (bx (min3 b)) < fval (bx o) < fval (bx (max3 b)) /\ tlo bx o d b = minf /\ thi bx o d b = pinf) \/
  (~ fval (bx (min3 b)) <= fval (bx o) <= fval (bx (max3 b)) /\ exists s, tlo bx o d b = S754_infinity s /\ thi bx o d b = S754_infinity s).
Proof.
  intros X N. destruct (upto3_val k b bx B X) as (L1 & L2 & L3). destruct D as (FD & _ & Z). destruct (OFF bx X N) as [N1 N2].
  apply (slab0 k); try assumption; [apply upto3_le_e; assumption|apply DistLemmas.finite_f, FD, X|apply Z; assumption].
Qed.
Lemma own : le_e (k + 1) (tlo ax o d b) /\ fd (thi ax o d b) /\ fval (tlo ax o d b) <= fval (thi ax o d b) /\ exists g h, Rabs (g - 1) <= ur /\ Rabs (h - 1) <= ur /\
  ((fval (ax d) = 1 /\ fval (tlo ax o d b) = (fval (ax (min3 b)) - fval (ax o)) * g /\ fval (thi ax o d b) = (fval (ax (max3 b)) - fval (ax o)) * h) \/
   (fval (ax d) = -1 /\ fval (tlo ax o d b) = - ((fval (ax (max3 b)) - fval (ax o)) * g) /\ fval (thi ax o d b) = - ((fval (ax (min3 b)) - fval (ax o)) * h))).
Proof.
  destruct (upto3_val k b ax B A) as (L1 & L2 & L3). destruct D as (FD & U & _). destruct (FD ax A) as [FD1 FD2].
  apply slab1; try assumption; [apply upto3_le_e; assumption|split; [exact FD1|apply DistLemmas.finite_f, FD2]|lra].
Qed.
Lemma decide : (within ax o b /\ intersection (mkline3 o d) b = if ngeb (thi ax o d b) n0 then Some (pt3_add o (norm3_mul d (tlo ax o d b))) else None) \/
  ((exists bx, axis3 bx /\ bx <> ax /\ ~ fval (bx (min3 b)) <= fval (bx o) <= fval (bx (max3 b))) /\ intersection (mkline3 o d) b = None).
Proof.
  destruct own as ([FL _] & FH & LH & _). pose proof other as OT. pose proof (proj2 (ngeb_val _ _ FH FL) LH) as GE. destruct FL as [_ FL], FH as [_ FH].
  destruct axes_ne as (N1 & N2 & N3). rewrite intersection_slabs. unfold within. clear LH.
  pose proof (or_introl eq_refl : @axis3 F64 px) as AX. pose proof (or_intror (or_introl eq_refl) : @axis3 F64 py) as AY. pose proof (or_intror (or_intror eq_refl) : @axis3 F64 pz) as AZ.
  destruct A as [E|[E|E]]; rewrite E in *.
  - destruct (OT py AY ltac:(congruence)) as [(I1 & -> & ->)|(I1 & s & -> & ->)]; destruct (OT pz AZ ltac:(congruence)) as [(I2 & -> & ->)|(I2 & s' & -> & ->)].
    + left. split; [intros bx [->|[->| ->]] NE; [congruence|exact I1|exact I2]|]. slabs FL FH. rewrite GE. reflexivity.
    + right. split; [exists pz; split; [exact AZ|split; [congruence|exact I2]]|]. destruct s'; slabs FL FH; reflexivity.
    + right. split; [exists py; split; [exact AY|split; [congruence|exact I1]]|]. destruct s; slabs FL FH; reflexivity.
    + right. split; [exists py; split; [exact AY|split; [congruence|exact I1]]|]. destruct s, s'; slabs FL FH; reflexivity.
  - destruct (OT px AX ltac:(congruence)) as [(I1 & -> & ->)|(I1 & s & -> & ->)]; destruct (OT pz AZ ltac:(congruence)) as [(I2 & -> & ->)|(I2 & s' & -> & ->)].
    + left. split; [intros bx [->|[->| ->]] NE; [exact I1|congruence|exact I2]|]. slabs FL FH. rewrite GE. reflexivity.
    + right. split; [exists pz; split; [exact AZ|split; [congruence|exact I2]]|]. destruct s'; slabs FL FH; reflexivity.
    + right. split; [exists px; split; [exact AX|split; [congruence|exact I1]]|]. destruct s; slabs FL FH; reflexivity.
    + right. split; [exists px; split; [exact AX|split; [congruence|exact I1]]|]. destruct s, s'; slabs FL FH; reflexivity.
  - destruct (OT px AX ltac:(congruence)) as [(I1 & -> & ->)|(I1 & s & -> & ->)]; destruct (OT py AY ltac:(congruence)) as [(I2 & -> & ->)|(I2 & s' & -> & ->)].
    + left. split; [intros bx [->|[->| ->]] NE; [exact I1|exact I2|congruence]|]. slabs FL FH. rewrite GE. reflexivity.
    + right. split; [exists py; split; [exact AY|split; [congruence|exact I2]]|]. destruct s'; slabs FL FH; reflexivity.
    + right. split; [exists px; split; [exact AX|split; [congruence|exact I1]]|]. destruct s; slabs FL FH; reflexivity.
    + right. split; [exists px; split; [exact AX|split; [congruence|exact I1]]|]. destruct s, s'; slabs FL FH; reflexivity.
Qed.
Lemma axis_cases (P : (pt3 F64 -> T F64) -> Prop) : (forall bx, axis3 bx -> P bx) <-> P px /\ P py /\ P pz.
Proof. split; [intros H; split; [|split]; apply H; unfold axis3; tauto|]. intros (H1 & H2 & H3) bx [->|[->| ->]]; assumption. Qed.
(** What hitting means for the reals *)
Lemma hits_iff : ray_hits (real3 o) (real3 d) (realbox3 b) <-> within ax o b /\ exists t, 0 <= t /\ fval (ax (min3 b)) <= fval (ax o) + t * fval (ax d) <= fval (ax (max3 b)).
Proof.
  assert (H : forall t, closed3 (realbox3 b) (rp3 (fval (px o) + t * fval (px d)) (fval (py o) + t * fval (py d)) (fval (pz o) + t * fval (pz d))) <->
    forall bx, axis3 bx -> fval (bx (min3 b)) <= fval (bx o) + t * fval (bx d) <= fval (bx (max3 b))).
  { intros t. rewrite axis_cases. split; [intros H|intros (H1 & H2 & H3)].
    - split; [|split]; [exact (H px ltac:(unfold axis3; tauto))|exact (H py ltac:(unfold axis3; tauto))|exact (H pz ltac:(unfold axis3; tauto))].
    - intros bx [->|[->| ->]]; assumption. }
  unfold ray_hits. cbn [real3 px py pz]. split.
  - intros (t & T & C). rewrite H in C. split; [|exists t; split; [exact T|apply C, A]]. intros bx X N. specialize (C bx X). rewrite (proj2 (proj2 D) bx X N), Rmult_0_r, Rplus_0_r in C. destruct (OFF bx X N). lra.
  - intros (W & t & T & C). exists t. split; [exact T|]. rewrite H. intros bx X.
    assert (E : bx = ax \/ bx <> ax). { destruct axes_ne as (N1 & N2 & N3). destruct X as [->|[->| ->]], A as [->|[->| ->]]; auto. }
    destruct E as [->|N]; [exact C|]. rewrite (proj2 (proj2 D) bx X N), Rmult_0_r, Rplus_0_r. specialize (W bx X N). lra.
Qed.
Lemma behind : (exists t, 0 <= t /\ fval (ax (min3 b)) <= fval (ax o) + t * fval (ax d) <= fval (ax (max3 b))) <-> ngeb (thi ax o d b) n0 = true.
Proof.
  destruct own as (_ & FH & _ & g & h & _ & H & C). destruct (upto3_val k b ax B A) as (_ & _ & L). pose proof ur_small. pose proof (Rabs_le_inv _ _ H).
  rewrite (ngeb_val _ (n0 : T F64) FH (conj eq_refl I : fd (n0 : T F64))). change (fval (@n0 F64)) with 0. destruct C as [(S & _ & V)|(S & _ & V)]; rewrite S, V.
  - split; [intros (t & T & I1 & I2); nra|]. intros P. assert (0 <= fval (ax (max3 b)) - fval (ax o)) by (apply Rnot_lt_le; intros Q; nra).
    exists (fval (ax (max3 b)) - fval (ax o)). lra.
  - split; [intros (t & T & I1 & I2); nra|]. intros P. assert (fval (ax (min3 b)) - fval (ax o) <= 0) by (apply Rnot_lt_le; intros Q; nra).
    exists (fval (ax o) - fval (ax (min3 b))). lra.
Qed.
Lemma hit_iff : (exists p, intersection (mkline3 o d) b = Some p) <-> ray_hits (real3 o) (real3 d) (realbox3 b).
Proof.
  rewrite hits_iff, behind. destruct decide as [(W & ->)|((bx & X & N & NI) & ->)].
  - destruct (ngeb (thi ax o d b) n0); split; [intros _; split; [exact W|reflexivity]|eauto|intros (p & E); discriminate|intros [_ E]; discriminate].
  - split; [intros (p & E); discriminate|]. intros [W _]. exfalso. specialize (W bx X N). lra.
Qed.
(** Where it is hit *)
Lemma hit_at p : intersection (mkline3 o d) b = Some p -> (k <= 1000)%Z -> finite3 p /\ (forall bx, axis3 bx -> bx <> ax -> fval (bx p) = fval (bx o)) /\
  exists x, entry ax d b x /\ Rabs (fval (ax p) - x) <= bp (-51) * (Rabs x + Rabs (fval (ax o))).
Proof.
  intros E KK. assert (EP : p = pt3_add o (norm3_mul d (tlo ax o d b))).
  { destruct decide as [(_ & I)|(_ & I)]; rewrite I in E; [|discriminate]. destruct (ngeb (thi ax o d b) n0); [|discriminate]. congruence. }
  destruct own as (LL & _ & _ & g & h & G & _ & C). set (l := tlo ax o d b) in *. clearbody l. clear E.
  assert (PX : forall bx, axis3 bx -> bx p = nadd (bx o) (nmul l (bx d))) by (intros bx [->|[->| ->]]; rewrite EP; reflexivity).
  assert (DX : forall bx, axis3 bx -> fd (bx d)) by (intros bx X; destruct (proj1 D bx X) as [D1 D2]; split; [exact D1|apply DistLemmas.finite_f, D2]).
  assert (Q : forall bx, axis3 bx -> bx <> ax -> fd (bx p) /\ fval (bx p) = fval (bx o)).
  { intros bx X N. rewrite (PX bx X). destruct (mul0 l (bx d) (proj1 LL) (DX bx X)) as [F V]; [right; apply (proj2 (proj2 D)); assumption|]. apply add0r; [apply (upto3_le_e k); assumption|exact F|exact V]. }
  assert (U : Rabs (fval (ax d)) = 1) by apply D.
  assert (LD : le_e 0 (ax d)) by (split; [apply DX, A|rewrite U; cbn; lra]).
  destruct (le_mul (k + 1) 0 l (ax d) LL LD ltac:(lia)) as [LM VM]. rewrite rnd_pm in VM; [|apply fval_fmt, LL|exact U]. rewrite Z.add_0_r in LM.
  pose proof (upto3_le_e k o ax O A) as LO. destruct (le_add (k + 1) (ax o) (nmul l (ax d)) (le_wide k (k + 1) _ ltac:(lia) LO) LM ltac:(lia)) as [LP VP].
  destruct (add_rel (fval (ax o)) (fval (nmul l (ax d)))) as (e & HE & R); [apply fval_fmt, LO|apply fval_fmt, LM|]. rewrite R, VM in VP. rewrite <- (PX ax A) in LP, VP.
  split. { intros bx X. assert (EQ : bx = ax \/ bx <> ax). { destruct axes_ne as (N1 & N2 & N3). destruct X as [->|[->| ->]], A as [->|[->| ->]]; auto. }
    destruct EQ as [->|N]; [destruct LP as [[D1 D2] _]|destruct (Q bx X N) as [[D1 D2] _]]; (split; [exact D1|apply DistLemmas.finite_f, D2]). }
  split; [intros bx X N; apply Q; assumption|]. replace (bp (-51)) with (4 * ur) by (rewrite ur_bp; change (-51)%Z with (2 + -53)%Z; rewrite bpow_plus; reflexivity).
  assert (M : forall x a, Rabs ((a + (x - a) * g) * (1 + e) - x) <= 4 * ur * (Rabs x + Rabs a)).
  { intros x a. replace ((a + (x - a) * g) * (1 + e) - x) with ((x - a) * (g - 1) * (1 + e) + x * e) by ring. pose proof ur_small. pose proof (Rabs_le_inv _ _ HE).
    pose proof (Rabs_triang ((x - a) * (g - 1) * (1 + e)) (x * e)) as T. rewrite !Rabs_mult in T. rewrite (Rabs_pos_eq (1 + e)) in T by lra.
    pose proof (Rabs_triang x (- a)) as T2. rewrite Rabs_Ropp in T2. fold (Rminus x a) in T2. pose proof (Rabs_pos x). pose proof (Rabs_pos a). pose proof (Rabs_pos (x - a)). pose proof (Rabs_pos (g - 1)). pose proof (Rabs_pos e).
    assert (P1 : Rabs (x - a) * Rabs (g - 1) <= (Rabs x + Rabs a) * ur) by (apply Rmult_le_compat; assumption).
    assert (P2 : Rabs (x - a) * Rabs (g - 1) * (1 + e) <= (Rabs x + Rabs a) * ur * 2) by (apply Rmult_le_compat; [apply Rmult_le_pos; assumption|lra|exact P1|lra]).
    assert (P3 : Rabs x * Rabs e <= (Rabs x + Rabs a) * ur) by (apply Rmult_le_compat; [assumption|assumption|lra|exact HE]).
    apply Rle_trans with (1 := T). assert (0 <= (Rabs x + Rabs a) * ur) by (apply Rmult_le_pos; lra). lra. }
  destruct C as [(S & V & _)|(S & V & _)]; rewrite V, S in VP.
  - exists (fval (ax (min3 b))). split; [left; auto|]. rewrite VP. specialize (M (fval (ax (min3 b))) (fval (ax o))). rewrite Rmult_1_r. exact M.
  - exists (fval (ax (max3 b))). split; [right; auto|]. rewrite VP. specialize (M (fval (ax (max3 b))) (fval (ax o))).
    replace (- ((fval (ax (max3 b)) - fval (ax o)) * g) * -1) with ((fval (ax (max3 b)) - fval (ax o)) * g) by ring. exact M.
Qed.
End Decide.
(** Trees *)
Lemma tree_rays {HB} ax k (bbox : HB -> bb3 F64) data maxdepth bucket o d : axis3 ax -> (-960 <= k <= 1000)%Z -> upto3 k o -> along ax d ->
  Forall (fun x => box_upto3 k (bbox x)) data -> Forall (fun x => off_faces ax o (bbox x)) data ->
  exists found, aabb3_intersection_candidates bbox (mkline3 o d) (aabb3_new bbox data maxdepth bucket) = Ok found /\
  forall x, In x found <-> In x data /\ ray_hits (real3 o) (real3 d) (realbox3 (bbox x)).
Proof.
  intros A K O D G OFF. set (hits := fun b => match intersection (mkline3 o d) b with Some _ => true | None => false end).
  assert (HI : forall b, box_upto3 k b -> off_faces ax o b -> hits b = true <-> ray_hits (real3 o) (real3 d) (realbox3 b)).
  { intros b B F. rewrite <- (hit_iff ax A k ltac:(lia) o d b O D B F). unfold hits. destruct (intersection (mkline3 o d) b); split; intros; eauto; [discriminate|destruct H; discriminate]. }
  destruct (query_spec (bb_of3 bbox) (is_left3 bbox) (is_right3 bbox) (fun x => box_upto3 k (bbox x) /\ off_faces ax o (bbox x))
    ltac:(intros depth dd x F; apply cover3_f; refine (Forall_impl _ _ F); intros y Y; exact (upto3_good k _ (proj1 Y)))
    (fun b => Ok (hits b)) (fun x => Ok (hits (bbox x)))) with (levels := maxdepth) (bucket := bucket) (depth := 0%N) (data := data) (acc := @nil HB) as (out & E & S).
  - intros x _. eauto.
  - intros dd _ _. eauto.
  - intros dd x F X H. f_equal. apply (f_equal (fun r => match r with Ok v => v | _ => false end)) in H. assert (NE : dd <> []) by (intros ->; destruct X).
    assert (F1 : Forall (fun x => box_upto3 k (bbox x)) dd) by (refine (Forall_impl _ _ F); intros y Y; exact (proj1 Y)).
    destruct (bb_of3_upto k bbox dd NE F1) as [B1 B2]. rewrite Forall_forall in F. destruct (F x X) as [BX FX].
    apply (HI (bbox x) BX FX) in H. apply (hits_iff ax A k ltac:(lia) o d (bbox x) D FX) in H. destruct H as (W & t & T & C).
    assert (W2 : within ax o (bb_of3 bbox dd)) by (intros bx Y N; specialize (W bx Y N); destruct (B2 x bx X Y); lra).
    assert (F2 : off_faces ax o (bb_of3 bbox dd)) by (intros bx Y N; specialize (W2 bx Y N); lra).
    apply (HI _ B1 F2). apply (hits_iff ax A k ltac:(lia) o d _ D F2). split; [exact W2|]. exists t. split; [exact T|]. destruct (B2 x ax X A). lra.
  - rewrite Forall_forall in *. intros x X. split; [apply G, X|apply OFF, X].
  - exists out. split; [exact E|]. intros x. rewrite S. rewrite Forall_forall in *. split; intros [X H]; (split; [exact X|]).
    + apply HI; [apply G, X|apply OFF, X|]. apply (f_equal (fun r => match r with Ok v => v | _ => false end)) in H. exact H.
    + f_equal. apply HI; [apply G, X|apply OFF, X|exact H].
Qed.
