(** C192: vertical rays against level triangles in doubles. *)
From Verif Require Import Base Num NumLemmas BBoxModel GeomSpec VecSpec VecModel VecLemmas FloatSpec FloatLemmas FloatBridge RootLemmas DistSpec DistLemmas DistLemmas2 DistLemmas3 BoxDistLemmas SatF64Lemmas GridSpec GridLemmas LineModel CloudModel CloudSpec RayGridSpec RayGridLemmas ClusterLemmas2.
From Coq Require Import Floats.SpecFloat Reals Lra Lia Psatz.
From Flocq Require Import Core.
Local Open Scope R_scope.

Theorem C192_exact : forall (e : Z) (ray : line3 F64) (a b c : pt3 F64), (-200 <= e <= 200)%Z ->
  grid3 e 20 (anchor ray) -> grid3 e 20 a -> grid3 e 20 b -> grid3 e 20 c -> level a b c -> vertical (dir ray) ->
  exists o, intersection_ray_triangle ray a b c = Ok o /\
  match o with
  | None => forall q, ~ crosses (real_line ray) (real3 a) (real3 b) (real3 c) q
  | Some p => finite3 p /\ exists q, crosses (real_line ray) (real3 a) (real3 b) (real3 c) q /\
      fval (px p) = px q /\ fval (py p) = py q /\ Rabs (fval (pz p) - pz q) <= powerRZ 2 (e - 28)
  end.
Proof.
  intros e ray a b c E (GO1 & GO2 & GO3) (GA1 & GA2 & GA3) (GB1 & GB2 & GB3) (GC1 & GC2 & GC3) [LB LC] VD.
  destruct (grid_gr _ _ _ GO1) as (xo & BO1 & O1), (grid_gr _ _ _ GO2) as (yo & BO2 & O2), (grid_gr _ _ _ GO3) as (zo & BO3 & O3).
  destruct (grid_gr _ _ _ GA1) as (x1 & BA1 & A1), (grid_gr _ _ _ GA2) as (y1 & BA2 & A2), (grid_gr _ _ _ GA3) as (z & BA3 & A3).
  destruct (grid_gr _ _ _ GB1) as (x2 & BB1 & B1), (grid_gr _ _ _ GB2) as (y2 & BB2 & B2), (grid_gr _ _ _ GC1) as (x3 & BC1 & C1), (grid_gr _ _ _ GC2) as (y3 & BC2 & C2).
  assert (B3 : gr e (pz b) z) by (split; [apply (grid_fd _ _ _ GB3)|rewrite LB; apply A3]). assert (C3 : gr e (pz c) z) by (split; [apply (grid_fd _ _ _ GC3)|rewrite LC; apply A3]).
  clear GO1 GO2 GO3 GA1 GA2 GA3 GB1 GB2 GB3 GC1 GC2 GC3.
  (* the normal *)
  set (k := ((x2 - x1) * (y3 - y2) - (y2 - y1) * (x3 - x2))%Z).
  destruct (tri_normal e a b c x1 y1 x2 y2 x3 y3 z E A1 A2 A3 B1 B2 B3 C1 C2 C3 BA1 BA2 BB1 BB2 BC1 BC2 BA3) as (n & NF & UP & NB & NS). fold k in NS.
  unfold intersection_ray_triangle. rewrite NF. cbn [obind].
  destruct (meets n e (anchor ray) a (dir ray) xo yo zo x1 y1 z UP NB E O1 O2 O3 A1 A2 A3 BO1 BO2 BO3 BA1 BA2 BA3 VD) as (NQ & t & TE & TT & TP).
  rewrite NQ, TE. clear TE NQ. destruct VD as (FD & DX & DY & DZ).
  (* what it means *)
  set (s := fval (pz (dir ray))) in *. assert (SS : s * s = 1). { unfold Rabs in DZ. destruct (Rcase_abs s); nra. }
  pose proof (bp_pos e) as BP. set (w := bp e) in *.
  assert (CR : forall p : pt3 RN, crosses (real_line ray) (real3 a) (real3 b) (real3 c) p <->
    0 < - (IZR (zo - z) * s) /\ 0 < IZR k * IZR (zedge x1 y1 x2 y2 xo yo) /\ 0 < IZR k * IZR (zedge x2 y2 x3 y3 xo yo) /\ 0 < IZR k * IZR (zedge x3 y3 x1 y1 xo yo) /\ p = rp3 (fval (px (anchor ray))) (fval (py (anchor ray))) (fval (pz a))).
  { intros p. pose proof (crosses_level (fval (px a)) (fval (py a)) (fval (px b)) (fval (py b)) (fval (px c)) (fval (py c)) (fval (pz a)) (fval (px (anchor ray))) (fval (py (anchor ray))) (fval (pz (anchor ray))) s p SS) as H. cbn zeta in H.
    assert (EL : real_line ray = mkline3 (rp3 (fval (px (anchor ray))) (fval (py (anchor ray))) (fval (pz (anchor ray)))) (rp3 0 0 s)) by (unfold real_line, real3, s; rewrite DX, DY; reflexivity).
    rewrite EL. unfold real3. rewrite LB, LC. unfold rp3 in H at 3 4 5. unfold rp3 in H |- *. rewrite H. clear H EL.
    rewrite (gr_val _ _ _ A1), (gr_val _ _ _ A2), (gr_val _ _ _ B1), (gr_val _ _ _ B2), (gr_val _ _ _ C1), (gr_val _ _ _ C2), (gr_val _ _ _ O1), (gr_val _ _ _ O2), (gr_val _ _ _ O3), (gr_val _ _ _ A3). fold w.
    assert (EE : forall ax ay bx by' ox oy, edge (IZR ax * w) (IZR ay * w) (IZR bx * w) (IZR by' * w) (IZR ox * w) (IZR oy * w) = IZR (zedge ax ay bx by' ox oy) * (w * w)).
    { intros. unfold edge, zedge. rewrite minus_IZR, !mult_IZR, !minus_IZR. ring. }
    rewrite !EE. assert (KE : (IZR x2 * w - IZR x1 * w) * (IZR y3 * w - IZR y2 * w) - (IZR y2 * w - IZR y1 * w) * (IZR x3 * w - IZR x2 * w) = IZR k * (w * w)).
    { unfold k. rewrite minus_IZR, !mult_IZR, !minus_IZR. ring. }
    rewrite KE. assert (W2 : 0 < w * w * (w * w)) by (assert (0 < w * w) by nra; nra).
    assert (PP : forall i, 0 < IZR k * (w * w) * (IZR i * (w * w)) <-> 0 < IZR k * IZR i). { intros i. replace (IZR k * (w * w) * (IZR i * (w * w))) with (IZR k * IZR i * (w * w * (w * w))) by ring. split; intros; nra. }
    rewrite !PP. assert (ZE : 0 < - ((IZR zo * w - IZR z * w) * s) <-> 0 < - (IZR (zo - z) * s)). { rewrite minus_IZR. replace (- ((IZR zo * w - IZR z * w) * s)) with (- ((IZR zo - IZR z) * s) * w) by ring. split; intros; nra. }
    rewrite ZE. reflexivity. }
  destruct t.
  { eexists. split; [reflexivity|]. cbn beta iota. intros p H. apply CR in H. destruct H as [H _]. pose proof (proj1 TT eq_refl). lra. }
  destruct (TP eq_refl) as (P1 & P2 & P3 & P4). clear TP. set (p := pt3_add (anchor ray) (norm3_mul (dir ray) (ndiv (nneg (dot3 n (vsub3 (anchor ray) a))) (dot3 n (dir ray))))) in *.
  assert (TF : 0 < - (IZR (zo - z) * s)). { destruct (Rlt_le_dec 0 (- (IZR (zo - z) * s))) as [H|H]; [exact H|]. assert (false = true) by (apply TT; lra). discriminate. }
  assert (LP : le_e (24 + e) (pz p)).
  { split; [exact P3|]. assert (LA : le_e (20 + e) (pz a)) by (apply (gr_le e (pz a) z 20 A3 BA3); discriminate). destruct LA as [_ LA]. apply Rabs_le_inv in P4, LA.
    assert (bp (e - 28) <= bp (20 + e)) by (apply bpow_le; clear; lia). replace (24 + e)%Z with (4 + (20 + e))%Z by (clear; lia). rewrite bpow_plus. change (bp 4) with 16. pose proof (bp_pos (20 + e)). apply Rabs_le. lra. }
  pose proof (side_test n e a b p _ _ _ _ _ _ _ _ UP NB E A1 A2 A3 B1 B2 B3 P1 P2 LP BA1 BA2 BA3 BB1 BB2 BA3 BO1 BO2) as S1.
  pose proof (side_test n e b c p _ _ _ _ _ _ _ _ UP NB E B1 B2 B3 C1 C2 C3 P1 P2 LP BB1 BB2 BA3 BC1 BC2 BA3 BO1 BO2) as S2.
  pose proof (side_test n e c a p _ _ _ _ _ _ _ _ UP NB E C1 C2 C3 A1 A2 A3 P1 P2 LP BC1 BC2 BA3 BA1 BA2 BA3 BO1 BO2) as S3.
  set (k1 := zedge x1 y1 x2 y2 xo yo) in *. set (k2 := zedge x2 y2 x3 y3 xo yo) in *. set (k3 := zedge x3 y3 x1 y1 xo yo) in *. set (nz := fval (pz n)) in *.
  assert (NN : nz <> 0) by (intros Z; rewrite Z, Rabs_R0 in NB; lra).
  assert (OUT : forall ki, nz * IZR ki <= 0 -> ~ 0 < IZR k * IZR ki).
  { intros ki H1 H2. destruct (Z.eq_dec k 0) as [K0|K0]; [rewrite K0 in H2; lra|]. specialize (NS K0). assert (0 < (nz * IZR k) * (IZR k * IZR ki)) by (apply Rmult_lt_0_compat; assumption). assert (0 < IZR k * IZR k) by (assert (IZR k <> 0) by (apply not_0_IZR, K0); nra).
    assert ((nz * IZR k) * (IZR k * IZR ki) = (nz * IZR ki) * (IZR k * IZR k)) by ring. nra. }
  destruct (nleb (dot3 n (cross3 (vsub3 b a) (vsub3 p a))) n0) eqn:T1.
  { eexists. split; [reflexivity|]. cbn beta iota. intros p0 H. apply CR in H. destruct H as (_ & H & _). apply (OUT k1); [apply S1; reflexivity|exact H]. }
  destruct (nleb (dot3 n (cross3 (vsub3 c b) (vsub3 p b))) n0) eqn:T2.
  { eexists. split; [reflexivity|]. cbn beta iota. intros p0 H. apply CR in H. destruct H as (_ & _ & H & _). apply (OUT k2); [apply S2; reflexivity|exact H]. }
  destruct (nleb (dot3 n (cross3 (vsub3 a c) (vsub3 p c))) n0) eqn:T3.
  { eexists. split; [reflexivity|]. cbn beta iota. intros p0 H. apply CR in H. destruct H as (_ & _ & _ & H & _). apply (OUT k3); [apply S3; reflexivity|exact H]. }
  assert (I1 : 0 < nz * IZR k1). { destruct (Rlt_le_dec 0 (nz * IZR k1)) as [H|H]; [exact H|]. apply S1 in H. discriminate. }
  assert (I2 : 0 < nz * IZR k2). { destruct (Rlt_le_dec 0 (nz * IZR k2)) as [H|H]; [exact H|]. apply S2 in H. discriminate. }
  assert (I3 : 0 < nz * IZR k3). { destruct (Rlt_le_dec 0 (nz * IZR k3)) as [H|H]; [exact H|]. apply S3 in H. discriminate. }
  assert (SUM : (k1 + k2 + k3 = k)%Z) by (unfold k1, k2, k3, k, zedge; ring).
  assert (IK : 0 < nz * IZR k) by (rewrite <- SUM, !plus_IZR; lra).
  assert (IN : forall ki, 0 < nz * IZR ki -> 0 < IZR k * IZR ki). { intros ki H. assert (0 < (nz * IZR k) * (nz * IZR ki)) by (apply Rmult_lt_0_compat; assumption). assert (0 < nz * nz) by nra. assert ((nz * IZR k) * (nz * IZR ki) = (IZR k * IZR ki) * (nz * nz)) by ring. nra. }
  eexists. split; [reflexivity|]. cbn beta iota. split.
  - destruct P1 as [[? ?] _], P2 as [[? ?] _], P3 as [? ?]. intros ax [->|[->| ->]]; (split; [assumption|apply finite_f; assumption]).
  - exists (rp3 (fval (px (anchor ray))) (fval (py (anchor ray))) (fval (pz a))). split; [apply CR; repeat split; auto|]. cbn [rp3 px py pz].
    split; [rewrite (gr_val _ _ _ P1), (gr_val _ _ _ O1); reflexivity|]. split; [rewrite (gr_val _ _ _ P2), (gr_val _ _ _ O2); reflexivity|]. rewrite bp_powerRZ. exact P4.
Qed.
Print Assumptions C192_exact.

(** ** All faces of a mesh *)
Theorem C192_mesh : forall (e : Z) (ray : line3 F64) faces acc, (-200 <= e <= 200)%Z -> grid3 e 20 (anchor ray) -> vertical (dir ray) ->
  (forall a b c, In (a, b, c) faces -> grid3 e 20 a /\ grid3 e 20 b /\ grid3 e 20 c /\ level a b c) ->
  exists os, Forall2 (right_answer e ray) faces os /\ collect_intersections ray faces acc = Ok (acc ++ hits_of os).
Proof.
  intros e ray faces acc E GO VD. revert acc. induction faces as [|[[a b] c] r IH]; intros acc H.
  - exists []. split; [constructor|]. cbn. rewrite app_nil_r. reflexivity.
  - destruct (H a b c (or_introl eq_refl)) as (GA & GB & GC & L). destruct (C192_exact e ray a b c E GO GA GB GC L VD) as (o & EO & RO). cbn [collect_intersections]. rewrite EO. cbn [obind].
    destruct (IH (match o with Some p => acc ++ [p] | None => acc end)) as (os & F & EC); [intros; apply H; right; assumption|].
    exists (o :: os). split; [constructor; [exact RO|exact F]|]. rewrite EC. destruct o; cbn [hits_of flat_map]; [rewrite <- app_assoc|]; reflexivity.
Qed.
Print Assumptions C192_mesh.

(** ** Sloped triangles *)
Lemma val_lit z : (Z.abs z <= 2 ^ 20)%Z -> fval (fz z) = IZR z.
Proof. intros Z. assert (L : (Z.abs z < 2 ^ 53)%Z) by (eapply Z.le_lt_trans; [exact Z|reflexivity]). apply (lit_int z L). Qed.
Lemma grid_lit20 z : (Z.abs z <= 2 ^ 20)%Z -> on_grid 0 20 (fz z).
Proof.
  intros Z. assert (L : (Z.abs z < 2 ^ 53)%Z) by (eapply Z.le_lt_trans; [exact Z|reflexivity]). destruct (lit_int z L) as [F V].
  split; [apply double_lit|]. split; [apply finite_f, F|]. exists z. split; [exact Z|]. change (fval (fz z)) with (fval (@lit F64 z 0)). rewrite V. cbn. ring.
Qed.
Lemma grid3_lit20 a b c : (Z.abs a <= 2 ^ 20)%Z -> (Z.abs b <= 2 ^ 20)%Z -> (Z.abs c <= 2 ^ 20)%Z -> grid3 0 20 (fp3 a b c).
Proof. intros. split; [|split]; apply grid_lit20; assumption. Qed.
Lemma down_vertical : vertical (fp3 0 0 (-1)).
Proof.
  destruct (grid3_lit20 0 0 (-1)) as ((A & A' & _) & (B & B' & _) & (C & C' & _)); try discriminate. split; [intros ax [->|[->| ->]]; split; assumption|].
  cbn [fp3 px py pz]. rewrite !val_lit by discriminate. split; [reflexivity|]. split; [reflexivity|]. rewrite Rabs_left1; lra.
Qed.
Lemma real_lit a b c : (Z.abs a <= 2 ^ 20)%Z -> (Z.abs b <= 2 ^ 20)%Z -> (Z.abs c <= 2 ^ 20)%Z -> real3 (fp3 a b c) = rp3 (IZR a) (IZR b) (IZR c).
Proof. intros. unfold real3. cbn [fp3 px py pz]. rewrite !val_lit by assumption. reflexivity. Qed.
(** A ray straight down through the common edge of two triangles with small integers as coordinates: exactly it crosses neither, yet both report a hit. *)
Theorem C192_sloped_refuted : exists a b c d o : pt3 F64, grid3 0 20 a /\ grid3 0 20 b /\ grid3 0 20 c /\ grid3 0 20 d /\ grid3 0 20 o /\ vertical (fp3 0 0 (-1)) /\
  let ray := mkline3 o (fp3 0 0 (-1)) in
  (forall q, ~ crosses (real_line ray) (real3 a) (real3 b) (real3 c) q) /\ (forall q, ~ crosses (real_line ray) (real3 b) (real3 a) (real3 d) q) /\
  exists p, intersection_ray_triangle ray a b c = Ok (Some p) /\ intersection_ray_triangle ray b a d = Ok (Some p).
Proof.
  exists (fp3 2 6 (-2)), (fp3 10 (-8) 4), (fp3 6 2 (-12)), (fp3 (-6) 2 (-8)), (fp3 6 (-1) 100).
  do 5 (split; [apply grid3_lit20; discriminate|]). split; [exact down_vertical|]. cbn zeta. split; [|split].
  - intros q (_ & (t & _ & P) & u & v & w & U & V & W & S & Q). unfold real_line in P. rewrite !real_lit in Q by discriminate. cbn [anchor dir] in P. rewrite !real_lit in P by discriminate.
    unfold at_param, weighted, rp3 in P, Q. cbn [px py pz anchor dir] in P, Q. rewrite P in Q. injection Q as Q1 Q2 _. lra.
  - intros q (_ & (t & _ & P) & u & v & w & U & V & W & S & Q). unfold real_line in P. rewrite !real_lit in Q by discriminate. cbn [anchor dir] in P. rewrite !real_lit in P by discriminate.
    unfold at_param, weighted, rp3 in P, Q. cbn [px py pz anchor dir] in P, Q. rewrite P in Q. injection Q as Q1 Q2 _. lra.
  - exists (@mk3 F64 (S754_finite false 6755399441055744 (-50)) (S754_finite true 4503599627370496 (-52)) (S754_finite false 9007199254740864 (-53))). split; vmeq.
Qed.
Print Assumptions C192_sloped_refuted.

(** Two level triangles making a square; a ray through one, one through their common edge (missed, rightly), one away. *)
Example C192_case : grid3 0 20 (fp3 3 1 9) /\ level (fp3 0 0 2) (fp3 4 0 2) (fp3 4 4 2) /\ vertical (fp3 0 0 (-1)) /\
  collect_intersections (mkline3 (fp3 3 1 9) (fp3 0 0 (-1))) [(fp3 0 0 2, fp3 4 0 2, fp3 4 4 2); (fp3 0 0 2, fp3 4 4 2, fp3 0 4 2)] [] = Ok [fp3 3 1 2] /\
  collect_intersections (mkline3 (fp3 2 2 9) (fp3 0 0 (-1))) [(fp3 0 0 2, fp3 4 0 2, fp3 4 4 2); (fp3 0 0 2, fp3 4 4 2, fp3 0 4 2)] [] = Ok [] /\
  collect_intersections (mkline3 (fp3 3 1 1) (fp3 0 0 (-1))) [(fp3 0 0 2, fp3 4 0 2, fp3 4 4 2); (fp3 0 0 2, fp3 4 4 2, fp3 0 4 2)] [] = Ok [].
Proof. split; [apply grid3_lit20; discriminate|]. split; [split; reflexivity|]. split; [exact down_vertical|]. repeat split; vmeq. Qed.
