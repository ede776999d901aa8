(** Distances to boxes in doubles (C178). *)
From Verif Require Import Base Num NumLemmas BBoxModel GeomSpec FloatSpec FloatLemmas FloatBridge RootLemmas DistSpec DistLemmas DistLemmas3 CloudSpec BoxDistSpec BoxDistLemmas.
From Coq Require Import Floats.SpecFloat Reals Lra Psatz.
Local Open Scope R_scope.

Lemma fdx3 p : finite3 p -> fd (px p) /\ fd (py p) /\ fd (pz p). Proof. intros H. apply fin3 in H. exact H. Qed.
Lemma fdx2 p : finite2 p -> fd (x2 p) /\ fd (y2 p). Proof. intros H. apply fin2 in H. exact H. Qed.
Lemma finite3_of p : fd (px p) -> fd (py p) -> fd (pz p) -> finite3 p.
Proof. intros A B C ax [->|[->| ->]]; assumption. Qed.
Lemma finite2_of p : fd (x2 p) -> fd (y2 p) -> finite2 p.
Proof. intros A B ax [->| ->]; assumption. Qed.
Lemma flt_fd x y : fd x -> fd y -> flt x y -> fval x < fval y. Proof. intros X Y H. apply flt_val in H; [exact H|apply X|apply Y|apply X|apply Y]. Qed.
Lemma fle_fd x y : fd x -> fd y -> (fle x y <-> fval x <= fval y). Proof. intros X Y. apply fle_val; [apply X|apply Y|apply X|apply Y]. Qed.

(** ** The distance to a point is the computed distance to the closest point of the box *)
Theorem C178_point : forall b p, finite_box3 b -> finite3 p -> exists q, within3 b q /\
  bb3_sqr_distance b p = Ok (sqr_dist_3d p q) /\ bb3_distance b p = Ok (dist_3d p q) /\ apart3 b p (true_dist3 p q) /\
  forall q', within3 b q' -> fle (sqr_dist_3d p q) (sqr_dist_3d p q') /\ fle (dist_3d p q) (dist_3d p q').
Proof.
  intros b p (B1 & B2 & V) P. pose proof (fdx3 _ B1) as (L1 & L2 & L3). pose proof (fdx3 _ B2) as (H1 & H2 & H3). pose proof (fdx3 _ P) as (P1 & P2 & P3).
  pose proof (flt_fd _ _ L1 H1 (V px ltac:(unfold axis3; auto))) as O1. pose proof (flt_fd _ _ L2 H2 (V py ltac:(unfold axis3; auto))) as O2. pose proof (flt_fd _ _ L3 H3 (V pz ltac:(unfold axis3; auto))) as O3.
  set (q := @mk3 F64 (clampf (px (min3 b)) (px (max3 b)) (px p)) (clampf (py (min3 b)) (py (max3 b)) (py p)) (clampf (pz (min3 b)) (pz (max3 b)) (pz p))).
  destruct (clamp_spec _ _ _ L1 H1 P1 (Rlt_le _ _ O1)) as (Q1 & R1 & M1). destruct (clamp_spec _ _ _ L2 H2 P2 (Rlt_le _ _ O2)) as (Q2 & R2 & M2). destruct (clamp_spec _ _ _ L3 H3 P3 (Rlt_le _ _ O3)) as (Q3 & R3 & M3).
  assert (FQ : finite3 q) by (apply finite3_of; assumption).
  destruct (sqr_key3 p q P FQ) as [N _].
  assert (E : bb3_sqr_distance b p = Ok (sqr_dist_3d p q)).
  { rewrite <- (nonneg_ok _ N). unfold bb3_sqr_distance, sqr_dist_3d, q. cbn [px py pz]. rewrite <- !axis_dist by (assumption || lra). reflexivity. }
  exists q. split; [|split; [exact E|split; [|split]]].
  - split; [exact FQ|]. intros ax [->|[->| ->]]; unfold q; cbn [px py pz]; split; apply fle_fd; try assumption; lra.
  - unfold bb3_distance. rewrite E. cbn [obind]. apply nonneg_ok. apply sqrt_key, N.
  - split.
    + exists (real3 q). split; [|reflexivity]. intros ax [->|[->| ->]]; unfold realbox3, real3, q; cbn [px py pz min3 max3]; assumption.
    + intros r C. apply true_mono3. unfold q, real3. intros ax axr [(-> & ->)|[(-> & ->)|(-> & ->)]]; cbn [px py pz]; [apply M1, (C px ltac:(unfold axis3; auto))|apply M2, (C py ltac:(unfold axis3; auto))|apply M3, (C pz ltac:(unfold axis3; auto))].
  - intros q' [F' I']. pose proof (fdx3 _ F') as (Y1 & Y2 & Y3). apply sqr_mono3; try assumption.
    intros ax [->|[->| ->]]; unfold q; cbn [px py pz]; [apply M1; destruct (I' px ltac:(unfold axis3; auto))|apply M2; destruct (I' py ltac:(unfold axis3; auto))|apply M3; destruct (I' pz ltac:(unfold axis3; auto))]; split; apply fle_fd; assumption.
Qed.
Print Assumptions C178_point.
Theorem C178_point_2d : forall b p, finite_box2 b -> finite2 p -> exists q, within2 b q /\
  bb2_sqr_distance b p = Ok (sqr_dist_2d p q) /\ bb2_distance b p = Ok (dist_2d p q) /\ apart2 b p (true_dist2 p q) /\
  forall q', within2 b q' -> fle (sqr_dist_2d p q) (sqr_dist_2d p q') /\ fle (dist_2d p q) (dist_2d p q').
Proof.
  intros b p (B1 & B2 & V) P. pose proof (fdx2 _ B1) as (L1 & L2). pose proof (fdx2 _ B2) as (H1 & H2). pose proof (fdx2 _ P) as (P1 & P2).
  pose proof (flt_fd _ _ L1 H1 (V x2 ltac:(unfold axis2; auto))) as O1. pose proof (flt_fd _ _ L2 H2 (V y2 ltac:(unfold axis2; auto))) as O2.
  set (q := @mk2 F64 (clampf (x2 (min2 b)) (x2 (max2 b)) (x2 p)) (clampf (y2 (min2 b)) (y2 (max2 b)) (y2 p))).
  destruct (clamp_spec _ _ _ L1 H1 P1 (Rlt_le _ _ O1)) as (Q1 & R1 & M1). destruct (clamp_spec _ _ _ L2 H2 P2 (Rlt_le _ _ O2)) as (Q2 & R2 & M2).
  assert (FQ : finite2 q) by (apply finite2_of; assumption).
  destruct (sqr_key2 p q P FQ) as [N _].
  assert (E : bb2_sqr_distance b p = Ok (sqr_dist_2d p q)).
  { rewrite <- (nonneg_ok _ N). unfold bb2_sqr_distance, sqr_dist_2d, q. cbn [x2 y2]. rewrite <- !axis_dist by (assumption || lra). reflexivity. }
  exists q. split; [|split; [exact E|split; [|split]]].
  - split; [exact FQ|]. intros ax [->| ->]; unfold q; cbn [x2 y2]; split; apply fle_fd; try assumption; lra.
  - unfold bb2_distance. rewrite E. cbn [obind]. apply nonneg_ok. apply sqrt_key, N.
  - split.
    + exists (real2 q). split; [|reflexivity]. intros ax [->| ->]; unfold realbox2, real2, q; cbn [x2 y2 min2 max2]; assumption.
    + intros r C. apply true_mono2. unfold q, real2. intros ax axr [(-> & ->)|(-> & ->)]; cbn [x2 y2]; [apply M1, (C x2 ltac:(unfold axis2; auto))|apply M2, (C y2 ltac:(unfold axis2; auto))].
  - intros q' [F' I']. pose proof (fdx2 _ F') as (Y1 & Y2). apply sqr_mono2; try assumption.
    intros ax [->| ->]; unfold q; cbn [x2 y2]; [apply M1; destruct (I' x2 ltac:(unfold axis2; auto))|apply M2; destruct (I' y2 ltac:(unfold axis2; auto))]; split; apply fle_fd; assumption.
Qed.
Print Assumptions C178_point_2d.
(** ... and therefore close to the true distance. *)
Lemma apart3_unique b p D E : apart3 b p D -> apart3 b p E -> D = E.
Proof. intros [(q & C & ->) L] [(r & C' & ->) L']. apply Rle_antisym; auto. Qed.
Lemma apart2_unique b p D E : apart2 b p D -> apart2 b p E -> D = E.
Proof. intros [(q & C & ->) L] [(r & C' & ->) L']. apply Rle_antisym; auto. Qed.
Theorem C178_accurate : forall b p D, finite_box3 b -> finite3 p -> apart3 b p D -> moderate D -> exists d, bb3_distance b p = Ok d /\ close_to d D.
Proof.
  intros b p D B P A M. destruct (C178_point b p B P) as (q & [FQ _] & _ & E & A' & _). rewrite (apart3_unique _ _ _ _ A A') in *. exists (dist_3d p q). split; [exact E|]. apply accurate3; assumption.
Qed.
Print Assumptions C178_accurate.
Theorem C178_accurate_2d : forall b p D, finite_box2 b -> finite2 p -> apart2 b p D -> moderate D -> exists d, bb2_distance b p = Ok d /\ close_to d D.
Proof.
  intros b p D B P A M. destruct (C178_point_2d b p B P) as (q & [FQ _] & _ & E & A' & _). rewrite (apart2_unique _ _ _ _ A A') in *. exists (dist_2d p q). split; [exact E|]. apply accurate2; assumption.
Qed.
Print Assumptions C178_accurate_2d.
(** ** The same for two boxes *)
Theorem C178_boxes : forall a b, finite_box3 a -> finite_box3 b -> exists p q, within3 a p /\ within3 b q /\
  bb3_sqr_distance_bb a b = Ok (sqr_dist_3d p q) /\ gap3 a b (true_dist3 p q) /\
  forall p' q', within3 a p' -> within3 b q' -> fle (sqr_dist_3d p q) (sqr_dist_3d p' q').
Proof.
  intros a b (A1 & A2 & VA) (B1 & B2 & VB).
  pose proof (fdx3 _ A1) as (L1 & L2 & L3). pose proof (fdx3 _ A2) as (H1 & H2 & H3). pose proof (fdx3 _ B1) as (K1 & K2 & K3). pose proof (fdx3 _ B2) as (G1 & G2 & G3).
  pose proof (flt_fd _ _ L1 H1 (VA px ltac:(unfold axis3; auto))) as O1. pose proof (flt_fd _ _ L2 H2 (VA py ltac:(unfold axis3; auto))) as O2. pose proof (flt_fd _ _ L3 H3 (VA pz ltac:(unfold axis3; auto))) as O3.
  pose proof (flt_fd _ _ K1 G1 (VB px ltac:(unfold axis3; auto))) as U1. pose proof (flt_fd _ _ K2 G2 (VB py ltac:(unfold axis3; auto))) as U2. pose proof (flt_fd _ _ K3 G3 (VB pz ltac:(unfold axis3; auto))) as U3.
  pose proof (gap_dist _ _ _ _ L1 H1 K1 G1 (Rlt_le _ _ O1) (Rlt_le _ _ U1)) as X. destruct (nearpair _ _ _ _) as [u1 v1]. destruct X as (X1 & X2 & X3 & X4 & X5 & X6).
  pose proof (gap_dist _ _ _ _ L2 H2 K2 G2 (Rlt_le _ _ O2) (Rlt_le _ _ U2)) as Y. destruct (nearpair _ _ _ _) as [u2 v2]. destruct Y as (Y1 & Y2 & Y3 & Y4 & Y5 & Y6).
  pose proof (gap_dist _ _ _ _ L3 H3 K3 G3 (Rlt_le _ _ O3) (Rlt_le _ _ U3)) as Z. destruct (nearpair _ _ _ _) as [u3 v3]. destruct Z as (Z1 & Z2 & Z3 & Z4 & Z5 & Z6).
  set (p := @mk3 F64 u1 u2 u3). set (q := @mk3 F64 v1 v2 v3).
  assert (FP : finite3 p) by (apply finite3_of; assumption). assert (FQ : finite3 q) by (apply finite3_of; assumption). destruct (sqr_key3 p q FP FQ) as [N _].
  exists p, q. split; [|split; [|split; [|split]]].
  - split; [exact FP|]. intros ax [->|[->| ->]]; unfold p; cbn [px py pz]; split; apply fle_fd; try assumption; lra.
  - split; [exact FQ|]. intros ax [->|[->| ->]]; unfold q; cbn [px py pz]; split; apply fle_fd; try assumption; lra.
  - rewrite <- (nonneg_ok _ N). unfold bb3_sqr_distance_bb, sqr_dist_3d, p, q. cbn [px py pz]. rewrite <- X5, <- Y5, <- Z5. reflexivity.
  - split.
    + exists (real3 p), (real3 q). split; [|split; [|reflexivity]]; intros ax [->|[->| ->]]; unfold realbox3, real3, p, q; cbn [px py pz min3 max3]; assumption.
    + intros r t C C'. apply true_mono3. unfold p, q. intros ax axr [(-> & ->)|[(-> & ->)|(-> & ->)]]; cbn [px py pz];
        [apply X6; [apply (C px)|apply (C' px)]|apply Y6; [apply (C py)|apply (C' py)]|apply Z6; [apply (C pz)|apply (C' pz)]]; unfold axis3; auto.
  - intros p' q' [F I'] [F' J']. pose proof (fdx3 _ F) as (E1 & E2 & E3). pose proof (fdx3 _ F') as (S1 & S2 & S3). apply sqr_mono3; try assumption.
    intros ax [->|[->| ->]]; unfold p, q; cbn [px py pz];
      [apply X6; [destruct (I' px ltac:(unfold axis3; auto))|destruct (J' px ltac:(unfold axis3; auto))]|apply Y6; [destruct (I' py ltac:(unfold axis3; auto))|destruct (J' py ltac:(unfold axis3; auto))]
      |apply Z6; [destruct (I' pz ltac:(unfold axis3; auto))|destruct (J' pz ltac:(unfold axis3; auto))]]; split; apply fle_fd; assumption.
Qed.
Print Assumptions C178_boxes.
Theorem C178_boxes_2d : forall a b, finite_box2 a -> finite_box2 b -> exists p q, within2 a p /\ within2 b q /\
  bb2_sqr_distance_bb a b = Ok (sqr_dist_2d p q) /\ gap2 a b (true_dist2 p q) /\
  forall p' q', within2 a p' -> within2 b q' -> fle (sqr_dist_2d p q) (sqr_dist_2d p' q').
Proof.
  intros a b (A1 & A2 & VA) (B1 & B2 & VB).
  pose proof (fdx2 _ A1) as (L1 & L2). pose proof (fdx2 _ A2) as (H1 & H2). pose proof (fdx2 _ B1) as (K1 & K2). pose proof (fdx2 _ B2) as (G1 & G2).
  pose proof (flt_fd _ _ L1 H1 (VA x2 ltac:(unfold axis2; auto))) as O1. pose proof (flt_fd _ _ L2 H2 (VA y2 ltac:(unfold axis2; auto))) as O2.
  pose proof (flt_fd _ _ K1 G1 (VB x2 ltac:(unfold axis2; auto))) as U1. pose proof (flt_fd _ _ K2 G2 (VB y2 ltac:(unfold axis2; auto))) as U2.
  pose proof (gap_dist _ _ _ _ L1 H1 K1 G1 (Rlt_le _ _ O1) (Rlt_le _ _ U1)) as X. destruct (nearpair _ _ _ _) as [u1 v1]. destruct X as (X1 & X2 & X3 & X4 & X5 & X6).
  pose proof (gap_dist _ _ _ _ L2 H2 K2 G2 (Rlt_le _ _ O2) (Rlt_le _ _ U2)) as Y. destruct (nearpair _ _ _ _) as [u2 v2]. destruct Y as (Y1 & Y2 & Y3 & Y4 & Y5 & Y6).
  set (p := @mk2 F64 u1 u2). set (q := @mk2 F64 v1 v2).
  assert (FP : finite2 p) by (apply finite2_of; assumption). assert (FQ : finite2 q) by (apply finite2_of; assumption). destruct (sqr_key2 p q FP FQ) as [N _].
  exists p, q. split; [|split; [|split; [|split]]].
  - split; [exact FP|]. intros ax [->| ->]; unfold p; cbn [x2 y2]; split; apply fle_fd; try assumption; lra.
  - split; [exact FQ|]. intros ax [->| ->]; unfold q; cbn [x2 y2]; split; apply fle_fd; try assumption; lra.
  - rewrite <- (nonneg_ok _ N). unfold bb2_sqr_distance_bb, sqr_dist_2d, p, q. cbn [x2 y2]. rewrite <- X5, <- Y5. reflexivity.
  - split.
    + exists (real2 p), (real2 q). split; [|split; [|reflexivity]]; intros ax [->| ->]; unfold realbox2, real2, p, q; cbn [x2 y2 min2 max2]; assumption.
    + intros r t C C'. apply true_mono2. unfold p, q. intros ax axr [(-> & ->)|(-> & ->)]; cbn [x2 y2];
        [apply X6; [apply (C x2)|apply (C' x2)]|apply Y6; [apply (C y2)|apply (C' y2)]]; unfold axis2; auto.
  - intros p' q' [F I'] [F' J']. pose proof (fdx2 _ F) as (E1 & E2). pose proof (fdx2 _ F') as (S1 & S2). apply sqr_mono2; try assumption.
    intros ax [->| ->]; unfold p, q; cbn [x2 y2];
      [apply X6; [destruct (I' x2 ltac:(unfold axis2; auto))|destruct (J' x2 ltac:(unfold axis2; auto))]|apply Y6; [destruct (I' y2 ltac:(unfold axis2; auto))|destruct (J' y2 ltac:(unfold axis2; auto))]]; split; apply fle_fd; assumption.
Qed.
Print Assumptions C178_boxes_2d.
Ltac axes := intros ax [->|[->| ->]]; try split; vm_compute; first [reflexivity|exact I].
(** ** What fails: a position outside of the box at distance 0 *)
Theorem C178_zero_refuted : exists b p, finite_box3 b /\ finite3 p /\ bb3_distance b p = Ok (S754_zero false) /\ flt (px (max3 b)) (px p).
Proof.
  exists (mkbb3 (fp3 (-1) (-1) (-1)) (fp3 0 1 1)), (@mk3 F64 (@lit F64 1 (-600)) n0 n0).
  split; [split; [|split]; axes|]. split; [axes|]. split; [vmeq|vm_compute; reflexivity].
Qed.
Print Assumptions C178_zero_refuted.
Example C178_case : finite_box3 (mkbb3 (fp3 0 0 0) (fp3 2 2 2)) /\ finite3 (fp3 5 6 1) /\ bb3_distance (mkbb3 (fp3 0 0 0) (fp3 2 2 2)) (fp3 5 6 1) = Ok (fz 5) /\
  within3 (mkbb3 (fp3 0 0 0) (fp3 2 2 2)) (fp3 2 2 1) /\ dist_3d (fp3 5 6 1) (fp3 2 2 1) = fz 5 /\
  bb2_sqr_distance_bb (mkbb2 (fp2 0 0) (fp2 2 2)) (mkbb2 (fp2 5 6) (fp2 7 7)) = Ok (fz 25).
Proof. split; [split; [|split]; axes|]. split; [axes|]. split; [vmeq|]. split; [split; axes|]. split; vmeq. Qed.
