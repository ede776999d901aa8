(** Theorems about distances of points with double coordinates (C166). *)
From Verif Require Import Base Num NumLemmas BBoxModel GeomSpec FloatSpec FloatLemmas FloatBridge RootLemmas DistSpec DistLemmas DistLemmas2 DistLemmas3.
From Coq Require Import Floats.SpecFloat Reals Lra.
From Flocq Require Import Core.

(** ** C166 *)
(** The order of the points does not matter, whatever the coordinates. *)
Theorem C166_symmetric : forall p q : pt3 F64, dist_3d p q = dist_3d q p /\ sqr_dist_3d p q = sqr_dist_3d q p.
Proof.
  intros p q. assert (E : sqr_dist_3d p q = sqr_dist_3d q p).
  { unfold sqr_dist_3d. rewrite (nsq_sub_comm (px p)), (nsq_sub_comm (py p)), (nsq_sub_comm (pz p)). reflexivity. }
  split; [unfold dist_3d; rewrite E; reflexivity|exact E].
Qed.
Print Assumptions C166_symmetric.
Theorem C166_symmetric_2d : forall p q : pt2 F64, dist_2d p q = dist_2d q p /\ sqr_dist_2d p q = sqr_dist_2d q p.
Proof.
  intros p q. assert (E : sqr_dist_2d p q = sqr_dist_2d q p).
  { unfold sqr_dist_2d. rewrite (nsq_sub_comm (x2 p)), (nsq_sub_comm (y2 p)). reflexivity. }
  split; [unfold dist_2d; rewrite E; reflexivity|exact E].
Qed.
Print Assumptions C166_symmetric_2d.
(** Finite points: at distance +0.0 from themselves, and never at a negative distance or at none (NaN). *)
Theorem C166_self : (forall p, finite3 p -> dist_3d p p = S754_zero false) /\ (forall p, finite2 p -> dist_2d p p = S754_zero false).
Proof.
  split; intros p F; [apply fin3 in F; destruct F as ((_ & A) & (_ & B) & (_ & C))|apply fin2 in F; destruct F as ((_ & A) & (_ & B))].
  - unfold dist_3d, sqr_dist_3d. rewrite !nsq_sub_self by assumption. reflexivity.
  - unfold dist_2d, sqr_dist_2d. rewrite !nsq_sub_self by assumption. reflexivity.
Qed.
Print Assumptions C166_self.
Theorem C166_not_negative : (forall p q, finite3 p -> finite3 q -> fle n0 (dist_3d p q)) /\ (forall p q, finite2 p -> finite2 q -> fle n0 (dist_2d p q)).
Proof.
  assert (Z : nn (n0 : T F64)) by (split; [reflexivity|left; split; [exact I|cbn; lra]]).
  split; intros p q P Q; [destruct (sqr_key3 p q P Q) as [N _]|destruct (sqr_key2 p q P Q) as [N _]];
    destruct (sqrt_key _ N) as [N' _]; apply fle_key; auto; change (key n0) with 0%R; apply (key_nn _ N').
Qed.
Print Assumptions C166_not_negative.
(** The computed distance is the true one up to a few units in the last place. *)
Theorem C166_accurate : forall p q : pt3 F64, finite3 p -> finite3 q -> moderate (true_dist3 p q) -> close_to (dist_3d p q) (true_dist3 p q).
Proof. exact accurate3. Qed.
Print Assumptions C166_accurate.
Theorem C166_accurate_2d : forall p q : pt2 F64, finite2 p -> finite2 q -> moderate (true_dist2 p q) -> close_to (dist_2d p q) (true_dist2 p q).
Proof. exact accurate2. Qed.
Print Assumptions C166_accurate_2d.
(** What else one expects of distances fails: going round may be shorter, different positions may be at distance zero,
    and finite positions at infinite distance. *)
Theorem C166_triangle_refuted : exists p q r : pt3 F64, finite3 p /\ finite3 q /\ finite3 r /\
  flt (nadd (dist_3d p q) (dist_3d q r)) (dist_3d p r).
Proof.
  exists (@mk3 F64 (lit (-1) (-53)) n0 n0), (@mk3 F64 n1 n0 n0), (@mk3 F64 (lit 4503599627370497 (-52)) n0 n0).
  repeat (split; [intros ax [->|[->| ->]]; split; vm_compute; reflexivity||exact I|]). vm_compute. reflexivity.
Qed.
Print Assumptions C166_triangle_refuted.
Theorem C166_apart_refuted : exists p q : pt3 F64, finite3 p /\ finite3 q /\ flt (px p) (px q) /\ feq (dist_3d p q) n0.
Proof.
  exists (@mk3 F64 n0 n0 n0), (@mk3 F64 (lit 1 (-540)) n0 n0).
  repeat (split; [intros ax [->|[->| ->]]; split; vm_compute; reflexivity||exact I|]). split; vm_compute; reflexivity.
Qed.
Print Assumptions C166_apart_refuted.
Theorem C166_overflow_refuted : exists p q : pt2 F64, finite2 p /\ finite2 q /\ ~ finite (dist_2d p q).
Proof.
  exists (@mk2 F64 n0 n0), (@mk2 F64 (lit 1 512) n0).
  repeat (split; [intros ax [->| ->]; split; vm_compute; reflexivity||exact I|]). vm_compute. tauto.
Qed.
Print Assumptions C166_overflow_refuted.
(** Not a perfect square, with rounding: (1/3, 0, 0) and (0, 1/3, 1/3). *)
Example C166_case : let t := @ndiv F64 n1 (fz 3) in let p := @mk3 F64 t n0 n0 in let q := @mk3 F64 n0 t t in
  finite3 p /\ finite3 q /\ moderate (true_dist3 p q) /\ flt (fz 0) (dist_3d p q) /\ flt (dist_3d p q) (fz 1).
Proof.
  cbv zeta. split; [|split; [|split]].
  1,2: intros ax [->|[->| ->]]; split; vm_compute; reflexivity||exact I.
  2: split; vm_compute; reflexivity.
  right. unfold true_dist3, sqd3, real3. cbn [px py pz].
  set (t := fval _). set (z := fval n0). assert (Z : z = 0%R) by (unfold z; cbn; reflexivity). rewrite Z. clear Z z.
  assert (T : (1/4 <= t <= 1/2)%R).
  { unfold t. replace (@ndiv F64 n1 (fz 3)) with (S754_finite false 6004799503160661 (-54)) by (vm_compute; reflexivity).
    cbn [fval]. rewrite bp_powerRZ. change (bp (-54)) with (/ 18014398509481984)%R. lra. }
  replace ((t - 0) ^ 2 + (0 - t) ^ 2 + (0 - t) ^ 2)%R with (3 * (t * t))%R by ring. rewrite !bp_powerRZ.
  assert (S1 : (1/4 <= sqrt (3 * (t * t)) <= 1)%R).
  { split; [apply Rle_trans with (sqrt ((1/4)*(1/4))); [rewrite sqrt_square; lra|]|apply Rle_trans with (sqrt (1 * 1)); [|rewrite sqrt_square; lra]];
      apply sqrt_le_1_alt; nra. }
  assert (bp (-480) <= bp (-2))%R by (apply bpow_le; discriminate). assert (bp 0 <= bp 511)%R by (apply bpow_le; discriminate).
  change (bp (-2)) with (/ 4)%R in *. change (bp 0) with 1%R in *. lra.
Qed.
