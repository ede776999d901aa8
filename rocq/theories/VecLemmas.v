From Verif Require Import Base Num NumLemmas BBoxLemmas VecModel VecSpec.
From Coq Require Import Reals Lra Psatz.
Local Open Scope R_scope.
Ltac toR := match goal with |- @eq _ ?a ?b => change (@eq R a b) end.

Lemma rsq3_nonneg a : 0 <= rsq3 a.
Proof. unfold rsq3, rdot3. nra. Qed.
Lemma rsq2_nonneg a : 0 <= rsq2 a.
Proof. unfold rsq2, rdot2. nra. Qed.
Lemma rsq3_zero (a : pt3 RN) : rsq3 a = 0 <-> px a = 0 /\ py a = 0 /\ pz a = 0.
Proof. unfold rsq3, rdot3. split; [intros H; repeat split; nra|intros (-> & -> & ->); lra]. Qed.
Lemma rsq2_zero (a : pt2 RN) : rsq2 a = 0 <-> x2 a = 0 /\ y2 a = 0.
Proof. unfold rsq2, rdot2. split; [intros H; repeat split; nra|intros (-> & ->); lra]. Qed.
Lemma dot3_R (a b : pt3 RN) : dot3 a b = rdot3 a b. Proof. reflexivity. Qed.
Lemma dot2_R (a b : pt2 RN) : dot2 a b = rdot2 a b. Proof. reflexivity. Qed.
Lemma abs3_R (a : pt3 RN) : abs3 a = Ok (sqrt (rsq3 a)).
Proof. unfold abs3, nsq. rewrite nonneg_R; [reflexivity|]. apply sqrt_pos. Qed.
Lemma abs2_R (a : pt2 RN) : abs2 a = Ok (sqrt (rsq2 a)).
Proof. unfold abs2, nsq. rewrite nonneg_R; [reflexivity|]. apply sqrt_pos. Qed.

Lemma norm3_new_R (a : pt3 RN) : norm3_new a =
  if Req_EM_T (rsq3 a) 0 then Err NormalizeVecWithoutLength
  else Ok (mk3 (1 / sqrt (rsq3 a) * px a : T RN) (1 / sqrt (rsq3 a) * py a : T RN) (1 / sqrt (rsq3 a) * pz a : T RN)).
Proof.
  unfold norm3_new. rewrite abs3_R. cbn [obind]. pose proof (rsq3_nonneg a).
  destruct (R_eqb_spec (sqrt (rsq3 a)) (@n0 RN)) as [E|E]; rewrite R_n0 in E; destruct (Req_EM_T (rsq3 a) 0) as [D|D].
  - reflexivity.
  - exfalso. apply D. apply sqrt_eq_0; assumption.
  - exfalso. apply E. rewrite D. apply sqrt_0.
  - rewrite R_n1. reflexivity.
Qed.
Lemma norm2_new_R (a : pt2 RN) : norm2_new a =
  if Req_EM_T (rsq2 a) 0 then Err NormalizeVecWithoutLength
  else Ok (mk2 (1 / sqrt (rsq2 a) * x2 a : T RN) (1 / sqrt (rsq2 a) * y2 a : T RN)).
Proof.
  unfold norm2_new. rewrite abs2_R. cbn [obind]. pose proof (rsq2_nonneg a).
  destruct (R_eqb_spec (sqrt (rsq2 a)) (@n0 RN)) as [E|E]; rewrite R_n0 in E; destruct (Req_EM_T (rsq2 a) 0) as [D|D].
  - reflexivity.
  - exfalso. apply D. apply sqrt_eq_0; assumption.
  - exfalso. apply E. rewrite D. apply sqrt_0.
  - rewrite R_n1. reflexivity.
Qed.
Lemma inv_sqrt_sq x : 0 < x -> 0 < 1 / sqrt x /\ (1 / sqrt x) * (1 / sqrt x) * x = 1.
Proof.
  intros H. pose proof (sqrt_lt_R0 x H) as S. split; [apply Rdiv_lt_0_compat; lra|].
  rewrite <- (sqrt_sqrt x) at 3 by lra. field. lra.
Qed.
Lemma unscale (k x : R) : 0 < k -> x = k * (1 / k * x).
Proof. intros. field. lra. Qed.
Lemma norm3_unit a n : norm3_new a = Ok n -> rsq3 n = 1 /\ exists k, 0 < k /\ px a = k * px n /\ py a = k * py n /\ pz a = k * pz n.
Proof.
  rewrite norm3_new_R. destruct (Req_EM_T (rsq3 a) 0) as [D|D]; [discriminate|]. intros [= <-].
  pose proof (rsq3_nonneg a). assert (P : 0 < rsq3 a) by lra. destruct (inv_sqrt_sq _ P) as [A B]. split.
  - transitivity (1 / sqrt (rsq3 a) * (1 / sqrt (rsq3 a)) * rsq3 a); [|exact B]. set (k := 1 / sqrt (rsq3 a)). unfold rsq3, rdot3. cbn. toR; ring.
  - exists (sqrt (rsq3 a)). pose proof (sqrt_lt_R0 _ P). split; [lra|]. cbn. repeat split; apply unscale; lra.
Qed.
Lemma norm2_unit a n : norm2_new a = Ok n -> rsq2 n = 1 /\ exists k, 0 < k /\ x2 a = k * x2 n /\ y2 a = k * y2 n.
Proof.
  rewrite norm2_new_R. destruct (Req_EM_T (rsq2 a) 0) as [D|D]; [discriminate|]. intros [= <-].
  pose proof (rsq2_nonneg a). assert (P : 0 < rsq2 a) by lra. destruct (inv_sqrt_sq _ P) as [A B]. split.
  - transitivity (1 / sqrt (rsq2 a) * (1 / sqrt (rsq2 a)) * rsq2 a); [|exact B]. set (k := 1 / sqrt (rsq2 a)). unfold rsq2, rdot2. cbn. toR; ring.
  - exists (sqrt (rsq2 a)). pose proof (sqrt_lt_R0 _ P). split; [lra|]. cbn. repeat split; apply unscale; lra.
Qed.

Lemma norm3_z_R : exists n, @norm3_z RN = Ok n.
Proof.
  unfold norm3_z, unwrap_res. rewrite norm3_new_R. destruct (Req_EM_T _ 0) as [D|D]; [|eauto].
  exfalso. apply rsq3_zero in D. destruct D as (_ & _ & D). cbn [pz] in D. rewrite R_n1 in D. lra.
Qed.

(** the normal is the area vector scaled to length one, or anything if there is no area *)
Lemma normal_of_face_R (p q r : pt3 RN) : exists n, normal_of_face p q r = Ok n /\
  (rsq3 (area_vec p q r) = 0 \/
   exists k, 0 < k /\ px (area_vec p q r) = k * px n /\ py (area_vec p q r) = k * py n /\ pz (area_vec p q r) = k * pz n).
Proof.
  destruct norm3_z_R as [z Hz]. unfold normal_of_face. change (cross3 (conn p q) (conn q r)) with (area_vec p q r).
  destruct (norm3_new (area_vec p q r)) as [n|e|] eqn:E; rewrite norm3_new_R in E; destruct (Req_EM_T (rsq3 (area_vec p q r)) 0) as [D|D]; try discriminate.
  - rewrite Hz. exists n. split; [reflexivity|]. right. apply (norm3_unit (area_vec p q r) n).
    rewrite norm3_new_R. destruct (Req_EM_T _ 0); [contradiction|exact E].
  - exists z. auto.
Qed.
