(** Vectors and directions of the plane (C154), corners of bounding boxes (C155). *)
From Verif Require Import Base Num NumLemmas BBoxModel GeomSpec BBoxLemmas KdModel KdLemmas VecModel VecSpec VecLemmas MatrixModel MatrixSpec MatrixLemmas.
From Coq Require Import Floats.SpecFloat Reals Lra Lia.
Local Open Scope R_scope.

(** C154: the two products of plane vectors are the cosine and the sine of the angle between them times
    the lengths; the angle counts counterclockwise from the first to the second. *)
Theorem C154_products : forall (a b : pt2 RN) (k t : R),
  x2 b = k * (x2 a * cos t - y2 a * sin t) -> y2 b = k * (x2 a * sin t + y2 a * cos t) ->
  (dot2 a b : R) = k * rsq2 a * cos t /\ (cross2 a b : R) = k * rsq2 a * sin t.
Proof.
  intros [ax ay] [bx by_] k t X Y. unfold dot2, cross2, rsq2, rdot2. cbn [x2 y2 T RN nadd nsub nmul] in *. rewrite X, Y. split; toR; ring.
Qed.
Print Assumptions C154_products.
(** Every vector is such a multiple of a vector with a length. *)
Theorem C154_angle_exists : forall a b : pt2 RN, rsq2 a <> 0 -> exists k t, 0 <= k /\
  x2 b = k * (x2 a * cos t - y2 a * sin t) /\ y2 b = k * (x2 a * sin t + y2 a * cos t).
Proof.
  intros [a1 a2] [b1 b2] A. change (T RN) with R in *. set (a := @mk2 RN a1 a2) in *. set (b := @mk2 RN b1 b2). assert (A0 : 0 < rsq2 a) by (pose proof (rsq2_nonneg a); lra).
  set (c := (x2 a * x2 b + y2 a * y2 b) / rsq2 a). set (s := (x2 a * y2 b - y2 a * x2 b) / rsq2 a).
  assert (B : x2 b = x2 a * c - y2 a * s /\ y2 b = x2 a * s + y2 a * c).
  { unfold c, s. unfold rsq2, rdot2, a, b in *. cbn [x2 y2] in *. split; match goal with |- @eq _ ?l ?r => change (@eq R l r) end; field; assumption. }
  destruct B as [B1 B2].
  assert (P : exists k t, 0 <= k /\ c = k * cos t /\ s = k * sin t).
  { assert (N0 : 0 <= c * c + s * s) by nra. destruct (Req_dec (c * c + s * s) 0) as [Z|Z].
    - exists 0, 0. assert (c = 0) by nra. assert (s = 0) by nra. split; [lra|]. split; lra.
    - set (k := sqrt (c * c + s * s)). assert (K : 0 < k) by (apply sqrt_lt_R0; lra). assert (KK : k * k = c * c + s * s) by (apply sqrt_sqrt; lra).
      assert (U : (c / k) * (c / k) + (s / k) * (s / k) = 1).
      { replace ((c / k) * (c / k) + (s / k) * (s / k)) with ((c * c + s * s) / (k * k)) by (field; lra). rewrite KK. field. lra. }
      assert (C1 : -1 <= c / k <= 1) by (split; nra).
      assert (SC : sin (acos (c / k)) * sin (acos (c / k)) = (s / k) * (s / k)).
      { pose proof (sin2_cos2 (acos (c / k))) as H. unfold Rsqr in H. rewrite cos_acos in H by exact C1. lra. }
      assert (SQ : sin (acos (c / k)) = s / k \/ sin (- acos (c / k)) = s / k).
      { rewrite sin_neg. assert (F : (sin (acos (c / k)) - s / k) * (sin (acos (c / k)) + s / k) = 0) by lra. apply Rmult_integral in F. destruct F; [left|right]; lra. }
      destruct SQ as [S|S]; [exists k, (acos (c / k))|exists k, (- acos (c / k))]; rewrite ?S, ?cos_neg, cos_acos by exact C1; (split; [lra|split; field; lra]). }
  destruct P as (k & t & K & C & S). exists k, t. split; [exact K|]. rewrite B1, B2, C, S. split; ring.
Qed.
Print Assumptions C154_angle_exists.
Example C154_case : rsq2 (rp2 3 4) <> 0 /\ exists k t, 0 <= k /\ x2 (rp2 (-4) 3) = k * (x2 (rp2 3 4) * cos t - y2 (rp2 3 4) * sin t).
Proof. assert (H : rsq2 (rp2 3 4) <> 0) by (unfold rsq2, rdot2, rp2; cbn [x2 y2]; cbn [T RN]; lra). split; [exact H|]. destruct (C154_angle_exists (rp2 3 4) (rp2 (-4) 3) H) as (k & t & K & E & _). eauto. Qed.

(** normalized of a point and the normalised type agree without rounding: both fail exactly for the zero
    vector, and otherwise give the vector of length one in the same direction. *)
Lemma normalized2_R (a : pt2 RN) : normalized2 a = norm2_new a.
Proof.
  rewrite norm2_new_R. unfold normalized2. rewrite abs2_R. cbn [obind]. pose proof (rsq2_nonneg a).
  rewrite R_n0. destruct (R_eqb_spec (sqrt (rsq2 a)) 0) as [Z|Z].
  - apply sqrt_eq_0 in Z; [|lra]. destruct (Req_EM_T (rsq2 a) 0); [reflexivity|contradiction].
  - destruct (Req_EM_T (rsq2 a) 0) as [Z'|Z']; [rewrite Z', sqrt_0 in Z; contradiction|]. f_equal. f_equal; cbn [T RN ndiv]; toR; field; exact Z.
Qed.
Lemma normalized3_same (a : pt3 RN) : normalized3 a = norm3_new a.
Proof.
  rewrite norm3_new_R, normalized3_R. destruct (Req_EM_T (rsq3 a) 0) as [Z|Z]; [reflexivity|]. assert (S : 0 < sqrt (rsq3 a)) by (apply sqrt_lt_R0; pose proof (rsq3_nonneg a); lra).
  f_equal. unfold rp3. f_equal; cbn [T RN ndiv nmul]; match goal with |- @eq _ ?l ?r => change (@eq R l r) end; toR; field; lra.
Qed.
Theorem C154_normalized : (forall a : pt2 RN, normalized2 a = norm2_new a /\
    (normalized2 a = Err NormalizeVecWithoutLength <-> x2 a = 0 /\ y2 a = 0) /\
    (normalized2 a = Err NormalizeVecWithoutLength \/ exists n k, normalized2 a = Ok n /\ rsq2 n = 1 /\ 0 < k /\ x2 a = k * x2 n /\ y2 a = k * y2 n)) /\
  forall a : pt3 RN, normalized3 a = norm3_new a /\
    (normalized3 a = Err NormalizeVecWithoutLength <-> px a = 0 /\ py a = 0 /\ pz a = 0) /\
    (normalized3 a = Err NormalizeVecWithoutLength \/ exists n k, normalized3 a = Ok n /\ rsq3 n = 1 /\ 0 < k /\ px a = k * px n /\ py a = k * py n /\ pz a = k * pz n).
Proof.
  split; intros a.
  - rewrite normalized2_R. split; [reflexivity|]. destruct (norm2_new a) as [n|e|] eqn:E.
    + destruct (norm2_unit a n E) as (U & k & K & X & Y). split; [|right; exists n, k; auto].
      split; [discriminate|]. intros Z. apply rsq2_zero in Z. rewrite norm2_new_R in E. destruct (Req_EM_T (rsq2 a) 0); [discriminate|contradiction].
    + rewrite norm2_new_R in E. destruct (Req_EM_T (rsq2 a) 0) as [Z|Z]; [|discriminate]. injection E as <-. split; [|auto]. split; [|auto]. intros _. apply rsq2_zero, Z.
    + rewrite norm2_new_R in E. destruct (Req_EM_T (rsq2 a) 0); discriminate.
  - rewrite normalized3_same. split; [reflexivity|]. destruct (norm3_new a) as [n|e|] eqn:E.
    + destruct (norm3_unit a n E) as (U & k & K & X & Y). split; [|right; exists n, k; auto].
      split; [discriminate|]. intros Z. apply rsq3_zero in Z. rewrite norm3_new_R in E. destruct (Req_EM_T (rsq3 a) 0); [discriminate|contradiction].
    + rewrite norm3_new_R in E. destruct (Req_EM_T (rsq3 a) 0) as [Z|Z]; [|discriminate]. injection E as <-. split; [|auto]. split; [|auto]. intros _. apply rsq3_zero, Z.
    + rewrite norm3_new_R in E. destruct (Req_EM_T (rsq3 a) 0); discriminate.
Qed.
Print Assumptions C154_normalized.
Example C154_normalized_case : exists n, normalized2 (rp2 3 4) = Ok n /\ rsq2 n = 1.
Proof.
  destruct C154_normalized as [H _]. destruct (H (rp2 3 4)) as (_ & A & [B|(n & k & B & U & _)]); [|eauto].
  apply A in B. cbn [x2 y2 rp2] in B. cbn [T RN] in B. lra.
Qed.
(** With f64 they differ: normalising (3, 4) gives 0.6 with one and a greater number with the other. *)
Theorem C154_normalized_agree_f64_refuted : exists a b : pt2 F64,
  normalized2 (fp2 3 4) = Ok a /\ norm2_new (fp2 3 4) = Ok b /\ flt (x2 a) (x2 b).
Proof.
  exists (@mk2 F64 (ndiv (fz 3) (fz 5)) (ndiv (fz 4) (fz 5))), (@mk2 F64 (nmul (ndiv (fz 1) (fz 5)) (fz 3)) (nmul (ndiv (fz 1) (fz 5)) (fz 4))).
  split; [vmeq|]. split; [vmeq|]. vm_compute. reflexivity.
Qed.
Print Assumptions C154_normalized_agree_f64_refuted.

(** The unit directions never panic with f64 and are exact. *)
Theorem C154_unit_directions : @norm2_x F64 = Ok (fp2 1 0) /\ @norm2_y F64 = Ok (fp2 0 1) /\
  @norm3_x F64 = Ok (fp3 1 0 0) /\ @norm3_y F64 = Ok (fp3 0 1 0) /\ @norm3_z F64 = Ok (fp3 0 0 1).
Proof. repeat split; vmeq. Qed.
Print Assumptions C154_unit_directions.

(** The negative of a direction has the same length and points the other way; negating again gives the
    direction back, bit by bit with f64. *)
Theorem C154_negative :
  (forall a : pt3 RN, rsq3 (norm3_neg a) = rsq3 a /\ rdot3 a (norm3_neg a) = - rsq3 a) /\
  (forall a : pt2 RN, rsq2 (norm2_neg a) = rsq2 a /\ rdot2 a (norm2_neg a) = - rsq2 a) /\
  (forall a : pt3 F64, norm3_neg (norm3_neg a) = a) /\ forall a : pt2 F64, norm2_neg (norm2_neg a) = a.
Proof.
  split; [|split; [|split]].
  - intros [x y z]. unfold rsq3, rdot3, norm3_neg. cbn [px py pz nneg RN T]. split; toR; ring.
  - intros [x y]. unfold rsq2, rdot2, norm2_neg. cbn [x2 y2 nneg RN T]. split; toR; ring.
  - intros [x y z]. unfold norm3_neg. cbn [px py pz]. f_equal; [destruct x as [s|s| |s m e]|destruct y as [s|s| |s m e]|destruct z as [s|s| |s m e]]; cbn; rewrite ?Bool.negb_involutive; reflexivity.
  - intros [x y]. unfold norm2_neg. cbn [x2 y2]. f_equal; [destruct x as [s|s| |s m e]|destruct y as [s|s| |s m e]]; cbn; rewrite ?Bool.negb_involutive; reflexivity.
Qed.
Print Assumptions C154_negative.

(** C155: the corners are exactly the points all of whose coordinates are the least or the greatest of the
    box, whatever the numbers are. *)
Theorem C155_corners : forall NM,
  (forall (b : bb3 NM) q, In q (bb3_corners b) <-> forall ax, axis3 ax -> ax q = ax (min3 b) \/ ax q = ax (max3 b)) /\
  (forall b : bb3 NM, length (bb3_corners b) = 8%nat) /\
  (forall (b : bb2 NM) q, In q (bb2_corners b) <-> forall ax, axis2 ax -> ax q = ax (min2 b) \/ ax q = ax (max2 b)) /\
  forall b : bb2 NM, length (bb2_corners b) = 4%nat.
Proof.
  intros NM. split; [|split; [reflexivity|split; [|reflexivity]]].
  - intros [[x0 y0 z0] [x1 y1 z1]] [x y z]. unfold bb3_corners. cbn [min3 max3 px py pz In]. split.
    + intros Q ax [->|[->| ->]]; cbn [px py pz]; destruct Q as [Q|[Q|[Q|[Q|[Q|[Q|[Q|[Q|[]]]]]]]]]; injection Q as <- <- <-; auto.
    + intros Q. pose proof (Q px (or_introl eq_refl)) as X. pose proof (Q py (or_intror (or_introl eq_refl))) as Y. pose proof (Q pz (or_intror (or_intror eq_refl))) as Z. cbn [px py pz] in *.
      destruct X as [-> | ->], Y as [-> | ->], Z as [-> | ->]; tauto.
  - intros [[x0 y0] [x1 y1]] [x y]. unfold bb2_corners. cbn [min2 max2 x2 y2 In]. split.
    + intros Q ax [->| ->]; cbn [x2 y2]; destruct Q as [Q|[Q|[Q|[Q|[]]]]]; injection Q as <- <-; auto.
    + intros Q. pose proof (Q x2 (or_introl eq_refl)) as X. pose proof (Q y2 (or_intror eq_refl)) as Y. cbn [x2 y2] in *.
      destruct X as [-> | ->], Y as [-> | ->]; tauto.
Qed.
Print Assumptions C155_corners.

(** The bounding box of the corners of a box is the box, with f64. *)
Theorem C155_box_of_corners : (forall dbg (b : bb3 F64), fvalid3 b -> bb3_from_iterator dbg (bb3_corners b) = Ok b) /\
  forall dbg (b : bb2 F64), fvalid2 b -> bb2_from_iterator dbg (bb2_corners b) = Ok b.
Proof.
  assert (NM : forall a b : T F64, flt a b -> number a /\ number b).
  { intros a b L. split; intros ->; [|destruct a as [s|s| |s m e]]; try destruct s; discriminate L. }
  assert (MI : forall a b v : T F64, flt a b -> v = a \/ v = b -> fle v a -> v = a).
  { intros a b v L [-> | ->] H; [reflexivity|]. exfalso. pose proof (ltb_not_leb F64_laws a b L) as K. change (nleb b a = true) in H. congruence. }
  assert (MA : forall a b v : T F64, flt a b -> v = a \/ v = b -> fle b v -> v = b).
  { intros a b v L [-> | ->] H; [|reflexivity]. exfalso. pose proof (ltb_not_leb F64_laws a b L) as K. change (nleb b a = true) in H. congruence. }
  split.
  - intros dbg b V. destruct (C155_corners F64) as (C & CL & _).
    assert (N : Forall number3 (bb3_corners b)).
    { apply Forall_forall. intros q Q ax A. destruct (proj1 (C b q) Q ax A) as [-> | ->]; apply (NM _ _ (V ax A)). }
    assert (IN : forall ax, axis3 ax -> In (ax (min3 b)) (map ax (bb3_corners b)) /\ In (ax (max3 b)) (map ax (bb3_corners b)) /\
      forall v, In v (map ax (bb3_corners b)) -> v = ax (min3 b) \/ v = ax (max3 b)).
    { intros ax A. split; [|split].
      - apply in_map_iff. exists (min3 b). split; [reflexivity|]. apply C. auto.
      - apply in_map_iff. exists (max3 b). split; [reflexivity|]. apply C. auto.
      - intros v H. apply in_map_iff in H. destruct H as (q & <- & Q). apply (proj1 (C b q) Q ax A). }
    assert (D : forall ax, axis3 ax -> differ (map ax (bb3_corners b))).
    { intros ax A. destruct (IN ax A) as (I1 & I2 & _). exists (ax (min3 b)), (ax (max3 b)). auto. }
    pose proof (from3_spec dbg (bb3_corners b) N) as H. rewrite CL in H. specialize (H eq_refl).
    destruct (bb3_from_iterator dbg (bb3_corners b)) as [b'|e|]; [|exfalso|destruct H].
    + destruct H as [_ H]. assert (E : forall ax, axis3 ax -> ax (min3 b') = ax (min3 b) /\ ax (max3 b') = ax (max3 b)).
      { intros ax A. destruct (H ax A) as ([M1 M2] & [M3 M4] & _). destruct (IN ax A) as (I1 & I2 & I3). specialize (V ax A). split; [apply (MI _ _ _ V)|apply (MA _ _ _ V)]; auto. }
      destruct (E px (or_introl eq_refl)) as [E1 E2]. destruct (E py (or_intror (or_introl eq_refl))) as [E3 E4]. destruct (E pz (or_intror (or_intror eq_refl))) as [E5 E6].
      destruct b as [[x0 y0 z0] [x1 y1 z1]], b' as [[u0 v0 w0] [u1 v1 w1]]. cbn [min3 max3 px py pz] in *. subst. reflexivity.
    + unfold from3_outcome in H. destruct e; try contradiction; [destruct H as (_ & ax & A & K); exact (K (D ax A))|]. rewrite CL in H. lia.
  - intros dbg b V. destruct (C155_corners F64) as (_ & _ & C & CL).
    assert (N : Forall number2 (bb2_corners b)).
    { apply Forall_forall. intros q Q ax A. destruct (proj1 (C b q) Q ax A) as [-> | ->]; apply (NM _ _ (V ax A)). }
    assert (IN : forall ax, axis2 ax -> In (ax (min2 b)) (map ax (bb2_corners b)) /\ In (ax (max2 b)) (map ax (bb2_corners b)) /\
      forall v, In v (map ax (bb2_corners b)) -> v = ax (min2 b) \/ v = ax (max2 b)).
    { intros ax A. split; [|split].
      - apply in_map_iff. exists (min2 b). split; [reflexivity|]. apply C. auto.
      - apply in_map_iff. exists (max2 b). split; [reflexivity|]. apply C. auto.
      - intros v H. apply in_map_iff in H. destruct H as (q & <- & Q). apply (proj1 (C b q) Q ax A). }
    assert (D : forall ax, axis2 ax -> differ (map ax (bb2_corners b))).
    { intros ax A. destruct (IN ax A) as (I1 & I2 & _). exists (ax (min2 b)), (ax (max2 b)). auto. }
    pose proof (from2_spec dbg (bb2_corners b) N) as H. rewrite CL in H. specialize (H eq_refl).
    destruct (bb2_from_iterator dbg (bb2_corners b)) as [b'|e|]; [|exfalso|destruct H].
    + destruct H as [_ H]. assert (E : forall ax, axis2 ax -> ax (min2 b') = ax (min2 b) /\ ax (max2 b') = ax (max2 b)).
      { intros ax A. destruct (H ax A) as ([M1 M2] & [M3 M4] & _). destruct (IN ax A) as (I1 & I2 & I3). specialize (V ax A). split; [apply (MI _ _ _ V)|apply (MA _ _ _ V)]; auto. }
      destruct (E x2 (or_introl eq_refl)) as [E1 E2]. destruct (E y2 (or_intror eq_refl)) as [E3 E4].
      destruct b as [[x0 y0] [x1 y1]], b' as [[u0 v0] [u1 v1]]. cbn [min2 max2 x2 y2] in *. subst. reflexivity.
    + unfold from2_outcome in H. destruct e; try contradiction; [destruct H as (_ & ax & A & K); exact (K (D ax A))|]. rewrite CL in H. lia.
Qed.
Print Assumptions C155_box_of_corners.
Example C155_case : fvalid3 (mkbb3 (fp3 0 (-1) 2) (fp3 1 5 3)) /\ fvalid2 (mkbb2 (fp2 0 (-1)) (fp2 1 5)).
Proof. split; [intros ax [->|[->| ->]]|intros ax [->| ->]]; vm_compute; reflexivity. Qed.
