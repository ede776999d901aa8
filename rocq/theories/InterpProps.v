(** Properties C124 - C132 (interpolation and plane shapes). *)
From Verif Require Import Base BaseLemmas Num NumLemmas GeomSpec VecSpec VecModel MatrixModel MatrixSpec CloudModel CloudSpec CloudLemmas InterpModel InterpSpec InterpLemmas.
From Coq Require Import Floats.SpecFloat Reals Lra Lia ZifyBool ZifyNat ZifyN.
Local Open Scope R_scope.

(** C124: without rounding, up to 21 control points give the points of the Bezier curve at the parameters k / n. *)
Theorem C124_bezier : forall (dbg : bool) (base : list (pt2 RN)) (n : N), (2 <= length base <= 21)%nat ->
  exists l, interpolate_bezier (NM:=RN) real_powi dbg base n = Ok l /\ length l = N.to_nat n /\
    forall k q, nth_error l k = Some q -> on_bezier base (INR k / INR (N.to_nat n)) q.
Proof. exact bezier_R. Qed.
Print Assumptions C124_bezier.

Lemma neighbours_in {P} (Q : P -> Prop) (f : P -> P -> P) l : (forall a b, Q a -> Q b -> Q (f a b)) -> Forall Q l -> Forall Q (neighbours f l).
Proof.
  intros H. induction l as [|a [|b l] IH]; intros F; [constructor|constructor|].
  change (neighbours f (a :: b :: l)) with (f a b :: neighbours f (b :: l)). inversion F as [|? ? F1 F2]; subst. inversion F2; subst.
  constructor; [apply H; assumption|apply IH; assumption].
Qed.
(** The points of the curve stay within every half plane that holds the control points. *)
Theorem C124_bezier_hull : forall (base : list (pt2 RN)) (t u v w : R) (q : pt2 RN), 0 <= t <= 1 -> on_bezier base t q ->
  (forall p, In p base -> u * x2 p + v * y2 p <= w) -> u * x2 q + v * y2 q <= w.
Proof.
  intros base t u v w q T B H. unfold on_bezier in B.
  assert (G : forall k ps, Forall (fun p : pt2 RN => u * x2 p + v * y2 p <= w) ps -> Forall (fun p : pt2 RN => u * x2 p + v * y2 p <= w) (casteljau k t ps)).
  { induction k as [|k IH]; intros ps F; cbn [casteljau]; [exact F|]. apply IH, neighbours_in; [|exact F].
    intros a b A B'. unfold blend. cbn [x2 y2].
    replace (u * ((1 - t) * x2 a + t * x2 b) + v * ((1 - t) * y2 a + t * y2 b)) with ((1 - t) * (u * x2 a + v * y2 a) + t * (u * x2 b + v * y2 b)) by ring.
    assert (X : (1 - t) * (u * x2 a + v * y2 a) <= (1 - t) * w) by (apply Rmult_le_compat_l; lra).
    assert (Y : t * (u * x2 b + v * y2 b) <= t * w) by (apply Rmult_le_compat_l; lra). lra. }
  specialize (G (length base - 1)%nat base (proj2 (Forall_forall _ _) H)). rewrite B in G. inversion G; assumption.
Qed.
Print Assumptions C124_bezier_hull.

Theorem C124_too_few : forall (NM : Num) (powi : T NM -> N -> T NM) (dbg : bool) (base : list (pt2 NM)) (n : N),
  (length base < 2)%nat -> interpolate_bezier powi dbg base n = Err TooFewPoints.
Proof. intros NM powi dbg base n H. unfold interpolate_bezier, lenN. destruct (N.ltb_spec (N.of_nat (length base)) 2); [reflexivity|lia]. Qed.
Print Assumptions C124_too_few.
Example C124_case : on_bezier [@mk2 RN 0 0; @mk2 RN 2 4; @mk2 RN 4 0] (1 / 2) (@mk2 RN 2 2) /\
  interpolate_bezier (NM:=F64) mul_powi true [fp2 0 0; fp2 2 4; fp2 4 0] 4 =
    Ok [fp2 0 0; @mk2 F64 (fz 1) (@lit F64 3 (-1)); fp2 2 2; @mk2 F64 (fz 3) (@lit F64 3 (-1))].
Proof.
  split; [|vmeq]. unfold on_bezier. cbn [length Nat.sub casteljau neighbours]. unfold blend. cbn [x2 y2]. f_equal.
  f_equal; match goal with |- @eq _ ?a ?b => change (@eq R a b) end; field.
Qed.

(** C125: from 22 control points on the factorials do not fit: a debug build panics, a release build gets wrong
    coefficients and, from 67 control points on, divides by zero.  The end of the curve is never among the points. *)
Theorem C125_debug_panics : forall (NM : Num) (powi : T NM -> N -> T NM) (base : list (pt2 NM)) (n : N),
  (22 <= length base)%nat -> (0 < n)%N -> interpolate_bezier powi true base n = Panic.
Proof.
  intros NM powi base n L H. unfold interpolate_bezier, lenN. destruct (N.ltb_spec (N.of_nat (length base)) 2); [lia|].
  destruct (N.to_nat n) as [|k] eqn:E; [lia|]. cbn [push_loop]. unfold control_polygon. destruct base as [|p r]; [cbn in L; lia|].
  cbn [control_loop]. unfold bernstein_polynomial, binominal_coefficient. rewrite factorial_debug by lia. reflexivity.
Qed.
Print Assumptions C125_debug_panics.
Theorem C125_release_panics : forall (NM : Num) (powi : T NM -> N -> T NM) (base : list (pt2 NM)) (n : N),
  (67 <= length base)%nat -> (0 < n)%N -> interpolate_bezier powi false base n = Panic.
Proof.
  intros NM powi base n L H. unfold interpolate_bezier, lenN. destruct (N.ltb_spec (N.of_nat (length base)) 2); [lia|].
  destruct (N.to_nat n) as [|k] eqn:E; [lia|]. cbn [push_loop]. unfold control_polygon. destruct base as [|p r]; [cbn in L; lia|].
  cbn [control_loop]. unfold bernstein_polynomial, binominal_coefficient. rewrite factorial_release by lia. cbn [obind].
  change (factorial false 0) with (@Ok ErrorKind N 1%N). cbn [obind]. rewrite N.sub_0_r, factorial_release by lia. reflexivity.
Qed.
Print Assumptions C125_release_panics.
(** All 22 control points at (1,1): half way along the curve is far from (1,1). *)
Theorem C125_wrong_coefficients_refuted : exists q, interpolate_bezier (NM:=F64) mul_powi false (repeat (fp2 1 1) 22) 2 = Ok [fp2 1 1; q] /\
  (x2 q < lit 1 (-1))%num = true /\ (y2 q < lit 1 (-1))%num = true.
Proof.
  exists (@mk2 F64 (S754_finite false 5005887462703104 (-54)) (S754_finite false 5005887462703104 (-54))).
  split; [vmeq|]. split; vmeq.
Qed.
Print Assumptions C125_wrong_coefficients_refuted.
Theorem C125_end_missing_refuted : forall (a b : pt2 RN) (dbg : bool) (n : N), a <> b ->
  exists l, interpolate_bezier (NM:=RN) real_powi dbg [a; b] n = Ok l /\ ~ In b l.
Proof.
  intros a b dbg n NE. destruct (bezier_R dbg [a; b] n) as (l & E & L & H); [cbn; lia|]. exists l. split; [exact E|]. intros I.
  apply In_nth_error in I as [k K]. pose proof (H k b K) as B. unfold on_bezier in B. cbn [length Nat.sub casteljau neighbours] in B. injection B as B.
  assert (KL : (k < length l)%nat) by (apply nth_error_Some; congruence). rewrite L in KL.
  set (t := INR k / INR (N.to_nat n)) in *.
  assert (T1 : t < 1).
  { unfold t. assert (P : 0 < INR (N.to_nat n)) by (apply (lt_INR 0); lia). apply (Rmult_lt_reg_r (INR (N.to_nat n))); [exact P|].
    unfold Rdiv. rewrite Rmult_assoc, Rinv_l, Rmult_1_r, Rmult_1_l by lra. apply lt_INR, KL. }
  apply NE. destruct a as [ax ay], b as [bx by_]. unfold blend in B. cbn [x2 y2] in B. injection B as B1 B2.
  assert (G : forall u v : R, (1 - t) * u + t * v = v -> u = v).
  { intros u v X. assert (Y : (1 - t) * (u - v) = 0) by lra. apply Rmult_integral in Y as [Y|Y]; lra. }
  rewrite (G _ _ B1), (G _ _ B2). reflexivity.
Qed.
Print Assumptions C125_end_missing_refuted.
Example C125_case : interpolate_bezier (NM:=F64) mul_powi true (repeat (fp2 1 1) 22) 2 = Panic /\
  interpolate_bezier (NM:=F64) mul_powi false (repeat (fp2 1 1) 70) 2 = Panic /\
  interpolate_bezier (NM:=F64) mul_powi true (repeat (fp2 1 1) 21) 2 = Ok [fp2 1 1; fp2 1 1].
Proof. split; [vmeq|]. split; [vmeq|vmeq]. Qed.

(** C126: without rounding the linear interpolation gives n points at equal distances along the path, from the first to
    the last base point. *)
Theorem C126_linear : forall (dbg : bool) (a b : pt2 RN) (r : list (pt2 RN)) (n : N), a <> b -> (2 <= n)%N ->
  exists l, interpolation_linear (NM:=RN) dbg (a :: b :: r) n = Ok l /\ length l = N.to_nat n /\
    (forall k q, nth_error l k = Some q ->
      along straight (a :: b :: r) (INR k * (path rdist2 (a :: b :: r) / (INR (N.to_nat n) - 1))) q) /\
    nth_error l 0 = Some a /\ nth_error l (N.to_nat n - 1) = Some (last (b :: r) b).
Proof.
  intros dbg a b r n NE H. destruct (along_R (linear_point (NM:=RN)) dbg a b r n NE H) as (l & E & L & A).
  exists l. split; [exact E|]. split; [exact L|]. split; [exact A|]. split.
  - destruct (nth_error l 0) as [q|] eqn:Q; [|apply nth_error_None in Q; lia]. f_equal.
    rewrite (along_first _ _ _ _ a (A 0%nat q Q)); [reflexivity|cbn [INR]; ring|].
    intros [x y] [x' y']. unfold linear_point. cbn [x2 y2 nadd nmul nsub RN]. rewrite !Rmult_0_l, !Rplus_0_r. reflexivity.
  - destruct (nth_error l (N.to_nat n - 1)) as [q|] eqn:Q; [|apply nth_error_None in Q; lia]. f_equal.
    rewrite (along_last _ _ _ _ b (A _ q Q)); [reflexivity| |].
    + rewrite minus_INR by lia. cbn [INR]. assert (2 <= INR (N.to_nat n)) by (apply (le_INR 2); lia). field. lra.
    + intros [x y] [x' y']. unfold linear_point. cbn [x2 y2 nadd nmul nsub RN].
      assert (G : forall u v : R, u + 1 * (v - u) = v) by (intros; ring). rewrite !G. reflexivity.
Qed.
Print Assumptions C126_linear.
Theorem C126_too_few : forall (NM : Num) (dbg : bool) (base : list (pt2 NM)) (n : N),
  (length base < 2)%nat -> interpolation_linear dbg base n = Err TooFewPoints.
Proof. intros NM. apply too_few. Qed.
Print Assumptions C126_too_few.
Example C126_case : interpolation_linear (NM:=F64) true [fp2 0 0; fp2 4 0; fp2 4 4] 5 =
  Ok [fp2 0 0; fp2 2 0; fp2 4 0; fp2 4 2; fp2 4 4].
Proof. vmeq. Qed.

(** C127: with doubles the last point can be lost to rounding, a repeated first base point gives NaN, one point gives
    none, and no points panic in a debug build. *)
Theorem C127_lost_point_refuted : exists l, interpolation_linear (NM:=F64) true [fp2 0 0; fp2 29 0] 8 = Ok l /\ length l = 7%nat.
Proof.
  exists (match interpolation_linear (NM:=F64) true [fp2 0 0; fp2 29 0] 8 with Ok l => l | _ => [] end).
  split; vmeq.
Qed.
Print Assumptions C127_lost_point_refuted.
Theorem C127_repeated_point_refuted :
  interpolation_linear (NM:=F64) true [fp2 1 1; fp2 1 1; fp2 3 1] 3 = Ok [@mk2 F64 S754_nan S754_nan; fp2 2 1; fp2 3 1].
Proof. vmeq. Qed.
Print Assumptions C127_repeated_point_refuted.
Theorem C127_one_point_refuted : forall dbg, interpolation_linear (NM:=F64) dbg [fp2 1 1; fp2 3 1] 1 = Ok [].
Proof. intros []; vmeq. Qed.
Print Assumptions C127_one_point_refuted.
Theorem C127_no_points : forall (NM : Num) (point : pt2 NM -> pt2 NM -> T NM -> pt2 NM) (base : list (pt2 NM)), (2 <= length base)%nat ->
  interpolate_along point true base 0 = Panic /\ interpolate_along point false base 0 = Ok [].
Proof. intros NM point base H. destruct base as [|a [|b r]]; [cbn in H; lia|cbn in H; lia|]. split; reflexivity. Qed.
Print Assumptions C127_no_points.
(** Never more points than asked for, whatever the numbers. *)
Theorem C127_at_most : forall (NM : Num) (point : pt2 NM -> pt2 NM -> T NM -> pt2 NM) (dbg : bool) (base l : list (pt2 NM)) (n : N),
  interpolate_along point dbg base n = Ok l -> (length l <= N.to_nat n)%nat.
Proof.
  intros NM point dbg base l n H. destruct base as [|a [|b r]]; try discriminate. cbn [interpolate_along] in H.
  destruct (upred dbg n) as [m| |]; cbn [obind] in H; try discriminate. exact (push_len _ _ _ _ H).
Qed.
Print Assumptions C127_at_most.

(** C128: cosine interpolation: the same distances, x as in the linear case, y eased between the ends of the segment. *)
Theorem C128_cosine : forall (dbg : bool) (a b : pt2 RN) (r : list (pt2 RN)) (n : N), a <> b -> (2 <= n)%N ->
  exists l, interpolate_cosine (NM:=RN) RT PI dbg (a :: b :: r) n = Ok l /\ length l = N.to_nat n /\
    (forall k q, nth_error l k = Some q ->
      along eased (a :: b :: r) (INR k * (path rdist2 (a :: b :: r) / (INR (N.to_nat n) - 1))) q) /\
    nth_error l 0 = Some a /\ nth_error l (N.to_nat n - 1) = Some (last (b :: r) b).
Proof.
  intros dbg a b r n NE H. destruct (along_R (cosine_point (NM:=RN) RT PI) dbg a b r n NE H) as (l & E & L & A).
  assert (A' : forall k q, nth_error l k = Some q -> along eased (a :: b :: r) (INR k * (path rdist2 (a :: b :: r) / (INR (N.to_nat n) - 1))) q).
  { intros k q K. apply (along_ext _ _ _ _ _ cosine_eased), A, K. }
  exists l. split; [exact E|]. split; [exact L|]. split; [exact A'|]. split.
  - destruct (nth_error l 0) as [q|] eqn:Q; [|apply nth_error_None in Q; lia]. f_equal.
    rewrite (along_first _ _ _ _ a (A' 0%nat q Q)); [reflexivity|cbn [INR]; ring|].
    intros [x y] [x' y']. unfold eased. cbn [x2 y2]. rewrite Rmult_0_r, cos_0.
    assert (G : forall u v : R, u + 0 * (v - u) = u) by (intros; ring). rewrite G. assert (G2 : forall u v : R, u + (1 - 1) / 2 * (v - u) = u) by (intros; field). rewrite G2. reflexivity.
  - destruct (nth_error l (N.to_nat n - 1)) as [q|] eqn:Q; [|apply nth_error_None in Q; lia]. f_equal.
    rewrite (along_last _ _ _ _ b (A' _ q Q)); [reflexivity| |].
    + rewrite minus_INR by lia. cbn [INR]. assert (2 <= INR (N.to_nat n)) by (apply (le_INR 2); lia). field. lra.
    + intros [x y] [x' y']. unfold eased. cbn [x2 y2]. rewrite Rmult_1_r, cos_PI.
      assert (G : forall u v : R, u + 1 * (v - u) = v) by (intros; ring). rewrite G. assert (G2 : forall u v : R, u + (1 - -1) / 2 * (v - u) = v) by (intros; field). rewrite G2. reflexivity.
Qed.
Print Assumptions C128_cosine.
(** Every such point has its x and its y between those of the ends of one segment of the path. *)
Theorem C128_between : forall (ps : list (pt2 RN)) (d : R) (q : pt2 RN), along eased ps d q ->
  exists l a b r s c, ps = l ++ a :: b :: r /\ 0 <= s <= 1 /\ 0 <= c <= 1 /\
    x2 q = (1 - s) * x2 a + s * x2 b /\ y2 q = (1 - c) * y2 a + c * y2 b.
Proof.
  intros ps d q H. destruct (along_between _ _ _ _ H) as (a & b & s & l & r & E & Q & S). exists l, a, b, r, s, ((1 - cos (PI * s)) / 2).
  split; [exact E|]. split; [exact S|]. split; [destruct (COS_bound (PI * s)); lra|]. rewrite Q. unfold eased. cbn [x2 y2].
  split; match goal with |- @eq _ ?a ?b => change (@eq R a b) end; field.
Qed.
Print Assumptions C128_between.
Example C128_case : along eased [@mk2 RN 0 0; @mk2 RN 3 4] (5 / 2) (@mk2 RN (3 / 2) 2).
Proof.
  assert (D : rdist2 (@mk2 RN 0 0) (@mk2 RN 3 4) = 5).
  { unfold rdist2, sqd2. cbn [x2 y2]. replace ((0 - 3) ^ 2 + (0 - 4) ^ 2) with (5 * 5) by ring. apply sqrt_square. lra. }
  replace (@mk2 RN (3 / 2) 2) with (eased (@mk2 RN 0 0) (@mk2 RN 3 4) ((5 / 2) / rdist2 (@mk2 RN 0 0) (@mk2 RN 3 4))).
  - apply along_here; rewrite D; lra.
  - rewrite D. unfold eased. cbn [x2 y2]. replace (PI * (5 / 2 / 5)) with (PI / 2) by field. rewrite cos_PI2.
    f_equal; match goal with |- @eq _ ?a ?b => change (@eq R a b) end; field.
Qed.

(** ** Shapes *)
Lemma nth_map_seq {A} (f : nat -> A) n k q : nth_error (map f (seq 0 n)) k = Some q -> (k < n)%nat /\ q = f k.
Proof.
  intros E. rewrite nth_error_map in E. destruct (nth_error (seq 0 n) k) as [j|] eqn:J; [|discriminate].
  assert (K : (k < n)%nat) by (rewrite <- (seq_length n 0); apply nth_error_Some; congruence).
  rewrite (nth_error_nth' _ 0%nat) in J by (rewrite seq_length; exact K). rewrite seq_nth in J by exact K. cbn in J. injection J as <-.
  cbn [option_map] in E. injection E as <-. auto.
Qed.
Lemma shape_R (f : R -> pt2 RN) (w : R) (n : N) : (2 <= n)%N ->
  push_loop (N.to_nat n) 0 (fun i => Ok (Some (f (of_usize (NM:=RN) i * (w / of_usize (NM:=RN) (n - 1)))))) =
    Ok (map (fun k => f (INR k * (w / (INR (N.to_nat n) - 1)))) (seq 0 (N.to_nat n))).
Proof.
  intros H. rewrite (push_all _ (fun i => f (of_usize (NM:=RN) i * (w / of_usize (NM:=RN) (n - 1))))) by reflexivity. f_equal.
  apply map_ext. intros k. f_equal. rewrite !usize_R. rewrite N.add_0_l, Nat2N.id. f_equal. f_equal.
  replace (N.to_nat (n - 1)) with (N.to_nat n - 1)%nat by lia. rewrite minus_INR by lia. reflexivity.
Qed.

(** C129: exact rectangles; with doubles a rectangle of positive size may consist of one point. *)
Theorem C129_rectangle : forall (c : pt2 RN) (w h : R), 0 < w -> 0 < h ->
  exists p q r s, rectangle (NM:=RN) c w h = [p; q; r; s] /\
    rdist2 p q = w /\ rdist2 q r = h /\ rdist2 r s = w /\ rdist2 s p = h /\ rdist2 p r = rdist2 q s /\
    pc2_cog [p; q; r; s] = Some c /\ 0 < (x2 q - x2 p) * (y2 r - y2 q) - (y2 q - y2 p) * (x2 r - x2 q).
Proof.
  intros [cx cy] w h W H. unfold rectangle. cbn [x2 y2]. eexists _, _, _, _. split; [reflexivity|].
  unfold n2. cbn [nadd nsub ndiv lit RN T]. change (powerRZ 2 0) with 1. rewrite Rmult_1_r. unfold rdist2, sqd2. cbn [x2 y2].
  assert (S : forall (u v : R), 0 < v -> u = v * v -> sqrt u = v) by (intros u v V ->; apply sqrt_square; lra).
  split; [apply S; [exact W|field]|]. split; [apply S; [exact H|field]|]. split; [apply S; [exact W|field]|]. split; [apply S; [exact H|field]|].
  split; [f_equal; field|]. split.
  - unfold pc2_cog. cbn [fold_left x2 y2]. rewrite usize_R. unfold n0. cbn [lenN length N.of_nat Pos.of_succ_nat N.to_nat Pos.to_nat Pos.iter_op].
    cbn [nadd ndiv lit RN T]. f_equal. f_equal; match goal with |- @eq _ ?a ?b => change (@eq R a b) end; unfold lenN; cbn; change (Pos.to_nat 4) with 4%nat; cbn [INR]; field.
  - replace ((cx + w / 2 - (cx - w / 2)) * (cy + h / 2 - (cy - h / 2)) - (cy - h / 2 - (cy - h / 2)) * (cx + w / 2 - (cx + w / 2))) with (w * h) by field.
    apply Rmult_lt_0_compat; assumption.
Qed.
Print Assumptions C129_rectangle.
Theorem C129_rectangle_rounding_refuted : exists (c : pt2 F64), rectangle (NM:=F64) c (fz 1) (fz 1) = [c; c; c; c].
Proof. exists (@mk2 F64 (@lit F64 1 60) (@lit F64 1 60)). vmeq. Qed.
Print Assumptions C129_rectangle_rounding_refuted.
Example C129_case : rectangle (NM:=F64) (fp2 5 5) (fz 4) (fz 2) = [fp2 3 4; fp2 7 4; fp2 7 6; fp2 3 6].
Proof. vmeq. Qed.

(** C130: arcs: n points on the circle at equal angles from start on, ending at end if that is not smaller. *)
Theorem C130_arc : forall (dbg : bool) (c : pt2 RN) (n : N) (d start end_ : R), 0 < d -> (2 <= n)%N ->
  exists l, arc (NM:=RN) RT dbg c n d start end_ = Ok l /\ length l = N.to_nat n /\
    forall k q, nth_error l k = Some q -> rdist2 c q = d / 2 /\
      let angle := start + INR k * (Rabs (end_ - start) / (INR (N.to_nat n) - 1)) in
      x2 q = x2 c + d / 2 * cos angle /\ y2 q = y2 c + d / 2 * sin angle /\
      (k = 0%nat -> angle = start) /\ (S k = N.to_nat n -> start <= end_ -> angle = end_).
Proof.
  intros dbg [cx cy] n d s e D H. unfold arc, upred. destruct (N.eqb_spec n 0) as [X|X]; [lia|]. cbn [obind].
  set (f := fun t : R => let a := s + t in @mk2 RN (cx + d / 2 * cos a) (cy + d / 2 * sin a)).
  unfold n2. cbn [x2 y2 nadd nsub nmul ndiv nabs lit RN RT ncos nsin]. change (powerRZ 2 0) with 1. rewrite Rmult_1_r.
  eexists. split; [exact (shape_R f (Rabs (e - s)) n H)|]. split; [rewrite map_length, seq_length; reflexivity|].
  intros k q Q. apply nth_map_seq in Q as [K ->]. assert (N2 : 2 <= INR (N.to_nat n)) by (apply (le_INR 2); lia).
  set (t := INR k * (Rabs (e - s) / (INR (N.to_nat n) - 1))). unfold f. cbn [x2 y2]. split; [|split; [reflexivity|split; [reflexivity|split]]].
  - unfold rdist2, sqd2. cbn [x2 y2].
    assert (SC : sin (s + t) * sin (s + t) + cos (s + t) * cos (s + t) = 1) by (pose proof (sin2_cos2 (s + t)); unfold Rsqr in *; lra).
    replace ((cx - (cx + d / 2 * cos (s + t))) ^ 2 + (cy - (cy + d / 2 * sin (s + t))) ^ 2)
      with ((d / 2) * (d / 2) * (sin (s + t) * sin (s + t) + cos (s + t) * cos (s + t))) by ring.
    rewrite SC, Rmult_1_r. apply sqrt_square. lra.
  - intros ->. unfold t. cbn [INR]. ring.
  - intros KE LE. unfold t. replace (INR k) with (INR (N.to_nat n) - 1) by (rewrite <- KE, S_INR; ring).
    rewrite Rabs_pos_eq by lra. field. lra.
Qed.
Print Assumptions C130_arc.
(** From a start greater than the end the arc goes away from the end. *)
Theorem C130_backwards_refuted : exists p q, arc (NM:=RN) RT true (@mk2 RN 0 0) 2 2 (PI / 2) 0 = Ok [p; q] /\
  p = @mk2 RN 0 1 /\ q = @mk2 RN (-1) 0 /\ q <> @mk2 RN (cos 0) (sin 0).
Proof.
  destruct (C130_arc true (@mk2 RN 0 0) 2 2 (PI / 2) 0) as (l & E & L & A); [lra|lia|].
  destruct l as [|p [|q [|? ?]]]; try (cbn in L; discriminate). exists p, q. split; [exact E|].
  destruct (A 0%nat p eq_refl) as (_ & P1 & P2 & _). destruct (A 1%nat q eq_refl) as (_ & Q1 & Q2 & _).
  cbv zeta in *. change (N.to_nat 2) with 2%nat in *. cbn [INR x2 y2] in *. pose proof PI_RGT_0.
  replace (PI / 2 + 0 * (Rabs (0 - PI / 2) / (1 + 1 - 1))) with (PI / 2) in * by (field).
  replace (PI / 2 + 1 * (Rabs (0 - PI / 2) / (1 + 1 - 1))) with PI in * by (rewrite Rabs_left by lra; field).
  rewrite cos_PI2 in P1. rewrite sin_PI2 in P2. rewrite cos_PI in Q1. rewrite sin_PI in Q2. destruct p as [p1 p2], q as [q1 q2]. cbn [x2 y2] in *. subst.
  split; [f_equal; match goal with |- @eq _ ?a ?b => change (@eq R a b) end; field|].
  split; [f_equal; match goal with |- @eq _ ?a ?b => change (@eq R a b) end; field|].
  intros B. injection B as B _. rewrite cos_0 in B. lra.
Qed.
Print Assumptions C130_backwards_refuted.
(** A single point has no coordinates: 0 * (x / 0) is NaN. *)
Theorem C130_one_point_refuted : forall (tr : Trig F64) (dbg : bool),
  ncos tr (S754_nan : T F64) = S754_nan -> nsin tr (S754_nan : T F64) = S754_nan ->
  arc (NM:=F64) tr dbg (fp2 0 0) 1 (fz 2) (fz 0) (fz 1) = Ok [@mk2 F64 S754_nan S754_nan].
Proof.
  intros tr dbg C S. unfold arc. change (upred dbg 1) with (@Ok ErrorKind N 0%N). cbn [obind]. change (N.to_nat 1) with 1%nat. cbn [push_loop].
  match goal with |- context [ncos tr ?a] => replace a with (S754_nan : T F64) by vmeq end.
  cbn [obind]. rewrite C, S. vmeq.
Qed.
Print Assumptions C130_one_point_refuted.
Theorem C130_no_points : forall (NM : Num) (tr : Trig NM) (c : pt2 NM) (d s e : T NM),
  arc tr true c 0 d s e = Panic /\ arc tr false c 0 d s e = Ok [].
Proof. intros. split; reflexivity. Qed.
Print Assumptions C130_no_points.
Example C130_case : exists l, arc (NM:=RN) RT true (@mk2 RN 0 0) 3 2 0 PI = Ok l /\ nth_error l 2 = Some (@mk2 RN (-1) 0).
Proof.
  destruct (C130_arc true (@mk2 RN 0 0) 3 2 0 PI) as (l & E & L & A); [lra|lia|]. exists l. split; [exact E|].
  change (N.to_nat 3) with 3%nat in L. destruct (nth_error l 2) as [[q1 q2]|] eqn:Q; [|apply nth_error_None in Q; lia].
  destruct (A 2%nat _ Q) as (_ & Q1 & Q2 & _ & G). cbn [x2 y2] in *. rewrite G in Q1, Q2 by (try reflexivity; pose proof PI_RGT_0; lra).
  rewrite cos_PI in Q1. rewrite sin_PI in Q2. subst. f_equal. f_equal; match goal with |- @eq _ ?a ?b => change (@eq R a b) end; field.
Qed.

(** C131: ellipse gives points of the ellipse, but of its upper half only. *)
Theorem C131_ellipse : forall (dbg : bool) (c : pt2 RN) (n : N) (a b : R), 0 < a -> 0 < b -> (2 <= n)%N ->
  exists l, ellipse (NM:=RN) RT PI dbg c n a b = Ok l /\ length l = N.to_nat n /\
    (forall q, In q l -> ((x2 q - x2 c) / a) ^ 2 + ((y2 q - y2 c) / b) ^ 2 = 1 /\ y2 c <= y2 q) /\
    nth_error l 0 = Some (@mk2 RN (x2 c + a) (y2 c)) /\ nth_error l (N.to_nat n - 1) = Some (@mk2 RN (x2 c - a) (y2 c)).
Proof.
  intros dbg [cx cy] n a b A B H. unfold ellipse, upred. destruct (N.eqb_spec n 0) as [X|X]; [lia|]. cbn [obind].
  set (f := fun t : R => @mk2 RN (cx + a * cos t * cos 0 - b * sin t * sin 0) (cy + a * cos t * sin 0 + b * sin t * cos 0)).
  unfold n0. cbn [x2 y2 nadd nsub nmul ndiv nabs lit RN RT ncos nsin]. rewrite Rmult_0_l.
  eexists. split; [exact (shape_R f PI n H)|]. split; [rewrite map_length, seq_length; reflexivity|].
  assert (N2 : 2 <= INR (N.to_nat n)) by (apply (le_INR 2); lia).
  assert (F : forall t, f t = @mk2 RN (cx + a * cos t) (cy + b * sin t)).
  { intros t. unfold f. rewrite cos_0, sin_0. f_equal; match goal with |- @eq _ ?a ?b => change (@eq R a b) end; ring. }
  assert (NE : forall k, (k < N.to_nat n)%nat -> nth_error (map (fun k => f (INR k * (PI / (INR (N.to_nat n) - 1)))) (seq 0 (N.to_nat n))) k =
     Some (f (INR k * (PI / (INR (N.to_nat n) - 1))))).
  { intros k K. destruct (nth_error _ k) as [q|] eqn:Q; [apply nth_map_seq in Q as [_ ->]; reflexivity|].
    apply nth_error_None in Q. rewrite map_length, seq_length in Q. lia. }
  split; [|split].
  - intros q I. apply In_nth_error in I as [k Q]. apply nth_map_seq in Q as [K ->]. rewrite F. cbn [x2 y2].
    set (t := INR k * (PI / (INR (N.to_nat n) - 1))). split.
    + assert (SC : sin t * sin t + cos t * cos t = 1) by (pose proof (sin2_cos2 t); unfold Rsqr in *; lra).
      transitivity (sin t * sin t + cos t * cos t); [field; lra|exact SC].
    + assert (S0 : 0 <= sin t).
      { apply sin_ge_0; unfold t; pose proof PI_RGT_0; pose proof (pos_INR k).
        - apply Rmult_le_pos; [assumption|]. apply Rmult_le_pos; [lra|left; apply Rinv_0_lt_compat; lra].
        - assert (KN : INR k <= INR (N.to_nat n) - 1) by (assert (INR (S k) <= INR (N.to_nat n)) by (apply le_INR; lia); rewrite S_INR in *; lra).
          replace PI with ((INR (N.to_nat n) - 1) * (PI / (INR (N.to_nat n) - 1))) at 2 by (field; lra).
          apply Rmult_le_compat_r; [apply Rmult_le_pos; [lra|left; apply Rinv_0_lt_compat; lra]|exact KN]. }
      assert (0 <= b * sin t) by (apply Rmult_le_pos; lra). cbn [T RN] in *. lra.
  - rewrite NE by lia. rewrite F. cbn [INR x2 y2]. rewrite Rmult_0_l, cos_0, sin_0. f_equal. f_equal; match goal with |- @eq _ ?a ?b => change (@eq R a b) end; ring.
  - rewrite NE by lia. rewrite F. cbn [x2 y2]. rewrite minus_INR by lia. cbn [INR].
    replace ((INR (N.to_nat n) - 1) * (PI / (INR (N.to_nat n) - 1))) with PI by (field; lra).
    rewrite cos_PI, sin_PI. f_equal. f_equal; match goal with |- @eq _ ?a ?b => change (@eq R a b) end; ring.
Qed.
Print Assumptions C131_ellipse.
(** So the point opposite to the top is never there, although it lies on the ellipse. *)
Theorem C131_lower_half_refuted : forall (dbg : bool) (c : pt2 RN) (n : N) (a b : R), 0 < a -> 0 < b -> (2 <= n)%N ->
  exists l, ellipse (NM:=RN) RT PI dbg c n a b = Ok l /\ forall q, In q l -> ~ y2 q < y2 c.
Proof.
  intros dbg c n a b A B H. destruct (C131_ellipse dbg c n a b A B H) as (l & E & _ & I & _). exists l. split; [exact E|].
  intros q Q. destruct (I q Q) as [_ G]. apply Rle_not_lt, G.
Qed.
Print Assumptions C131_lower_half_refuted.
Example C131_case : exists l, ellipse (NM:=RN) RT PI true (@mk2 RN 1 1) 5 3 2 = Ok l /\ length l = 5%nat /\ nth_error l 4 = Some (@mk2 RN (1 - 3) 1).
Proof. destruct (C131_ellipse true (@mk2 RN 1 1) 5 3 2) as (l & E & L & _ & _ & G); [lra|lra|lia|]. exists l. auto. Qed.

(** C132: involutes: at roll angle t the point is sqrt (1 + t^2) radii away; the roll angles start at 0 whatever the start is. *)
Theorem C132_involut : forall (dbg : bool) (c : pt2 RN) (n : N) (d start end_ : R), 0 < d -> (2 <= n)%N ->
  exists l, involut_circle (NM:=RN) RT dbg c n d start end_ = Ok l /\ length l = N.to_nat n /\
    nth_error l 0 = Some (@mk2 RN (x2 c + d / 2) (y2 c)) /\
    forall k q, nth_error l k = Some q ->
      let t := INR k * (Rabs (end_ - start) / (INR (N.to_nat n) - 1)) in
      (* the end of the tangent of length r t at the point of the circle with angle t *)
      x2 q = (x2 c + d / 2 * cos t) + d / 2 * t * sin t /\ y2 q = (y2 c + d / 2 * sin t) - d / 2 * t * cos t /\
      rdist2 c q = d / 2 * sqrt (1 + t ^ 2).
Proof.
  intros dbg [cx cy] n d s e D H. unfold involut_circle, upred. destruct (N.eqb_spec n 0) as [X|X]; [lia|]. cbn [obind].
  set (f := fun t : R => @mk2 RN (cx + d / 2 * (cos t + t * sin t)) (cy + d / 2 * (sin t - t * cos t))).
  unfold n2. cbn [x2 y2 nadd nsub nmul ndiv nabs lit RN RT ncos nsin]. change (powerRZ 2 0) with 1. rewrite Rmult_1_r.
  eexists. split; [exact (shape_R f (Rabs (e - s)) n H)|]. split; [rewrite map_length, seq_length; reflexivity|].
  assert (N2 : 2 <= INR (N.to_nat n)) by (apply (le_INR 2); lia). split.
  - destruct (N.to_nat n) as [|k] eqn:E; [lia|]. cbn [seq map nth_error INR]. rewrite Rmult_0_l. unfold f. rewrite cos_0, sin_0.
    f_equal. f_equal; match goal with |- @eq _ ?a ?b => change (@eq R a b) end; ring.
  - intros k q Q. apply nth_map_seq in Q as [K ->]. set (t := INR k * (Rabs (e - s) / (INR (N.to_nat n) - 1))). unfold f. cbn [x2 y2].
    split; [match goal with |- @eq _ ?a ?b => change (@eq R a b) end; ring|].
    split; [match goal with |- @eq _ ?a ?b => change (@eq R a b) end; ring|]. unfold rdist2, sqd2. cbn [x2 y2].
    assert (SC : sin t * sin t + cos t * cos t = 1) by (pose proof (sin2_cos2 t); unfold Rsqr in *; lra).
    replace ((cx - (cx + d / 2 * (cos t + t * sin t))) ^ 2 + (cy - (cy + d / 2 * (sin t - t * cos t))) ^ 2)
      with ((d / 2) * (d / 2) * ((sin t * sin t + cos t * cos t) * (1 + t ^ 2))) by ring.
    rewrite SC, Rmult_1_l. rewrite sqrt_mult; [|nra|pose proof (pow2_ge_0 t); lra]. rewrite sqrt_square by lra. reflexivity.
Qed.
Print Assumptions C132_involut.
Theorem C132_start_ignored_refuted : forall (dbg : bool) (c : pt2 RN) (n : N) (d start end_ shift : R),
  involut_circle (NM:=RN) RT dbg c n d (start + shift) (end_ + shift) = involut_circle (NM:=RN) RT dbg c n d start end_.
Proof.
  intros. unfold involut_circle. cbn [nabs nsub RN]. replace (end_ + shift - (start + shift)) with (end_ - start) by ring. reflexivity.
Qed.
Print Assumptions C132_start_ignored_refuted.
Example C132_case : exists l, involut_circle (NM:=RN) RT true (@mk2 RN 0 0) 3 2 1 3 = Ok l /\ length l = 3%nat /\ nth_error l 0 = Some (@mk2 RN (0 + 2 / 2) 0).
Proof. destruct (C132_involut true (@mk2 RN 0 0) 3 2 1 3) as (l & E & L & G & _); [lra|lia|]. exists l. auto. Qed.
