(** Properties of hulls, line simplification and compressed clouds (C40-C43, C96). *)
From Verif Require Import Base BaseLemmas Num NumLemmas SortSpec SortLemmas BBoxModel GeomSpec BBoxLemmas CloudModel CloudLemmas FloatLemmas FloatSpec FloatBridge HullModel HullSpec HullLemmas CompressLemmas.
From Coq Require Import Floats.SpecFloat Reals Lra Psatz Lia Permutation.
From Flocq Require Import Core.
Local Open Scope R_scope.

(** ** C40: compressed clouds *)
(** Exact arithmetic: decompression gives the points back in order, each coordinate at most one unit
    too small; the stored integers fit. *)
Theorem C40_roundtrip : forall dbg bits (ps : list (pt3 RN)), (0 < bits)%N -> (Z.of_nat (length ps) < 2 ^ 31)%Z ->
  (forall ax, axis3 ax -> exists p q, In p ps /\ In q ps /\ ax p < ax q) ->
  exists c, compress RC dbg bits ps = Ok c /\
    Forall2 (fun p q => forall ax w, axis3 ax -> extent (map ax ps) w -> ax q <= ax p < ax q + w / IZR (2 ^ Z.of_N bits - 1)) ps (decompress c) /\
    Forall (fun u => (unitsx u < 2 ^ bits)%N /\ (unitsy u < 2 ^ bits)%N /\ (unitsz u < 2 ^ bits)%N) (cc_data c).
Proof. exact roundtrip_R. Qed.
Print Assumptions C40_roundtrip.
Example C40_roundtrip_case : forall ax : pt3 RN -> T RN, axis3 ax -> exists p q, In p [rp3 0 5 1; rp3 2 1 0; rp3 1 1 1] /\ In q [rp3 0 5 1; rp3 2 1 0; rp3 1 1 1] /\ ax p < ax q.
Proof.
  intros ax [->|[->| ->]]; [exists (rp3 0 5 1), (rp3 2 1 0)|exists (rp3 2 1 0), (rp3 0 5 1)|exists (rp3 2 1 0), (rp3 0 5 1)]; (split; [cbn; auto|split; [cbn; auto|cbn [px py pz rp3]; lra]]).
Qed.
(** Doubles: without a bounding box the result is BoundingBoxMissing, and nothing else is. *)
Theorem C40_no_box : forall dbg bits (ps : list (pt3 F64)), (Z.of_nat (length ps) < 2 ^ 31)%Z -> Forall number3 ps ->
  (compress F64C dbg bits ps = Err BoundingBoxMissing <-> exists ax, axis3 ax /\ ~ differ (map ax ps)).
Proof.
  intros dbg bits ps LE N. pose proof (from3_spec dbg ps N LE) as H. unfold compress. destruct (bb3_from_iterator dbg ps) as [b|e|]; cbn [from3_outcome] in H.
  - split; [|intros (ax & A & D); exfalso; apply D, H, A]. intros E. exfalso.
    match type of E with obind ?t _ = _ => assert (K : (exists l, t = Ok l) \/ t = Err NumberConversionError) by apply points_cases end. destruct K as [[l K]|K]; rewrite K in E; discriminate.
  - split; [intros _|reflexivity]. destruct e; try contradiction.
    + destruct H as (_ & H). exact H.
    + exists px. split; [left; reflexivity|]. intros (u & v & U & V & L). destruct ps as [|p [|q r]]; [destruct U| |cbn [length] in H; lia]. destruct U as [<-|[]], V as [<-|[]].
      pose proof (ltb_irrefl F64_laws (px p)) as X. unfold flt in L. change (nltb (px p) (px p) = true) in L. congruence.
  - destruct H.
Qed.
Print Assumptions C40_no_box.
Example C40_no_box_case : compress F64C true 8 [fp3 0 5 1; fp3 2 5 0] = Err BoundingBoxMissing. Proof. vmeq. Qed.
(** Doubles: with 8, 16 and 32 bit integers compressing never fails, and no point is lost. *)
Theorem C40_never_fails : forall dbg bits (ps : list (pt3 F64)), bits = 8%N \/ bits = 16%N \/ bits = 32%N -> (Z.of_nat (length ps) < 2 ^ 31)%Z ->
  (forall ax, axis3 ax -> spread (map ax ps)) -> exists c, compress F64C dbg bits ps = Ok c /\ length (decompress c) = length ps.
Proof. exact never_fails. Qed.
Print Assumptions C40_never_fails.
(** Doubles: with 64 bit integers it fails for every such cloud. *)
Theorem C40_u64_always_fails_refuted : forall dbg (ps : list (pt3 F64)), (Z.of_nat (length ps) < 2 ^ 31)%Z ->
  (forall ax, axis3 ax -> spread (map ax ps)) -> compress F64C dbg 64 ps = Err NumberConversionError.
Proof. exact always_fails_64. Qed.
Print Assumptions C40_u64_always_fails_refuted.
Lemma fz_0 : fval (fz 0) = 0. Proof. reflexivity. Qed.
Lemma fz_2 : fval (fz 2) = 2. Proof. change (fz 2) with (S754_finite false 4503599627370496 (-51)). apply fval_int; [lia|reflexivity]. Qed.
Lemma fz_1 : fval (fz 1) = 1. Proof. change (fz 1) with (S754_finite false 4503599627370496 (-52)). apply fval_int; [lia|reflexivity]. Qed.
Example C40_spread_case : forall ax, axis3 ax -> spread (map ax [fp3 0 0 0; fp3 2 2 2; fp3 1 1 1]).
Proof.
  assert (K : spread [fz 0; fz 2; fz 1]).
  { assert (B1 : bpow radix2 1 <= bpow radix2 1023) by (apply bpow_le; lia). assert (B2 : bpow radix2 (-900) <= bpow radix2 1) by (apply bpow_le; lia). change (bpow radix2 1) with 2 in B1, B2.
    split; [|split].
    - intros v [<-|[<-|[<-|[]]]]; (split; [apply double_lit|exact I]).
    - rewrite two_bpow. intros u v [<-|[<-|[<-|[]]]] [<-|[<-|[<-|[]]]]; rewrite ?fz_0, ?fz_1, ?fz_2; lra.
    - exists (fz 0), (fz 2). split; [left; reflexivity|]. split; [right; left; reflexivity|]. rewrite two_bpow, fz_0, fz_2. lra. }
  intros ax [->|[->| ->]]; exact K.
Qed.
Example C40_small_case : option_map (fun c => map (fun u => unitsx u) (cc_data c)) (to_option (compress F64C true 8 [fp3 0 0 0; fp3 2 2 2; fp3 1 1 1])) = Some [0; 255; 127]%N.
Proof. vmeq. Qed.

(** ** C41: convex_hull_2d with equal x *)
(** The lowest point is missing from the hull; and the hull of one point is empty. *)
Theorem C41_lowest_point_missing_refuted : exists (ps : list (pt2 F64)) p, Forall number2 ps /\ NoDup ps /\ In p ps /\
  (forall q, In q ps -> q = p \/ flt (y2 p) (y2 q)) /\ forall sort, sort_ok sort -> ~ In p (convex_hull sort ps).
Proof.
  set (ps := [fp2 0 0; fp2 0 (-2); fp2 0 (-1); fp2 1 0]). exists ps, (fp2 0 (-2)).
  assert (F : Forall number2 ps) by (repeat constructor; intros ? [->| ->]; apply lit_num).
  assert (Y : forall a b : T F64, nltb a b = true -> a <> b). { intros a b L ->. rewrite (ltb_irrefl F64_laws) in L. discriminate. }
  split; [exact F|]. split.
  { repeat constructor; cbn [In]; intros H; repeat (destruct H as [H|H]; [|]); try exact H; apply (f_equal (fun p : pt2 F64 => (x2 p, y2 p))) in H; vm_compute in H; discriminate. }
  split; [right; left; reflexivity|]. split.
  { intros q [<-|[<-|[<-|[<-|[]]]]]; [right|left; reflexivity|right|right]; vmeq. }
  intros sort SO. unfold convex_hull. rewrite (sort_unique sort _ cmp2_x ps SO).
  - assert (E : removelast (half_hull (isort (pt2 F64) cmp2_x ps)) ++ removelast (half_hull (rev (isort (pt2 F64) cmp2_x ps))) = [fp2 0 0; fp2 0 (-1); fp2 1 0]) by vmeq.
    rewrite E. cbn [In]. intros H. repeat (destruct H as [H|H]; [|]); try exact H; apply (f_equal (fun p : pt2 F64 => (x2 p, y2 p))) in H; vm_compute in H; discriminate.
  - assert (K : cmp_ok (fun a b : pt2 F64 => cmp_or_eq (ncmp (x2 a) (x2 b))) ps) by (apply (cmp_preorder F64_laws x2), Forall_forall; intros q I; apply (proj1 (Forall_forall _ _) F q I); left; reflexivity).
    assert (E : forall a b, In a ps -> In b ps -> cmp2_x a b = cmp_or_eq (ncmp (x2 a) (x2 b))).
    { intros a b A B. unfold cmp2_x. destruct (num_cmp F64_laws (x2 a) (x2 b)) as [o ->]; [apply (proj1 (Forall_forall _ _) F a A); left; reflexivity|apply (proj1 (Forall_forall _ _) F b B); left; reflexivity|reflexivity]. }
    destruct K as [K1 K2]. split; [intros a b A B; rewrite !E by assumption; apply K1; assumption|intros a b c A B C; rewrite !E by assumption; apply K2; assumption].
Qed.
Print Assumptions C41_lowest_point_missing_refuted.
Theorem C41_single_point_refuted : forall sort, sort_ok sort -> forall p : pt2 F64, convex_hull sort [p] = [].
Proof.
  intros sort SO p. unfold convex_hull. pose proof (sort_perm _ SO _ cmp2_x [p]) as P. apply Permutation_length_1_inv in P. rewrite P. reflexivity.
Qed.
Print Assumptions C41_single_point_refuted.
Example C41_case : isort_ok = isort_ok /\ convex_hull isort [fp2 0 0; fp2 0 (-2); fp2 0 (-1); fp2 1 0] = [fp2 0 0; fp2 0 (-1); fp2 1 0].
Proof. split; [reflexivity|vmeq]. Qed.

(** ** C42: convex_hull_2d with distinct x, exact arithmetic *)
Theorem C42_hull : forall sort, sort_ok sort -> forall ps : list (pt2 RN), NoDup (map x2 ps) -> (2 <= length ps)%nat ->
  let h := convex_hull sort ps in
  (forall q, In q h -> In q ps) /\ NoDup h /\ (2 <= length h)%nat /\
  (exists m M, In m h /\ In M h /\ forall q, In q ps -> x2 m <= x2 q <= x2 M) /\
  (forall a b, adjacent (h ++ firstn 1 h) a b -> forall q, In q ps -> 0 <= turn a b q) /\
  ((3 <= length h)%nat -> forall a b c, adjacent3 (h ++ firstn 2 h) a b c -> 0 < turn a b c).
Proof. intros sort SO ps. exact (hull_main sort ps SO). Qed.
Print Assumptions C42_hull.
Example C42_case : NoDup (map x2 [rp2 0 0; rp2 4 1; rp2 2 5; rp2 1 1]) /\
  convex_hull isort [fp2 0 0; fp2 4 1; fp2 2 5; fp2 1 1] = [fp2 0 0; fp2 4 1; fp2 2 5].
Proof.
  split; [|vmeq]. cbn [map x2 rp2]. repeat constructor; cbn [In]; intros H; repeat (destruct H as [H|H]; [lra|]); exact H.
Qed.

(** ** C43: douglas_peucker_2d *)
(** [k] bounds the depth of the recursion: with any bound above the number of points it returns. *)
Theorem C43_simplified : forall (eps : T F64) (p q : pt2 F64) (ps : list (pt2 F64)) k, ~ flt eps (fz 0) -> (length ps + 2 < k)%nat ->
  exists mid, douglas_peucker k (p :: ps ++ [q]) eps = Some (Ok (p :: mid ++ [q])) /\ subsequence (p :: mid ++ [q]) (p :: ps ++ [q]).
Proof.
  intros eps p q ps k NE LE. assert (G : ngtb n0 eps = false). { rewrite gtb_ltb by exact F64_laws. destruct (nltb eps n0) eqn:E; [exfalso; apply NE; exact E|reflexivity]. }
  destruct (dp_spec eps G k (p :: ps ++ [q])) as (l & E & D). { cbn [length]. rewrite app_length. cbn [length]. lia. }
  assert (D' : (exists l', l = p :: l' /\ l' <> [] /\ last l' p = last (ps ++ [q]) p) /\ subsequence l (p :: ps ++ [q])) by (destruct ps; exact D).
  destruct D' as ((l' & -> & N & LA) & SU). destruct (exists_last N) as (mid & z & ->). rewrite !last_last in LA. subst z. exists mid. split; [exact E|exact SU].
Qed.
Print Assumptions C43_simplified.
Example C43_case : douglas_peucker 10 [fp2 0 0; fp2 1 0; fp2 2 9; fp2 3 0; fp2 4 0] (fz 1) = Some (Ok [fp2 0 0; fp2 2 9; fp2 4 0]).
Proof. vmeq. Qed.

(** ** C96: what douglas_peucker_2d does not do *)
(** Exact arithmetic: what is compared with epsilon is the distance from the infinite line through
    the ends, as long as that line is not vertical. *)
Theorem C96_distance : forall p a b : pt2 RN, x2 a <> x2 b -> distance_point_line p a b * dist_2d a b = Rabs (turn a b p).
Proof. exact line_distance_R. Qed.
Print Assumptions C96_distance.
(** The first half is simplified without the point it was split at: a point eight units below
    everything that is kept is dropped although epsilon is 1. *)
Theorem C96_epsilon_refuted : exists (ps l : list (pt2 F64)) p, (forall k, (4 < k)%nat -> douglas_peucker k ps (fz 1) = Some (Ok l)) /\ In p ps /\
  y2 p = fz (-8) /\ Forall (fun q => fle (fz 0) (y2 q)) l.
Proof.
  exists [fp2 0 0; fp2 9 (-8); fp2 10 10; fp2 20 0], [fp2 0 0; fp2 10 10; fp2 20 0], (fp2 9 (-8)). split; [|split; [right; left; reflexivity|split; [reflexivity|]]].
  - intros k K. destruct k as [|[|[|[|[|k]]]]]; try lia. vmeq.
  - repeat constructor; vmeq.
Qed.
Print Assumptions C96_epsilon_refuted.
(** A closed line is reduced to its first and last point, however far away the others are. *)
Theorem C96_closed_line_refuted : exists ps : list (pt2 F64), (forall k, (4 < k)%nat -> douglas_peucker k ps (fz 1) = Some (Ok [fp2 0 0; fp2 0 0])) /\ In (fp2 500 700) ps.
Proof.
  exists [fp2 0 0; fp2 500 700; fp2 900 0; fp2 0 0]. split; [|right; left; reflexivity]. intros k K. destruct k as [|[|[|[|[|k]]]]]; try lia. vmeq.
Qed.
Print Assumptions C96_closed_line_refuted.
(** With a negative epsilon it never returns, whatever the (nonempty) line. *)
Theorem C96_negative_epsilon_refuted : forall eps : T F64, flt eps (fz 0) -> forall ps : list (pt2 F64), ps <> [] -> forall k, douglas_peucker k ps eps = None.
Proof.
  intros eps L ps N k. apply (dp_negative F64_laws); [|exact N]. rewrite (gtb_ltb F64_laws). exact L.
Qed.
Print Assumptions C96_negative_epsilon_refuted.
(** A single point comes back twice. *)
Theorem C96_single_point_refuted : forall (eps : T F64) p k, ~ flt eps (fz 0) -> douglas_peucker (S k) [p] eps = Some (Ok [p; p]).
Proof.
  intros eps p k NE. apply dp_single. rewrite (gtb_ltb F64_laws). destruct (nltb eps n0) eqn:E; [exfalso; apply NE; exact E|reflexivity].
Qed.
Print Assumptions C96_single_point_refuted.
Example C96_case : flt (fz (-1)) (fz 0) /\ x2 (rp2 0 0) <> x2 (rp2 3 4). Proof. split; [vmeq|]. cbn [x2 rp2]. intros H. lra. Qed.
