(** Theorems about midpoints and subdivision in doubles (C189). *)
From Verif Require Import Base BaseLemmas Num NumLemmas BBoxModel GeomSpec FloatSpec FloatBridge RootLemmas DistSpec DistLemmas DistLemmas2 DistLemmas3 MeanSpec MeanLemmas BBoxLemmas MeshModel MeshSpec MeshAlgoModel MeshAlgoSpec SatF64Spec EditModel MidSpec MidLemmas.
From Verif Require MeshAlgoProps.
From Coq Require Import Floats.SpecFloat Reals Lra Lia Psatz.
From Flocq Require Import Core.
Local Open Scope R_scope.

Lemma mid_axis (p q : pt3 F64) ax : axis3 ax -> ax (center_nd3 p q) = half (ax p) (ax q).
Proof. intros [->|[->| ->]]; reflexivity. Qed.
Lemma ctr_axis (p q : pt3 F64) ax : axis3 ax -> ax (center_3d p q) = ctr (ax p) (ax q).
Proof. intros [->|[->| ->]]; reflexivity. Qed.
Lemma ctr_axis2 (p q : pt2 F64) ax : axis2 ax -> ax (center_2d p q) = ctr (ax p) (ax q).
Proof. intros [->| ->]; reflexivity. Qed.
Lemma mid_axis2 (p q : pt2 F64) ax : axis2 ax -> ax (build2_center pos2_point p q) = half (ax p) (ax q).
Proof. intros [->| ->]; reflexivity. Qed.
Definition f3 {p : pt3 F64} (F : finite3 p) {ax} (A : axis3 ax) : is_double (ax p) /\ f_finite (ax p) := conj (proj1 (F ax A)) (proj1 (finite_f _) (proj2 (F ax A))).
Definition f2 {p : pt2 F64} (F : finite2 p) {ax} (A : axis2 ax) : is_double (ax p) /\ f_finite (ax p) := conj (proj1 (F ax A)) (proj1 (finite_f _) (proj2 (F ax A))).

(** center and center_nd: the double nearest to the true midpoint, between the ends and the same from both ends, if the sum does not overflow;
    otherwise not finite. *)
Theorem C189_center : forall (p q : pt3 F64), finite3 p -> finite3 q ->
  build3_center pos3_point p q = center_nd3 p q /\ center_nd3 p q = center_nd3 q p /\ forall ax, axis3 ax ->
  (finite (ax p + ax q)%num -> nearest (ax (center_nd3 p q)) ((fval (ax p) + fval (ax q)) / 2) /\
     (fle (ax p) (ax q) -> fle (ax p) (ax (center_nd3 p q)) /\ fle (ax (center_nd3 p q)) (ax q))) /\
  (~ finite (ax p + ax q)%num -> ~ finite (ax (center_nd3 p q))) /\
  (Rabs (fval (ax p)) <= powerRZ 2 1022 -> Rabs (fval (ax q)) <= powerRZ 2 1022 -> finite (ax p + ax q)%num).
Proof.
  intros p q P Q. split; [reflexivity|]. split.
  { change (mk3 (half (px p) (px q)) (half (py p) (py q)) (half (pz p) (pz q)) = mk3 (half (px q) (px p)) (half (py q) (py p)) (half (pz q) (pz p))). f_equal; apply half_comm. }
  intros ax A. rewrite mid_axis by exact A. destruct (f3 P A) as [DP FP], (f3 Q A) as [DQ FQ]. rewrite !finite_f, !bp_powerRZ.
  split; [intros F; split; [apply half_nearest|apply half_between]; assumption|]. split; [apply half_inf; assumption|apply sum_finite; assumption].
Qed.
Print Assumptions C189_center.
Theorem C189_center_of_two : forall (p q : pt2 F64), finite2 p -> finite2 q -> let c := build2_center pos2_point p q in
  c = build2_center pos2_point q p /\ forall ax, axis2 ax ->
  (finite (ax p + ax q)%num -> nearest (ax c) ((fval (ax p) + fval (ax q)) / 2) /\ (fle (ax p) (ax q) -> fle (ax p) (ax c) /\ fle (ax c) (ax q))) /\
  (~ finite (ax p + ax q)%num -> ~ finite (ax c)) /\
  (Rabs (fval (ax p)) <= powerRZ 2 1022 -> Rabs (fval (ax q)) <= powerRZ 2 1022 -> finite (ax p + ax q)%num).
Proof.
  intros p q P Q c. split.
  { change (mk2 (half (x2 p) (x2 q)) (half (y2 p) (y2 q)) = mk2 (half (x2 q) (x2 p)) (half (y2 q) (y2 p))). f_equal; apply half_comm. }
  intros ax A. subst c. rewrite mid_axis2 by exact A. destruct (f2 P A) as [DP FP], (f2 Q A) as [DQ FQ]. rewrite !finite_f, !bp_powerRZ.
  split; [intros F; split; [apply half_nearest|apply half_between]; assumption|]. split; [apply half_inf; assumption|apply sum_finite; assumption].
Qed.
Print Assumptions C189_center_of_two.

(** The functions center_3d and center_2d, used for segments and boxes: between the ends exactly if the difference does not overflow, and then at most
    two roundings away from the true midpoint. *)
Lemma ctr_claim a b : is_double a -> is_double b -> f_finite a -> f_finite b ->
  (f_finite (nsub b a) <-> fle a (ctr a b) /\ fle (ctr a b) b \/ fle b (ctr a b) /\ fle (ctr a b) a) /\
  (f_finite (nsub b a) -> Rabs (fval (ctr a b) - (fval a + fval b) / 2) <= bp (-52) * Rmax (Rabs (fval a)) (Rabs (fval b)) + bp (-1075)).
Proof.
  intros A B FA FB. split; [split|].
  - intros F. destruct (ctr_val a b A B FA FB F) as (D & FC & V). destruct (cr_any (fval a) (fval b) (fval_fmt a A) (fval_fmt b B)) as [H _].
    destruct (Rle_lt_dec (fval a) (fval b)) as [L|L]; [left; rewrite Rmin_left, Rmax_right in H by exact L|right; rewrite Rmin_right, Rmax_left in H by lra]; split; apply fle_val; try assumption; rewrite V; lra.
  - intros H. destruct (f_finite_dec (nsub b a)) as [F|F]; [exact F|exfalso]. pose proof (ctr_inf a b A B FA FB F) as N.
    assert (DC : forall x y z : T F64, f_finite x -> f_finite z -> fle x y -> fle y z -> f_finite y).
    { intros x [s|s| |s m e] z FX FZ L1 L2; cbn; auto. - destruct s; [destruct x as [|[]| |[] ]|destruct z as [|[]| |[] ]]; cbn in *; try contradiction; discriminate. - destruct x; discriminate. }
    destruct H as [[H1 H2]|[H1 H2]]; apply N; [apply (DC a _ b)|apply (DC b _ a)]; assumption.
  - intros F. destruct (ctr_val a b A B FA FB F) as (D & FC & V). destruct (cr_any (fval a) (fval b) (fval_fmt a A) (fval_fmt b B)) as [_ H]. rewrite V.
    eapply Rle_trans; [exact H|]. unfold eta. pose proof (bp_double (-1075)) as Q. change (-1075 + 1)%Z with (-1074)%Z in Q. lra.
Qed.
Theorem C189_center_function : forall (p q : pt3 F64), finite3 p -> finite3 q -> forall ax, axis3 ax -> let c := center_3d p q in
  (finite (ax q - ax p)%num <-> fle (ax p) (ax c) /\ fle (ax c) (ax q) \/ fle (ax q) (ax c) /\ fle (ax c) (ax p)) /\
  (finite (ax q - ax p)%num -> Rabs (fval (ax c) - (fval (ax p) + fval (ax q)) / 2) <= powerRZ 2 (-52) * Rmax (Rabs (fval (ax p))) (Rabs (fval (ax q))) + powerRZ 2 (-1075)).
Proof.
  intros p q P Q ax A c. subst c. rewrite ctr_axis by exact A. destruct (f3 P A) as [DP FP], (f3 Q A) as [DQ FQ]. rewrite !finite_f, !bp_powerRZ. apply ctr_claim; assumption.
Qed.
Print Assumptions C189_center_function.
Theorem C189_center_function_2d : forall (p q : pt2 F64), finite2 p -> finite2 q -> forall ax, axis2 ax -> let c := center_2d p q in
  (finite (ax q - ax p)%num <-> fle (ax p) (ax c) /\ fle (ax c) (ax q) \/ fle (ax q) (ax c) /\ fle (ax c) (ax p)) /\
  (finite (ax q - ax p)%num -> Rabs (fval (ax c) - (fval (ax p) + fval (ax q)) / 2) <= powerRZ 2 (-52) * Rmax (Rabs (fval (ax p))) (Rabs (fval (ax q))) + powerRZ 2 (-1075)).
Proof.
  intros p q P Q ax A c. subst c. rewrite ctr_axis2 by exact A. destruct (f2 P A) as [DP FP], (f2 Q A) as [DQ FQ]. rewrite !finite_f, !bp_powerRZ. apply ctr_claim; assumption.
Qed.
Print Assumptions C189_center_function_2d.

(** ** Subdivision *)
Lemma mid_small p q : small3 (powerRZ 2 1022) p -> small3 (powerRZ 2 1022) q -> small3 (powerRZ 2 1022) (center_nd3 p q) /\ center_nd3 p q = center_nd3 q p /\
  forall ax, axis3 ax -> nearest (ax (center_nd3 p q)) ((fval (ax p) + fval (ax q)) / 2) /\
    (fle (ax p) (ax (center_nd3 p q)) /\ fle (ax (center_nd3 p q)) (ax q) \/ fle (ax q) (ax (center_nd3 p q)) /\ fle (ax (center_nd3 p q)) (ax p)).
Proof.
  intros [P BP] [Q BQ]. destruct (C189_center p q P Q) as (_ & C & H). destruct (C189_center q p Q P) as (_ & _ & H').
  assert (B : forall ax, axis3 ax -> nearest (ax (center_nd3 p q)) ((fval (ax p) + fval (ax q)) / 2) /\
    (fle (ax p) (ax (center_nd3 p q)) /\ fle (ax (center_nd3 p q)) (ax q) \/ fle (ax q) (ax (center_nd3 p q)) /\ fle (ax (center_nd3 p q)) (ax p))).
  { intros ax A. destruct (H ax A) as (H1 & _ & H2). destruct (H' ax A) as (H1' & _ & H2').
    destruct (H1 (H2 (BP ax A) (BQ ax A))) as [N L]. split; [exact N|]. destruct (H1' (H2' (BQ ax A) (BP ax A))) as [_ L']. rewrite <- C in L'.
    destruct (f3 P A) as [DP FP], (f3 Q A) as [DQ FQ]. destruct (Rle_lt_dec (fval (ax p)) (fval (ax q))) as [R|R]; [left; apply L|right; apply L']; apply fle_val; try assumption; lra. }
  split; [|split; assumption]. split.
  - intros ax A. destruct (B ax A) as [(D & F & _) _]. auto.
  - intros ax A. destruct (B ax A) as [(D & F & _) L]. destruct (f3 P A) as [DP FP], (f3 Q A) as [DQ FQ]. apply finite_f in F. pose proof (BP ax A) as X. pose proof (BQ ax A) as Y.
    apply Rabs_le_inv in X, Y. apply Rabs_le. destruct L as [[L1 L2]|[L1 L2]]; apply fle_val in L1, L2; try assumption; lra.
Qed.
Lemma nth_mid {A} (l new : list A) i : (lenN l <= i < lenN (l ++ new))%N -> exists c, nth_error (l ++ new) (N.to_nat i) = Some c /\ In c new.
Proof.
  unfold lenN. rewrite app_length. intros H. rewrite nth_error_app2 by lia. destruct (nth_error new (N.to_nat i - length l)) as [c|] eqn:E.
  - exists c. split; [reflexivity|]. apply nth_error_In in E. exact E.
  - apply nth_error_None in E. lia.
Qed.

(** Every edge gets one new vertex, nearest to the true midpoint, whichever face comes first; all coordinates stay finite and the bounding box is unchanged. *)
Theorem C189_subdivide : forall (m : mesh (pt3 F64)) s, shows m s -> faces_ok s -> (3 * N.of_nat (length (sfs s)) < 2 ^ 64)%N -> Forall (small3 (powerRZ 2 1022)) (svs s) ->
  exists m' new mid_id, subdivide_linear center_nd3 m = Ok m' /\
    let s' := MSpec (svs s ++ new) (flat_map (quarters mid_id) (sfs s)) in shows m' s' /\ faces_ok s' /\ Forall (small3 (powerRZ 2 1022)) new /\
    (forall a b p q, face_edge (sfs s) a b -> nth_error (svs s) (N.to_nat a) = Some p -> nth_error (svs s) (N.to_nat b) = Some q ->
       exists c, nth_error (svs s') (N.to_nat (mid_id a b)) = Some c /\ c = center_nd3 p q /\ forall ax, axis3 ax -> nearest (ax c) ((fval (ax p) + fval (ax q)) / 2)) /\
    ((Z.of_nat (length (svs s')) < 2 ^ 31)%Z -> forall dbg, bb3_from_iterator dbg (svs s') = bb3_from_iterator dbg (svs s)).
Proof.
  intros m s SH OK B F. destruct (MeshAlgoProps.C38_subdivide_linear center_nd3 m s SH OK B) as (m' & new & mid_id & E & SH' & OK' & M & _ & ALL).
  exists m', new, mid_id. split; [exact E|]. cbv zeta in *. cbn [svs] in *. split; [exact SH'|]. split; [exact OK'|]. rewrite Forall_forall in F.
  assert (K : forall v, In v new -> exists p q, In p (svs s) /\ In q (svs s) /\ v = center_nd3 p q /\ (2 <= length (svs s))%nat).
  { intros v V. apply In_nth_error in V as (i & V).
    assert (LI : (i < length new)%nat) by (apply nth_error_Some; congruence).
    destruct (ALL (N.of_nat (length (svs s) + i))) as (a & b & FE & EQ); [unfold lenN; rewrite app_length; lia|].
    destruct (M a b FE) as (_ & _ & p & q & c & PA & PB & PC & D). rewrite <- EQ, Nnat.Nat2N.id, nth_error_app2 in PC by lia. replace (length (svs s) + i - length (svs s))%nat with i in PC by lia.
    assert (v = c) as -> by congruence.
    assert (L2 : (2 <= length (svs s))%nat).
    { destruct FE as (x & y & z & I & _). destruct (OK _ _ _ I) as (X & Y & Z & XY & _). unfold in_range in *. lia. }
    apply nth_error_In in PA, PB. destruct D as [->| ->]; [exists p, q|exists q, p]; auto. }
  split; [|split].
  - apply Forall_forall. intros v V. destruct (K v V) as (p & q & P & Q & -> & _). apply mid_small; apply F; assumption.
  - intros a b p q FE PA PB. destruct (M a b FE) as (_ & _ & p' & q' & c & PA' & PB' & PC & D). assert (p' = p) as -> by congruence. assert (q' = q) as -> by congruence.
    pose proof (nth_error_In _ _ PA) as IA. pose proof (nth_error_In _ _ PB) as IB. destruct (mid_small p q (F _ IA) (F _ IB)) as (_ & C & NR).
    exists c. split; [exact PC|]. assert (c = center_nd3 p q) as -> by (destruct D as [->| ->]; [reflexivity|symmetry; exact C]). split; [reflexivity|]. intros ax A. apply NR, A.
  - intros L dbg. destruct new as [|v new]; [rewrite app_nil_r; reflexivity|]. destruct (K v (or_introl eq_refl)) as (_ & _ & _ & _ & _ & L2). apply bb_keep; [|exact L2|exact L|].
    + apply Forall_forall. intros p P ax A. destruct (f3 (proj1 (F p P)) A) as [_ FP]. apply f_finite_num, FP.
    + intros u ax U A. destruct (K u U) as (p & q & P & Q & -> & _). destruct (mid_small p q (F _ P) (F _ Q)) as (_ & _ & NR). destruct (NR ax A) as [_ [[L1 L2']|[L1 L2']]]; [exists p, q|exists q, p]; auto.
Qed.
Print Assumptions C189_subdivide.

(** Subdividing any number of times: all vertices stay finite, the bounding box stays the same, and old vertices keep their ids. *)
Theorem C189_refine : forall n (m : mesh (pt3 F64)) s, shows m s -> faces_ok s -> (3 * 4 ^ N.of_nat n * N.of_nat (length (sfs s)) < 2 ^ 64)%N -> Forall (small3 (powerRZ 2 1022)) (svs s) ->
  exists m' s', refine n m = Ok m' /\ shows m' s' /\ faces_ok s' /\ N.of_nat (length (sfs s')) = (4 ^ N.of_nat n * N.of_nat (length (sfs s)))%N /\
    (exists new, svs s' = svs s ++ new) /\ Forall (small3 (powerRZ 2 1022)) (svs s') /\
    ((Z.of_nat (length (svs s')) < 2 ^ 31)%Z -> forall dbg, bb3_from_iterator dbg (svs s') = bb3_from_iterator dbg (svs s)).
Proof.
  induction n as [|n IH]; intros m s SH OK B F.
  - exists m, s. cbn [refine]. do 3 (split; [auto|]). split; [cbn; destruct (length (sfs s)); reflexivity|]. split; [exists []; rewrite app_nil_r; reflexivity|]. auto.
  - assert (PW : (4 ^ N.of_nat (S n) = 4 * 4 ^ N.of_nat n)%N) by (rewrite Nnat.Nat2N.inj_succ, N.pow_succ_r'; reflexivity).
    assert (P1 : (1 <= 4 ^ N.of_nat n)%N) by (pose proof (N.pow_nonzero 4 (N.of_nat n) ltac:(lia)); lia). rewrite PW in *.
    destruct (C189_subdivide m s SH OK) as (m1 & new & mid_id & E & SH1 & OK1 & FN & _ & BB); [nia|exact F|].
    set (s1 := MSpec (svs s ++ new) (flat_map (quarters mid_id) (sfs s))) in *.
    assert (L1 : N.of_nat (length (sfs s1)) = (4 * N.of_nat (length (sfs s)))%N).
    { subst s1. cbn [sfs]. clear. induction (sfs s) as [|[[a b] c] l IHl]; [reflexivity|]. cbn [flat_map]. rewrite app_length. cbn [length quarters] in *. lia. }
    destruct (IH m1 s1 SH1 OK1) as (m' & s' & R & SH' & OK' & L' & (new' & E') & F' & BB'); [rewrite L1; nia|apply Forall_app; auto|].
    exists m', s'. cbn [refine]. rewrite E. cbn [obind]. do 3 (split; [assumption|]). split; [rewrite L', L1; nia|]. split; [exists (new ++ new'); rewrite E', app_assoc; reflexivity|]. split; [exact F'|].
    intros L dbg. rewrite BB' by exact L. apply BB. rewrite E', app_length in L. cbn [s1 svs] in *. lia.
Qed.
Print Assumptions C189_refine.

(** ** What fails *)
Definition made (r : res (mesh (pt3 F64))) : mesh (pt3 F64) := match r with Ok m => m | _ => Mesh [] [] end.
Definition point (m : mesh (pt3 F64)) (i : N) : pt3 F64 := match vertex m i with Some p => p | None => fp3 0 0 0 end.
(** Coordinates that are finite but large: a new vertex at infinity. *)
Definition c189_big : mesh (pt3 F64) := Mesh [@mk3 F64 (@lit F64 1 1023) n0 n0; @mk3 F64 (@lit F64 1 1023) (fz 1) n0; fp3 0 0 1] [0; 1; 2]%N.
Theorem C189_infinite_refuted : exists (m m' : mesh (pt3 F64)) p, Forall finite3 (pc m) /\ subdivide_linear center_nd3 m = Ok m' /\ vertex m' 3 = Some p /\ px p = S754_infinity false.
Proof.
  exists c189_big, (made (subdivide_linear center_nd3 c189_big)), (point (made (subdivide_linear center_nd3 c189_big)) 3). split; [|split; [vmeq|split; vmeq]].
  repeat (apply Forall_cons; [intros ax [->|[->| ->]]; split; vm_compute; first [reflexivity|exact I]|]). apply Forall_nil.
Qed.
Print Assumptions C189_infinite_refuted.
(** Vertices at different positions: a new vertex at the position of an old one, so a face without area. *)
Definition c189_near : mesh (pt3 F64) := Mesh [fp3 1 0 0; @mk3 F64 (@lit F64 4503599627370497 (-52)) n0 n0; fp3 0 1 0] [0; 1; 2]%N.
Theorem C189_degenerate_refuted : exists (m m' : mesh (pt3 F64)) p q r v, face_vertices m 0 = Ok (Some (p, q, r)) /\ flt (px p) (px q) /\ flt (px r) (px p) /\
  subdivide_linear center_nd3 m = Ok m' /\ face_vertices m' 0 = Ok (Some (p, p, v)).
Proof.
  exists c189_near, (made (subdivide_linear center_nd3 c189_near)), (point c189_near 0), (point c189_near 1), (point c189_near 2), (point (made (subdivide_linear center_nd3 c189_near)) 5).
  split; [vmeq|]. split; [vm_compute; reflexivity|]. split; [vm_compute; reflexivity|]. split; vmeq.
Qed.
Print Assumptions C189_degenerate_refuted.
(** center_3d depends on the order of its arguments and differs from center. *)
Theorem C189_center_order_refuted : exists p q : pt3 F64, finite3 p /\ finite3 q /\ flt (px (center_3d p q)) (px (center_3d q p)) /\ flt (px (center_3d p q)) (px (center_nd3 p q)).
Proof.
  exists (@mk3 F64 (@lit F64 (-1) (-54)) n0 n0), (fp3 1 0 0).
  split; [intros ax [->|[->| ->]]; split; vm_compute; first [reflexivity|exact I]|]. split; [intros ax [->|[->| ->]]; split; vm_compute; first [reflexivity|exact I]|].
  split; vm_compute; reflexivity.
Qed.
Print Assumptions C189_center_order_refuted.

Example C189_case : let m := Mesh [fp3 0 0 0; fp3 4 0 0; fp3 0 4 0; fp3 0 0 8] [0; 1; 2; 0; 2; 3; 0; 3; 1; 1; 3; 2]%N in
  Forall (small3 (powerRZ 2 1022)) (pc m) /\ num_faces (made (refine 2 m)) = 64%N /\ num_vertices (made (refine 2 m)) = 34%N /\
  bb3_from_iterator true (pc (made (refine 2 m))) = Ok (mkbb3 (fp3 0 0 0) (fp3 4 4 8)) /\ vertex (made (refine 2 m)) 9 = Some (fp3 2 0 4).
Proof.
  intros m. split; [|split; [vmeq|split; [vmeq|split; vmeq]]].
  assert (K : forall x y z, (0 <= x <= 8)%Z -> (0 <= y <= 8)%Z -> (0 <= z <= 8)%Z -> small3 (powerRZ 2 1022) (fp3 x y z)).
  { assert (T : IZR 8 <= bp 1022) by (apply Rle_trans with (bp 3); [cbn; lra|apply bpow_le; lia]).
    assert (E : forall k, (0 <= k <= 8)%Z -> (is_double (fz k) /\ finite (fz k)) /\ Rabs (fval (fz k)) <= bp 1022).
    { intros k Hk. destruct (ClusterLemmas2.lit_int k ltac:(lia)) as [F V]. split; [split; [apply double_lit|apply finite_f; exact F]|]. change (fz k) with (@lit F64 k 0). rewrite V. apply Rabs_le. destruct Hk as [H1 H2]. apply IZR_le in H1, H2. lra. }
    intros x y z X Y Z. rewrite bp_powerRZ. split; intros ax [->|[->| ->]]; apply E; assumption. }
  repeat (apply Forall_cons; [apply K; lia|]). apply Forall_nil.
Qed.
