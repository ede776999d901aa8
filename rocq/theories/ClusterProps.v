(** Properties C120 - C123 (clusters of boxes and of vertices). *)
From Verif Require Import Base BaseLemmas Num NumLemmas BBoxModel VecModel MatrixModel GeomSpec FloatSpec MeshModel MeshSpec MeshLemmas
  MeshAlgoModel MeshAlgoSpec MeshAlgoLemmas ClusterModel ClusterSpec ClusterLemmas ClusterLemmas2 ClusterLemmas3.
From Coq Require Import Floats.SpecFloat Reals Lra Lia ZifyBool ZifyNat ZifyN.
Local Open Scope N_scope.

(** C120: every element whose box contains the position is visited, once, in the order of the data, whatever the counts. *)
Theorem C120_candidates : forall (HB : Type) (bbox : HB -> bb3 F64) (data : list HB) (count_x count_y : N),
  data <> [] -> (forall d, In d data -> good_box (bbox d)) -> count_x < 2 ^ 16 -> count_y < 2 ^ 16 ->
  exists c, cluster_new f64_as bbox data count_x count_y = Ok c /\
    forall x y, is_double x -> finite x -> is_double y -> finite y ->
      exists keep, for_each_candidate f64_as c x y = Ok (filter keep data) /\
        forall d, In d data -> inside_xy (bbox d) x y -> keep d = true.
Proof. exact @cluster_complete. Qed.
Print Assumptions C120_candidates.

Theorem C120_no_data : forall (HB : Type) (bbox : HB -> bb3 F64) (count_x count_y : N),
  cluster_new f64_as bbox [] count_x count_y = Err BoundingBoxMissing.
Proof. exact @cluster_empty. Qed.
Print Assumptions C120_no_data.

Definition box_a : bb3 F64 := mkbb3 (fp3 0 0 0) (fp3 2 2 1).
Definition box_b : bb3 F64 := mkbb3 (fp3 6 5 0) (fp3 8 8 1).
Definition box_c : bb3 F64 := mkbb3 (fp3 1 1 0) (fp3 7 7 1).
Lemma good_boxb (b : bb3 F64) : (forall ax, axis3 ax -> (is_double (ax (min3 b)) /\ is_double (ax (max3 b))) /\
    flt (ax (min3 b)) (ax (max3 b)) /\ finite (ax (min3 b)) /\ finite (ax (max3 b))) -> good_box b.
Proof. intros H. split; [|split]; intros ax A; destruct (H ax A) as (? & ? & ? & ?); auto. Qed.
Example C120_case :
  (forall d, In d [box_a; box_b; box_c] -> good_box d) /\ inside_xy box_a (fz 1) (fz 1) /\ inside_xy box_c (fz 1) (fz 1) /\
  obind (cluster_new f64_as (fun b => b) [box_a; box_b; box_c] 4 4) (fun c => for_each_candidate f64_as c (fz 1) (fz 1))
    = Ok [box_a; box_c] /\
  obind (cluster_new f64_as (fun b => b) [box_a; box_b; box_c] 0 0) (fun c => for_each_candidate f64_as c (fz 1) (fz 1))
    = Ok [box_a; box_b; box_c].
Proof.
  split; [|split; [|split; [|split]]].
  - intros d [<-|[<-|[<-|[]]]]; apply good_boxb; intros ax [->|[->| ->]]; repeat split; vm_compute; reflexivity.
  - repeat split; vm_compute; reflexivity.
  - repeat split; vm_compute; reflexivity.
  - vmeq.
  - vmeq.
Qed.

(** C121: without rounding, everything visited lies closer to the position than one cell in each direction. *)
Theorem C121_candidates_are_near : forall (HB : Type) (bbox : HB -> bb3 RN) (data : list HB) (count_x count_y : N),
  data <> [] -> (forall d, In d data -> real_box (bbox d)) -> 0 < count_x < 2 ^ 16 -> 0 < count_y < 2 ^ 16 ->
  exists c, cluster_new real_as bbox data count_x count_y = Ok c /\
    forall lox hix loy hiy x y : R,
      spans (map (fun d => px (min3 (bbox d))) data) (map (fun d => px (max3 (bbox d))) data) lox hix ->
      spans (map (fun d => py (min3 (bbox d))) data) (map (fun d => py (max3 (bbox d))) data) loy hiy ->
      (lox <= x <= hix)%R -> (loy <= y <= hiy)%R ->
      exists l, for_each_candidate real_as c x y = Ok l /\ forall d, In d l -> In d data /\
        let wx := ((hix - lox) / IZR (Z.of_N count_x))%R in let wy := ((hiy - loy) / IZR (Z.of_N count_y))%R in
        (px (min3 (bbox d)) - wx < x < px (max3 (bbox d)) + wx)%R /\
        (py (min3 (bbox d)) - wy < y < py (max3 (bbox d)) + wy)%R.
Proof. exact @cluster_near. Qed.
Print Assumptions C121_candidates_are_near.
Example C121_case : let b : bb3 RN := mkbb3 (@mk3 RN 0%R 0%R 0%R) (@mk3 RN 3%R 4%R 5%R) in
  real_box b /\ spans (map (fun d : bb3 RN => px (min3 d)) [b]) (map (fun d : bb3 RN => px (max3 d)) [b]) 0%R 3%R.
Proof.
  intros b. split.
  - intros ax [->|[->| ->]]; cbn; lra.
  - split; [left; reflexivity|]. split; [left; reflexivity|]. split; intros v [<-|[]]; cbn; lra.
Qed.

(** C122: every corner moves to the last vertex of its grid cell; faces left with fewer than three different corners go. *)
Theorem C122_cluster_vertices : forall (NM : Num) (cast : N -> T NM -> N) (same : pt3 NM -> pt3 NM -> bool) (dbg : bool)
    (m : mesh (pt3 NM)) (s : mspec (pt3 NM)) (size : T NM) (bb : bb3 NM) (sx sy sz : T NM),
  equality same -> shows m s -> 3 * N.of_nat (length (sfs s)) < 2 ^ 64 ->
  bb3_from_iterator dbg (svs s) = Ok bb -> bb3_size_x bb = Ok sx -> bb3_size_y bb = Ok sy -> bb3_size_z bb = Ok sz ->
  2 <= cast 64 (sx / size)%num -> 2 <= cast 64 (sy / size)%num -> 2 <= cast 64 (sz / size)%num ->
  exists (m' : mesh (pt3 NM)) (s' : mspec (pt3 NM)) (pick : N -> pt3 NM),
    cluster_vertices cast same dbg m size = Ok m' /\ shows m' s' /\ faces_ok s' /\ no_two_same same (svs s') /\
    (forall v p, nth_error (svs s) (N.to_nat v) = Some p -> last_like (grid_cell cast (min3 bb) size) (svs s) p (pick v)) /\
    (forall p, In p (svs s') -> exists a b c, In (a, b, c) (sfs s) /\ In p [pick a; pick b; pick c]) /\
    Forall2 (fun '(a, b, c) g => exists p q r, corners s' g = Some (p, q, r) /\
               same (pick a) p = true /\ same (pick b) q = true /\ same (pick c) r = true)
      (filter (fun '(a, b, c) => negb (same (pick a) (pick b) || same (pick a) (pick c) || same (pick b) (pick c))) (sfs s)) (sfs s').
Proof.
  intros NM cast same dbg m s size bb sx sy sz Q Hs L Eb Ex Ey Ez Cx Cy Cz.
  assert (Pc : pc m = svs s).
  { apply nth_error_ext_list. intros i. destruct Hs as (_ & Hv & _). specialize (Hv (N.of_nat i)). unfold vertex in Hv.
    rewrite nthN_nth_error, Nat2N.id in Hv. exact Hv. }
  rewrite <- Pc in Eb.
  destruct (cluster_vertices_ok cast same (min3 bb) size dbg m s Q Hs L bb sx sy sz Eb eq_refl Ex Ey Ez Cx Cy Cz)
    as (m' & s' & K1 & K2 & K3 & K4 & K5 & K6).
  exists m', s', (pick_id cast (min3 bb) size s). split; [exact K1|]. split; [exact K2|]. split; [exact K3|]. split; [exact K4|].
  split; [intros v p; apply pick_last|]. split.
  - intros p P. destruct (K5 p P) as ([[a b] c] & x & y & z & I & E & J). cbn [pick_face] in E. injection E as <- <- <-. exists a, b, c. auto.
  - match goal with |- Forall2 _ (filter ?f _) _ => replace (filter f (sfs s)) with
      (filter (fun f0 => kept same (pick_face cast (min3 bb) size s f0)) (sfs s)) end.
    + eapply Forall2_weak; [|exact K6]. intros [[a b] c] g (p & q & r & p' & q' & r' & E & C & S1 & S2 & S3).
      cbn [pick_face] in E. injection E as <- <- <-. exists p', q', r'. auto.
    + apply filter_ext. intros [[a b] c]. reflexivity.
Qed.
Print Assumptions C122_cluster_vertices.

Theorem C122_no_box : forall (NM : Num) (cast : N -> T NM -> N) (same : pt3 NM -> pt3 NM -> bool) (dbg : bool) (m : mesh (pt3 NM)) (size : T NM) (e : ErrorKind),
  bb3_from_iterator dbg (pc m) = Err e -> cluster_vertices cast same dbg m size = Err BoundingBoxMissing.
Proof. intros NM cast same dbg m size e E. unfold cluster_vertices, pts3_bb_maybe. rewrite E. reflexivity. Qed.
Print Assumptions C122_no_box.

Theorem C122_too_big : forall (NM : Num) (cast : N -> T NM -> N) (same : pt3 NM -> pt3 NM -> bool) (dbg : bool)
    (m : mesh (pt3 NM)) (size : T NM) (bb : bb3 NM) (sx sy sz : T NM),
  bb3_from_iterator dbg (pc m) = Ok bb -> bb3_size_x bb = Ok sx -> bb3_size_y bb = Ok sy -> bb3_size_z bb = Ok sz ->
  (cast 64 (sx / size)%num < 2 \/ cast 64 (sy / size)%num < 2 \/ cast 64 (sz / size)%num < 2) ->
  cluster_vertices cast same dbg m size = Err ClusterTooBig.
Proof.
  intros NM cast same dbg m size bb sx sy sz E Ex Ey Ez H. unfold cluster_vertices, pts3_bb_maybe. rewrite E. cbn [obind]. rewrite Ex, Ey, Ez. cbn [obind].
  destruct (N.ltb_spec (cast 64 (sx / size)%num) 2); [reflexivity|]. destruct (N.ltb_spec (cast 64 (sy / size)%num) 2); [reflexivity|].
  destruct (N.ltb_spec (cast 64 (sz / size)%num) 2); [reflexivity|]. lia.
Qed.
Print Assumptions C122_too_big.

Definition bits_same (p q : pt3 F64) : bool :=
  let eqb (a b : T F64) := match (a : spec_float), (b : spec_float) with
    | S754_zero s, S754_zero t => Bool.eqb s t
    | S754_infinity s, S754_infinity t => Bool.eqb s t
    | S754_nan, S754_nan => true
    | S754_finite s m e, S754_finite t n f => Bool.eqb s t && (m =? n)%positive && (e =? f)%Z
    | _, _ => false end in
  eqb (px p) (px q) && eqb (py p) (py q) && eqb (pz p) (pz q).
Lemma bits_same_iff p q : bits_same p q = true <-> p = q.
Proof.
  assert (A : forall a b : spec_float, match a, b with
    | S754_zero s, S754_zero t => Bool.eqb s t
    | S754_infinity s, S754_infinity t => Bool.eqb s t
    | S754_nan, S754_nan => true
    | S754_finite s m e, S754_finite t n f => Bool.eqb s t && (m =? n)%positive && (e =? f)%Z
    | _, _ => false end = true <-> a = b).
  { intros [s|s| |s m e] [t|t| |t n f]; try (split; discriminate); try (rewrite Bool.eqb_true_iff; split; congruence); try tauto.
    rewrite !andb_true_iff, Bool.eqb_true_iff, Pos.eqb_eq, Z.eqb_eq. split; [intros [[-> ->] ->]; reflexivity|intros [= -> -> ->]; auto]. }
  destruct p as [a b c], q as [d e f]. unfold bits_same. cbn [px py pz]. rewrite !andb_true_iff, !A.
  split; [intros [[-> ->] ->]; reflexivity|intros [= -> -> ->]; auto].
Qed.
Lemma bits_equality : equality bits_same.
Proof.
  split.
  - intros x. apply bits_same_iff. reflexivity.
  - intros x y H. apply bits_same_iff in H. subst. apply bits_same_iff. reflexivity.
  - intros x y z H1 H2. apply bits_same_iff in H1, H2. subst. apply bits_same_iff. reflexivity.
Qed.
(** Cells of size 2: the vertices 0 and 1 share a cell, so the first face collapses. *)
Definition cv_in : mspec (pt3 F64) := MSpec [fp3 0 0 0; fp3 1 1 1; fp3 8 0 0; fp3 8 8 8; fp3 0 8 0] [(0, 1, 2); (0, 2, 3); (1, 3, 4)].
Definition cv_mi : mesh (pt3 F64) := Mesh (svs cv_in) (flat (sfs cv_in)).
Definition cv_bb : bb3 F64 := mkbb3 (fp3 0 0 0) (fp3 8 8 8).
Lemma cv_ok : faces_ok cv_in.
Proof. intros a b c [H|[H|[H|[]]]]; injection H as <- <- <-; unfold in_range; cbn; lia. Qed.
Example C122_case : shows cv_mi cv_in /\ faces_ok cv_in /\ equality bits_same /\
  bb3_from_iterator true (svs cv_in) = Ok cv_bb /\ bb3_size_x cv_bb = Ok (fz 8) /\ f64_as 64 (@ndiv F64 (fz 8) (fz 2)) = 4 /\
  cluster_vertices f64_as bits_same true cv_mi (fz 2) =
    Ok (Mesh [fp3 1 1 1; fp3 8 0 0; fp3 8 8 8; fp3 0 8 0] [0; 1; 2; 0; 2; 3]) /\
  cluster_vertices f64_as bits_same true cv_mi (fz 5) = Err ClusterTooBig.
Proof.
  split; [apply abs_shows; [split; reflexivity|exact cv_ok]|]. split; [exact cv_ok|]. split; [exact bits_equality|].
  split; [vmeq|]. split; [vmeq|]. split; [vm_compute; reflexivity|]. split; vmeq.
Qed.

(** C123: without rounding, a vertex moves by less than the cell size in each direction. *)
Theorem C123_moves_little : forall (dbg : bool) (vs : list (pt3 RN)) (b : bb3 RN) (size : R) (p q : pt3 RN),
  (Z.of_nat (length vs) < 2 ^ 31)%Z -> bb3_from_iterator dbg vs = Ok b -> (0 < size)%R ->
  (forall ax : pt3 RN -> R, axis3 (NM:=RN) ax -> (ax (max3 b) - ax (min3 b) < IZR (2 ^ 64) * size)%R) ->
  In p vs -> last_like (grid_cell real_as (min3 b) size) vs p q ->
  forall ax : pt3 RN -> R, axis3 (NM:=RN) ax -> (Rabs (ax q - ax p) < size)%R.
Proof. exact last_near. Qed.
Print Assumptions C123_moves_little.
Lemma real_as_is (k : N) (q : R) : k < 2 ^ 64 -> (IZR (Z.of_N k) <= q < IZR (Z.of_N k) + 1)%R -> real_as 64 q = k.
Proof.
  intros K [Q1 Q2]. assert (B : (q < IZR (2 ^ 64))%R).
  { eapply Rlt_le_trans; [exact Q2|]. rewrite <- plus_IZR. apply IZR_le. lia. }
  assert (A : (0 <= q)%R) by (eapply Rle_trans; [|exact Q1]; apply IZR_le; lia).
  destruct (as_R q (conj A B)) as [C D].
  assert (E1 : (Z.of_N (real_as 64 q) < Z.of_N k + 1)%Z) by (apply lt_IZR; rewrite plus_IZR; lra).
  assert (E2 : (Z.of_N k < Z.of_N (real_as 64 q) + 1)%Z) by (apply lt_IZR; rewrite plus_IZR; lra).
  lia.
Qed.
Definition r3 (v : R) : pt3 RN := @mk3 RN v v v.
Example C123_case : forall dbg, exists b : bb3 RN, bb3_from_iterator dbg [r3 0; r3 (1 / 4); r3 4] = Ok b /\
  min3 b = r3 0 /\ (forall ax : pt3 RN -> R, axis3 (NM:=RN) ax -> (ax (max3 b) - ax (min3 b) < IZR (2 ^ 64) * 1)%R) /\
  last_like (grid_cell real_as (min3 b) (1%R : T RN)) [r3 0; r3 (1 / 4); r3 4] (r3 0) (r3 (1 / 4)).
Proof.
  intros dbg. exists (mkbb3 (r3 0) (r3 4)). split; [|split; [reflexivity|split]].
  - rewrite BBoxLemmas.bb3_from_spec by (cbn; lia). unfold BBoxLemmas.fmin, BBoxLemmas.fmax. cbn [map fold_left r3 px py pz].
    assert (A : forall x a : R, (a < x)%R -> (if @nltb RN x a then x else a) = a /\ (if @ngtb RN x a then x else a) = x).
    { intros x a X. destruct (R_ltb_spec x a), (R_gtb_spec x a); split; lra. }
    destruct (A (1 / 4)%R 0%R) as [A1 A2]; [lra|]. destruct (A 4%R 0%R) as [B1 B2]; [lra|]. destruct (A 4%R (1 / 4)%R) as [C1 C2]; [lra|].
    cbn [T RN] in *. rewrite A1, A2, B1, C2. apply MatrixLemmas.bb3_new_R. split; [reflexivity|]. cbn [px py pz]. lra.
  - intros ax [->|[->| ->]]; cbn [min3 max3 px py pz r3]; change (IZR (2 ^ 64)) with 18446744073709551616%R; lra.
  - exists [r3 0], [r3 4]. cbn [min3].
    assert (G : forall v (k : N), k < 2 ^ 64 -> (IZR (Z.of_N k) <= v < IZR (Z.of_N k) + 1)%R ->
              grid_cell real_as (r3 0) (1%R : T RN) (r3 v) = (k, k, k)).
    { intros v k K V. unfold grid_cell. cbn [px py pz r3 nsub ndiv RN]. replace ((v - 0) / 1)%R with v by field.
      rewrite (real_as_is k v K V). reflexivity. }
    split; [reflexivity|]. rewrite (G (1 / 4)%R 0), (G 0%R 0) by (cbn; (lia || lra)). split; [reflexivity|].
    intros z [<-|[]]. rewrite (G 4%R 4) by (cbn; (lia || lra)). discriminate.
Qed.

(** The size is not checked: with size 0 every vertex off the lower corner planes is merged into one,
    here (4,4,4), (2,6,5) and (8,8,8) are; and a face is lost with them. *)
Definition zero_in : mesh (pt3 F64) := Mesh [fp3 0 0 0; fp3 4 4 4; fp3 2 6 5; fp3 8 8 8; fp3 0 8 0] [0; 1; 4; 0; 2; 3].
Theorem C123_zero_size_refuted : cluster_vertices f64_as bits_same true zero_in (fz 0) =
    Ok (Mesh [fp3 0 0 0; fp3 8 8 8; fp3 0 8 0] [0; 1; 2]).
Proof. vmeq. Qed.
Print Assumptions C123_zero_size_refuted.
(** A negative or NaN size is refused for every mesh with a bounding box. *)
Lemma round_aux_minus m e l : f64_as 64 (binary_round_aux f64_prec f64_emax true m e l) = 0.
Proof.
  unfold binary_round_aux. set (r := shr_fexp _ _ _ _ _). destruct r as [mrs e']. set (q := shr_fexp _ _ _ _ _). destruct q as [mrs' e''].
  destruct (shr_m mrs'); try reflexivity. destruct (_ <=? _)%Z; reflexivity.
Qed.
Lemma minus_cast (s size : T F64) : flt n0 s -> ~ fle n0 size -> f64_as 64 (s / size)%num = 0.
Proof.
  intros P Q. destruct s as [[]|[]| |[] m e]; try discriminate P; destruct size as [[]|[]| |[] m' e'];
    try (exfalso; apply Q; reflexivity); try reflexivity.
  cbn [ndiv F64 SFdiv xorb]. set (c := SFdiv_core_binary _ _ _ _ _ _). destruct c as [[mz ez] lz]. apply round_aux_minus.
Qed.
Theorem C123_negative_size : forall (same : pt3 F64 -> pt3 F64 -> bool) (dbg : bool) (m : mesh (pt3 F64)) (size : T F64) (bb : bb3 F64) (sx sy sz : T F64),
  bb3_from_iterator dbg (pc m) = Ok bb -> bb3_size_x bb = Ok sx -> bb3_size_y bb = Ok sy -> bb3_size_z bb = Ok sz ->
  ~ fle n0 size -> cluster_vertices f64_as same dbg m size = Err ClusterTooBig.
Proof.
  intros same dbg m size bb sx sy sz E Ex Ey Ez H. apply (C122_too_big F64 f64_as same dbg m size bb sx sy sz E Ex Ey Ez).
  left. rewrite minus_cast; [reflexivity| |exact H]. unfold bb3_size_x in Ex. destruct (SFltb (@n0 F64) (nabs (px (max3 bb) - px (min3 bb))%num)) eqn:G.
  - rewrite (WrapLemmas.positive_some _ G) in Ex. injection Ex as <-. exact G.
  - rewrite WrapLemmas.positive_none in Ex; [discriminate Ex|]. unfold flt. rewrite G. discriminate.
Qed.
Print Assumptions C123_negative_size.
Example C123_negative_case : ~ fle n0 (fz (-1)) /\ ~ fle n0 (S754_nan : T F64) /\ (exists bb, bb3_from_iterator true (pc zero_in) = Ok bb /\ bb3_size_x bb = Ok (fz 8)) /\
  cluster_vertices f64_as bits_same true zero_in (fz (-1)) = Err ClusterTooBig.
Proof. split; [vm_compute; discriminate|]. split; [vm_compute; discriminate|]. split; [exists (mkbb3 (fp3 0 0 0) (fp3 8 8 8)); split; vmeq|vmeq]. Qed.
