(** Properties of lines, clouds, polygons, insertion, ordering and rays (C52-C56, C91-C95). *)
From Verif Require Import Base BaseLemmas Num NumLemmas SortSpec SortLemmas BBoxModel GeomSpec BBoxLemmas KdLemmas VecModel VecSpec VecLemmas OcModel LineModel MatrixSpec MatrixLemmas AabbSpec AabbLemmas FloatLemmas CloudModel CloudSpec CloudLemmas VecModel.
From Coq Require Import Floats.SpecFloat Reals Lra Psatz Lia.
Local Open Scope R_scope.

(** ** C52: line and box *)
Theorem C52_line_box : forall (l : line3 RN) (b : bb3 RN), px (dir l) <> 0 -> py (dir l) <> 0 -> pz (dir l) <> 0 -> valid3 b ->
  match intersection l b with
  | Some p => (exists t, 0 <= t /\ closed3 b (at_param l t)) /\
      exists t, p = at_param l t /\ closed3 b p /\ forall s, closed3 b (at_param l s) -> t <= s
  | None => ~ exists t, 0 <= t /\ closed3 b (at_param l t)
  end.
Proof. exact intersection_R. Qed.
Print Assumptions C52_line_box.
(** Lines along an axis that touch the upper y face: the box is behind the ray, yet a hit is
    reported, with coordinates that are no numbers. *)
Theorem C52_along_axis_refuted : exists (l : line3 F64) (b : bb3 F64) p,
  norm3_x = Ok (dir l) /\ fvalid3 b /\ flt (px (max3 b)) (px (anchor l)) /\ intersection l b = Some p /\
  py p = S754_nan /\ pz p = S754_nan.
Proof.
  exists (mkline3 (@mk3 F64 (fz 5) (fz 1) (lit 1 (-1))) (fp3 1 0 0)), (mkbb3 (fp3 0 0 0) (fp3 1 1 1)),
    (@mk3 F64 (S754_infinity true) S754_nan S754_nan).
  split; [vmeq|]. split; [intros ? [->|[->| ->]]; vmeq|]. split; [vmeq|]. split; [vmeq|]. split; reflexivity.
Qed.
Print Assumptions C52_along_axis_refuted.
Example C52_case : exists p, intersection (mkline3 (rp3 0 0 0) (rp3 1 1 1)) (mkbb3 (rp3 1 1 1) (rp3 2 2 2)) = Some p.
Proof.
  pose proof (C52_line_box (mkline3 (rp3 0 0 0) (rp3 1 1 1)) (mkbb3 (rp3 1 1 1) (rp3 2 2 2))) as H. cbn [dir rp3 px py pz] in H.
  destruct (intersection _ _); [eauto|]. exfalso. apply H; try (cbn; lra); try (intros ? [->|[->| ->]]; cbn; lra).
  exists 1. split; [lra|]. intros ? [->|[->| ->]]; cbn; lra.
Qed.

(** ** C53: length and center of gravity *)
Theorem C53_length_3d : forall ps : list (pt3 RN),
  pc3_length ps = path rdist3 ps /\ ((length ps < 2)%nat -> pc3_length ps = 0) /\
  (forall p, hd_error ps = Some p -> rdist3 p (last ps p) <= pc3_length ps) /\
  poly3_length ps = path rdist3 (ps ++ firstn 1 ps).
Proof.
  intros ps. split; [apply pc3_length_R|]. split; [|split].
  - rewrite pc3_length_R. destruct ps as [|p [|q r]]; cbn; intros; try reflexivity; lia.
  - intros p. rewrite pc3_length_R. destruct ps as [|q r]; [discriminate|]. intros H. apply Some_inj in H. subst q. rewrite last_cons.
    apply path_ge; [apply rdist3_self|apply tri3].
  - unfold poly3_length. rewrite pc3_length_R. destruct ps as [|p r]; [reflexivity|]. cbn [firstn]. rewrite path_app, dist3_R, last_cons. reflexivity.
Qed.
Print Assumptions C53_length_3d.
Theorem C53_length_2d : forall ps : list (pt2 RN),
  pc2_length ps = path rdist2 ps /\ ((length ps < 2)%nat -> pc2_length ps = 0) /\
  (forall p, hd_error ps = Some p -> rdist2 p (last ps p) <= pc2_length ps) /\
  poly2_length ps = path rdist2 (ps ++ firstn 1 ps).
Proof.
  intros ps. split; [apply pc2_length_R|]. split; [|split].
  - rewrite pc2_length_R. destruct ps as [|p [|q r]]; cbn; intros; try reflexivity; lia.
  - intros p. rewrite pc2_length_R. destruct ps as [|q r]; [discriminate|]. intros H. apply Some_inj in H. subst q. rewrite last_cons.
    apply path_ge; [apply rdist2_self|apply tri2].
  - unfold poly2_length. rewrite pc2_length_R. destruct ps as [|p r]; [reflexivity|]. cbn [firstn]. rewrite path_app, dist2_R, last_cons. reflexivity.
Qed.
Print Assumptions C53_length_2d.
Theorem C53_center_of_gravity_3d : forall ps : list (pt3 RN),
  (pc3_cog ps = None <-> ps = []) /\
  forall c ax, pc3_cog ps = Some c -> axis3 ax -> ax c = total (map ax ps) / INR (length ps) /\
    forall lo hi : R, (forall p, In p ps -> lo <= ax p <= hi) -> lo <= ax c <= hi.
Proof.
  intros ps. split; [destruct ps; split; intros H; try reflexivity; discriminate H|]. intros c ax H A. pose proof (cog3_R ps c H ax A) as E. split; [exact E|].
  intros lo hi B. rewrite E. apply mean_between; [intros ->; discriminate|exact B].
Qed.
Print Assumptions C53_center_of_gravity_3d.
Theorem C53_center_of_gravity_2d : forall ps : list (pt2 RN),
  (pc2_cog ps = None <-> ps = []) /\
  forall c ax, pc2_cog ps = Some c -> axis2 ax -> ax c = total (map ax ps) / INR (length ps) /\
    forall lo hi : R, (forall p, In p ps -> lo <= ax p <= hi) -> lo <= ax c <= hi.
Proof.
  intros ps. split; [destruct ps; split; intros H; try reflexivity; discriminate H|]. intros c ax H A. pose proof (cog2_R ps c H ax A) as E. split; [exact E|].
  intros lo hi B. rewrite E. apply mean_between; [intros ->; discriminate|exact B].
Qed.
Print Assumptions C53_center_of_gravity_2d.
Example C53_case : pc3_length [fp3 0 0 0; fp3 3 4 0; fp3 3 4 12] = fz 17 /\ poly3_length [fp3 0 0 0; fp3 3 4 0; fp3 3 4 12] = fz 30 /\
  pc3_cog [fp3 0 0 0; fp3 2 4 0; fp3 4 2 12; fp3 2 2 0] = Some (fp3 2 2 3) /\ pc2_cog [fp2 0 0; fp2 2 4] = Some (fp2 1 2) /\
  pc2_length [fp2 0 0; fp2 3 4] = fz 5 /\ poly2_length [fp2 0 0; fp2 3 4] = fz 10.
Proof. split; [vmeq|]. split; [vmeq|]. split; [vmeq|]. split; [vmeq|]. split; vmeq. Qed.

(** ** C54: polygons *)
Theorem C54_segments : forall {P} (ps : list P) (i : N),
  poly_num_segments ps = lenN ps /\
  (if (i <? lenN ps)%N then
     exists a b, poly_segment_vertex_ids ps i = Some (i, (i + 1) mod lenN ps)%N /\
       nthN ps i = Some a /\ nthN ps ((i + 1) mod lenN ps) = Some b /\ poly_segment_vertices ps i = Ok (Some (a, b)) /\
       poly_vertex ps i = Some a
   else poly_segment_vertex_ids ps i = None /\ poly_segment_vertices ps i = Ok None /\ poly_vertex ps i = None).
Proof.
  intros P ps i. split; [reflexivity|]. destruct (N.ltb_spec i (lenN ps)) as [L|L].
  - assert (M : ((i + 1) mod lenN ps < lenN ps)%N) by (apply N.mod_lt; lia).
    destruct (nthN_lt_Some ps i L) as [a A], (nthN_lt_Some ps _ M) as [b B]. exists a, b.
    assert (E : poly_segment_vertex_ids ps i = Some (i, (i + 1) mod lenN ps)%N).
    { unfold poly_segment_vertex_ids. destruct (N.leb_spec (lenN ps) i); [lia|]. destruct (N.eqb_spec i (lenN ps - 1)) as [Q|Q].
      - replace (i + 1)%N with (lenN ps) by lia. rewrite N.mod_same by lia. reflexivity.
      - rewrite N.mod_small by lia. reflexivity. }
    split; [exact E|]. split; [exact A|]. split; [exact B|]. split; [|exact A]. unfold poly_segment_vertices. rewrite E, A, B. reflexivity.
  - assert (E : poly_segment_vertex_ids ps i = None) by (unfold poly_segment_vertex_ids; destruct (N.leb_spec (lenN ps) i); [reflexivity|lia]).
    split; [exact E|]. split; [unfold poly_segment_vertices; rewrite E; reflexivity|]. apply nthN_None_ge. exact L.
Qed.
Print Assumptions C54_segments.
Theorem C54_edits : forall {P} (ps : list P) (p : P) (i : N),
  (let (qs, id) := poly_add_vertex ps p in qs = ps ++ [p] /\ id = lenN ps /\ poly_vertex qs id = Some p) /\
  match poly_change_vertex ps i p with
  | Ok qs => (i < lenN ps)%N /\ lenN qs = lenN ps /\ forall j, poly_vertex qs j = if (j =? i)%N then Some p else poly_vertex ps j
  | Err e => e = IncorrectVertexID /\ (lenN ps <= i)%N
  | Panic => False
  end.
Proof.
  intros P ps p i. split.
  - cbn [poly_add_vertex]. split; [reflexivity|]. rewrite lenN_app. change (lenN [p]) with 1%N. split; [lia|].
    unfold poly_vertex. rewrite nthN_app. destruct (N.ltb_spec (lenN ps + 1 - 1) (lenN ps)); [lia|].
    replace (lenN ps + 1 - 1 - lenN ps)%N with 0%N by lia. reflexivity.
  - unfold poly_change_vertex. destruct (N.leb_spec (lenN ps) i) as [L|L]; [auto|]. split; [exact L|]. split; [apply setN_lenN|].
    intros j. unfold poly_vertex. rewrite nthN_setN. destruct (N.eqb_spec j i) as [->|D], (N.ltb_spec i (lenN ps)); try lia; try reflexivity.
    all: destruct (N.eqb_spec i i) as [_|?]; try contradiction; try reflexivity; destruct (N.eqb_spec i j); try congruence; reflexivity.
Qed.
Print Assumptions C54_edits.
Example C54_case : poly_segment_vertices [10%N; 20%N; 30%N] 2 = Ok (Some (30%N, 10%N)) /\ poly_segment_vertices [10%N; 20%N; 30%N] 3 = Ok None.
Proof. split; reflexivity. Qed.

(** ** C55: insertion *)
Theorem C55_insertion : forall {A} (l : list A) (i : N) (x : A),
  let inserted r := exists u v, l = u ++ v /\ lenN u = i /\ r = u ++ x :: v in
  match pc_insert l i x with Ok r => (i <= lenN l)%N /\ inserted r | Err e => e = IncorrectVertexID /\ (lenN l < i)%N | Panic => False end /\
  match vec_insert l i x with Ok r => (i < lenN l)%N /\ inserted r | Err e => e = IndexOutOfBounds /\ (lenN l <= i)%N | Panic => False end.
Proof.
  intros A l i x inserted.
  assert (S : (i <= lenN l)%N -> exists r, std_insert l i x = Ok r /\ inserted r).
  { intros L. unfold std_insert. destruct (N.ltb_spec (lenN l) i); [lia|]. eexists. split; [reflexivity|].
    exists (firstn (N.to_nat i) l), (skipn (N.to_nat i) l). split; [symmetry; apply firstn_skipn|]. split; [|reflexivity].
    unfold lenN in *. rewrite firstn_length. lia. }
  unfold pc_insert, vec_insert. split.
  - destruct (N.ltb_spec (lenN l) i) as [L|L]; [auto|]. destruct (S L) as (r & -> & R). auto.
  - destruct (N.leb_spec (lenN l) i) as [L|L]; [auto|]. destruct (S ltac:(lia)) as (r & -> & R). auto.
Qed.
Print Assumptions C55_insertion.
(** The containers disagree at the end: the trait does not say which index is the last one. *)
Theorem C55_append_disagrees : forall {A} (l : list A) (x : A),
  pc_insert l (lenN l) x = Ok (l ++ [x]) /\ vec_insert l (lenN l) x = Err IndexOutOfBounds.
Proof.
  intros A l x. unfold pc_insert, vec_insert, std_insert. rewrite N.ltb_irrefl, N.leb_refl. split; [|reflexivity].
  unfold lenN. rewrite Nat2N.id, firstn_all, skipn_all. reflexivity.
Qed.
Print Assumptions C55_append_disagrees.
Example C55_case : vec_insert [1%N; 2%N] 1 9%N = Ok [1%N; 9%N; 2%N] /\ pc_insert [1%N; 2%N] 3 9%N = Err IncorrectVertexID. Proof. split; reflexivity. Qed.

(** ** C56: ordering of points *)
(** On points without NaN cmp is a total preorder. *)
Theorem C56_preorder : (forall l : list (pt3 F64), Forall number3 l -> cmp_ok pt3_cmp l) /\
  (forall l : list (pt2 F64), Forall number2 l -> cmp_ok pt2_cmp l).
Proof.
  split; intros l H.
  - apply (cmp_preorder F64_laws (sqr_dist_3d (mk3 n0 n0 n0))). eapply Forall_impl; [|exact H]. intros p P. exact (origin3_num p P).
  - apply (cmp_preorder F64_laws (sqr_dist_2d (mk2 n0 n0))). eapply Forall_impl; [|exact H]. intros p P. exact (origin2_num p P).
Qed.
Print Assumptions C56_preorder.
(** It is neither consistent with ==, nor with partial_cmp, nor an order once a NaN takes part; and
    equal points have different hashes. *)
Theorem C56_contracts_refuted :
  (exists a b : pt3 F64, number3 a /\ number3 b /\ pt3_cmp a b = Eq /\ pt3_eq a b = false) /\
  (exists a b : pt3 F64, number3 a /\ number3 b /\ pt3_cmp a b = Gt /\ pt3_partial_cmp a b = Some Lt) /\
  (exists a b : pt2 F64, number2 a /\ number2 b /\ pt2_cmp a b = Gt /\ pt2_partial_cmp a b = Some Lt) /\
  (exists a b c : pt3 F64, pt3_cmp a b <> Gt /\ pt3_cmp b c <> Gt /\ pt3_cmp a c = Gt) /\
  (exists a b : pt3 F64, pt3_eq a b = true /\ pt3_hash_input a <> pt3_hash_input b).
Proof.
  assert (N3 : forall x y z, number3 (fp3 x y z)) by (intros x y z ? [->|[->| ->]]; apply lit_num).
  assert (N2 : forall x y, number2 (fp2 x y)) by (intros x y ? [->| ->]; apply lit_num).
  split; [exists (fp3 1 0 0), (fp3 0 1 0); split; [apply N3|split; [apply N3|split; vmeq]]|].
  split; [exists (fp3 0 2 0), (fp3 1 0 0); split; [apply N3|split; [apply N3|split; vmeq]]|].
  split; [exists (fp2 0 2), (fp2 1 0); split; [apply N2|split; [apply N2|split; vmeq]]|].
  split.
  - exists (fp3 2 0 0), (@mk3 F64 S754_nan S754_nan S754_nan), (fp3 1 0 0).
    assert (E : pt3_cmp (fp3 2 0 0) (@mk3 F64 S754_nan S754_nan S754_nan) = Eq) by vmeq.
    assert (E' : pt3_cmp (@mk3 F64 S754_nan S754_nan S754_nan) (fp3 1 0 0) = Eq) by vmeq. rewrite E, E'. split; [discriminate|]. split; [discriminate|vmeq].
  - exists (fp3 0 0 0), (@mk3 F64 (S754_zero true) (fz 0) (fz 0)). split; [vmeq|]. unfold pt3_hash_input. intros H. injection H as H. discriminate.
Qed.
Print Assumptions C56_contracts_refuted.
Example C56_case : Forall number3 [fp3 1 2 3; fp3 3 2 1] /\ pt3_cmp (fp3 1 2 3) (fp3 3 2 1) = Eq /\ pt3_cmp (fp3 1 2 3) (fp3 3 2 2) = Lt.
Proof. split; [repeat constructor; intros ? [->|[->| ->]]; apply lit_num|]. split; vmeq. Qed.

(** ** C91: ray and triangle *)
Theorem C91_ray_triangle : forall (ray : line3 RN) (a b c : pt3 RN), exists o,
  intersection_ray_triangle ray a b c = Ok o /\ forall p, o = Some p <-> crosses ray a b c p.
Proof. exact ray_triangle_R. Qed.
Print Assumptions C91_ray_triangle.
(** A mesh: exactly the crossing points of its triangles are added, in face order. *)
Theorem C91_ray_mesh : forall (ray : line3 RN) faces acc, exists hits,
  collect_intersections ray faces acc = Ok (acc ++ hits) /\
  (forall p, In p hits <-> exists a b c, In (a, b, c) faces /\ crosses ray a b c p) /\ (length hits <= length faces)%nat.
Proof.
  intros ray faces. induction faces as [|[[a b] c] r IH]; intros acc.
  - exists []. rewrite app_nil_r. split; [reflexivity|]. split; [|apply le_n]. intros p. split; [intros []|intros (a & b & c & [] & _)].
  - cbn [collect_intersections]. destruct (ray_triangle_R ray a b c) as (o & -> & O). cbn [obind]. destruct o as [p|].
    + destruct (IH (acc ++ [p])) as (h & E & H & L). exists (p :: h). rewrite E, <- app_assoc. split; [reflexivity|]. split; [|cbn; lia].
      intros q. cbn [In]. rewrite H. split.
      * intros [<-|(a' & b' & c' & I & C)]; [exists a, b, c; split; [auto|apply O; reflexivity]|eauto 8].
      * intros (a' & b' & c' & [[= <- <- <-]|I] & C); [|eauto 8]. apply O in C. injection C as ->. auto.
    + destruct (IH acc) as (h & E & H & L). exists h. rewrite E. split; [reflexivity|]. split; [|cbn; lia].
      intros q. rewrite H. cbn [In]. split.
      * intros (a' & b' & c' & I & C). eauto 8.
      * intros (a' & b' & c' & [[= <- <- <-]|I] & C); [|eauto 8]. apply O in C. discriminate.
Qed.
Print Assumptions C91_ray_mesh.
(** A ray through an edge that two triangles share hits neither of them. *)
Theorem C91_shared_edge_missed_refuted : exists (ray : line3 F64) a b c d,
  a = fp3 0 0 0 /\ b = fp3 2 0 0 /\ c = fp3 2 2 0 /\ d = fp3 0 2 0 /\ anchor ray = fp3 1 1 5 /\ dir ray = fp3 0 0 (-1) /\
  collect_intersections ray [(a, b, c); (a, c, d)] [] = Ok [].
Proof.
  exists (mkline3 (fp3 1 1 5) (fp3 0 0 (-1))). do 4 eexists. do 6 (split; [reflexivity|]). vmeq.
Qed.
Print Assumptions C91_shared_edge_missed_refuted.
Example C91_case : intersection_ray_triangle (mkline3 (fp3 1 1 5) (fp3 0 0 (-1))) (fp3 0 0 0) (fp3 4 0 0) (fp3 0 4 0) = Ok (Some (fp3 1 1 0)) /\
  crosses (mkline3 (rp3 1 1 5) (rp3 0 0 (-1))) (rp3 0 0 0) (rp3 4 0 0) (rp3 0 4 0) (rp3 1 1 0).
Proof.
  split; [vmeq|]. split; [unfold rdot3, area_vec, rp3; cbn; lra|]. split.
  - exists 5. split; [lra|]. unfold at_param, rp3. cbn. f_equal; toR; lra.
  - exists (1/2), (1/4), (1/4). repeat split; try lra. unfold weighted, rp3. cbn. f_equal; toR; lra.
Qed.

(** ** C92: the closest hit *)
(** The result is the first of the objects whose entry point has the least distance. *)
Theorem C92_closest : forall {X} (ray : line3 RN) (bbox : X -> option (bb3 RN)) (xs : list X),
  let hit x i := exists b, bbox x = Some b /\ intersection ray b = Some i in
  let d p := sqd3 (anchor ray) p in
  match closest_intersecting ray bbox xs with
  | None => forall x i, In x xs -> ~ hit x i
  | Some (i, x) => exists u v, xs = u ++ x :: v /\ hit x i /\
      (forall y j, In y u -> hit y j -> d i < d j) /\ (forall y j, In y v -> hit y j -> d i <= d j)
  end.
Proof.
  intros X ray bbox xs hit d.
  assert (HH : forall x i, hit x i <-> hit_of ray bbox x = Some i).
  { intros x i. unfold hit, hit_of. destruct (bbox x) as [b|]; split; intros H.
    - destruct H as (b' & [= <-] & H). exact H.
    - eauto.
    - destruct H as (b' & H & _). discriminate.
    - discriminate. }
  assert (FF : forall p, far ray p = d p) by (intros p; unfold far, d; apply sqr_dist_R).
  pose proof (closest_best ray bbox xs [] None) as B. cbn [app] in B. lapply B; [clear B; intros B|intros y []].
  fold (closest_intersecting ray bbox xs) in B. destruct (closest_intersecting ray bbox xs) as [[i x]|]; cbn [best] in B.
  - destruct B as (u & v & E & H & A & C). exists u, v. split; [exact E|]. split; [apply HH, H|]. split; intros y j Y J; apply HH in J; rewrite <- !FF; [apply (A y)|apply (C y)]; auto.
  - intros x i Ix H. apply HH in H. rewrite (B x Ix) in H. discriminate.
Qed.
Print Assumptions C92_closest.
(** The index variant finds the position of the same object, in any arithmetic. *)
Theorem C92_index : forall {NM : Num} {X} (ray : line3 NM) (bbox : X -> option (bb3 NM)) (xs : list X),
  match index_closest_intersecting ray bbox xs, closest_intersecting ray bbox xs with
  | None, None => True
  | Some (p, i), Some (q, x) => p = q /\ nthN xs i = Some x
  | _, _ => False
  end.
Proof. intros NM X ray bbox xs. apply (index_fold ray bbox xs 0 None None []); [reflexivity|exact I]. Qed.
Print Assumptions C92_index.
(** for_each_intersecting calls the function for every hit, in order. *)
Theorem C92_for_each : forall {NM : Num} {X} (ray : line3 NM) (bbox : X -> option (bb3 NM)) (xs : list X),
  for_each_intersecting ray bbox xs = flat_map (fun x => match bbox x with
    | Some b => match intersection ray b with Some i => [(i, x)] | None => [] end | None => [] end) xs.
Proof.
  intros NM X ray bbox xs. unfold for_each_intersecting. match goal with |- fold_left ?f _ _ = flat_map ?g _ => enough (G : forall xs acc, fold_left f xs acc = acc ++ flat_map g xs) by exact (G xs []) end.
  clear xs. induction xs as [|x r IH]; intros acc; cbn [fold_left flat_map]; [rewrite app_nil_r; reflexivity|].
  rewrite IH, app_assoc. destruct (bbox x) as [b|]; [destruct (intersection ray b)|]; rewrite ?app_nil_r; reflexivity.
Qed.
Print Assumptions C92_for_each.
(** Started inside a box the "intersection with the ray" lies behind the start of the ray. *)
Theorem C92_behind_refuted : exists (ray : line3 F64) (b : bb3 F64) p,
  norm3_new (fp3 1 1 1) = Ok (dir ray) /\ fvalid3 b /\ bb3_contains b (anchor ray) = true /\
  closest_intersecting ray Some [b] = Some (p, b) /\ flt (px p) (px (anchor ray)) /\ flt n0 (px (dir ray)).
Proof.
  set (c := S754_finite false 5200308914369309 (-53)).
  exists (mkline3 (fp3 0 0 0) (@mk3 F64 c c c)), (mkbb3 (fp3 (-8) (-8) (-8)) (fp3 1 1 1)), (fp3 (-8) (-8) (-8)). subst c.
  split; [vmeq|]. split; [intros ? [->|[->| ->]]; vmeq|]. split; [vmeq|]. split; [vmeq|]. split; vmeq.
Qed.
Print Assumptions C92_behind_refuted.
Example C92_case : let b1 := mkbb3 (fp3 4 (-1) (-1)) (fp3 5 1 1) in let b2 := mkbb3 (fp3 2 (-1) (-1)) (fp3 3 1 1) in
  closest_intersecting (mkline3 (fp3 0 0 0) (fp3 1 0 0)) Some [b1; b2] = Some (fp3 2 0 0, b2) /\
  index_closest_intersecting (mkline3 (fp3 0 0 0) (fp3 1 0 0)) Some [b1; b2] = Some (fp3 2 0 0, 1%N).
Proof. split; vmeq. Qed.

(** ** C93: sorting by a coordinate *)
Theorem C93_sort_3d : forall sort, sort_ok sort -> forall (ps : list (pt3 F64)) d,
  match pc3_sort_dim sort ps d with
  | Ok qs => Permutation ps qs /\ exists ax, nth_error [px; py; pz] (N.to_nat d) = Some ax /\
      (Forall number3 ps -> StronglySorted (fun p q => fle (ax p) (ax q)) qs /\
         forall p, In p ps -> filter (fun q => neqb (ax p) (ax q)) qs = filter (fun q => neqb (ax p) (ax q)) ps)
  | Err e => e = IncorrectDimension /\ (3 <= d)%N
  | Panic => False
  end.
Proof.
  intros sort SO ps d.
  assert (K : forall (ax : pt3 F64 -> T F64) (cmp : pt3 F64 -> pt3 F64 -> comparison), axis3 ax ->
    (forall a b, number3 a -> number3 b -> cmp a b = cmp_or_eq (ncmp (ax a) (ax b))) ->
    Permutation ps (sort _ cmp ps) /\
    (Forall number3 ps -> StronglySorted (fun p q => fle (ax p) (ax q)) (sort _ cmp ps) /\
       forall p, In p ps -> filter (fun q => neqb (ax p) (ax q)) (sort _ cmp ps) = filter (fun q => neqb (ax p) (ax q)) ps)).
  { intros ax cmp A E. split; [apply (sort_perm _ SO)|]. intros F. apply (sort_by_key SO); [|]; intros.
    - exact (proj1 (Forall_forall _ _) F _ H ax A).
    - apply E; apply (proj1 (Forall_forall _ _) F); assumption. }
  assert (O : forall (ax : pt3 F64 -> T F64) a b c, axis3 ax -> number3 a -> number3 b -> or_else_cmp (ncmp (ax a) (ax b)) c = ncmp (ax a) (ax b)).
  { intros ax a b c A Na Nb. destruct (num_cmp F64_laws (ax a) (ax b) (Na ax A) (Nb ax A)) as [o ->]. reflexivity. }
  assert (X : axis3 (NM := F64) px) by (unfold axis3; auto). assert (Y : axis3 (NM := F64) py) by (unfold axis3; auto). assert (Z : axis3 (NM := F64) pz) by (unfold axis3; auto).
  destruct d as [|[[d|d|]|[d|d|]|]]; cbn [pc3_sort_dim]; try (split; [reflexivity|lia]).
  - destruct (K px cmp3_x X) as [P Q]; [intros a b Na Nb; unfold cmp3_x; rewrite !O by assumption; reflexivity|]. split; [exact P|]. exists px. split; [reflexivity|exact Q].
  - destruct (K pz cmp3_z Z) as [P Q]; [intros a b Na Nb; unfold cmp3_z; rewrite !O by assumption; reflexivity|]. split; [exact P|]. exists pz. split; [reflexivity|exact Q].
  - destruct (K py cmp3_y Y) as [P Q]; [intros a b Na Nb; unfold cmp3_y; rewrite !O by assumption; reflexivity|]. split; [exact P|]. exists py. split; [reflexivity|exact Q].
Qed.
Print Assumptions C93_sort_3d.
Theorem C93_sort_2d : forall sort, sort_ok sort -> forall (ps : list (pt2 F64)) d,
  match pc2_sort_dim sort ps d with
  | Ok qs => Permutation ps qs /\ exists ax, nth_error [x2; y2] (N.to_nat d) = Some ax /\
      (Forall number2 ps -> StronglySorted (fun p q => fle (ax p) (ax q)) qs /\
         forall p, In p ps -> filter (fun q => neqb (ax p) (ax q)) qs = filter (fun q => neqb (ax p) (ax q)) ps)
  | Err e => e = IncorrectDimension /\ (2 <= d)%N
  | Panic => False
  end.
Proof.
  intros sort SO ps d.
  assert (K : forall (ax : pt2 F64 -> T F64) (cmp : pt2 F64 -> pt2 F64 -> comparison), axis2 ax ->
    (forall a b, number2 a -> number2 b -> cmp a b = cmp_or_eq (ncmp (ax a) (ax b))) ->
    Permutation ps (sort _ cmp ps) /\
    (Forall number2 ps -> StronglySorted (fun p q => fle (ax p) (ax q)) (sort _ cmp ps) /\
       forall p, In p ps -> filter (fun q => neqb (ax p) (ax q)) (sort _ cmp ps) = filter (fun q => neqb (ax p) (ax q)) ps)).
  { intros ax cmp A E. split; [apply (sort_perm _ SO)|]. intros F. apply (sort_by_key SO); [|]; intros.
    - exact (proj1 (Forall_forall _ _) F _ H ax A).
    - apply E; apply (proj1 (Forall_forall _ _) F); assumption. }
  assert (O : forall (ax : pt2 F64 -> T F64) a b c, axis2 ax -> number2 a -> number2 b -> or_else_cmp (ncmp (ax a) (ax b)) c = ncmp (ax a) (ax b)).
  { intros ax a b c A Na Nb. destruct (num_cmp F64_laws (ax a) (ax b) (Na ax A) (Nb ax A)) as [o ->]. reflexivity. }
  assert (X : axis2 (NM := F64) x2) by (unfold axis2; auto). assert (Y : axis2 (NM := F64) y2) by (unfold axis2; auto).
  destruct d as [|[d|d|]]; cbn [pc2_sort_dim]; try (split; [reflexivity|lia]).
  - destruct (K x2 cmp2_x X) as [P Q]; [intros a b Na Nb; unfold cmp2_x; rewrite !O by assumption; reflexivity|]. split; [exact P|]. exists x2. split; [reflexivity|exact Q].
  - destruct (K y2 cmp2_y Y) as [P Q]; [intros a b Na Nb; unfold cmp2_y; rewrite !O by assumption; reflexivity|]. split; [exact P|]. exists y2. split; [reflexivity|exact Q].
Qed.
Print Assumptions C93_sort_2d.
(** Points with the same x are left in their old order: the second coordinate is not compared. *)
Theorem C93_ties_refuted : exists ps : list (pt2 F64), Forall number2 ps /\ forall sort, sort_ok sort ->
  pc2_sort_dim sort ps 0 = Ok ps /\ ps = [fp2 1 5; fp2 1 2].
Proof.
  assert (F : Forall number2 [fp2 1 5; fp2 1 2]) by (repeat constructor; intros ? [->| ->]; apply lit_num).
  exists [fp2 1 5; fp2 1 2]. split; [exact F|]. intros sort SO. split; [|reflexivity].
  pose proof (C93_sort_2d sort SO [fp2 1 5; fp2 1 2] 0) as H. cbn [pc2_sort_dim] in *. destruct H as (P & ax & [= <-] & Q).
  destruct (Q F) as [_ S]. specialize (S (fp2 1 5) (or_introl eq_refl)). f_equal.
  assert (L : forall qs, Permutation [fp2 1 5; fp2 1 2] qs -> filter (fun q => neqb (x2 (fp2 1 5)) (x2 q)) qs = qs).
  { intros qs PQ. assert (G : forall q, In q qs -> neqb (x2 (fp2 1 5)) (x2 q) = true).
    { intros q I. apply (Permutation_in _ (Permutation_sym PQ)) in I. destruct I as [<-|[<-|[]]]; vmeq. }
    clear PQ. induction qs as [|q r IH]; [reflexivity|]. cbn [filter]. rewrite (G q (or_introl eq_refl)), IH; [reflexivity|]. intros; apply G; right; assumption. }
  rewrite (L _ P) in S. rewrite S. apply L. apply Permutation_refl.
Qed.
Print Assumptions C93_ties_refuted.
Example C93_case : pc3_sort_dim isort [fp3 3 1 2; fp3 1 2 3; fp3 2 3 1] 2 = Ok [fp3 2 3 1; fp3 3 1 2; fp3 1 2 3] /\
  sort_ok isort /\ Forall number3 [fp3 3 1 2; fp3 1 2 3; fp3 2 3 1].
Proof. split; [vmeq|]. split; [exact isort_ok|]. repeat constructor; intros ? [->|[->| ->]]; apply lit_num. Qed.

(** ** C94: scaling a cloud *)
Theorem C94_scale_3d : forall dbg (ps : list (pt3 RN)) (f : R), 0 < f -> (Z.of_nat (length ps) < 2 ^ 31)%Z ->
  match bb3_from_iterator dbg ps with
  | Ok b => exists qs b', pc3_scale dbg ps f = Ok qs /\ length qs = length ps /\ bb3_from_iterator dbg qs = Ok b' /\
      bb3_center b' = bb3_center b /\
      (forall i p, nth_error ps i = Some p -> exists q, nth_error qs i = Some q /\
         forall ax, axis3 ax -> ax q - ax (bb3_center b) = f * (ax p - ax (bb3_center b))) /\
      (forall ax, axis3 ax -> ax (max3 b') - ax (min3 b') = f * (ax (max3 b) - ax (min3 b)))
  | _ => pc3_scale dbg ps f = Ok ps
  end.
Proof.
  intros dbg ps f F L. unfold pc3_scale. destruct (bb3_from_iterator dbg ps) as [b|e|] eqn:B; [|reflexivity|].
  - pose (c := bb3_center b). set (g := fun (k x : R) => k + f * (x - k)).
    assert (G : forall k, incr (g k)) by (intros k u v H; unfold g; nra).
    destruct (bb_pmap dbg ps b (g (px c)) (g (py c)) (g (pz c)) (G _) (G _) (G _) L B) as (E & _).
    exists (map (increase_distance3 c f) ps). eexists. split; [reflexivity|]. split; [apply map_length|]. split; [exact E|].
    split.
    { assert (CC : c = rp3 ((px (min3 b) + px (max3 b)) / 2) ((py (min3 b) + py (max3 b)) / 2) ((pz (min3 b) + pz (max3 b)) / 2)) by apply center3_R.
      fold c. rewrite center3_R, CC. unfold pmap, g, rp3. cbn [min3 max3 px py pz]. f_equal; toR; field. }
    split.
    { intros i p Hi. exists (increase_distance3 c f p). split; [rewrite nth_error_map, Hi; reflexivity|]. fold c. intros ax [->|[->| ->]]; unfold increase_distance3; cbn [px py pz]; toR; cbn [T RN nadd nsub nmul]; ring. }
    { intros ax [->|[->| ->]]; unfold pmap, g, rp3; cbn [px py pz min3 max3]; ring. }
  - exfalso. rewrite bb3_from_spec in B by exact L. destruct ps as [|? [|? ?]]; try discriminate. unfold bb3_new in B. repeat (destruct (_ || _)%bool in B; try discriminate).
Qed.
Print Assumptions C94_scale_3d.
Theorem C94_scale_2d : forall dbg (ps : list (pt2 RN)) (f : R), 0 < f -> (Z.of_nat (length ps) < 2 ^ 31)%Z ->
  match bb2_from_iterator dbg ps with
  | Ok b => exists qs b', pc2_scale dbg ps f = Ok qs /\ length qs = length ps /\ bb2_from_iterator dbg qs = Ok b' /\
      bb2_center b' = bb2_center b /\
      (forall i p, nth_error ps i = Some p -> exists q, nth_error qs i = Some q /\
         forall ax, axis2 ax -> ax q - ax (bb2_center b) = f * (ax p - ax (bb2_center b))) /\
      (forall ax, axis2 ax -> ax (max2 b') - ax (min2 b') = f * (ax (max2 b) - ax (min2 b)))
  | _ => pc2_scale dbg ps f = Ok ps
  end.
Proof.
  intros dbg ps f F L. unfold pc2_scale. destruct (bb2_from_iterator dbg ps) as [b|e|] eqn:B; [|reflexivity|].
  - pose (c := bb2_center b). set (g := fun (k x : R) => k + f * (x - k)).
    assert (G : forall k, incr (g k)) by (intros k u v H; unfold g; nra).
    pose proof (bb_pmap2 dbg ps b (g (x2 c)) (g (y2 c)) (G _) (G _) L B) as E.
    exists (map (increase_distance2 c f) ps). eexists. split; [reflexivity|]. split; [apply map_length|]. split; [exact E|].
    split.
    { assert (CC : c = rp2 ((x2 (min2 b) + x2 (max2 b)) / 2) ((y2 (min2 b) + y2 (max2 b)) / 2)) by apply center2_R.
      fold c. rewrite center2_R, CC. unfold pmap2, g, rp2. cbn [min2 max2 x2 y2]. f_equal; toR; field. }
    split.
    { intros i p Hi. exists (increase_distance2 c f p). split; [rewrite nth_error_map, Hi; reflexivity|]. fold c. intros ax [->| ->]; unfold increase_distance2; cbn [x2 y2]; toR; cbn [T RN nadd nsub nmul]; ring. }
    { intros ax [->| ->]; unfold pmap2, g, rp2; cbn [x2 y2 min2 max2]; ring. }
  - exfalso. rewrite bb2_from_spec in B by exact L. destruct ps as [|? [|? ?]]; try discriminate. unfold bb2_new in B. repeat (destruct (_ || _)%bool in B; try discriminate).
Qed.
Print Assumptions C94_scale_2d.
Example C94_case : pc3_scale true [fp3 0 0 0; fp3 2 2 2; fp3 1 2 0] (fz 3) = Ok [fp3 (-2) (-2) (-2); fp3 4 4 4; fp3 1 4 (-2)] /\
  pc2_scale true [fp2 0 0; fp2 2 2] (fz 3) = Ok [fp2 (-2) (-2); fp2 4 4].
Proof. split; vmeq. Qed.

(** ** C95: joining, appending, extruding; distances in n dimensions *)
Theorem C95_join : forall {A} (l r : list A), pc_consume l r = l ++ r /\ pc_append_ra l r = Ok (l ++ r).
Proof.
  intros A l r. split.
  - unfold pc_consume. revert l. induction r as [|x r IH]; intros l; cbn [fold_left]; [rewrite app_nil_r; reflexivity|]. rewrite IH, <- app_assoc. reflexivity.
  - unfold pc_append_ra.
    assert (G : forall r pre l : list A, append_ra_go (pre ++ r) (length r) (lenN pre) l = Ok (l ++ r)).
    { clear. induction r as [|x r IH]; intros pre l; cbn [length append_ra_go]; [rewrite app_nil_r; reflexivity|].
      rewrite nthN_app, N.ltb_irrefl, N.sub_diag. change (nthN (x :: r) 0) with (Some x). cbv iota.
      replace (pre ++ x :: r) with ((pre ++ [x]) ++ r) by (rewrite <- app_assoc; reflexivity).
      replace (N.succ (lenN pre)) with (lenN (pre ++ [x])) by (rewrite lenN_app; change (lenN [x]) with 1%N; lia).
      rewrite IH, <- app_assoc. reflexivity. }
    exact (G r [] l).
Qed.
Print Assumptions C95_join.
(** Extrusion: two clouds of as many points, the first in the plane z = 0, the second moved. *)
Theorem C95_extrude : forall {NM : Num} (ps : list (pt2 NM)) (d : pt3 NM), exists a b, extrude ps d = (a, b) /\
  length a = length ps /\ length b = length ps /\
  forall i p, nth_error ps i = Some p ->
    nth_error a i = Some (mk3 (x2 p) (y2 p) n0) /\
    nth_error b i = Some (mk3 (nadd (x2 p) (px d)) (nadd (y2 p) (py d)) (nadd n0 (pz d))).
Proof.
  intros NM ps d. unfold extrude. do 2 eexists. split; [reflexivity|]. rewrite !map_length. split; [reflexivity|]. split; [reflexivity|].
  intros i p H. rewrite !nth_error_map, H. split; reflexivity.
Qed.
Print Assumptions C95_extrude.
(** The general distance agrees bit for bit with the three and two dimensional ones; clouds of
    different dimension are refused. *)
Theorem C95_distance_nd :
  (forall p q : pt3 F64, let at3 p i := nth_error [px p; py p; pz p] (N.to_nat i) in
     sqr_dist_nd 3 3 (at3 p) (at3 q) = Ok (sqr_dist_3d p q) /\ dist_nd 3 3 (at3 p) (at3 q) = Ok (dist_3d p q)) /\
  (forall p q : pt2 F64, let at2 p i := nth_error [x2 p; y2 p] (N.to_nat i) in
     sqr_dist_nd 2 2 (at2 p) (at2 q) = Ok (sqr_dist_2d p q) /\ dist_nd 2 2 (at2 p) (at2 q) = Ok (dist_2d p q)) /\
  (forall (NM : Num) n m (p q : N -> option (T NM)), n <> m -> sqr_dist_nd n m p q = Err DimensionsDontMatch /\ dist_nd n m p q = Err DimensionsDontMatch).
Proof.
  split; [|split].
  - intros p q at3. assert (E : sqr_dist_nd 3 3 (at3 p) (at3 q) = Ok (sqr_dist_3d p q)).
    { unfold sqr_dist_nd, at3. change (N.to_nat 3) with 3%nat. cbn [N.eqb Pos.eqb sqr_dist_go N.to_nat N.succ Pos.succ nth_error Pos.to_nat Pos.iter_op Init.Nat.add]. rewrite add_0_l. reflexivity. }
    split; [exact E|]. unfold dist_nd. rewrite E. reflexivity.
  - intros p q at2. assert (E : sqr_dist_nd 2 2 (at2 p) (at2 q) = Ok (sqr_dist_2d p q)).
    { unfold sqr_dist_nd, at2. change (N.to_nat 2) with 2%nat. cbn [N.eqb Pos.eqb sqr_dist_go N.to_nat N.succ Pos.succ nth_error Pos.to_nat Pos.iter_op Init.Nat.add]. rewrite add_0_l. reflexivity. }
    split; [exact E|]. unfold dist_nd. rewrite E. reflexivity.
  - intros NM n m p q D. unfold dist_nd, sqr_dist_nd. destruct (N.eqb_spec n m); [contradiction|]. split; reflexivity.
Qed.
Print Assumptions C95_distance_nd.
Example C95_case : pc_consume [1%N] [2%N; 3%N] = [1%N; 2%N; 3%N] /\ extrude [fp2 1 2] (fp3 1 1 1) = ([fp3 1 2 0], [fp3 2 3 1]).
Proof. split; [reflexivity|vmeq]. Qed.
