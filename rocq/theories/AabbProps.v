(** Theorems about the axis aligned bounding box trees (C24 to C27, C78, C79).  The elements have any
    type [HB] with a bounding box. *)
From Verif Require Import Base Num NumLemmas FloatLemmas BBoxModel GeomSpec BBoxLemmas LineModel AabbModel AabbSpec AabbLemmas.
From Coq Require Import Floats.SpecFloat Reals Lra.

(** ** C24 *)
Theorem C24_any_3d : forall (HB : Type) (bbox : HB -> bb3 F64) (data : list HB) (f : HB -> bool),
  Forall (fun x => good_box3 (bbox x)) data -> forall maxdepth bucket,
  aabb_any f (aabb3_new bbox data maxdepth bucket) = existsb f data.
Proof. intros. apply (any_spec _ _ _ (fun x => good_box3 (bbox x)) (cover3_f bbox)); assumption. Qed.
Print Assumptions C24_any_3d.
Theorem C24_any_2d : forall (HB : Type) (bbox : HB -> bb2 F64) (data : list HB) (f : HB -> bool),
  Forall (fun x => good_box2 (bbox x)) data -> forall maxdepth bucket,
  aabb_any f (aabb2_new bbox data maxdepth bucket) = existsb f data.
Proof. intros. apply (any_spec _ _ _ (fun x => good_box2 (bbox x)) (cover2_f bbox)); assumption. Qed.
Print Assumptions C24_any_2d.
(** Three boxes with names; the second straddles the first split. *)
Definition c24_boxes : list (nat * bb3 F64) :=
  [(1, mkbb3 (fp3 0 0 0) (fp3 1 1 1)); (2, mkbb3 (fp3 0 0 0) (fp3 9 9 9)); (3, mkbb3 (fp3 7 7 7) (fp3 9 9 9))]%nat.
Definition c24_boxes2 : list (nat * bb2 F64) :=
  [(1, mkbb2 (fp2 0 0) (fp2 1 1)); (2, mkbb2 (fp2 0 0) (fp2 9 9)); (3, mkbb2 (fp2 7 7) (fp2 9 9))]%nat.
Ltac good := first [apply goodb3_ok|apply goodb2_ok]; vmeq.
Example C24_case : Forall (fun x => good_box3 (snd x)) c24_boxes /\
  (exists l r b, aabb3_new snd c24_boxes 5 1 = ABranch l r b /\
     aabb_any (fun x => (fst x =? 2)%nat) l = true /\ aabb_any (fun x => (fst x =? 2)%nat) r = true) /\
  aabb_any (fun x => (fst x =? 3)%nat) (aabb3_new snd c24_boxes 5 1) = true /\
  aabb_any (fun x => (fst x =? 4)%nat) (aabb3_new snd c24_boxes 5 1) = false.
Proof.
  split; [good|]. split.
  - assert (K : (match aabb3_new snd c24_boxes 5 1 with ABranch l r _ =>
       aabb_any (fun x => (fst x =? 2)%nat) l && aabb_any (fun x => (fst x =? 2)%nat) r | _ => false end) = true) by vmeq.
    destruct (aabb3_new snd c24_boxes 5 1) as [| |l r b]; try discriminate K.
    exists l, r, b. split; [reflexivity|]. apply andb_prop in K. exact K.
  - split; vmeq.
Qed.
Example C24_case_2d : Forall (fun x => good_box2 (snd x)) c24_boxes2 /\
  aabb_any (fun x => (fst x =? 3)%nat) (aabb2_new snd c24_boxes2 5 1) = true.
Proof. split; [good|vmeq]. Qed.

(** ** C25 *)
Theorem C25_crossing_3d : forall (HB : Type) (bbox : HB -> bb3 F64) (data : list HB) maxdepth bucket v before,
  Forall (fun x => good_box3 (bbox x)) data ->
  (exists found, aabb3_crossing_x bbox v (aabb3_new bbox data maxdepth bucket) before = Ok (before ++ found) /\
     forall x, In x found <-> In x data /\ flt (px (min3 (bbox x))) v /\ flt v (px (max3 (bbox x)))) /\
  (exists found, aabb3_crossing_y bbox v (aabb3_new bbox data maxdepth bucket) before = Ok (before ++ found) /\
     forall x, In x found <-> In x data /\ flt (py (min3 (bbox x))) v /\ flt v (py (max3 (bbox x)))) /\
  (exists found, aabb3_crossing_z bbox v (aabb3_new bbox data maxdepth bucket) before = Ok (before ++ found) /\
     forall x, In x found <-> In x data /\ flt (pz (min3 (bbox x))) v /\ flt v (pz (max3 (bbox x)))).
Proof.
  intros HB bbox data maxdepth bucket v before G.
  split; [|split]; [apply (crossing3_query bbox px)|apply (crossing3_query bbox py)|apply (crossing3_query bbox pz)];
    unfold axis3; auto.
Qed.
Print Assumptions C25_crossing_3d.
Theorem C25_crossing_2d : forall (HB : Type) (bbox : HB -> bb2 F64) (data : list HB) maxdepth bucket v before,
  Forall (fun x => good_box2 (bbox x)) data ->
  (exists found, aabb2_crossing_x bbox v (aabb2_new bbox data maxdepth bucket) before = Ok (before ++ found) /\
     forall x, In x found <-> In x data /\ flt (x2 (min2 (bbox x))) v /\ flt v (x2 (max2 (bbox x)))) /\
  (exists found, aabb2_crossing_y bbox v (aabb2_new bbox data maxdepth bucket) before = Ok (before ++ found) /\
     forall x, In x found <-> In x data /\ flt (y2 (min2 (bbox x))) v /\ flt v (y2 (max2 (bbox x)))).
Proof.
  intros HB bbox data maxdepth bucket v before G.
  split; [apply (crossing2_query bbox x2)|apply (crossing2_query bbox y2)]; unfold axis2; auto.
Qed.
Print Assumptions C25_crossing_2d.
(** An element can be returned more than once. *)
Theorem C25_crossing_once_refuted : exists (data : list (nat * bb3 F64)) v out,
  Forall (fun x => good_box3 (snd x)) data /\ NoDup (map fst data) /\
  aabb3_crossing_x snd v (aabb3_new snd data 5 1) [] = Ok out /\ ~ NoDup (map fst out).
Proof.
  exists c24_boxes, (fz 5).
  assert (E : obind (aabb3_crossing_x snd (fz 5) (aabb3_new snd c24_boxes 5 1) []) (fun o => Ok (map fst o)) = Ok (repeat 2%nat 10)) by vmeq.
  destruct (aabb3_crossing_x snd (fz 5) (aabb3_new snd c24_boxes 5 1) []) as [out|e|]; try discriminate E.
  exists out. split; [good|]. split; [repeat constructor; cbn; intuition congruence|].
  split; [reflexivity|]. injection E as E. rewrite E. intro K. inversion K as [|? ? K' _]. apply K'. left. reflexivity.
Qed.
Print Assumptions C25_crossing_once_refuted.

(** ** C26: exact arithmetic *)
Theorem C26_colliding_3d : forall (HB : Type) (bbox : HB -> bb3 RN) (data : list HB) maxdepth bucket bb,
  Forall (fun x => valid3 (bbox x)) data -> valid3 bb -> let t := aabb3_new bbox data maxdepth bucket in
  (forall before, exists found, aabb3_bb_colliding bbox bb t before = Ok (before ++ found) /\
     forall x, In x found <-> In x data /\ meet3 (bbox x) bb) /\
  (exists visited, aabb3_collision_candidates bbox bb t = Ok visited /\
     forall x, In x visited <-> In x data /\ meet3 (bbox x) bb) /\
  (exists r, aabb3_any_collides_with_bounding bbox t bb = Ok r /\
     (r = true <-> exists x, In x data /\ meet3 (bbox x) bb)).
Proof.
  intros HB bbox data maxdepth bucket bb G V t. split; [|split].
  - intros before0. apply colliding3_query; assumption.
  - destruct (colliding3_query bbox data maxdepth bucket bb [] G V) as (out & E & S). exists out. split; [exact E|exact S].
  - destruct (colliding3_query bbox data maxdepth bucket bb [] G V) as (out & E & S).
    unfold aabb3_any_collides_with_bounding, aabb3_collision_candidates. fold t in E. rewrite E. cbn [obind app].
    eexists. split; [reflexivity|]. destruct out as [|x r]; split; try discriminate; try reflexivity.
    + intros (x & H1 & H2). destruct (proj2 (S x) (conj H1 H2)).
    + intros _. exists x. apply S. left. reflexivity.
Qed.
Print Assumptions C26_colliding_3d.
Theorem C26_colliding_2d : forall (HB : Type) (bbox : HB -> bb2 RN) (data : list HB) maxdepth bucket bb,
  Forall (fun x => valid2 (bbox x)) data -> valid2 bb -> let t := aabb2_new bbox data maxdepth bucket in
  (forall before, exists found, aabb2_bb_colliding bbox bb t before = Ok (before ++ found) /\
     forall x, In x found <-> In x data /\ meet2 (bbox x) bb) /\
  (exists visited, aabb2_collision_candidates bbox bb t = Ok visited /\
     forall x, In x visited <-> In x data /\ meet2 (bbox x) bb).
Proof.
  intros HB bbox data maxdepth bucket bb G V t. split.
  - intros before0. apply colliding2_query; assumption.
  - destruct (colliding2_query bbox data maxdepth bucket bb [] G V) as (out & E & S). exists out. split; [exact E|exact S].
Qed.
Print Assumptions C26_colliding_2d.
Definition c26_boxes : list (nat * bb3 RN) :=
  [(1%nat, mkbb3 (rp3 0 0 0) (rp3 1 1 1)); (2%nat, mkbb3 (rp3 0 0 0) (rp3 9 9 9)); (3%nat, mkbb3 (rp3 7 7 7) (rp3 9 9 9))].
Definition c26_query : bb3 RN := mkbb3 (rp3 2 2 2) (rp3 8 8 8).
Local Open Scope R_scope.
(** Of the three boxes the query meets the second and the third. *)
Example C26_case : Forall (fun x => valid3 (snd x)) c26_boxes /\ valid3 c26_query /\
  forall x, In x c26_boxes -> (meet3 (snd x) c26_query <-> (fst x = 2 \/ fst x = 3)%nat).
Proof.
  split; [|split].
  - repeat constructor; intros ax [->|[->| ->]]; cbn; lra.
  - intros ax [->|[->| ->]]; cbn; lra.
  - intros x [<-|[<-|[<-|[]]]]; cbn [fst snd]; split.
    + intros (p & P1 & P2). specialize (P1 px (or_introl eq_refl)). specialize (P2 px (or_introl eq_refl)). cbn in P1, P2. lra.
    + intros [K|K]; discriminate.
    + auto.
    + intros _. exists (rp3 (15/2) (15/2) (15/2)). split; intros ax [->|[->| ->]]; cbn; lra.
    + auto.
    + intros _. exists (rp3 (15/2) (15/2) (15/2)). split; intros ax [->|[->| ->]]; cbn; lra.
Qed.
Definition c26_boxes2 : list (nat * bb2 RN) :=
  [(1%nat, mkbb2 (rp2 0 0) (rp2 1 1)); (2%nat, mkbb2 (rp2 0 0) (rp2 9 9)); (3%nat, mkbb2 (rp2 7 7) (rp2 9 9))].
Example C26_case_2d : Forall (fun x => valid2 (snd x)) c26_boxes2 /\ valid2 (mkbb2 (rp2 2 2) (rp2 8 8)).
Proof. split; [repeat constructor|]; intros ax [->| ->]; cbn; lra. Qed.

(** ** C27 *)
Theorem C27_unbounded_3d : forall (HB : Type) (bbox : HB -> bb3 F64) (data : list HB) (f : HB -> bool) maxdepth bucket,
  (forall x, In x data -> box_number3 (bbox x)) ->
  (exists x, In x data /\ px (min3 (bbox x)) = S754_infinity true) ->
  (exists x, In x data /\ px (max3 (bbox x)) = S754_infinity false) ->
  (2 <= length data)%nat -> (bucket < length data)%nat -> (1 <= maxdepth)%nat ->
  aabb_any f (aabb3_new bbox data maxdepth bucket) = false.
Proof. intros. apply lost3; assumption. Qed.
Print Assumptions C27_unbounded_3d.
Theorem C27_unbounded_2d : forall (HB : Type) (bbox : HB -> bb2 F64) (data : list HB) (f : HB -> bool) maxdepth bucket,
  (forall x, In x data -> box_number2 (bbox x)) ->
  (exists x, In x data /\ y2 (min2 (bbox x)) = S754_infinity true) ->
  (exists x, In x data /\ y2 (max2 (bbox x)) = S754_infinity false) ->
  (2 <= length data)%nat -> (bucket < length data)%nat -> (1 <= maxdepth)%nat ->
  aabb_any f (aabb2_new bbox data maxdepth bucket) = false.
Proof. intros. apply lost2; assumption. Qed.
Print Assumptions C27_unbounded_2d.
Definition c27_all : bb3 F64 := mkbb3 (@mk3 F64 (S754_infinity true) (fz 0) (fz 0)) (@mk3 F64 (S754_infinity false) (fz 1) (fz 1)).
(** BoundingBox3D::new accepts such a box; with a second, ordinary box both are gone. *)
Example C27_case : bb3_new (min3 c27_all) (max3 c27_all) = Ok c27_all /\
  aabb_any (fun _ => true) (aabb3_new (fun b => b) [c27_all; mkbb3 (fp3 0 0 0) (fp3 1 1 1)] 3 1) = false.
Proof. split; vmeq. Qed.
Definition c27_all2 : bb2 F64 := mkbb2 (@mk2 F64 (fz 0) (S754_infinity true)) (@mk2 F64 (fz 1) (S754_infinity false)).
Example C27_case_2d : bb2_new (min2 c27_all2) (max2 c27_all2) = Ok c27_all2 /\
  aabb_any (fun _ => true) (aabb2_new (fun b => b) [c27_all2; mkbb2 (fp2 0 0) (fp2 1 1)] 3 1) = false.
Proof. split; vmeq. Qed.

(** ** C78 *)
Theorem C78_intersection_candidates : forall (HB : Type) (bbox : HB -> bb3 RN) (data : list HB) maxdepth bucket (l : line3 RN),
  Forall (fun x => valid3 (bbox x)) data -> px (dir l) <> 0 -> py (dir l) <> 0 -> pz (dir l) <> 0 ->
  exists visited, aabb3_intersection_candidates bbox l (aabb3_new bbox data maxdepth bucket) = Ok visited /\
    forall x, In x visited <-> In x data /\ ray_hits (anchor l) (dir l) (bbox x).
Proof. intros. apply intersecting3_query; assumption. Qed.
Print Assumptions C78_intersection_candidates.
(** A ray that meets the first two of the boxes above only. *)
Example C78_case : let l := mkline3 (rp3 (1/2) (1/2) (1/2)) (rp3 (-1) (-2) (-3)) in
  px (dir l) <> 0 /\ py (dir l) <> 0 /\ pz (dir l) <> 0 /\
  forall x, In x c26_boxes -> (ray_hits (anchor l) (dir l) (snd x) <-> (fst x <> 3)%nat).
Proof.
  cbn [px py pz dir anchor rp3]. split; [lra|]. split; [lra|]. split; [lra|].
  intros x [<-|[<-|[<-|[]]]]; cbn [fst snd]; split.
  - discriminate.
  - intros _. exists 0. split; [lra|]. intros ax [->|[->| ->]]; cbn; lra.
  - discriminate.
  - intros _. exists 0. split; [lra|]. intros ax [->|[->| ->]]; cbn; lra.
  - intros (t & T0 & C). specialize (C px (or_introl eq_refl)). cbn in C. lra.
  - congruence.
Qed.

(** ** C79 *)
(** The boxes [-2^54, -1] and [0, 1] in x, queried with [1/4, 3/4]. *)
Definition c79_q (z : Z) : T F64 := lit z (-2).
Definition c79_data : list (nat * bb3 F64) :=
  [(1%nat, mkbb3 (fp3 (- 2 ^ 54) 0 0) (fp3 (-1) 1 1)); (2%nat, mkbb3 (fp3 0 0 0) (fp3 1 1 1))].
Definition c79_query : bb3 F64 := mkbb3 (@mk3 F64 (c79_q 1) (fz 0) (fz 0)) (@mk3 F64 (c79_q 3) (fz 1) (fz 1)).
Theorem C79_f64_pruning_refuted : exists (data : list (nat * bb3 F64)) (query : bb3 F64) x,
  Forall (fun x => good_box3 (snd x)) data /\ good_box3 query /\ In x data /\
  bb3_collides_with (snd x) query = Ok true /\
  forall maxdepth bucket, exists out, aabb3_bb_colliding snd query (aabb3_new snd data maxdepth bucket) [] = Ok out /\ ~ In x out.
Proof.
  exists c79_data, c79_query, (2%nat, mkbb3 (fp3 0 0 0) (fp3 1 1 1)).
  split; [good|]. split; [|split; [right; left; reflexivity|split; [vmeq|]]].
  - assert (K : Forall (fun x => good_box3 (snd x)) [(1%nat, c79_query)]) by good. inversion K; assumption.
  - assert (P : bb3_collides_with (bb_of3 snd c79_data) c79_query = Ok false) by vmeq.
    intros maxdepth bucket. exists []. split; [|intros []].
    assert (B : exists l r, aabb3_new snd c79_data maxdepth bucket = ALeaf c79_data (bb_of3 snd c79_data) \/
                aabb3_new snd c79_data maxdepth bucket = ABranch l r (bb_of3 snd c79_data)).
    { unfold aabb3_new. destruct maxdepth as [|lv].
      - exists AEmpty, AEmpty. left. reflexivity.
      - unfold c79_data at 1 2. cbn [aabb_new_rec]. fold c79_data.
        destruct (length c79_data <=? bucket)%nat; [exists AEmpty, AEmpty; left; reflexivity|]. cbn zeta.
        destruct (_ && _); [exists AEmpty, AEmpty; left; reflexivity|].
        eexists; eexists; right; reflexivity. }
    destruct B as (l & r & [B|B]); unfold aabb3_bb_colliding; rewrite B; cbn [aabb_query]; rewrite P; reflexivity.
Qed.
Print Assumptions C79_f64_pruning_refuted.
