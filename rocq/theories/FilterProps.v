(** Theorems about filters and views (C28 to C34, C80, C81). *)
From Verif Require Import Base BaseLemmas Num NumLemmas SortSpec SortLemmas BBoxModel GeomSpec BBoxLemmas KdModel KdSpec KdLemmas KdProps FilterModel FilterSpec FilterLemmas.
From Coq Require Import Floats.SpecFloat Reals Lra Permutation.

(** ** C28 *)
Theorem C28_combinators : forall (T : Type) (e : fltexp T) (x : T), fbuild e x = true <-> accepts e x.
Proof. intros. apply build_accepts. Qed.
Print Assumptions C28_combinators.
Theorem C28_de_morgan : forall (T : Type) (l : list (fltexp T)) (a b : fltexp T) (x : T),
  fbuild (FNot (FAll l)) x = fbuild (FAny (map FNot l)) x /\
  fbuild (FNot (FAny l)) x = fbuild (FAll (map FNot l)) x /\
  fbuild (FNot (FAnd a b)) x = fbuild (FOr (FNot a) (FNot b)) x /\
  fbuild (FNot (FOr a b)) x = fbuild (FAnd (FNot a) (FNot b)) x /\
  fbuild (FXor a b) x = fbuild (FOr (FHollow a b) (FHollow b a)) x /\
  fbuild (FNot (FNot a)) x = fbuild a x /\
  fbuild (FAll []) x = true /\ fbuild (FAny []) x = false.
Proof.
  intros T l a b x. repeat apply conj; try reflexivity.
  - cbn [fbuild]. unfold filter_negate. rewrite map_map. induction l as [|c r IH]; [reflexivity|].
    cbn [map filter_all filter_any]. change (fbuild (FNot c) x) with (negb (fbuild c x)). destruct (fbuild c x); [exact IH|reflexivity].
  - cbn [fbuild]. unfold filter_negate. rewrite map_map. induction l as [|c r IH]; [reflexivity|].
    cbn [map filter_all filter_any]. change (fbuild (FNot c) x) with (negb (fbuild c x)). destruct (fbuild c x); [reflexivity|exact IH].
  - cbn. unfold filter_negate, filter_and, filter_or. destruct (fbuild a x), (fbuild b x); reflexivity.
  - cbn. unfold filter_negate, filter_and, filter_or. destruct (fbuild a x), (fbuild b x); reflexivity.
  - cbn. unfold filter_outer_inner, filter_negate, filter_and, filter_or, filter_xor. destruct (fbuild a x), (fbuild b x); reflexivity.
  - cbn. unfold filter_negate. destruct (fbuild a x); reflexivity.
Qed.
Print Assumptions C28_de_morgan.
(** Even numbers up to 10 but not 4, or anything above 20. *)
Definition c28_exp : fltexp nat := FAny [FHollow (FAll [FBase Nat.even; FBase (fun n => n <=? 10)%nat]) (FBase (Nat.eqb 4)); FNot (FBase (fun n => n <=? 20)%nat)].
Example C28_case : map (fbuild c28_exp) [2; 3; 4; 12; 21]%nat = [true; false; false; false; true].
Proof. reflexivity. Qed.

(** ** C29 *)
Theorem C29_filter_random_accessible : forall (T : Type) (f : T -> bool) (ra : list T) (v : view),
  (ra = [] -> filter_random_accessible f ra v = Full) /\
  (ra <> [] -> forall i, in_view (filter_random_accessible f ra v) i <-> in_view v i /\ accepted_at f ra i).
Proof.
  intros T f ra v. split; [intros ->; reflexivity|]. intros NE i. apply fra_in, NE.
Qed.
Print Assumptions C29_filter_random_accessible.
Example C29_case : filter_random_accessible Nat.even [4; 5; 6; 8]%nat (Restricted [9; 3; 1; 0]%N) = Restricted [3; 0]%N /\
  filter_random_accessible Nat.even [4; 5; 6; 8]%nat Full = Restricted [0; 2; 3]%N /\
  filter_random_accessible Nat.even [] (Restricted [9]%N) = Full.
Proof. repeat split. Qed.

(** ** C30 *)
Theorem C30_all : forall (T : Type) (fs : list (T -> bool)) (ra : list T) (v : view), ra <> [] -> forall i,
  in_view (filter_all_random_accessible (map filter_random_accessible fs) ra v) i <->
  in_view v i /\ forall f, In f fs -> accepted_at f ra i.
Proof. intros. apply all_in; assumption. Qed.
Print Assumptions C30_all.
Theorem C30_all_order : forall (T : Type) (fs gs : list (T -> bool)) (ra : list T) (v : view), ra <> [] -> Permutation fs gs -> forall i,
  in_view (filter_all_random_accessible (map filter_random_accessible fs) ra v) i <->
  in_view (filter_all_random_accessible (map filter_random_accessible gs) ra v) i.
Proof.
  intros T fs gs ra v NE P i. rewrite !all_in by exact NE. split; intros [H1 H2]; (split; [exact H1|]); intros f Hf; apply H2;
    [apply (Permutation_in _ (Permutation_sym P)), Hf|apply (Permutation_in _ P), Hf].
Qed.
Print Assumptions C30_all_order.
Example C30_case : filter_all_random_accessible (map filter_random_accessible [Nat.even; Nat.ltb 4]) [4; 5; 6; 8]%nat Full = Restricted [2; 3]%N.
Proof. reflexivity. Qed.

(** ** C31 *)
(** Whatever the inner filters do, nothing leaves the view. *)
Theorem C31_any_never_restricts : forall (T : Type) (fs : list (ra_filter (T := T))) (ra : list T) (v : view),
  (forall i, in_view v i -> in_view (filter_any_random_accessible fs ra v) i) /\
  filter_any_random_accessible fs ra Full = Full.
Proof.
  intros T fs ra v. split.
  - intros i H. apply any_in. left. exact H.
  - unfold filter_any_random_accessible. assert (K : forall gs : list (ra_filter (T := T)), fold_left (fun w h => view_union w (h ra Full)) gs Full = Full).
    { induction gs as [|g r IH]; [reflexivity|]. cbn [fold_left]. replace (view_union Full (g ra Full)) with Full; [exact IH|].
      destruct (g ra Full); reflexivity. }
    apply K.
Qed.
Print Assumptions C31_any_never_restricts.
(** With ordinary filters the view is left as it was. *)
Theorem C31_any_is_identity : forall (T : Type) (fs : list (T -> bool)) (ra : list T) (v : view), ra <> [] -> forall i,
  in_view (filter_any_random_accessible (map filter_random_accessible fs) ra v) i <-> in_view v i.
Proof.
  intros T fs ra v NE i. rewrite any_in. split; [|tauto]. intros [H|(g & Hg & H)]; [exact H|].
  apply in_map_iff in Hg as (f & <- & _). apply fra_in in H; tauto.
Qed.
Print Assumptions C31_any_is_identity.
(** The expectation: only accepted indices remain. *)
Theorem C31_any_refuted : exists (ra : list nat) fs v i, ra <> [] /\ fs <> [] /\
  in_view (filter_any_random_accessible (map filter_random_accessible fs) ra v) i /\ forall f, In f fs -> ~ accepted_at f ra i.
Proof.
  exists [1; 2]%nat, [Nat.even], (Restricted [0]%N), 0%N. split; [discriminate|]. split; [discriminate|]. split; [left; reflexivity|].
  intros f [<-|[]] (x & E & K). cbn in E. injection E as <-. discriminate.
Qed.
Print Assumptions C31_any_refuted.
Example C31_case : filter_any_random_accessible (map filter_random_accessible [Nat.even; Nat.ltb 7]) [4; 5; 6; 8]%nat (Restricted [0; 1]%N) = Restricted [0; 1; 0]%N.
Proof. reflexivity. Qed.

(** ** C32 *)
Theorem C32_union : forall a b : view,
  (forall i, in_view (view_union a b) i <-> in_view a i \/ in_view b i) /\
  (a = Full \/ b = Full -> view_union a b = Full) /\
  (forall c i, in_view (view_union (view_union a b) c) i <-> in_view (view_union a (view_union b c)) i) /\
  (forall i, in_view (view_union a b) i <-> in_view (view_union b a) i) /\
  (forall i, in_view (view_union a a) i <-> in_view a i).
Proof.
  intros a b. split; [intro; apply union_in|]. split; [intros [->| ->]; destruct a || destruct b; reflexivity|].
  split; [intros c i; rewrite !union_in; tauto|]. split; intro i; rewrite !union_in; tauto.
Qed.
Print Assumptions C32_union.
Example C32_case : view_union (Restricted [1; 2]%N) (Restricted [2; 5]%N) = Restricted [1; 2; 2; 5]%N /\
  view_union (Restricted [1]%N) Full = Full /\ view_union Full (Restricted [1]%N) = Full.
Proof. repeat split. Qed.

(** ** C33 *)
Theorem C33_apply_view : forall (T : Type) (l : list T) (v : view),
  (v = Full -> apply_view l v = (l, Ok tt) /\ from_view l v = Some l) /\
  (forall indices, v = Restricted indices -> (exists i, In i indices /\ (lenN l <= i)%N) ->
     apply_view l v = (l, Err IndexOutOfBounds) /\ from_view l v = None) /\
  (forall indices, v = Restricted indices -> (forall i, In i indices -> (i < lenN l)%N) ->
     exists kept idx, apply_view l v = (kept, Ok tt) /\ from_view l v = Some kept /\
       ascending 0%N idx /\ (forall i, In i idx <-> In i indices) /\
       map Some kept = map (fun i => nth_error l (N.to_nat i)) idx).
Proof.
  intros T l v. split; [intros ->; split; reflexivity|]. split.
  - intros indices -> (i & Hi & Li). unfold from_view, apply_view.
    assert (E : existsb (fun x => lenN l <=? x)%N indices = true) by (apply existsb_exists; exists i; split; [exact Hi|apply N.leb_le, Li]).
    rewrite E. split; reflexivity.
  - intros indices -> H. unfold from_view, apply_view.
    assert (E : existsb (fun x => lenN l <=? x)%N indices = false).
    { apply Bool.not_true_is_false. rewrite existsb_exists. intros (i & Hi & L). apply H in Hi. apply N.leb_le in L. lia. }
    rewrite E. destruct (select_spec indices l 0) as (idx & I1 & I2 & I3). exists (select indices 0 l), idx.
    split; [reflexivity|]. split; [reflexivity|]. split; [exact I1|]. split.
    + intro i. rewrite I2. split; [tauto|]. intro Hi. split; [lia|]. split; [|exact Hi]. specialize (H i Hi). lia.
    + rewrite I3. apply map_ext. intro i. rewrite N.sub_0_r. reflexivity.
Qed.
Print Assumptions C33_apply_view.
Example C33_case : apply_view [10; 11; 12; 13]%nat (Restricted [3; 0]%N) = ([10; 13]%nat, Ok tt) /\
  apply_view [10; 11; 12; 13]%nat (Restricted [3; 4]%N) = ([10; 11; 12; 13]%nat, Err IndexOutOfBounds).
Proof. split; reflexivity. Qed.

(** ** C80 *)
Theorem C80_pipeline : forall (T : Type) (l : list T),
  (forall f, apply_view l (filter_random_accessible f l Full) = (filter f l, Ok tt)) /\
  (forall fs, apply_view l (filter_all_random_accessible (map filter_random_accessible fs) l Full) =
     (filter (fun x => forallb (fun f => f x) fs) l, Ok tt)).
Proof.
  intros T l. split; [|intro fs; apply pipeline_all].
  intro f. pose proof (pipeline_all [f] l) as H. cbn [map filter_all_random_accessible fold_left] in H.
  transitivity (filter (fun x => forallb (fun g => g x) [f]) l, @Ok ErrorKind _ tt); [exact H|]. f_equal.
  apply filter_ext. intro x. cbn. apply Bool.andb_true_r.
Qed.
Print Assumptions C80_pipeline.
Example C80_case : apply_view [4; 5; 6; 8]%nat (filter_all_random_accessible (map filter_random_accessible [Nat.even; Nat.ltb 4]) [4; 5; 6; 8]%nat Full) = ([6; 8]%nat, Ok tt).
Proof. reflexivity. Qed.

(** ** C34: exact arithmetic *)
Local Open Scope R_scope.
Lemma sqr_le (d r : R) : 0 <= r -> (sqrt d <= r <-> d <= r ^ 2).
Proof.
  intro R0. replace (r ^ 2) with (r * r) by ring. split; intro H.
  - destruct (Rle_dec 0 d) as [D|D]; [|nra]. rewrite <- (sqrt_sqrt d D). pose proof (sqrt_pos d). nra.
  - rewrite <- (sqrt_square r R0). apply sqrt_le_1_alt, H.
Qed.
Theorem C34_sphere : forall (s : sphere RN) (p : pt3 RN), 0 < sph_radius s ->
  filter_sphere s p = true <-> sqd3 p (sph_center s) <= sph_radius s ^ 2.
Proof.
  intros s p R0. unfold filter_sphere. rewrite R_leb, dist_R. apply sqr_le. lra.
Qed.
Print Assumptions C34_sphere.
Theorem C34_circle : forall (c : circle RN) (p : pt2 RN), 0 < cir_radius c ->
  filter_circle c p = true <-> sqd2 p (cir_center c) <= cir_radius c ^ 2.
Proof.
  intros c p R0. unfold filter_circle, dist_2d, sqr_dist_2d. rewrite R_leb, !nsq_R. cbn [nsqrt RN].
  apply (sqr_le (sqd2 p (cir_center c))). lra.
Qed.
Print Assumptions C34_circle.
Lemma in_half (c s v : R) : (c - s / 2 <= v /\ v <= c + s / 2) <-> Rabs (v - c) <= s / 2.
Proof. unfold Rabs. destruct (Rcase_abs (v - c)); lra. Qed.
Theorem C34_box2 : forall (b : box2d RN) (p : pt2 RN),
  filter_box2 b p = true <-> Rabs (x2 p - x2 (box2_center b)) <= box2_sx b / 2 /\ Rabs (y2 p - y2 (box2_center b)) <= box2_sy b / 2.
Proof.
  intros b p. unfold filter_box2. rewrite !Bool.andb_true_iff, !R_geb, !R_leb, R_n2. cbn [nadd nsub ndiv RN].
  rewrite <- !in_half. lra.
Qed.
Print Assumptions C34_box2.
Theorem C34_box3 : forall (b : box3d RN) (p : pt3 RN),
  filter_box3 b p = true <-> Rabs (px p - px (box_center b)) <= box_sx b / 2 /\ Rabs (py p - py (box_center b)) <= box_sy b / 2 /\
    Rabs (pz p - pz (box_center b)) <= box_sz b / 2.
Proof.
  intros b p. unfold filter_box3. rewrite !Bool.andb_true_iff, !R_geb, !R_leb, R_n2. cbn [nadd nsub ndiv RN].
  rewrite <- !in_half. lra.
Qed.
Print Assumptions C34_box3.
(** A filter made from a bounding box accepts exactly the closed box. *)
Theorem C34_box_of_bounding_box : forall (b : bb3 RN) (c : bb2 RN), valid3 b -> valid2 c ->
  (exists f, box3_of_bb b = Ok f /\ forall p, filter_box3 f p = true <-> closed3 b p) /\
  (exists f, box2_of_bb c = Ok f /\ forall p, filter_box2 f p = true <-> closed2 c p).
Proof.
  intros b c V W. split.
  - pose proof (V px (or_introl eq_refl)) as V1. pose proof (V py (or_intror (or_introl eq_refl))) as V2.
    pose proof (V pz (or_intror (or_intror eq_refl))) as V3.
    unfold box3_of_bb, bb3_size_x, bb3_size_y, bb3_size_z. rewrite !size_R by assumption. cbn [obind].
    eexists. split; [reflexivity|]. intro p. rewrite C34_box3. unfold closed3. rewrite axis3_all.
    unfold bb3_center. cbn [px py pz box_center box_sx box_sy box_sz]. rewrite R_n2. cbn [nadd nsub ndiv RN].
    rewrite <- !in_half. lra.
  - pose proof (W x2 (or_introl eq_refl)) as V1. pose proof (W y2 (or_intror eq_refl)) as V2.
    unfold box2_of_bb, bb2_size_x, bb2_size_y. rewrite !size_R by assumption. cbn [obind].
    eexists. split; [reflexivity|]. intro p. rewrite C34_box2. unfold closed2. rewrite axis2_all.
    unfold bb2_center. cbn [x2 y2 box2_center box2_sx box2_sy]. rewrite R_n2. cbn [nadd nsub ndiv RN].
    rewrite <- !in_half. lra.
Qed.
Print Assumptions C34_box_of_bounding_box.
(** The outlier filter counts the stored points in the ball. *)
Theorem C34_outlier : forall (P : Type) (pos : P -> pt3 RN) sort, sort_ok sort -> forall pc t dist n p,
  kd_build pos sort pc = Ok t ->
  filter_outlier pos t dist n p = true <-> (n <= length (filter (fun q => in_ball p dist (pos q)) pc))%nat.
Proof.
  intros P pos sort SO pc t dist n p B. unfold filter_outlier.
  destruct (C18_in_sphere_exact P pos sort SO pc t p dist [] B) as (found & E & Q). rewrite E. cbn [app].
  rewrite (Permutation_length Q). apply Nat.leb_le.
Qed.
Print Assumptions C34_outlier.
Example C34_case : filter_sphere (mksphere (rp3 1 2 3) 5) (rp3 4 6 3) = true /\ filter_sphere (mksphere (rp3 1 2 3) 5) (rp3 4 6 4) = false /\
  filter_box3 (mkbox3d (rp3 0 0 0) 2 4 6) (rp3 1 2 (-3)) = true /\ filter_box3 (mkbox3d (rp3 0 0 0) 2 4 6) (rp3 1 2 4) = false.
Proof.
  repeat match goal with |- _ /\ _ => split end.
  - apply C34_sphere; unfold sqd3; cbn; lra.
  - apply Bool.not_true_is_false. intro H. apply C34_sphere in H; [|cbn; lra]. unfold sqd3 in H; cbn in H; lra.
  - apply C34_box3. cbn. rewrite <- !in_half. lra.
  - apply Bool.not_true_is_false. intro H. apply C34_box3 in H. cbn in H. rewrite <- !in_half in H. lra.
Qed.

(** ** C81 *)
(** With doubles a filter made from a bounding box can reject a corner of that box. *)
Theorem C81_box_filter_corner_refuted : exists (b : bb3 F64) f,
  bb3_new (min3 b) (max3 b) = Ok b /\ box3_of_bb b = Ok f /\ filter_box3 f (max3 b) = false.
Proof.
  set (b := mkbb3 (fp3 1 1 1) (fp3 (2 ^ 53 + 2) 2 2)).
  assert (E : match box3_of_bb b with Ok f => filter_box3 f (max3 b) | _ => true end = false) by vmeq.
  destruct (box3_of_bb b) as [f|e|] eqn:H; try discriminate E.
  exists b, f. split; [vmeq|]. split; [exact H|exact E].
Qed.
Print Assumptions C81_box_filter_corner_refuted.
