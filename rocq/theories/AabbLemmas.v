(** Lemmas about the box trees. *)
From Verif Require Import Base Num NumLemmas FloatLemmas BBoxModel GeomSpec BBoxLemmas LineModel AabbModel AabbSpec.
From Coq Require Import Floats.SpecFloat Reals Lra.

Section Gen.
Context {HB BB : Type} (bb_of : list HB -> BB) (isl isr : N -> BB -> HB -> bool) (good : HB -> Prop).
Hypothesis cover : forall depth data x, Forall good data -> In x data ->
  isl depth (bb_of data) x = true \/ isr depth (bb_of data) x = true.

Lemma split_cases levels bucket : forall depth data (Q : list HB -> aabb HB BB -> Prop),
  Forall good data ->
  Q [] AEmpty ->
  (forall data, data <> [] -> Forall good data -> Q data (ALeaf data (bb_of data))) ->
  (forall data dl dr l r, data <> [] -> Forall good data -> Forall good dl -> Forall good dr ->
     (forall x, In x data <-> In x dl \/ In x dr) -> Q dl l -> Q dr r -> Q data (ABranch l r (bb_of data))) ->
  Q data (aabb_new_rec bb_of isl isr levels bucket depth data).
Proof.
  induction levels as [|lv IH]; intros depth data Q G Q0 QL QB.
  - destruct data as [|a [|b r]]; [exact Q0|apply QL; [discriminate|exact G]..].
  - cbn [aabb_new_rec]. destruct data as [|a [|b r]]; [exact Q0|apply QL; [discriminate|exact G]|].
    set (data := a :: b :: r) in *. assert (NE : data <> []) by discriminate. clearbody data.
    destruct (length data <=? bucket)%nat; [apply QL; assumption|]. cbn zeta.
    destruct (_ && _); [apply QL; assumption|].
    assert (F : forall f, Forall good (filter f data)).
    { intro f. apply Forall_forall. intros x Hx. apply filter_In in Hx as [Hx _]. rewrite Forall_forall in G. auto. }
    apply QB with (dl := filter (isl depth (bb_of data)) data) (dr := filter (isr depth (bb_of data)) data); auto.
    1: intro x; rewrite !filter_In; split.
    + intro Hx. destruct (cover depth data x G Hx); auto.
    + tauto.
    + apply IH; auto.
    + apply IH; auto.
Qed.
Lemma any_spec levels bucket depth data f : Forall good data ->
  aabb_any f (aabb_new_rec bb_of isl isr levels bucket depth data) = existsb f data.
Proof.
  intro G. apply Bool.eq_true_iff_eq. revert f.
  apply (split_cases levels bucket depth data (fun data t => forall f, aabb_any f t = true <-> existsb f data = true)); auto.
  - reflexivity.
  - reflexivity.
  - clear. intros data dl dr l r _ _ _ _ S IL IR f. cbn [aabb_any]. rewrite Bool.orb_true_iff, IL, IR, !existsb_exists.
    split.
    + intros [(x & H & K)|(x & H & K)]; exists x; rewrite S; auto.
    + intros (x & H & K). apply S in H as [H|H]; [left|right]; exists x; auto.
Qed.
Context (guard : BB -> res bool) (test : HB -> res bool).
Hypothesis test_ok : forall x, good x -> exists b, test x = Ok b.
Hypothesis guard_ok : forall data, data <> [] -> Forall good data -> exists b, guard (bb_of data) = Ok b.
Hypothesis prune : forall data x, Forall good data -> In x data -> test x = Ok true -> guard (bb_of data) = Ok true.
Lemma leaf_select_spec data : forall acc, Forall good data -> exists out, leaf_select test data acc = Ok (acc ++ out) /\
  forall x, In x out <-> In x data /\ test x = Ok true.
Proof.
  induction data as [|d r IH]; intros acc G.
  - exists []. cbn. rewrite app_nil_r. split; [reflexivity|tauto].
  - inversion G as [|? ? Gd Gr]; subst. destruct (test_ok d Gd) as [b Hb]. cbn [leaf_select]. rewrite Hb. cbn [obind].
    destruct b.
    + destruct (IH (acc ++ [d]) Gr) as (out & E & S). exists (d :: out). rewrite E, <- app_assoc. split; [reflexivity|].
      intro x. cbn [In]. rewrite S. split; [intros [->|]; tauto|intros [[->|] K]; tauto].
    + destruct (IH acc Gr) as (out & E & S). exists out. rewrite E. split; [reflexivity|].
      intro x. cbn [In]. rewrite S. split; [tauto|]. intros [[->|] K]; [congruence|tauto].
Qed.
Lemma query_spec levels bucket depth data : Forall good data -> forall acc, exists out,
  aabb_query guard test (aabb_new_rec bb_of isl isr levels bucket depth data) acc = Ok (acc ++ out) /\
  forall x, In x out <-> In x data /\ test x = Ok true.
Proof.
  intro G. apply (split_cases levels bucket depth data (fun data t => forall acc, exists out,
    aabb_query guard test t acc = Ok (acc ++ out) /\ forall x, In x out <-> In x data /\ test x = Ok true)); auto.
  - intro acc. exists []. cbn. rewrite app_nil_r. split; [reflexivity|tauto].
  - clear data G. intros data NE G acc. cbn [aabb_query]. destruct (guard_ok data NE G) as [[|] E]; rewrite E; cbn [obind].
    + apply leaf_select_spec, G.
    + exists []. rewrite app_nil_r. split; [reflexivity|]. intro x. split; [intros []|]. intros [Hx K].
      rewrite (prune data x G Hx K) in E. discriminate.
  - clear data G. intros data dl dr l r NE G _ _ S IL IR acc. cbn [aabb_query].
    destruct (guard_ok data NE G) as [[|] E]; rewrite E; cbn [obind].
    + destruct (IL acc) as (o1 & E1 & S1). rewrite E1. cbn [obind]. destruct (IR (acc ++ o1)) as (o2 & E2 & S2).
      exists (o1 ++ o2). rewrite E2, <- app_assoc. split; [reflexivity|]. intro x. rewrite in_app_iff, S1, S2, S. tauto.
    + exists []. rewrite app_nil_r. split; [reflexivity|]. intro x. split; [intros []|]. intros [Hx K].
      rewrite (prune data x G Hx K) in E. discriminate.
Qed.
End Gen.

(** ** The box of the data *)
Section Bounds.
Context {NM : Num} {num : T NM -> Prop} (L : OrdLaws NM num) {HB : Type}.
Section B3.
Context (bbox : HB -> bb3 NM).
Lemma fold3_min ax (Hax : axis3 ax) l : forall b, ax (min3 (fold_left bb3_consume l b)) = fmin (map (fun b : bb3 NM => ax (min3 b)) l) (ax (min3 b)).
Proof.
  induction l as [|c r IH]; intro b; [reflexivity|]. cbn [fold_left map]. rewrite IH. unfold fmin. cbn [fold_left].
  f_equal. destruct Hax as [->|[->| ->]]; reflexivity.
Qed.
Lemma fold3_max ax (Hax : axis3 ax) l : forall b, ax (max3 (fold_left bb3_consume l b)) = fmax (map (fun b : bb3 NM => ax (max3 b)) l) (ax (max3 b)).
Proof.
  induction l as [|c r IH]; intro b; [reflexivity|]. cbn [fold_left map]. rewrite IH. unfold fmax. cbn [fold_left].
  f_equal. destruct Hax as [->|[->| ->]]; reflexivity.
Qed.
Definition bnum3 (x : HB) : Prop := forall ax, axis3 ax -> num (ax (min3 (bbox x))) /\ num (ax (max3 (bbox x))).
Lemma bb_of3_bounds data ax : axis3 ax -> Forall bnum3 data -> data <> [] ->
  (exists y, In y data /\ ax (min3 (bb_of3 bbox data)) = ax (min3 (bbox y))) /\
  (exists y, In y data /\ ax (max3 (bb_of3 bbox data)) = ax (max3 (bbox y))) /\
  forall x, In x data -> nleb (ax (min3 (bb_of3 bbox data))) (ax (min3 (bbox x))) = true /\
                         nleb (ax (max3 (bbox x))) (ax (max3 (bb_of3 bbox data))) = true.
Proof.
  intros Hax G NE. destruct data as [|d r]; [congruence|]. unfold bb_of3. rewrite fold3_min, fold3_max by exact Hax.
  rewrite !map_map. set (data := d :: r) in *.
  assert (F1 : Forall num (map (fun x => ax (min3 (bbox x))) data)).
  { apply Forall_map. eapply Forall_impl; [|exact G]. intros x Hx. apply (Hx ax Hax). }
  assert (F2 : Forall num (map (fun x => ax (max3 (bbox x))) data)).
  { apply Forall_map. eapply Forall_impl; [|exact G]. intros x Hx. apply (Hx ax Hax). }
  assert (D : bnum3 d) by (inversion G; assumption).
  destruct (fmin_spec L _ (ax (min3 (bbox d))) (proj1 (D ax Hax)) F1) as [I1 B1].
  destruct (fmax_spec L _ (ax (max3 (bbox d))) (proj2 (D ax Hax)) F2) as [I2 B2].
  assert (Y : forall f v, In v (f d :: map f data) -> exists y, In y data /\ v = (f y : T NM)).
  { intros f v [<-|H]; [exists d; split; [left; reflexivity|reflexivity]|].
    apply in_map_iff in H as (y & <- & Hy). exists y. auto. }
  split; [apply (Y (fun x => ax (min3 (bbox x)))), I1|]. split; [apply (Y (fun x => ax (max3 (bbox x)))), I2|].
  intros x Hx. split; [apply B1|apply B2]; right; apply in_map_iff; exists x; auto.
Qed.
End B3.
Section B2.
Context (bbox : HB -> bb2 NM).
Lemma fold2_min ax (Hax : axis2 ax) l : forall b, ax (min2 (fold_left bb2_consume l b)) = fmin (map (fun b : bb2 NM => ax (min2 b)) l) (ax (min2 b)).
Proof.
  induction l as [|c r IH]; intro b; [reflexivity|]. cbn [fold_left map]. rewrite IH. unfold fmin. cbn [fold_left].
  f_equal. destruct Hax as [->| ->]; reflexivity.
Qed.
Lemma fold2_max ax (Hax : axis2 ax) l : forall b, ax (max2 (fold_left bb2_consume l b)) = fmax (map (fun b : bb2 NM => ax (max2 b)) l) (ax (max2 b)).
Proof.
  induction l as [|c r IH]; intro b; [reflexivity|]. cbn [fold_left map]. rewrite IH. unfold fmax. cbn [fold_left].
  f_equal. destruct Hax as [->| ->]; reflexivity.
Qed.
Definition bnum2 (x : HB) : Prop := forall ax, axis2 ax -> num (ax (min2 (bbox x))) /\ num (ax (max2 (bbox x))).
Lemma bb_of2_bounds data ax : axis2 ax -> Forall bnum2 data -> data <> [] ->
  (exists y, In y data /\ ax (min2 (bb_of2 bbox data)) = ax (min2 (bbox y))) /\
  (exists y, In y data /\ ax (max2 (bb_of2 bbox data)) = ax (max2 (bbox y))) /\
  forall x, In x data -> nleb (ax (min2 (bb_of2 bbox data))) (ax (min2 (bbox x))) = true /\
                         nleb (ax (max2 (bbox x))) (ax (max2 (bb_of2 bbox data))) = true.
Proof.
  intros Hax G NE. destruct data as [|d r]; [congruence|]. unfold bb_of2. rewrite fold2_min, fold2_max by exact Hax.
  rewrite !map_map. set (data := d :: r) in *.
  assert (F1 : Forall num (map (fun x => ax (min2 (bbox x))) data)).
  { apply Forall_map. eapply Forall_impl; [|exact G]. intros x Hx. apply (Hx ax Hax). }
  assert (F2 : Forall num (map (fun x => ax (max2 (bbox x))) data)).
  { apply Forall_map. eapply Forall_impl; [|exact G]. intros x Hx. apply (Hx ax Hax). }
  assert (D : bnum2 d) by (inversion G; assumption).
  destruct (fmin_spec L _ (ax (min2 (bbox d))) (proj1 (D ax Hax)) F1) as [I1 B1].
  destruct (fmax_spec L _ (ax (max2 (bbox d))) (proj2 (D ax Hax)) F2) as [I2 B2].
  assert (Y : forall f v, In v (f d :: map f data) -> exists y, In y data /\ v = (f y : T NM)).
  { intros f v [<-|H]; [exists d; split; [left; reflexivity|reflexivity]|].
    apply in_map_iff in H as (y & <- & Hy). exists y. auto. }
  split; [apply (Y (fun x => ax (min2 (bbox x)))), I1|]. split; [apply (Y (fun x => ax (max2 (bbox x)))), I2|].
  intros x Hx. split; [apply B1|apply B2]; right; apply in_map_iff; exists x; auto.
Qed.
End B2.
(** A value is left of the center or at least partly right of it. *)
Lemma axis_cover (lo hi c : T NM) : num c -> nleb lo hi = true -> nltb lo c = true \/ ngeb hi c = true.
Proof.
  intros Nc Le. destruct (leb_num L _ _ Le) as [Nl Nh]. destruct (nltb lo c) eqn:E; [left; reflexivity|right].
  apply (not_ltb L) in E; auto. rewrite (geb_leb L). eapply (leb_trans L); eassumption.
Qed.
End Bounds.

(** ** Doubles *)
Lemma finite_f a : finite a -> f_finite a.
Proof. intros [H1 H2]. destruct a; cbn; auto. apply (H2 s); reflexivity. Qed.
Lemma good3_bnum {HB} (bbox : HB -> bb3 F64) data : Forall (fun x => good_box3 (bbox x)) data -> Forall (@bnum3 F64 f_num HB bbox) data.
Proof.
  intro G. eapply Forall_impl; [|exact G]. intros x Hx ax Hax. destruct (Hx ax Hax) as ([H1 _] & [H2 _] & _). split; assumption.
Qed.
Lemma good2_bnum {HB} (bbox : HB -> bb2 F64) data : Forall (fun x => good_box2 (bbox x)) data -> Forall (@bnum2 F64 f_num HB bbox) data.
Proof.
  intro G. eapply Forall_impl; [|exact G]. intros x Hx ax Hax. destruct (Hx ax Hax) as ([H1 _] & [H2 _] & _). split; assumption.
Qed.
Lemma cover3_f {HB} (bbox : HB -> bb3 F64) depth data x : Forall (fun x => good_box3 (bbox x)) data -> In x data ->
  is_left3 bbox depth (bb_of3 bbox data) x = true \/ is_right3 bbox depth (bb_of3 bbox data) x = true.
Proof.
  intros G Hx. assert (NE : data <> []) by (intros ->; destruct Hx).
  assert (K : forall ax, axis3 ax -> let lo := ax (min3 (bb_of3 bbox data)) in let hi := ax (max3 (bb_of3 bbox data)) in
    nltb (ax (min3 (bbox x))) (nadd lo (ndiv (nsub hi lo) n2)) = true \/
    ngeb (ax (max3 (bbox x))) (nadd lo (ndiv (nsub hi lo) n2)) = true).
  { intros ax Hax lo hi. destruct (bb_of3_bounds F64_laws bbox data ax Hax (good3_bnum bbox data G) NE) as ((y & Hy & Ey) & (z & Hz & Ez) & _).
    rewrite Forall_forall in G. apply (axis_cover F64_laws); [|apply (G x Hx ax Hax)].
    apply mid_num; unfold lo, hi; [rewrite Ey|rewrite Ez]; apply finite_f; [apply (G y Hy ax Hax)|apply (G z Hz ax Hax)]. }
  unfold is_left3, is_right3, bb3_center. cbn [px py pz].
  destruct (depth mod 3)%N as [|[p|p|]]; [apply (K px)|apply (K pz)|apply (K pz)|apply (K py)]; unfold axis3; auto.
Qed.
Lemma cover2_f {HB} (bbox : HB -> bb2 F64) depth data x : Forall (fun x => good_box2 (bbox x)) data -> In x data ->
  is_left2 bbox depth (bb_of2 bbox data) x = true \/ is_right2 bbox depth (bb_of2 bbox data) x = true.
Proof.
  intros G Hx. assert (NE : data <> []) by (intros ->; destruct Hx).
  assert (K : forall ax, axis2 ax -> let lo := ax (min2 (bb_of2 bbox data)) in let hi := ax (max2 (bb_of2 bbox data)) in
    nltb (ax (min2 (bbox x))) (nadd lo (ndiv (nsub hi lo) n2)) = true \/
    ngeb (ax (max2 (bbox x))) (nadd lo (ndiv (nsub hi lo) n2)) = true).
  { intros ax Hax lo hi. destruct (bb_of2_bounds F64_laws bbox data ax Hax (good2_bnum bbox data G) NE) as ((y & Hy & Ey) & (z & Hz & Ez) & _).
    rewrite Forall_forall in G. apply (axis_cover F64_laws); [|apply (G x Hx ax Hax)].
    apply mid_num; unfold lo, hi; [rewrite Ey|rewrite Ez]; apply finite_f; [apply (G y Hy ax Hax)|apply (G z Hz ax Hax)]. }
  unfold is_left2, is_right2, bb2_center. cbn [x2 y2].
  destruct (negb _); [apply (K x2)|apply (K y2)]; unfold axis2; auto.
Qed.
(** Crossing: an element crossing a value makes the box of the data cross it. *)
Lemma crossing_iff (lo hi v : T F64) : nltb lo v && ngtb hi v = true <-> flt lo v /\ flt v hi.
Proof. rewrite (gtb_ltb F64_laws), Bool.andb_true_iff. reflexivity. Qed.
Lemma crossing_up (lo lo' hi hi' v : T F64) : nleb lo lo' = true -> nleb hi' hi = true ->
  nltb lo' v && ngtb hi' v = true -> nltb lo v && ngtb hi v = true.
Proof.
  rewrite !(gtb_ltb F64_laws), !Bool.andb_true_iff. intros A B [C D]. split.
  - eapply (leb_ltb_trans F64_laws); eassumption.
  - eapply (ltb_leb_trans F64_laws); eassumption.
Qed.
Definition cross3 (ax : pt3 F64 -> T F64) (b : bb3 F64) (v : T F64) : bool := nltb (ax (min3 b)) v && ngtb (ax (max3 b)) v.
Definition cross2 (ax : pt2 F64 -> T F64) (b : bb2 F64) (v : T F64) : bool := nltb (ax (min2 b)) v && ngtb (ax (max2 b)) v.
Lemma crossing3_query {HB} (bbox : HB -> bb3 F64) ax : axis3 ax -> forall data maxdepth bucket v before,
  Forall (fun x => good_box3 (bbox x)) data -> exists found,
  aabb_query (fun b => Ok (cross3 ax b v)) (fun x => Ok (cross3 ax (bbox x) v)) (aabb3_new bbox data maxdepth bucket) before
    = Ok (before ++ found) /\
  forall x, In x found <-> In x data /\ flt (ax (min3 (bbox x))) v /\ flt v (ax (max3 (bbox x))).
Proof.
  intros Hax data maxdepth bucket v before G.
  destruct (query_spec (bb_of3 bbox) (is_left3 bbox) (is_right3 bbox) (fun x => good_box3 (bbox x))
    (cover3_f bbox) (fun b => Ok (cross3 ax b v)) (fun x => Ok (cross3 ax (bbox x) v))) with
    (levels := maxdepth) (bucket := bucket) (depth := 0%N) (data := data) (acc := before) as (out & E & S).
  - intros x _. eexists; reflexivity.
  - intros d _ _. eexists; reflexivity.
  - clear - Hax. intros data x G Hx H. injection H as H. f_equal.
    assert (NE : data <> []) by (intros ->; destruct Hx).
    destruct (bb_of3_bounds F64_laws bbox data ax Hax (good3_bnum bbox data G) NE) as (_ & _ & B).
    destruct (B x Hx) as [B1 B2]. eapply crossing_up; eassumption.
  - exact G.
  - exists out. split; [exact E|]. intro x. rewrite S, <- crossing_iff.
    split; intros [H1 H2]; (split; [exact H1|]); [injection H2 as H2; exact H2|f_equal; exact H2].
Qed.
Lemma crossing2_query {HB} (bbox : HB -> bb2 F64) ax : axis2 ax -> forall data maxdepth bucket v before,
  Forall (fun x => good_box2 (bbox x)) data -> exists found,
  aabb_query (fun b => Ok (cross2 ax b v)) (fun x => Ok (cross2 ax (bbox x) v)) (aabb2_new bbox data maxdepth bucket) before
    = Ok (before ++ found) /\
  forall x, In x found <-> In x data /\ flt (ax (min2 (bbox x))) v /\ flt v (ax (max2 (bbox x))).
Proof.
  intros Hax data maxdepth bucket v before G.
  destruct (query_spec (bb_of2 bbox) (is_left2 bbox) (is_right2 bbox) (fun x => good_box2 (bbox x))
    (cover2_f bbox) (fun b => Ok (cross2 ax b v)) (fun x => Ok (cross2 ax (bbox x) v))) with
    (levels := maxdepth) (bucket := bucket) (depth := 0%N) (data := data) (acc := before) as (out & E & S).
  - intros x _. eexists; reflexivity.
  - intros d _ _. eexists; reflexivity.
  - clear - Hax. intros data x G Hx H. injection H as H. f_equal.
    assert (NE : data <> []) by (intros ->; destruct Hx).
    destruct (bb_of2_bounds F64_laws bbox data ax Hax (good2_bnum bbox data G) NE) as (_ & _ & B).
    destruct (B x Hx) as [B1 B2]. eapply crossing_up; eassumption.
  - exact G.
  - exists out. split; [exact E|]. intro x. rewrite S, <- crossing_iff.
    split; intros [H1 H2]; (split; [exact H1|]); [injection H2 as H2; exact H2|f_equal; exact H2].
Qed.

(** ** Reals *)
Local Open Scope R_scope.
Lemma bnum3_R {HB} (bbox : HB -> bb3 RN) data : Forall (@bnum3 RN (fun _ => True) HB bbox) data.
Proof. apply Forall_forall. intros x _ ax _. auto. Qed.
Lemma bnum2_R {HB} (bbox : HB -> bb2 RN) data : Forall (@bnum2 RN (fun _ => True) HB bbox) data.
Proof. apply Forall_forall. intros x _ ax _. auto. Qed.
Lemma bb_of3_R {HB} (bbox : HB -> bb3 RN) data x : In x data -> forall ax, axis3 ax ->
  ax (min3 (bb_of3 bbox data)) <= ax (min3 (bbox x)) /\ ax (max3 (bbox x)) <= ax (max3 (bb_of3 bbox data)).
Proof.
  intros Hx ax Hax. assert (NE : data <> []) by (intros ->; destruct Hx).
  destruct (bb_of3_bounds RN_laws bbox data ax Hax (bnum3_R bbox data) NE) as (_ & _ & B).
  destruct (B x Hx) as [B1 B2]. apply R_leb in B1, B2. split; assumption.
Qed.
Lemma bb_of2_R {HB} (bbox : HB -> bb2 RN) data x : In x data -> forall ax, axis2 ax ->
  ax (min2 (bb_of2 bbox data)) <= ax (min2 (bbox x)) /\ ax (max2 (bbox x)) <= ax (max2 (bb_of2 bbox data)).
Proof.
  intros Hx ax Hax. assert (NE : data <> []) by (intros ->; destruct Hx).
  destruct (bb_of2_bounds RN_laws bbox data ax Hax (bnum2_R bbox data) NE) as (_ & _ & B).
  destruct (B x Hx) as [B1 B2]. apply R_leb in B1, B2. split; assumption.
Qed.
Lemma bb_of3_valid {HB} (bbox : HB -> bb3 RN) data : data <> [] -> Forall (fun x => valid3 (bbox x)) data -> valid3 (bb_of3 bbox data).
Proof.
  intros NE G ax Hax. destruct data as [|d r]; [congruence|].
  destruct (bb_of3_R bbox (d :: r) d (or_introl eq_refl) ax Hax). inversion G as [|? ? V _]; subst.
  specialize (V ax Hax). lra.
Qed.
Lemma bb_of2_valid {HB} (bbox : HB -> bb2 RN) data : data <> [] -> Forall (fun x => valid2 (bbox x)) data -> valid2 (bb_of2 bbox data).
Proof.
  intros NE G ax Hax. destruct data as [|d r]; [congruence|].
  destruct (bb_of2_R bbox (d :: r) d (or_introl eq_refl) ax Hax). inversion G as [|? ? V _]; subst.
  specialize (V ax Hax). lra.
Qed.
Lemma cover3_R {HB} (bbox : HB -> bb3 RN) depth data x : Forall (fun x => valid3 (bbox x)) data -> In x data ->
  is_left3 bbox depth (bb_of3 bbox data) x = true \/ is_right3 bbox depth (bb_of3 bbox data) x = true.
Proof.
  intros G Hx. rewrite Forall_forall in G. unfold is_left3, is_right3, bb3_center. cbn [px py pz].
  assert (K : forall ax, axis3 ax -> forall c : T RN, nltb (ax (min3 (bbox x))) c = true \/ ngeb (ax (max3 (bbox x))) c = true).
  { intros ax Hax c. apply (axis_cover RN_laws); [exact Logic.I|]. apply R_leb. specialize (G x Hx ax Hax). lra. }
  destruct (depth mod 3)%N as [|[p|p|]]; [apply (K px)|apply (K pz)|apply (K pz)|apply (K py)]; unfold axis3; auto.
Qed.
Lemma cover2_R {HB} (bbox : HB -> bb2 RN) depth data x : Forall (fun x => valid2 (bbox x)) data -> In x data ->
  is_left2 bbox depth (bb_of2 bbox data) x = true \/ is_right2 bbox depth (bb_of2 bbox data) x = true.
Proof.
  intros G Hx. rewrite Forall_forall in G. unfold is_left2, is_right2, bb2_center. cbn [x2 y2].
  assert (K : forall ax, axis2 ax -> forall c : T RN, nltb (ax (min2 (bbox x))) c = true \/ ngeb (ax (max2 (bbox x))) c = true).
  { intros ax Hax c. apply (axis_cover RN_laws); [exact Logic.I|]. apply R_leb. specialize (G x Hx ax Hax). lra. }
  destruct (negb _); [apply (K x2)|apply (K y2)]; unfold axis2; auto.
Qed.
Lemma colliding3_query {HB} (bbox : HB -> bb3 RN) data maxdepth bucket bb before :
  Forall (fun x => valid3 (bbox x)) data -> valid3 bb -> exists found,
  aabb_query (fun b => bb3_collides_with b bb) (fun x => bb3_collides_with (bbox x) bb) (aabb3_new bbox data maxdepth bucket) before
    = Ok (before ++ found) /\ forall x, In x found <-> In x data /\ meet3 (bbox x) bb.
Proof.
  intros G V. rewrite Forall_forall in G.
  destruct (query_spec (bb_of3 bbox) (is_left3 bbox) (is_right3 bbox) (fun x => valid3 (bbox x))
    (cover3_R bbox) (fun b => bb3_collides_with b bb) (fun x => bb3_collides_with (bbox x) bb)) with
    (levels := maxdepth) (bucket := bucket) (depth := 0%N) (data := data) (acc := before) as (out & E & S).
  - intros x Vx. destruct (collides3_R (bbox x) bb Vx V) as (r & E & _). eauto.
  - intros d NE Gd. destruct (collides3_R _ bb (bb_of3_valid bbox d NE Gd) V) as (r & E & _). eauto.
  - clear - V. intros data x G Hx H. assert (NE : data <> []) by (intros ->; destruct Hx).
    destruct (collides3_R _ bb (bb_of3_valid bbox data NE G) V) as (r & E & I). rewrite E. f_equal.
    rewrite Forall_forall in G. destruct (collides3_R (bbox x) bb (G x Hx) V) as (r' & E' & I').
    rewrite E' in H. injection H as ->. apply I. destruct (proj1 I' eq_refl) as (p & P1 & P2). exists p. split; [|exact P2].
    intros ax Hax. destruct (bb_of3_R bbox data x Hx ax Hax). specialize (P1 ax Hax). split; apply Rnot_le_lt; intro; lra.
  - apply Forall_forall, G.
  - exists out. split; [exact E|]. intro x. rewrite S. split; intros [H1 H2]; (split; [exact H1|]);
    destruct (collides3_R (bbox x) bb (G x H1) V) as (r & Er & I).
    + rewrite Er in H2. injection H2 as ->. apply I. reflexivity.
    + rewrite Er. f_equal. apply I, H2.
Qed.
Lemma colliding2_query {HB} (bbox : HB -> bb2 RN) data maxdepth bucket bb before :
  Forall (fun x => valid2 (bbox x)) data -> valid2 bb -> exists found,
  aabb_query (fun b => bb2_collides_with b bb) (fun x => bb2_collides_with (bbox x) bb) (aabb2_new bbox data maxdepth bucket) before
    = Ok (before ++ found) /\ forall x, In x found <-> In x data /\ meet2 (bbox x) bb.
Proof.
  intros G V. rewrite Forall_forall in G.
  destruct (query_spec (bb_of2 bbox) (is_left2 bbox) (is_right2 bbox) (fun x => valid2 (bbox x))
    (cover2_R bbox) (fun b => bb2_collides_with b bb) (fun x => bb2_collides_with (bbox x) bb)) with
    (levels := maxdepth) (bucket := bucket) (depth := 0%N) (data := data) (acc := before) as (out & E & S).
  - intros x Vx. destruct (collides2_R (bbox x) bb Vx V) as (r & E & _). eauto.
  - intros d NE Gd. destruct (collides2_R _ bb (bb_of2_valid bbox d NE Gd) V) as (r & E & _). eauto.
  - clear - V. intros data x G Hx H. assert (NE : data <> []) by (intros ->; destruct Hx).
    destruct (collides2_R _ bb (bb_of2_valid bbox data NE G) V) as (r & E & I). rewrite E. f_equal.
    rewrite Forall_forall in G. destruct (collides2_R (bbox x) bb (G x Hx) V) as (r' & E' & I').
    rewrite E' in H. injection H as ->. apply I. destruct (proj1 I' eq_refl) as (p & P1 & P2). exists p. split; [|exact P2].
    intros ax Hax. destruct (bb_of2_R bbox data x Hx ax Hax). specialize (P1 ax Hax). split; apply Rnot_le_lt; intro; lra.
  - apply Forall_forall, G.
  - exists out. split; [exact E|]. intro x. rewrite S. split; intros [H1 H2]; (split; [exact H1|]);
    destruct (collides2_R (bbox x) bb (G x H1) V) as (r & Er & I).
    + rewrite Er in H2. injection H2 as ->. apply I. reflexivity.
    + rewrite Er. f_equal. apply I, H2.
Qed.

(** ** Lines *)
Lemma min64_R (a b : T RN) : min64 a b = Rmin a b.
Proof. unfold min64, Rmin. destruct (R_ltb_spec a b), (Rle_dec a b); try reflexivity; lra. Qed.
Lemma max64_R (a b : T RN) : max64 a b = Rmax a b.
Proof. unfold max64, Rmax. destruct (R_gtb_spec a b), (Rle_dec a b); try reflexivity; lra. Qed.
(** Parameters at which a line is inside a slab. *)
Lemma slab (lo hi o d t : R) : d <> 0 -> lo <= hi ->
  lo <= o + t * d <= hi <-> Rmin ((lo - o) * (1 / d)) ((hi - o) * (1 / d)) <= t <= Rmax ((lo - o) * (1 / d)) ((hi - o) * (1 / d)).
Proof.
  intros D L.
  assert (E1 : lo = o + (lo - o) * (1 / d) * d) by (field; exact D).
  assert (E2 : hi = o + (hi - o) * (1 / d) * d) by (field; exact D).
  set (u := (lo - o) * (1 / d)) in *. set (w := (hi - o) * (1 / d)) in *. clearbody u w. subst lo hi.
  destruct (Rtotal_order d 0) as [N|[N|N]]; [|contradiction|].
  - assert (w <= u) by (apply Rnot_lt_le; intro K; apply (Rmult_lt_gt_compat_neg_l d) in K; lra).
    rewrite Rmin_right, Rmax_left by assumption. split; intros [A B].
    + split; apply Rnot_lt_le; intro K; apply (Rmult_lt_gt_compat_neg_l d) in K; lra.
    + destruct A as [A|A]; destruct B as [B|B]; subst; try lra;
      try (apply (Rmult_lt_gt_compat_neg_l d) in A; [|lra]); try (apply (Rmult_lt_gt_compat_neg_l d) in B; [|lra]); lra.
  - assert (u <= w) by (apply Rnot_lt_le; intro K; apply (Rmult_lt_compat_l d) in K; lra).
    rewrite Rmin_left, Rmax_right by assumption. split; intros [A B].
    + split; apply Rnot_lt_le; intro K; apply (Rmult_lt_compat_l d) in K; lra.
    + apply (Rmult_le_compat_l d) in A; [|lra]. apply (Rmult_le_compat_l d) in B; [|lra]. lra.
Qed.
Lemma intersection_R (l : line3 RN) (b : bb3 RN) : px (dir l) <> 0 -> py (dir l) <> 0 -> pz (dir l) <> 0 -> valid3 b ->
  match intersection l b with
  | Some p => ray_hits (anchor l) (dir l) b /\
      (exists t, p = rp3 (px (anchor l) + t * px (dir l)) (py (anchor l) + t * py (dir l)) (pz (anchor l) + t * pz (dir l)) /\
        closed3 b p /\
        forall s, closed3 b (rp3 (px (anchor l) + s * px (dir l)) (py (anchor l) + s * py (dir l)) (pz (anchor l) + s * pz (dir l))) -> t <= s)
  | None => ~ ray_hits (anchor l) (dir l) b
  end.
Proof.
  intros DX DY DZ V. unfold intersection. rewrite !min64_R, !max64_R, R_n1, R_n0.
  pose proof (V px (or_introl eq_refl)) as V1. pose proof (V py (or_intror (or_introl eq_refl))) as V2.
  pose proof (V pz (or_intror (or_intror eq_refl))) as V3.
  cbn [nsub nmul ndiv RN].
  pose proof (fun t => slab (px (min3 b)) (px (max3 b)) (px (anchor l)) (px (dir l)) t DX (Rlt_le _ _ V1)) as SX.
  pose proof (fun t => slab (py (min3 b)) (py (max3 b)) (py (anchor l)) (py (dir l)) t DY (Rlt_le _ _ V2)) as SY.
  pose proof (fun t => slab (pz (min3 b)) (pz (max3 b)) (pz (anchor l)) (pz (dir l)) t DZ (Rlt_le _ _ V3)) as SZ.
  match type of SX with forall t, _ <-> ?a <= _ <= ?b => set (x1 := a) in *; set (x2 := b) in * end.
  match type of SY with forall t, _ <-> ?a <= _ <= ?b => set (y1 := a) in *; set (y2 := b) in * end.
  match type of SZ with forall t, _ <-> ?a <= _ <= ?b => set (z1 := a) in *; set (z2 := b) in * end.
  assert (C : forall t, closed3 b (rp3 (px (anchor l) + t * px (dir l)) (py (anchor l) + t * py (dir l)) (pz (anchor l) + t * pz (dir l)))
              <-> Rmax (Rmax x1 y1) z1 <= t <= Rmin (Rmin x2 y2) z2).
  { intro t. transitivity ((x1 <= t <= x2) /\ (y1 <= t <= y2) /\ (z1 <= t <= z2)).
    - rewrite <- SX, <- SY, <- SZ. unfold closed3. rewrite axis3_all. cbn [px py pz rp3]. tauto.
    - unfold Rmax, Rmin. repeat destruct (Rle_dec _ _); lra. }
  set (tmin := Rmax (Rmax x1 y1) z1) in *. set (tmax := Rmin (Rmin x2 y2) z2) in *. clearbody tmin tmax.
  destruct (R_geb_spec tmax tmin) as [G1|G1]; [destruct (R_geb_spec tmax 0) as [G2|G2]|]; cbn [andb].
  - split.
    + exists (Rmax 0 tmin). split; [apply Rmax_l|]. apply C. split; [apply Rmax_r|]. apply Rmax_lub; lra.
    + exists tmin. split.
      { unfold pt3_add, norm3_mul, rp3. cbn [px py pz]. cbn [nadd nmul RN]. reflexivity. }
      split; [|intros s Hs; apply C in Hs; lra].
      assert (X : closed3 b (rp3 (px (anchor l) + tmin * px (dir l)) (py (anchor l) + tmin * py (dir l)) (pz (anchor l) + tmin * pz (dir l)))).
      { apply C. lra. }
      exact X.
  - intros (t & T0 & K). apply C in K. lra.
  - intros (t & T0 & K). apply C in K. lra.
Qed.
Lemma ray_hits_up {HB} (bbox : HB -> bb3 RN) data x o d : In x data -> ray_hits o d (bbox x) -> ray_hits o d (bb_of3 bbox data).
Proof.
  intros Hx (t & T0 & C). exists t. split; [exact T0|]. intros ax Hax. destruct (bb_of3_R bbox data x Hx ax Hax).
  specialize (C ax Hax). lra.
Qed.
Lemma intersecting3_query {HB} (bbox : HB -> bb3 RN) data maxdepth bucket (l : line3 RN) :
  Forall (fun x => valid3 (bbox x)) data -> px (dir l) <> 0 -> py (dir l) <> 0 -> pz (dir l) <> 0 -> exists found,
  aabb3_intersection_candidates bbox l (aabb3_new bbox data maxdepth bucket) = Ok found /\
  forall x, In x found <-> In x data /\ ray_hits (anchor l) (dir l) (bbox x).
Proof.
  intros G DX DY DZ. rewrite Forall_forall in G.
  set (hits b := match intersection l b with Some _ => true | None => false end).
  assert (HI : forall b, valid3 b -> hits b = true <-> ray_hits (anchor l) (dir l) b).
  { intros b V. pose proof (intersection_R l b DX DY DZ V) as H. unfold hits. destruct (intersection l b).
    - split; [intros _; apply H|reflexivity].
    - split; [discriminate|contradiction]. }
  destruct (query_spec (bb_of3 bbox) (is_left3 bbox) (is_right3 bbox) (fun x => valid3 (bbox x))
    (cover3_R bbox) (fun b => Ok (hits b)) (fun x => Ok (hits (bbox x)))) with
    (levels := maxdepth) (bucket := bucket) (depth := 0%N) (data := data) (acc := @nil HB) as (out & E & S).
  - eauto.
  - eauto.
  - clear - HI. intros data x G Hx H. injection H as H. f_equal. assert (NE : data <> []) by (intros ->; destruct Hx).
    apply HI; [apply bb_of3_valid; assumption|]. apply ray_hits_up with (x := x); [exact Hx|].
    apply HI; [|exact H]. rewrite Forall_forall in G. apply G, Hx.
  - apply Forall_forall, G.
  - exists out. split; [exact E|]. intro x. rewrite S. split; intros [H1 H2]; (split; [exact H1|]).
    + injection H2 as H2. apply HI; [apply G, H1|exact H2].
    + f_equal. apply HI; [apply G, H1|exact H2].
Qed.

(** ** Checking concrete boxes *)
Definition finb (a : T F64) : bool := match a with S754_zero _ | S754_finite _ _ _ => true | _ => false end.
Lemma finb_ok a : finb a = true -> finite a.
Proof. destruct a; try discriminate; intros _; split; try (intros ?); discriminate. Qed.
Definition goodb3 (b : bb3 F64) : bool :=
  forallb (fun ax : pt3 F64 -> T F64 => finb (ax (min3 b)) && finb (ax (max3 b)) && nleb (ax (min3 b)) (ax (max3 b))) [px; py; pz].
Definition goodb2 (b : bb2 F64) : bool :=
  forallb (fun ax : pt2 F64 -> T F64 => finb (ax (min2 b)) && finb (ax (max2 b)) && nleb (ax (min2 b)) (ax (max2 b))) [x2; y2].
Lemma goodb3_ok {HB} (bbox : HB -> bb3 F64) data : forallb (fun x => goodb3 (bbox x)) data = true -> Forall (fun x => good_box3 (bbox x)) data.
Proof.
  intro H. apply Forall_forall. intros x Hx ax Hax. rewrite forallb_forall in H. specialize (H x Hx).
  unfold goodb3 in H. rewrite forallb_forall in H. specialize (H ax).
  assert (K : In ax [px; py; pz]) by (destruct Hax as [->|[->| ->]]; cbn; auto).
  specialize (H K). rewrite !Bool.andb_true_iff in H. destruct H as [[H1 H2] H3].
  split; [apply finb_ok, H1|]. split; [apply finb_ok, H2|exact H3].
Qed.
Lemma goodb2_ok {HB} (bbox : HB -> bb2 F64) data : forallb (fun x => goodb2 (bbox x)) data = true -> Forall (fun x => good_box2 (bbox x)) data.
Proof.
  intro H. apply Forall_forall. intros x Hx ax Hax. rewrite forallb_forall in H. specialize (H x Hx).
  unfold goodb2 in H. rewrite forallb_forall in H. specialize (H ax).
  assert (K : In ax [x2; y2]) by (destruct Hax as [->| ->]; cbn; auto).
  specialize (H K). rewrite !Bool.andb_true_iff in H. destruct H as [[H1 H2] H3].
  split; [apply finb_ok, H1|]. split; [apply finb_ok, H2|exact H3].
Qed.

(** ** Unbounded data *)
Lemma le_ninf (a : T F64) : nleb a (S754_infinity true) = true -> a = S754_infinity true.
Proof. destruct a as [s|[|]| |s m e]; try destruct s; cbn; intro; try discriminate; reflexivity. Qed.
Lemma ge_pinf (a : T F64) : nleb (S754_infinity false : T F64) a = true -> a = S754_infinity false.
Proof. destruct a as [s|[|]| |s m e]; try destruct s; cbn; intro; try discriminate; reflexivity. Qed.
Lemma nan_lt (a : T F64) : nltb a (S754_nan : T F64) = false.
Proof. destruct a as [s|[|]| |s m e]; reflexivity. Qed.
Lemma nan_ge (a : T F64) : ngeb a (S754_nan : T F64) = false.
Proof. destruct a as [s|[|]| |s m e]; reflexivity. Qed.
Lemma mid_nan : nadd (S754_infinity true : T F64) (ndiv (nsub (S754_infinity false : T F64) (S754_infinity true : T F64)) n2) = S754_nan.
Proof. vmeq. Qed.
Lemma filter_none {A} (f : A -> bool) l : (forall x, In x l -> f x = false) -> filter f l = [].
Proof.
  induction l as [|a r IH]; intro H; [reflexivity|]. cbn. rewrite (H a (or_introl eq_refl)). apply IH. intros x Hx. apply H. right. exact Hx.
Qed.
Lemma new_rec_lost {HB BB} (bb_of : list HB -> BB) isl isr bucket depth data levels f :
  (forall x, In x data -> isl depth (bb_of data) x = false) -> (forall x, In x data -> isr depth (bb_of data) x = false) ->
  (2 <= length data)%nat -> (bucket < length data)%nat ->
  aabb_any f (aabb_new_rec bb_of isl isr (S levels) bucket depth data) = false.
Proof.
  intros HL HR L2 LB. cbn [aabb_new_rec]. destruct data as [|a [|b r]]; cbn [length] in L2; [lia|lia|].
  set (data := a :: b :: r) in *. clearbody data. cbn zeta.
  rewrite (proj2 (Nat.leb_gt _ _) LB). rewrite !filter_none by assumption. cbn [length].
  destruct (length data) as [|n]; [lia|]. cbn. destruct levels; reflexivity.
Qed.
Lemma lost3 {HB} (bbox : HB -> bb3 F64) data f maxdepth bucket : (forall x, In x data -> box_number3 (bbox x)) ->
  (exists x, In x data /\ px (min3 (bbox x)) = S754_infinity true) ->
  (exists x, In x data /\ px (max3 (bbox x)) = S754_infinity false) ->
  (2 <= length data)%nat -> (bucket < length data)%nat -> (1 <= maxdepth)%nat ->
  aabb_any f (aabb3_new bbox data maxdepth bucket) = false.
Proof.
  intros NB (a & Ha & Ea) (b & Hb & Eb) L2 LB LM. destruct maxdepth as [|lv]; [lia|].
  assert (G : Forall (@bnum3 F64 f_num HB bbox) data).
  { apply Forall_forall. intros x Hx ax Hax. destruct (NB x Hx) as [N1 N2]. split; [apply (N1 ax Hax)|apply (N2 ax Hax)]. }
  assert (NE : data <> []) by (intros ->; destruct Ha).
  destruct (bb_of3_bounds F64_laws bbox data px (or_introl eq_refl) G NE) as (_ & _ & B).
  destruct (B a Ha) as [B1 _]. destruct (B b Hb) as [_ B2]. rewrite Ea in B1. rewrite Eb in B2.
  apply le_ninf in B1. apply ge_pinf in B2.
  apply new_rec_lost; try assumption; intros x Hx; unfold is_left3, is_right3, bb3_center; cbn [px N.modulo N.div_eucl fst snd];
    rewrite B1, B2, mid_nan; [apply nan_lt|apply nan_ge].
Qed.
Lemma lost2 {HB} (bbox : HB -> bb2 F64) data f maxdepth bucket : (forall x, In x data -> box_number2 (bbox x)) ->
  (exists x, In x data /\ y2 (min2 (bbox x)) = S754_infinity true) ->
  (exists x, In x data /\ y2 (max2 (bbox x)) = S754_infinity false) ->
  (2 <= length data)%nat -> (bucket < length data)%nat -> (1 <= maxdepth)%nat ->
  aabb_any f (aabb2_new bbox data maxdepth bucket) = false.
Proof.
  intros NB (a & Ha & Ea) (b & Hb & Eb) L2 LB LM. destruct maxdepth as [|lv]; [lia|].
  assert (G : Forall (@bnum2 F64 f_num HB bbox) data).
  { apply Forall_forall. intros x Hx ax Hax. destruct (NB x Hx) as [N1 N2]. split; [apply (N1 ax Hax)|apply (N2 ax Hax)]. }
  assert (NE : data <> []) by (intros ->; destruct Ha).
  destruct (bb_of2_bounds F64_laws bbox data y2 (or_intror eq_refl) G NE) as (_ & _ & B).
  destruct (B a Ha) as [B1 _]. destruct (B b Hb) as [_ B2]. rewrite Ea in B1. rewrite Eb in B2.
  apply le_ninf in B1. apply ge_pinf in B2.
  apply new_rec_lost; try assumption; intros x Hx; unfold is_left2, is_right2, bb2_center; cbn [y2 N.modulo N.div_eucl fst snd N.eqb negb];
    rewrite B1, B2, mid_nan; [apply nan_lt|apply nan_ge].
Qed.
