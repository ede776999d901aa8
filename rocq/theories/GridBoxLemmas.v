(** Lemmas about boxes on a grid. *)
From Verif Require Import Base BaseLemmas Num NumLemmas BBoxModel GeomSpec FloatSpec FloatLemmas FloatBridge RootLemmas DistSpec DistLemmas DistLemmas2 DistLemmas3 LineModel AabbModel BoxDistSpec BoxDistLemmas MeanLemmas GridSpec GridLemmas GridKdLemmas GridBoxSpec.
From Coq Require Import Floats.SpecFloat Reals Lra Lia.
From Flocq Require Import Core.
Local Open Scope R_scope.

Lemma gr_two : gr 1 (n2 : T F64) 1.
Proof. split; [split; [reflexivity|exact I]|]. change (n2 : T F64) with (S754_finite false 4503599627370496 (-51) : T F64). cbn [fval]. rewrite bp_powerRZ. change (bp (-51)) with (/ 2251799813685248). change (bp 1) with 2. lra. Qed.
Lemma fval_2 : fval (n2 : T F64) = 2. Proof. destruct gr_two as [_ ->]. change (bp 1) with 2. lra. Qed.
Lemma bp_half e : bp (e - 1) = bp e / 2.
Proof. unfold Zminus. rewrite bpow_plus. change (bp (-1)) with (/ 2). reflexivity. Qed.
Lemma gr_div2 e x a : gr e x a -> (Z.abs a <= 2 ^ 53)%Z -> (-1073 <= e <= 960)%Z -> gr (e - 1) (ndiv x n2) a.
Proof.
  intros [[DX FX] VX] B E. eapply rounds_grid; [apply div_val; [exact DX|reflexivity|exact FX|exact I|rewrite fval_2; lra]|apply double_div; [exact DX|reflexivity]| |exact B|lia].
  rewrite VX, fval_2, bp_half. field.
Qed.
Lemma gr_shift e x a : gr e x a -> gr (e - 1) x (2 * a).
Proof. intros [F V]. split; [exact F|]. rewrite V, mult_IZR, bp_half. field. Qed.
Lemma R_two : (n2 : T RN) = 2.
Proof. exact R_n2. Qed.
Section Axis.
Context (e : Z) (E : (-1070 <= e <= 950)%Z).
Lemma center_grid lo hi : on_grid e 48 lo -> on_grid e 48 hi -> exists c, (Z.abs c <= 2 ^ 50)%Z /\ gr (e - 1) (nadd lo (ndiv (nsub hi lo) n2)) c /\
  fval (nadd lo (ndiv (nsub hi lo) n2)) = (nadd (fval lo : T RN) (ndiv (nsub (fval hi : T RN) (fval lo)) n2)).
Proof.
  intros L H. apply grid_gr in L, H. destruct L as (a & A & GA), H as (b & B & GB).
  pose proof (gr_sub e _ _ _ _ GB GA ltac:(lia) ltac:(lia)) as G1. pose proof (gr_div2 e _ _ G1 ltac:(lia) ltac:(lia)) as G2.
  pose proof (gr_add (e - 1) _ _ _ _ (gr_shift _ _ _ GA) G2 ltac:(lia) ltac:(lia)) as G3. exists (2 * a + (b - a))%Z. split; [lia|]. split; [exact G3|].
  destruct G3 as [_ ->]. destruct GA as [_ VA], GB as [_ VB]. rewrite VA, VB, R_two. cbn [nadd nsub ndiv RN]. rewrite bp_half, plus_IZR, minus_IZR, mult_IZR. field.
Qed.
Lemma size_grid lo hi : on_grid e 48 lo -> on_grid e 48 hi -> flt lo hi -> exists s, (Z.abs s <= 2 ^ 50)%Z /\ gr e (nabs (nsub hi lo)) s /\ positive_new (nabs (nsub hi lo)) = Some (nabs (nsub hi lo)) /\
  fval (nabs (nsub hi lo)) = @nabs RN (@nsub RN (fval hi) (fval lo)) /\ positive_new (@nabs RN (@nsub RN (fval hi) (fval lo))) = Some (@nabs RN (@nsub RN (fval hi) (fval lo))).
Proof.
  intros L H LT. pose proof (grid_fd _ _ _ L) as [DL FL]. pose proof (grid_fd _ _ _ H) as [DH FH]. apply flt_val in LT; [|assumption..]. apply grid_gr in L, H. destruct L as (a & A & GA), H as (b & B & GB).
  pose proof (gr_abs e _ _ (gr_sub e _ _ _ _ GB GA ltac:(lia) ltac:(lia))) as G1.
  assert (V : fval (nabs (nsub hi lo)) = @nabs RN (@nsub RN (fval hi) (fval lo))).
  { destruct G1 as [_ ->]. destruct GA as [_ ->], GB as [_ ->]. cbn [nabs nsub RN]. rewrite abs_IZR, minus_IZR, <- Rmult_minus_distr_r, Rabs_mult, (Rabs_pos_eq (bp e)) by apply Rlt_le, bp_pos. reflexivity. }
  assert (P : @positive_new RN (@nabs RN (@nsub RN (fval hi) (fval lo))) = Some (@nabs RN (@nsub RN (fval hi) (fval lo)))).
  { unfold positive_new. rewrite (proj2 (R_gtb _ _)); [reflexivity|]. rewrite R_n0. cbn [nabs nsub RN]. apply Rabs_pos_lt. cbn [T RN]. lra. }
  exists (Z.abs (b - a)). split; [lia|]. split; [exact G1|]. split; [|split; [exact V|exact P]].
  unfold positive_new in *. rewrite ngtb_same by (first [eapply gr_fd; exact G1|eapply gr_fd; apply (gr_0 0)]). rewrite V, fval_0. destruct (@ngtb RN _ _); [reflexivity|discriminate].
Qed.
Lemma collide_grid lo hi lo' hi' : on_grid e 48 lo -> on_grid e 48 hi -> on_grid e 48 lo' -> on_grid e 48 hi' -> flt lo hi -> flt lo' hi' ->
  collide_axis (nadd lo (ndiv (nsub hi lo) n2)) (nadd lo' (ndiv (nsub hi' lo') n2)) (unwrap (positive_new (nabs (nsub hi lo)))) (unwrap (positive_new (nabs (nsub hi' lo')))) =
  collide_axis (nadd (fval lo : T RN) (ndiv (nsub (fval hi : T RN) (fval lo)) n2)) (nadd (fval lo' : T RN) (ndiv (nsub (fval hi' : T RN) (fval lo')) n2))
    (unwrap (positive_new (nabs (nsub (fval hi : T RN) (fval lo))))) (unwrap (positive_new (nabs (nsub (fval hi' : T RN) (fval lo'))))).
Proof.
  intros A B C D L1 L2. destruct (center_grid _ _ A B) as (c & CB & GC & <-), (center_grid _ _ C D) as (c' & CB' & GC' & <-).
  destruct (size_grid _ _ A B L1) as (s & SB & GS & -> & VS & ->), (size_grid _ _ C D L2) as (s' & SB' & GS' & -> & VS' & ->).
  unfold collide_axis. cbn [unwrap obind]. f_equal. rewrite <- VS, <- VS'.
  set (p := nadd lo (ndiv (nsub hi lo) n2)) in *. set (p' := nadd lo' (ndiv (nsub hi' lo') n2)) in *. set (q := nabs (nsub hi lo)) in *. set (q' := nabs (nsub hi' lo')) in *.
  pose proof (gr_mul 1 (e - 1) _ _ _ _ gr_two (gr_abs _ _ _ (gr_sub (e - 1) _ _ _ _ GC GC' ltac:(lia) ltac:(lia))) ltac:(lia) ltac:(lia)) as G1.
  pose proof (gr_add e _ _ _ _ GS GS' ltac:(lia) ltac:(lia)) as G2.
  rewrite nltb_same by (eapply gr_fd; first [exact G1|exact G2]). f_equal.
  - destruct G1 as [_ ->]. destruct GC as [_ ->], GC' as [_ ->]. rewrite R_two. cbn [nabs nsub nmul RN]. rewrite <- Rmult_minus_distr_r, <- minus_IZR, Rabs_mult, <- abs_IZR, (Rabs_pos_eq (bp (e - 1))) by apply Rlt_le, bp_pos.
    replace (1 + (e - 1))%Z with e by lia. rewrite bp_half, Z.mul_1_l. field.
  - destruct G2 as [_ ->]. destruct GS as [_ ->], GS' as [_ ->]. cbn [nadd RN]. rewrite plus_IZR. ring.
Qed.
Lemma pick_lt x y : on_grid e 48 x -> on_grid e 48 y -> on_grid e 48 (if nltb x y then x else y) /\ fval (if nltb x y then x else y) = (if @nltb RN (fval x) (fval y) then fval x else fval y).
Proof. intros X Y. rewrite nltb_same by (eapply grid_fd; eassumption). destruct (@nltb RN (fval x) (fval y)); auto. Qed.
Lemma pick_gt x y : on_grid e 48 x -> on_grid e 48 y -> on_grid e 48 (if ngtb x y then x else y) /\ fval (if ngtb x y then x else y) = (if @ngtb RN (fval x) (fval y) then fval x else fval y).
Proof. intros X Y. rewrite ngtb_same by (eapply grid_fd; eassumption). destruct (@ngtb RN (fval x) (fval y)); auto. Qed.
End Axis.
Lemma filter_ext_Forall {A} (Q : A -> Prop) (f g : A -> bool) l : (forall x, Q x -> f x = g x) -> Forall Q l -> filter f l = filter g l.
Proof. intros H F. apply filter_ext_in. rewrite Forall_forall in F. auto. Qed.
Lemma Forall_filter' {A} (Q : A -> Prop) (f : A -> bool) l : Forall Q l -> Forall Q (filter f l).
Proof. rewrite !Forall_forall. intros H x I. apply filter_In in I. apply H, I. Qed.
Lemma select_same {A} (Q : A -> Prop) (f g : A -> res bool) l : (forall x, Q x -> f x = g x) -> Forall Q l -> forall res, leaf_select f l res = leaf_select g l res.
Proof. intros H. induction 1 as [|x l X _ IH]; intros res; [reflexivity|]. cbn [leaf_select]. rewrite (H x X). destruct (g x); cbn [obind]; [apply IH|reflexivity|reflexivity]. Qed.
Section Same.
Context (e : Z) (E : (-1070 <= e <= 950)%Z) {HB : Type}.
Lemma flt_grid x y : on_grid e 48 x -> on_grid e 48 y -> (flt x y <-> fval x < fval y).
Proof. intros X Y. apply flt_val; eapply grid_fd; eassumption. Qed.

Lemma collides_same3 a b : gridbox3 e a -> gridbox3 e b -> bb3_collides_with a b = bb3_collides_with (realbox3 a) (realbox3 b).
Proof.
  intros ((A1 & A2 & A3) & (A4 & A5 & A6) & VA) ((B1 & B2 & B3) & (B4 & B5 & B6) & VB). unfold bb3_collides_with.
  assert (X := VA px (or_introl eq_refl)). assert (Y := VA py (or_intror (or_introl eq_refl))). assert (Z := VA pz (or_intror (or_intror eq_refl))).
  assert (X' := VB px (or_introl eq_refl)). assert (Y' := VB py (or_intror (or_introl eq_refl))). assert (Z' := VB pz (or_intror (or_intror eq_refl))).
  unfold bb3_center, bb3_size_x, bb3_size_y, bb3_size_z. cbn [px py pz].
  rewrite (collide_grid e E _ _ _ _ A1 A4 B1 B4 X X'), (collide_grid e E _ _ _ _ A2 A5 B2 B5 Y Y'), (collide_grid e E _ _ _ _ A3 A6 B3 B6 Z Z'). reflexivity.
Qed.
Lemma valid_same3 b : gridbox3 e b -> valid3 (realbox3 b).
Proof.
  intros ((A1 & A2 & A3) & (A4 & A5 & A6) & VA). assert (X := VA px (or_introl eq_refl)). assert (Y := VA py (or_intror (or_introl eq_refl))). assert (Z := VA pz (or_intror (or_intror eq_refl))).
  apply flt_grid in X; [|assumption..]. apply flt_grid in Y; [|assumption..]. apply flt_grid in Z; [|assumption..].
  intros ax [->|[->| ->]]; assumption.
Qed.
Lemma consume_same3 a b : gridbox3 e a -> gridbox3 e b -> gridbox3 e (bb3_consume a b) /\ realbox3 (bb3_consume a b) = bb3_consume (realbox3 a) (realbox3 b).
Proof.
  intros GA GB. pose proof (valid_same3 _ GA) as RA. pose proof (valid_same3 _ GB) as RB. destruct GA as ((A1 & A2 & A3) & (A4 & A5 & A6) & VA), GB as ((B1 & B2 & B3) & (B4 & B5 & B6) & VB).
  destruct (pick_lt e _ _ B1 A1) as [P1 Q1], (pick_lt e _ _ B2 A2) as [P2 Q2], (pick_lt e _ _ B3 A3) as [P3 Q3].
  destruct (pick_gt e _ _ B4 A4) as [P4 Q4], (pick_gt e _ _ B5 A5) as [P5 Q5], (pick_gt e _ _ B6 A6) as [P6 Q6].
  assert (EQ : realbox3 (bb3_consume a b) = bb3_consume (realbox3 a) (realbox3 b)).
  { unfold bb3_consume, realbox3, real3. cbn [px py pz min3 max3]. rewrite Q1, Q2, Q3, Q4, Q5, Q6. reflexivity. }
  split; [|exact EQ]. split; [split; [exact P1|split; [exact P2|exact P3]]|]. split; [split; [exact P4|split; [exact P5|exact P6]]|].
  assert (V : valid3 (realbox3 (bb3_consume a b))).
  { rewrite EQ. assert (K : forall l h l' h' : R, l < h -> l' < h' -> (if @nltb RN l' l then l' else l) < (if @ngtb RN h' h then h' else h)).
    { intros l h l' h' L1 L2. destruct (@nltb RN l' l) eqn:N1; [apply R_ltb in N1|]; (destruct (@ngtb RN h' h) eqn:N2; [apply R_gtb in N2|]); lra. }
    intros ax [->|[->| ->]]; cbn [bb3_consume px py pz min3 max3]; apply K; first [apply RA|apply RB]; unfold axis3; auto. }
  assert (X := V px (or_introl eq_refl)). assert (Y := V py (or_intror (or_introl eq_refl))). assert (Z := V pz (or_intror (or_intror eq_refl))).
  intros ax [->|[->| ->]]; (apply flt_grid; [assumption|assumption|]); assumption.
Qed.
Context (bbox : HB -> bb3 F64).
Definition rbox3 (x : HB) : bb3 RN := realbox3 (bbox x).
Definition ok3 (x : HB) : Prop := gridbox3 e (bbox x).
Lemma fold_same3 bs : Forall (gridbox3 e) bs -> forall a, gridbox3 e a -> gridbox3 e (fold_left bb3_consume bs a) /\ realbox3 (fold_left bb3_consume bs a) = fold_left bb3_consume (map realbox3 bs) (realbox3 a).
Proof.
  induction 1 as [|b bs B _ IH]; intros a A; cbn [fold_left map]; [auto|]. destruct (consume_same3 a b A B) as [C <-]. apply IH, C.
Qed.
Lemma bbof_same3 data : data <> [] -> Forall ok3 data -> gridbox3 e (bb_of3 bbox data) /\ realbox3 (bb_of3 bbox data) = bb_of3 rbox3 data.
Proof.
  destruct data as [|d r]; [congruence|]. intros _ F. unfold bb_of3. assert (F' : Forall (gridbox3 e) (map bbox (d :: r))) by (apply Forall_map, F).
  destruct (fold_same3 _ F' (bbox d)) as [G EQ]; [inversion F; assumption|]. split; [exact G|]. rewrite EQ, map_map. reflexivity.
Qed.
Lemma side_same3 d b x : gridbox3 e b -> ok3 x -> is_left3 bbox d b x = is_left3 rbox3 d (realbox3 b) x /\ is_right3 bbox d b x = is_right3 rbox3 d (realbox3 b) x.
Proof.
  intros ((B1 & B2 & B3) & (B4 & B5 & B6) & _) ((A1 & A2 & A3) & (A4 & A5 & A6) & _). unfold is_left3, is_right3, rbox3, bb3_center. cbn [px py pz realbox3 real3 min3 max3].
  destruct (center_grid e E _ _ B1 B4) as (c1 & _ & G1 & <-), (center_grid e E _ _ B2 B5) as (c2 & _ & G2 & <-), (center_grid e E _ _ B3 B6) as (c3 & _ & G3 & <-).
  destruct (d mod 3)%N as [|[[]|[]|]]; (split; [apply nltb_same|apply ngeb_same]); first [eapply grid_fd; eassumption|eapply gr_fd; eassumption].
Qed.
Inductive same3 : aabb HB (bb3 F64) -> aabb HB (bb3 RN) -> Prop :=
| same3_empty : same3 AEmpty AEmpty
| same3_leaf data b : Forall ok3 data -> gridbox3 e b -> same3 (ALeaf data b) (ALeaf data (realbox3 b))
| same3_branch l r l' r' b : same3 l l' -> same3 r r' -> gridbox3 e b -> same3 (ABranch l r b) (ABranch l' r' (realbox3 b)).
Lemma new_same3 bucket levels : forall d data, Forall ok3 data ->
  same3 (aabb_new_rec (bb_of3 bbox) (is_left3 bbox) (is_right3 bbox) levels bucket d data) (aabb_new_rec (bb_of3 rbox3) (is_left3 rbox3) (is_right3 rbox3) levels bucket d data).
Proof.
  induction levels as [|levels IH]; intros d data F; destruct data as [|x [|y r]]; try (constructor; fail).
  1,2,3: cbn [aabb_new_rec]; match goal with |- same3 (ALeaf ?l _) _ => destruct (bbof_same3 l) as [G <-]; [discriminate|exact F|constructor; assumption] end.
  set (l := x :: y :: r) in *. assert (N : l <> []) by discriminate. destruct (bbof_same3 l N F) as [G EQ].
  assert (U : forall (b1 : list HB -> bb3 F64) i1 i2, aabb_new_rec b1 i1 i2 (Datatypes.S levels) bucket d l = if (length l <=? bucket)%nat then ALeaf l (b1 l) else
    let bb := b1 l in let dl := filter (i1 d bb) l in let dr := filter (i2 d bb) l in
    if (length dl =? length dr)%nat && (length dl =? length l)%nat then ALeaf l bb else ABranch (aabb_new_rec b1 i1 i2 levels bucket (d + 1) dl) (aabb_new_rec b1 i1 i2 levels bucket (d + 1) dr) bb) by reflexivity.
  assert (U' : forall (b1 : list HB -> bb3 RN) i1 i2, aabb_new_rec b1 i1 i2 (Datatypes.S levels) bucket d l = if (length l <=? bucket)%nat then ALeaf l (b1 l) else
    let bb := b1 l in let dl := filter (i1 d bb) l in let dr := filter (i2 d bb) l in
    if (length dl =? length dr)%nat && (length dl =? length l)%nat then ALeaf l bb else ABranch (aabb_new_rec b1 i1 i2 levels bucket (d + 1) dl) (aabb_new_rec b1 i1 i2 levels bucket (d + 1) dr) bb) by reflexivity.
  rewrite U, U'. clear U U'. cbv zeta. rewrite <- EQ.
  rewrite <- (filter_ext_Forall ok3 (is_left3 bbox d (bb_of3 bbox l)) (is_left3 rbox3 d (realbox3 (bb_of3 bbox l))) l) by (first [exact F|intros z Z; apply side_same3; assumption]).
  rewrite <- (filter_ext_Forall ok3 (is_right3 bbox d (bb_of3 bbox l)) (is_right3 rbox3 d (realbox3 (bb_of3 bbox l))) l) by (first [exact F|intros z Z; apply side_same3; assumption]).
  destruct (length l <=? bucket)%nat; [constructor; assumption|].
  destruct (_ && _); [constructor; assumption|]. constructor; [apply IH, Forall_filter', F|apply IH, Forall_filter', F|exact G].
Qed.
Lemma query_same3 (guard : bb3 F64 -> res bool) guard' test test' t t' : same3 t t' -> (forall b, gridbox3 e b -> guard b = guard' (realbox3 b)) -> (forall x, ok3 x -> test x = test' x) ->
  forall out, aabb_query guard test t out = aabb_query guard' test' t' out.
Proof.
  intros S HG HT. induction S as [|data b F B|l r l' r' b _ IHl _ IHr B]; intros out; cbn [aabb_query]; [reflexivity| |].
  - rewrite (HG b B). destruct (guard' (realbox3 b)) as [[]| |]; cbn [obind]; try reflexivity. apply (select_same ok3); assumption.
  - rewrite (HG b B). destruct (guard' (realbox3 b)) as [[]| |]; cbn [obind]; try reflexivity. rewrite IHl. destruct (aabb_query guard' test' l' out); cbn [obind]; [apply IHr|reflexivity|reflexivity].
Qed.
Lemma colliding_same3 data maxdepth bucket bb before : Forall ok3 data -> gridbox3 e bb ->
  aabb3_bb_colliding bbox bb (aabb3_new bbox data maxdepth bucket) before = aabb3_bb_colliding rbox3 (realbox3 bb) (aabb3_new rbox3 data maxdepth bucket) before.
Proof.
  intros F B. unfold aabb3_bb_colliding. apply query_same3; [apply new_same3, F|intros b G; apply collides_same3; assumption|intros x X; apply collides_same3; assumption].
Qed.
Lemma candidates_same3 data maxdepth bucket bb : Forall ok3 data -> gridbox3 e bb ->
  aabb3_collision_candidates bbox bb (aabb3_new bbox data maxdepth bucket) = aabb3_collision_candidates rbox3 (realbox3 bb) (aabb3_new rbox3 data maxdepth bucket).
Proof. intros F B. exact (colliding_same3 data maxdepth bucket bb [] F B). Qed.
End Same.
Section Same2.
Context (e : Z) (E : (-1070 <= e <= 950)%Z) {HB : Type}.

Lemma collides_same2 a b : gridbox2 e a -> gridbox2 e b -> bb2_collides_with a b = bb2_collides_with (realbox2 a) (realbox2 b).
Proof.
  intros ((A1 & A2) & (A4 & A5) & VA) ((B1 & B2) & (B4 & B5) & VB). unfold bb2_collides_with.
  assert (X := VA x2 (or_introl eq_refl)). assert (Y := VA y2 (or_intror eq_refl)).
  assert (X' := VB x2 (or_introl eq_refl)). assert (Y' := VB y2 (or_intror eq_refl)).
  unfold bb2_center, bb2_size_x, bb2_size_y. cbn [x2 y2].
  rewrite (collide_grid e E _ _ _ _ A1 A4 B1 B4 X X'), (collide_grid e E _ _ _ _ A2 A5 B2 B5 Y Y'). reflexivity.
Qed.
Lemma valid_same2 b : gridbox2 e b -> valid2 (realbox2 b).
Proof.
  intros ((A1 & A2) & (A4 & A5) & VA). assert (X := VA x2 (or_introl eq_refl)). assert (Y := VA y2 (or_intror eq_refl)).
  apply (flt_grid e) in X; [|assumption..]. apply (flt_grid e) in Y; [|assumption..].
  intros ax [->| ->]; assumption.
Qed.
Lemma consume_same2 a b : gridbox2 e a -> gridbox2 e b -> gridbox2 e (bb2_consume a b) /\ realbox2 (bb2_consume a b) = bb2_consume (realbox2 a) (realbox2 b).
Proof.
  intros GA GB. pose proof (valid_same2 _ GA) as RA. pose proof (valid_same2 _ GB) as RB. destruct GA as ((A1 & A2) & (A4 & A5) & VA), GB as ((B1 & B2) & (B4 & B5) & VB).
  destruct (pick_lt e _ _ B1 A1) as [P1 Q1], (pick_lt e _ _ B2 A2) as [P2 Q2].
  destruct (pick_gt e _ _ B4 A4) as [P4 Q4], (pick_gt e _ _ B5 A5) as [P5 Q5].
  assert (EQ : realbox2 (bb2_consume a b) = bb2_consume (realbox2 a) (realbox2 b)).
  { unfold bb2_consume, realbox2, real2. cbn [x2 y2 min2 max2]. rewrite Q1, Q2, Q4, Q5. reflexivity. }
  split; [|exact EQ]. split; [split; [exact P1|exact P2]|]. split; [split; [exact P4|exact P5]|].
  assert (V : valid2 (realbox2 (bb2_consume a b))).
  { rewrite EQ. assert (K : forall l h l' h' : R, l < h -> l' < h' -> (if @nltb RN l' l then l' else l) < (if @ngtb RN h' h then h' else h)).
    { intros l h l' h' L1 L2. destruct (@nltb RN l' l) eqn:N1; [apply R_ltb in N1|]; (destruct (@ngtb RN h' h) eqn:N2; [apply R_gtb in N2|]); lra. }
    intros ax [->| ->]; cbn [bb2_consume x2 y2 min2 max2]; apply K; first [apply RA|apply RB]; unfold axis2; auto. }
  assert (X := V x2 (or_introl eq_refl)). assert (Y := V y2 (or_intror eq_refl)).
  intros ax [->| ->]; (apply (flt_grid e); [assumption|assumption|]); assumption.
Qed.
Context (bbox : HB -> bb2 F64).
Definition rbox2 (x : HB) : bb2 RN := realbox2 (bbox x).
Definition ok2 (x : HB) : Prop := gridbox2 e (bbox x).
Lemma fold_same2 bs : Forall (gridbox2 e) bs -> forall a, gridbox2 e a -> gridbox2 e (fold_left bb2_consume bs a) /\ realbox2 (fold_left bb2_consume bs a) = fold_left bb2_consume (map realbox2 bs) (realbox2 a).
Proof.
  induction 1 as [|b bs B _ IH]; intros a A; cbn [fold_left map]; [auto|]. destruct (consume_same2 a b A B) as [C <-]. apply IH, C.
Qed.
Lemma bbof_same2 data : data <> [] -> Forall ok2 data -> gridbox2 e (bb_of2 bbox data) /\ realbox2 (bb_of2 bbox data) = bb_of2 rbox2 data.
Proof.
  destruct data as [|d r]; [congruence|]. intros _ F. unfold bb_of2. assert (F' : Forall (gridbox2 e) (map bbox (d :: r))) by (apply Forall_map, F).
  destruct (fold_same2 _ F' (bbox d)) as [G EQ]; [inversion F; assumption|]. split; [exact G|]. rewrite EQ, map_map. reflexivity.
Qed.
Lemma side_same2 d b x : gridbox2 e b -> ok2 x -> is_left2 bbox d b x = is_left2 rbox2 d (realbox2 b) x /\ is_right2 bbox d b x = is_right2 rbox2 d (realbox2 b) x.
Proof.
  intros ((B1 & B2) & (B4 & B5) & _) ((A1 & A2) & (A4 & A5) & _). unfold is_left2, is_right2, rbox2, bb2_center. cbn [x2 y2 realbox2 real2 min2 max2].
  destruct (center_grid e E _ _ B1 B4) as (c1 & _ & G1 & <-), (center_grid e E _ _ B2 B5) as (c2 & _ & G2 & <-).
  destruct (negb (d mod 2 =? 0)%N); (split; [apply nltb_same|apply ngeb_same]); first [eapply grid_fd; eassumption|eapply gr_fd; eassumption].
Qed.
Inductive same2 : aabb HB (bb2 F64) -> aabb HB (bb2 RN) -> Prop :=
| same2_empty : same2 AEmpty AEmpty
| same2_leaf data b : Forall ok2 data -> gridbox2 e b -> same2 (ALeaf data b) (ALeaf data (realbox2 b))
| same2_branch l r l' r' b : same2 l l' -> same2 r r' -> gridbox2 e b -> same2 (ABranch l r b) (ABranch l' r' (realbox2 b)).
Lemma new_same2 bucket levels : forall d data, Forall ok2 data ->
  same2 (aabb_new_rec (bb_of2 bbox) (is_left2 bbox) (is_right2 bbox) levels bucket d data) (aabb_new_rec (bb_of2 rbox2) (is_left2 rbox2) (is_right2 rbox2) levels bucket d data).
Proof.
  induction levels as [|levels IH]; intros d data F; destruct data as [|x [|y r]]; try (constructor; fail).
  1,2,3: cbn [aabb_new_rec]; match goal with |- same2 (ALeaf ?l _) _ => destruct (bbof_same2 l) as [G <-]; [discriminate|exact F|constructor; assumption] end.
  set (l := x :: y :: r) in *. assert (N : l <> []) by discriminate. destruct (bbof_same2 l N F) as [G EQ].
  assert (U : forall (b1 : list HB -> bb2 F64) i1 i2, aabb_new_rec b1 i1 i2 (Datatypes.S levels) bucket d l = if (length l <=? bucket)%nat then ALeaf l (b1 l) else
    let bb := b1 l in let dl := filter (i1 d bb) l in let dr := filter (i2 d bb) l in
    if (length dl =? length dr)%nat && (length dl =? length l)%nat then ALeaf l bb else ABranch (aabb_new_rec b1 i1 i2 levels bucket (d + 1) dl) (aabb_new_rec b1 i1 i2 levels bucket (d + 1) dr) bb) by reflexivity.
  assert (U' : forall (b1 : list HB -> bb2 RN) i1 i2, aabb_new_rec b1 i1 i2 (Datatypes.S levels) bucket d l = if (length l <=? bucket)%nat then ALeaf l (b1 l) else
    let bb := b1 l in let dl := filter (i1 d bb) l in let dr := filter (i2 d bb) l in
    if (length dl =? length dr)%nat && (length dl =? length l)%nat then ALeaf l bb else ABranch (aabb_new_rec b1 i1 i2 levels bucket (d + 1) dl) (aabb_new_rec b1 i1 i2 levels bucket (d + 1) dr) bb) by reflexivity.
  rewrite U, U'. clear U U'. cbv zeta. rewrite <- EQ.
  rewrite <- (filter_ext_Forall ok2 (is_left2 bbox d (bb_of2 bbox l)) (is_left2 rbox2 d (realbox2 (bb_of2 bbox l))) l) by (first [exact F|intros z Z; apply side_same2; assumption]).
  rewrite <- (filter_ext_Forall ok2 (is_right2 bbox d (bb_of2 bbox l)) (is_right2 rbox2 d (realbox2 (bb_of2 bbox l))) l) by (first [exact F|intros z Z; apply side_same2; assumption]).
  destruct (length l <=? bucket)%nat; [constructor; assumption|].
  destruct (_ && _); [constructor; assumption|]. constructor; [apply IH, Forall_filter', F|apply IH, Forall_filter', F|exact G].
Qed.
Lemma query_same2 (guard : bb2 F64 -> res bool) guard' test test' t t' : same2 t t' -> (forall b, gridbox2 e b -> guard b = guard' (realbox2 b)) -> (forall x, ok2 x -> test x = test' x) ->
  forall out, aabb_query guard test t out = aabb_query guard' test' t' out.
Proof.
  intros S HG HT. induction S as [|data b F B|l r l' r' b _ IHl _ IHr B]; intros out; cbn [aabb_query]; [reflexivity| |].
  - rewrite (HG b B). destruct (guard' (realbox2 b)) as [[]| |]; cbn [obind]; try reflexivity. apply (select_same ok2); assumption.
  - rewrite (HG b B). destruct (guard' (realbox2 b)) as [[]| |]; cbn [obind]; try reflexivity. rewrite IHl. destruct (aabb_query guard' test' l' out); cbn [obind]; [apply IHr|reflexivity|reflexivity].
Qed.
Lemma colliding_same2 data maxdepth bucket bb before : Forall ok2 data -> gridbox2 e bb ->
  aabb2_bb_colliding bbox bb (aabb2_new bbox data maxdepth bucket) before = aabb2_bb_colliding rbox2 (realbox2 bb) (aabb2_new rbox2 data maxdepth bucket) before.
Proof.
  intros F B. unfold aabb2_bb_colliding. apply query_same2; [apply new_same2, F|intros b G; apply collides_same2; assumption|intros x X; apply collides_same2; assumption].
Qed.
Lemma candidates_same2 data maxdepth bucket bb : Forall ok2 data -> gridbox2 e bb ->
  aabb2_collision_candidates bbox bb (aabb2_new bbox data maxdepth bucket) = aabb2_collision_candidates rbox2 (realbox2 bb) (aabb2_new rbox2 data maxdepth bucket).
Proof. intros F B. exact (colliding_same2 data maxdepth bucket bb [] F B). Qed.
End Same2.
