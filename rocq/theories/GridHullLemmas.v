(** The convex hull of points on a grid, in doubles (C181). *)
From Verif Require Import Base BaseLemmas Num NumLemmas SortSpec SortLemmas BBoxModel GeomSpec FloatSpec FloatBridge RootLemmas DistSpec DistLemmas3 CloudModel CloudLemmas HullModel HullSpec HullLemmas BoxDistLemmas GridSpec GridLemmas.
From Coq Require Import Floats.SpecFloat Reals Lra Lia Psatz.
Local Open Scope R_scope.

Lemma isort_map {A B} (f : A -> B) ca cb l : (forall a b, In a l -> In b l -> cb (f a) (f b) = ca a b) -> isort B cb (map f l) = map f (isort A ca l).
Proof.
  induction l as [|x l IH]; intros H; [reflexivity|]. cbn [map isort fold_right]. change (fold_right (insert_by ?c) [] ?m) with (isort _ c m).
  rewrite IH by (intros; apply H; right; assumption). change (fold_right (insert_by ca) [] l) with (isort A ca l).
  assert (I : forall y, In y (isort A ca l) -> In y l) by (intros y; apply Permutation_in, Permutation_sym, isort_perm).
  revert I. generalize (isort A ca l). intros m. induction m as [|y m IM]; intros I; [reflexivity|]. cbn [map insert_by].
  rewrite H by (first [left; reflexivity|right; apply I; left; reflexivity]). destruct (ca x y); cbn [map]; try reflexivity. rewrite IM by (intros z Z; apply I; right; exact Z). reflexivity.
Qed.
Section Hull.
Variable e : Z.
Hypothesis E : (-500 <= e <= 480)%Z.
Lemma ccw_grid a b c : grid2 e 25 a -> grid2 e 25 b -> grid2 e 25 c -> fd (ccw a b c) /\ fval (ccw a b c) = turn (real2 a) (real2 b) (real2 c).
Proof.
  intros [AX AY] [BX BY] [CX CY]. apply grid_gr in AX, AY, BX, BY, CX, CY.
  destruct AX as (ax & A1 & A2), AY as (ay & A3 & A4), BX as (bx & B1 & B2), BY as (b_y & B3 & B4), CX as (cx & C1 & C2), CY as (cy & C3 & C4).
  assert (P : (2 ^ 25 = 33554432)%Z) by reflexivity. assert (P53 : (2 ^ 53 = 9007199254740992)%Z) by reflexivity. rewrite P in *.
  pose proof (gr_sub e _ _ _ _ B2 A2 ltac:(lia) ltac:(lia)) as D1. pose proof (gr_sub e _ _ _ _ C4 A4 ltac:(lia) ltac:(lia)) as D2.
  pose proof (gr_sub e _ _ _ _ B4 A4 ltac:(lia) ltac:(lia)) as D3. pose proof (gr_sub e _ _ _ _ C2 A2 ltac:(lia) ltac:(lia)) as D4.
  assert (M1 : (Z.abs ((bx - ax) * (cy - ay)) <= 2 ^ 52)%Z) by (rewrite Z.abs_mul; change (2 ^ 52)%Z with (67108864 * 67108864)%Z; apply Z.mul_le_mono_nonneg; lia).
  assert (M2 : (Z.abs ((b_y - ay) * (cx - ax)) <= 2 ^ 52)%Z) by (rewrite Z.abs_mul; change (2 ^ 52)%Z with (67108864 * 67108864)%Z; apply Z.mul_le_mono_nonneg; lia).
  assert (P52 : (2 ^ 52 = 4503599627370496)%Z) by reflexivity.
  pose proof (gr_mul e e _ _ _ _ D1 D2 ltac:(lia) ltac:(lia)) as Q1. pose proof (gr_mul e e _ _ _ _ D3 D4 ltac:(lia) ltac:(lia)) as Q2.
  pose proof (gr_sub (e + e) _ _ _ _ Q1 Q2 ltac:(lia) ltac:(lia)) as Q. split; [exact (gr_fd _ _ _ Q)|].
  unfold ccw. rewrite (gr_val _ _ _ Q). unfold turn, real2. cbn [x2 y2].
  rewrite (gr_val _ _ _ A2), (gr_val _ _ _ A4), (gr_val _ _ _ B2), (gr_val _ _ _ B4), (gr_val _ _ _ C2), (gr_val _ _ _ C4), Flocq.Core.Raux.bpow_plus, minus_IZR, !mult_IZR, !minus_IZR. ring.
Qed.
Lemma pop_grid p st : grid2 e 25 p -> Forall (grid2 e 25) st -> map real2 (pop_right_turns p st) = pop_right_turns (real2 p) (map real2 st).
Proof.
  intros P. induction st as [|b st IH]; intros F; [reflexivity|]. destruct st as [|a r]; [reflexivity|]. pose proof (Forall_inv F) as FB. pose proof (Forall_inv_tail F) as FT. pose proof (Forall_inv FT) as FA.
  cbn [map] in *. cbn [pop_right_turns]. destruct (ccw_grid a b p FA FB P) as [FD V].
  rewrite nleb_same by (first [exact FD|split; [reflexivity|exact I]]). rewrite V, fval_0. change (ccw (real2 a) (real2 b) (real2 p)) with (turn (real2 a) (real2 b) (real2 p)).
  destruct (@nleb RN (turn (real2 a) (real2 b) (real2 p)) n0); [exact (IH FT)|reflexivity].
Qed.
End Hull.
Lemma pop_incl {NM} (p : pt2 NM) st q : In q (pop_right_turns p st) -> In q st.
Proof.
  induction st as [|b st IH]; [tauto|]. destruct st as [|a r]; [tauto|]. intros H. cbn [pop_right_turns] in H. destruct (nleb (ccw a b p) n0); [right; apply IH, H|exact H].
Qed.
Lemma fold_incl {NM} (ps : list (pt2 NM)) : forall st q, In q (fold_left (fun st p => p :: pop_right_turns p st) ps st) -> In q ps \/ In q st.
Proof.
  induction ps as [|p ps IH]; intros st q H; [auto|]. cbn [fold_left] in H. destruct (IH _ _ H) as [I|[<-|I]]; [left; right; exact I|left; left; reflexivity|right; apply (pop_incl p), I].
Qed.
Lemma half_incl_any {NM} (ps : list (pt2 NM)) q : In q (half_hull ps) -> In q ps.
Proof. unfold half_hull. rewrite <- in_rev. intros H. destruct (fold_incl _ _ _ H) as [I|[]]. exact I. Qed.
Lemma removelast_in {A} (l : list A) q : In q (removelast l) -> In q l.
Proof. induction l as [|x [|y l] IH]; cbn; [tauto|tauto|]. intros [<-|H]; [auto|right; apply IH, H]. Qed.
Lemma removelast_map {A B} (f : A -> B) l : removelast (map f l) = map f (removelast l).
Proof. induction l as [|x [|y l] IH]; [reflexivity|reflexivity|]. cbn [map removelast] in *. rewrite IH. reflexivity. Qed.
Lemma fold_grid e ps : (-500 <= e <= 480)%Z -> Forall (grid2 e 25) ps -> forall st, Forall (grid2 e 25) st ->
  map real2 (fold_left (fun st p => p :: pop_right_turns p st) ps st) = fold_left (fun st p => p :: pop_right_turns p st) (map real2 ps) (map real2 st).
Proof.
  intros E F. induction F as [|p ps P F IH]; intros st S; [reflexivity|]. cbn [map fold_left]. rewrite IH.
  - cbn [map]. rewrite (pop_grid e E p st P S). reflexivity.
  - constructor; [exact P|]. rewrite Forall_forall in S |- *. intros q Q. apply S, (pop_incl p), Q.
Qed.
Lemma half_grid e ps : (-500 <= e <= 480)%Z -> Forall (grid2 e 25) ps -> map real2 (half_hull ps) = half_hull (map real2 ps).
Proof. intros E F. unfold half_hull. rewrite map_rev, (fold_grid e ps E F) by constructor. reflexivity. Qed.
Lemma cmp_grid e k a b : grid2 e k a -> grid2 e k b -> cmp2_x (real2 a) (real2 b) = cmp2_x a b.
Proof. intros [AX AY] [BX BY]. unfold cmp2_x. rewrite !ncmp_same by (eapply grid_fd; eassumption). reflexivity. Qed.
Lemma cmp_ok_map {A B} (f : A -> B) ca cb l : (forall a b, In a l -> In b l -> cb (f a) (f b) = ca a b) -> cmp_ok cb (map f l) -> cmp_ok ca l.
Proof.
  intros H [S T]. split.
  - intros a b IA IB. rewrite <- !H by assumption. apply S; apply in_map; assumption.
  - intros a b c IA IB IC. rewrite <- !H by assumption. apply T; apply in_map; assumption.
Qed.
Lemma RN_cmp_ok (ps : list (pt2 RN)) : cmp_ok cmp2_x ps.
Proof.
  assert (K : cmp_ok (fun a b : pt2 RN => cmp_or_eq (ncmp (x2 a) (x2 b))) ps) by (apply (cmp_preorder RN_laws x2), Forall_forall; auto).
  destruct K as [K1 K2]. split.
  - intros a b Ia Ib. rewrite !cmp2_x_R. apply K1; assumption.
  - intros a b c Ia Ib Ic. rewrite !cmp2_x_R. apply K2; assumption.
Qed.
Lemma sort_grid sort e ps : sort_ok sort -> Forall (grid2 e 25) ps -> map real2 (sort _ cmp2_x ps) = sort _ cmp2_x (map real2 ps).
Proof.
  intros SO F. rewrite Forall_forall in F. assert (C : forall a b, In a ps -> In b ps -> cmp2_x (real2 a) (real2 b) = cmp2_x a b) by (intros a b A B; apply (cmp_grid e 25); apply F; assumption).
  assert (OK : cmp_ok cmp2_x ps) by (apply (cmp_ok_map real2 cmp2_x cmp2_x); [exact C|apply RN_cmp_ok]).
  rewrite (sort_unique sort _ _ ps SO OK), (sort_unique sort _ _ (map real2 ps) SO (RN_cmp_ok _)). symmetry. apply isort_map, C.
Qed.
Lemma hull_grid sort e ps : sort_ok sort -> (-500 <= e <= 480)%Z -> Forall (grid2 e 25) ps -> map real2 (convex_hull sort ps) = convex_hull sort (map real2 ps).
Proof.
  intros SO E F. unfold convex_hull. rewrite map_app, <- !removelast_map, <- (sort_grid sort e ps SO F).
  assert (G : Forall (grid2 e 25) (sort _ cmp2_x ps)) by (eapply Permutation_Forall; [exact (sort_perm _ SO _ cmp2_x ps)|exact F]).
  rewrite <- map_rev. rewrite (half_grid e _ E G), (half_grid e _ E); [reflexivity|]. apply Forall_rev, G.
Qed.
Lemma hull_in {NM} sort (ps : list (pt2 NM)) q : sort_ok sort -> In q (convex_hull sort ps) -> In q ps.
Proof.
  intros SO H. unfold convex_hull in H. apply in_app_or in H. apply (Permutation_in q (Permutation_sym (sort_perm _ SO _ cmp2_x ps))).
  destruct H as [H|H]; apply removelast_in, half_incl_any in H; [exact H|apply in_rev, H].
Qed.
Lemma adjacent_map {A B} (f : A -> B) l a b : adjacent l a b -> adjacent (map f l) (f a) (f b).
Proof. intros (u & v & ->). exists (map f u), (map f v). rewrite map_app. reflexivity. Qed.
Lemma adjacent3_map {A B} (f : A -> B) l a b c : adjacent3 l a b c -> adjacent3 (map f l) (f a) (f b) (f c).
Proof. intros (u & v & ->). exists (map f u), (map f v). rewrite map_app. reflexivity. Qed.
Lemma fin_cmp_ok (ps : list (pt2 F64)) : Forall (fun p => fd (x2 p) /\ fd (y2 p)) ps -> cmp_ok cmp2_x ps.
Proof.
  intros F. rewrite Forall_forall in F. apply (cmp_ok_map real2 cmp2_x cmp2_x); [|apply RN_cmp_ok]. intros a b A B. destruct (F a A) as [A1 A2], (F b B) as [B1 B2].
  unfold cmp2_x. rewrite !ncmp_same by assumption. reflexivity.
Qed.
