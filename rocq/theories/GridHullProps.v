(** The convex hull of points on a grid, in doubles (C181). *)
From Verif Require Import Base BaseLemmas Num NumLemmas SortSpec SortLemmas BBoxModel GeomSpec FloatSpec FloatBridge RootLemmas DistSpec DistLemmas DistLemmas3 CloudModel CloudLemmas ClusterLemmas2 HullModel HullSpec HullLemmas BoxDistLemmas GridSpec GridLemmas GridHullLemmas.
From Coq Require Import Floats.SpecFloat Reals Lra Lia Psatz.
Local Open Scope R_scope.

Theorem C181_exact : forall sort, sort_ok sort -> forall e ps, (-500 <= e <= 480)%Z -> Forall (grid2 e 25) ps ->
  map real2 (convex_hull sort ps) = convex_hull sort (map real2 ps).
Proof. intros sort SO e ps E F. apply (hull_grid sort e); assumption. Qed.
Print Assumptions C181_exact.
Theorem C181_hull : forall sort, sort_ok sort -> forall e ps, (-500 <= e <= 480)%Z -> Forall (grid2 e 25) ps ->
  NoDup (map (fun p => fval (x2 p)) ps) -> (2 <= length ps)%nat ->
  let h := convex_hull sort ps in
  (forall q, In q h -> In q ps) /\ NoDup h /\ (2 <= length h)%nat /\
  (exists m M, In m h /\ In M h /\ forall q, In q ps -> fval (x2 m) <= fval (x2 q) <= fval (x2 M)) /\
  (forall a b, adjacent (h ++ firstn 1 h) a b -> forall q, In q ps -> 0 <= turn (real2 a) (real2 b) (real2 q)) /\
  ((3 <= length h)%nat -> forall a b c, adjacent3 (h ++ firstn 2 h) a b c -> 0 < turn (real2 a) (real2 b) (real2 c)).
Proof.
  intros sort SO e ps E F ND LEN h. pose proof (hull_grid sort e ps SO E F) as EQ. fold h in EQ.
  assert (ND' : NoDup (map x2 (map real2 ps))) by (rewrite map_map; exact ND).
  assert (LEN' : (2 <= length (map real2 ps))%nat) by (rewrite map_length; exact LEN).
  pose proof (hull_main sort _ SO ND' LEN') as M. cbv zeta in M. rewrite <- EQ in M. destruct M as (_ & M2 & M3 & (m & M & IM & IX & B) & M5 & M6).
  rewrite map_length in M3, M6. rewrite !firstn_map in M5, M6. rewrite <- !map_app in M5, M6.
  apply in_map_iff in IM, IX. destruct IM as (m' & <- & IM), IX as (M' & <- & IX).
  split; [intros q; apply hull_in, SO|split; [exact (NoDup_map_inv _ _ M2)|split; [exact M3|split; [|split]]]].
  - exists m', M'. split; [exact IM|split; [exact IX|]]. intros q Q. apply (B (real2 q)), in_map, Q.
  - intros a b A q Q. apply M5; [apply adjacent_map, A|apply in_map, Q].
  - intros L a b c A. apply M6; [exact L|apply adjacent3_map, A].
Qed.
Print Assumptions C181_hull.

(** A double given by sign, mantissa and exponent. *)
Definition sf (s : bool) (m : positive) (e : Z) : T F64 := S754_finite s m e.
Theorem C181_tiny_refuted : exists a b c : pt2 F64,
  finite2 a /\ finite2 b /\ finite2 c /\ fval (x2 a) < fval (x2 b) < fval (x2 c) /\ 0 < turn (real2 a) (real2 b) (real2 c) /\
  forall sort, sort_ok sort -> convex_hull sort [a; b; c] = [a; c].
Proof.
  exists (mk2 (fz 0) (fz 0)), (mk2 (sf false 4503599627370496 (-652)) (sf true 4503599627370496 (-652))), (mk2 (sf false 4503599627370496 (-651)) (fz 0)).
  assert (B : 0 < bp (-652)) by apply bp_pos.
  assert (B2 : bp (-651) = 2 * bp (-652)) by (change (-651)%Z with (1 + -652)%Z; rewrite Flocq.Core.Raux.bpow_plus; reflexivity).
  assert (V1 : fval (sf false 4503599627370496 (-652)) = 4503599627370496 * bp (-652)) by (unfold sf; cbn [fval]; rewrite bp_powerRZ; lra).
  assert (V2 : fval (sf true 4503599627370496 (-652)) = - (4503599627370496 * bp (-652))) by (unfold sf; cbn [fval]; rewrite bp_powerRZ; lra).
  assert (V3 : fval (sf false 4503599627370496 (-651)) = 4503599627370496 * (2 * bp (-652))) by (unfold sf; cbn [fval]; rewrite <- B2, bp_powerRZ; lra).
  assert (V0 : fval (fz 0) = 0) by reflexivity.
  split; [intros ax [->| ->]; split; vm_compute; first [reflexivity|exact I]|]. split; [intros ax [->| ->]; split; vm_compute; first [reflexivity|exact I]|].
  split; [intros ax [->| ->]; split; vm_compute; first [reflexivity|exact I]|].
  split; [cbn [x2]; rewrite V0, V1, V3; lra|]. split; [unfold turn, real2; cbn [x2 y2]; rewrite V0, V1, V2, V3; nra|].
  intros sort SO. unfold convex_hull. rewrite (sort_unique sort _ _ _ SO); [vmeq|]. apply fin_cmp_ok. repeat constructor; vm_compute; first [reflexivity|exact I].
Qed.
Print Assumptions C181_tiny_refuted.
Lemma grid_int z : (Z.abs z <= 2 ^ 25)%Z -> is_double (fz z) -> finite (fz z) -> fval (fz z) = IZR z -> on_grid 0 25 (fz z).
Proof. intros Z D F V. split; [exact D|split; [exact F|]]. exists z. split; [exact Z|]. rewrite V. cbn [powerRZ]. ring. Qed.
Example C181_case :
  let ps := [fp2 0 0; fp2 4 1; fp2 2 5; fp2 1 1] in
  Forall (grid2 0 25) ps /\ NoDup (map (fun p => fval (x2 p)) ps) /\ convex_hull isort ps = [fp2 0 0; fp2 4 1; fp2 2 5].
Proof.
  cbv zeta. assert (V : forall z, In z [0; 1; 2; 4; 5]%Z -> on_grid 0 25 (fz z) /\ fval (fz z) = IZR z).
  { intros z Z. assert (L : (Z.abs z < 2 ^ 53)%Z) by (repeat (destruct Z as [<-|Z]; [reflexivity|]); destruct Z).
    destruct (lit_int z L) as [F V]. split; [|exact V]. apply grid_int; try assumption; [|repeat (destruct Z as [<-|Z]; [vm_compute; first [reflexivity|exact I]|]); destruct Z]. repeat (destruct Z as [<-|Z]; [vm_compute; discriminate|]); destruct Z. }
  split; [|split; [|vmeq]].
  - repeat constructor; apply V; cbn; auto 6.
  - cbn [map x2 fp2]. rewrite (proj2 (V 0%Z ltac:(cbn; auto 6))), (proj2 (V 4%Z ltac:(cbn; auto 6))), (proj2 (V 2%Z ltac:(cbn; auto 6))), (proj2 (V 1%Z ltac:(cbn; auto 6))).
    repeat constructor; cbn [In]; intros H; repeat (destruct H as [H|H]; [lra|]); exact H.
Qed.
