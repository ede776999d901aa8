(** C183: collisions of boxes and triangles, in doubles. *)
From Verif Require Import Base Num NumLemmas BBoxModel GeomSpec VecSpec VecModel VecLemmas FloatSpec FloatLemmas FloatBridge RootLemmas DistSpec DistLemmas DistLemmas2 DistLemmas3 ShapeModel ShapeSpec ShapeLemmas BoxDistSpec BoxDistLemmas ClusterLemmas2 SatF64Spec SatF64Lemmas.
From Coq Require Import Floats.SpecFloat Reals Lra Lia.
From Flocq Require Import Core.
Local Open Scope R_scope.

(** Shapes that overlap by more than a few rounding errors are never reported as apart. *)
Theorem C183_deep : forall M a b,
  powerRZ 2 (-900) <= M <= powerRZ 2 200 -> small_shape M a -> small_shape M b -> ~ (is_aabb a /\ is_aabb b) ->
  deep (M * powerRZ 2 (-46)) a b -> collider_collides a b = Ok true.
Proof.
  intros M a b MM SA SB NB D. rewrite !bp_powerRZ in MM. rewrite bp_powerRZ in D.
  destruct (shape_good M a MM SA) as (oa & EA & GA & _ & HA), (shape_good M b MM SB) as (ob & EB & GB & _ & HB).
  rewrite (collides_sat a b oa ob NB) by (first [exact EA|exact EB|intros u ->; exact SA|intros u ->; exact SB]).
  rewrite (deep_core M oa ob (proj1 MM) GA GB); [reflexivity|]. intros w W. destruct (D w W) as (p & q & P & Q & E). exists p, q. split; [apply HA, P|]. split; [apply HB, Q|exact E].
Qed.
Print Assumptions C183_deep.

(** Shapes with a common corner are never reported as apart. *)
Theorem C183_vertex : forall M a b v,
  powerRZ 2 (-900) <= M <= powerRZ 2 200 -> small_shape M a -> small_shape M b -> ~ (is_aabb a /\ is_aabb b) ->
  In v (vertices a) -> In v (vertices b) -> collider_collides a b = Ok true.
Proof.
  intros M a b v MM SA SB NB IA IB. rewrite !bp_powerRZ in MM.
  destruct (shape_good M a MM SA) as (oa & EA & GA & PA & _), (shape_good M b MM SB) as (ob & EB & GB & PB & _).
  rewrite (collides_sat a b oa ob NB) by (first [exact EA|exact EB|intros u ->; exact SA|intros u ->; exact SB]).
  rewrite (vertex_core M oa ob v (proj1 MM) GA GB); [reflexivity|rewrite PA; exact IA|rewrite PB; exact IB].
Qed.
Print Assumptions C183_vertex.

(** The unit cube and a triangle that passes through one of its corners. *)
Definition touch_box : collider F64 := CAABB (mkbb3 (fp3 0 0 0) (fp3 1 1 1)).
Definition touch_tri : collider F64 := CFace (mktri (fp3 2 0 (-1)) (fp3 2 (-2) 2) (fp3 (-1) 5 2)).
Lemma fvz : fval (fz 0) = 0 /\ fval (fz 1) = 1 /\ fval (fz 2) = 2 /\ fval (fz (-1)) = -1 /\ fval (fz (-2)) = -2 /\ fval (fz 5) = 5 /\ fval (fz 3) = 3 /\ fval (fz (-3)) = -3.
Proof. repeat split; apply (lit_int); reflexivity. Qed.
Ltac fvr := rewrite ?(proj1 fvz), ?(proj1 (proj2 fvz)), ?(proj1 (proj2 (proj2 fvz))), ?(proj1 (proj2 (proj2 (proj2 fvz)))), ?(proj1 (proj2 (proj2 (proj2 (proj2 fvz))))), ?(proj1 (proj2 (proj2 (proj2 (proj2 (proj2 fvz)))))), ?(proj1 (proj2 (proj2 (proj2 (proj2 (proj2 (proj2 fvz))))))), ?(proj2 (proj2 (proj2 (proj2 (proj2 (proj2 (proj2 fvz))))))).
(** Without the margin the claim fails: shapes of small whole numbers with a common point are reported as apart. *)
Theorem C183_touch_refuted : exists a b p, small_shape 5 a /\ small_shape 5 b /\ space a p /\ space b p /\ collider_collides a b = Ok false.
Proof.
  exists touch_box, touch_tri, (rp3 1 1 1). split; [|split; [|split; [|split]]].
  - split; [split; [|split]|split; split]; first [intros ax [->|[->| ->]]; split; vm_compute; first [reflexivity|exact I]|intros ax [->|[->| ->]]; cbn [px py pz fp3 min3 max3]; fvr; apply Rabs_le; lra|intros ax [->|[->| ->]]; vm_compute; reflexivity].
  - split; [|split]; split; first [intros ax [->|[->| ->]]; split; vm_compute; first [reflexivity|exact I]|intros ax [->|[->| ->]]; cbn [px py pz fp3 tri_a tri_b tri_c]; fvr; apply Rabs_le; lra].
  - intros ax [->|[->| ->]]; cbn [px py pz fp3 rp3 realbox3 real3 min3 max3]; fvr; lra.
  - exists (/ 3), (/ 3), (/ 3). split; [lra|]. split; [lra|]. split; [lra|]. split; [lra|]. intros ax [->|[->| ->]]; cbn [px py pz fp3 rp3 real3 tri_a tri_b tri_c]; fvr; lra.
  - vmeq.
Qed.
Print Assumptions C183_touch_refuted.

(** A triangle through the middle of a cube, and two triangles with a common corner. *)
Definition mid_box : collider F64 := CAABB (mkbb3 (fp3 (-1) (-1) (-1)) (fp3 1 1 1)).
Definition mid_tri : collider F64 := CFace (mktri (fp3 3 0 1) (fp3 (-3) 1 0) (fp3 0 (-1) (-1))).
Example C183_case : small_shape 3 mid_box /\ small_shape 3 mid_tri /\ deep (3 * powerRZ 2 (-46)) mid_box mid_tri /\ collider_collides mid_box mid_tri = Ok true /\
  collider_collides touch_tri (CFace (mktri (fp3 2 0 (-1)) (fp3 3 3 3) (fp3 5 0 0))) = Ok true.
Proof.
  split; [|split; [|split; [|split; vmeq]]].
  - split; [split; [|split]|split; split]; first [intros ax [->|[->| ->]]; split; vm_compute; first [reflexivity|exact I]|intros ax [->|[->| ->]]; cbn [px py pz fp3 min3 max3]; fvr; apply Rabs_le; lra|intros ax [->|[->| ->]]; vm_compute; reflexivity].
  - split; [|split]; split; first [intros ax [->|[->| ->]]; split; vm_compute; first [reflexivity|exact I]|intros ax [->|[->| ->]]; cbn [px py pz fp3 tri_a tri_b tri_c]; fvr; apply Rabs_le; lra].
  - intros w W. exists (rp3 (- px w) (- py w) (- pz w)), (rp3 0 0 0). split; [|split].
    + assert (P : 3 * powerRZ 2 (-46) <= 1). { rewrite bp_powerRZ. assert (bp (-46) <= bp (-2)) by (apply bpow_le; lia). change (bp (-2)) with (/ 4) in *. lra. }
      assert (P0 : 0 < powerRZ 2 (-46)) by (rewrite bp_powerRZ; apply bp_pos). set (r := 3 * powerRZ 2 (-46)) in *. assert (R0 : 0 <= r) by (unfold r; lra).
      assert (W1 : rsq3 w <= 1) by nra. unfold rsq3, rdot3 in W1. set (x := px w : R) in *. set (y := py w : R) in *. set (z := pz w : R) in *.
      pose proof (Rle_0_sqr x). pose proof (Rle_0_sqr y). pose proof (Rle_0_sqr z). unfold Rsqr in *.
      intros ax [->|[->| ->]]; cbn [px py pz fp3 rp3 realbox3 real3 min3 max3]; fvr; fold x; fold y; fold z; split; nra.
    + exists (/ 3), (/ 3), (/ 3). split; [lra|]. split; [lra|]. split; [lra|]. split; [lra|]. intros ax [->|[->| ->]]; cbn [px py pz fp3 rp3 real3 tri_a tri_b tri_c]; fvr; lra.
    + intros ax [->|[->| ->]]; cbn [px py pz rp3]; toR; ring.
Qed.
