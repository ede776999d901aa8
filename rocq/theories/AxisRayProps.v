(** Theorems about rays along an axis against boxes in doubles and trees of them (C193). *)
From Verif Require Import Base Num NumLemmas BBoxModel GeomSpec FloatSpec FloatLemmas FloatBridge DistSpec DistLemmas DistLemmas3 VecModel NdModel LineModel AabbModel AabbSpec BoxDistSpec BoxDistLemmas ClusterLemmas2 ClearSpec ClearLemmas AxisRaySpec AxisRayLemmas RayGridProps.
From Coq Require Import Floats.SpecFloat Reals Lra Lia.
From Flocq Require Import Core.
Local Open Scope R_scope.

(** A ray along an axis, not in the plane of a face it moves along, hits in doubles exactly the boxes it hits. What is returned is where
    the line enters the box, up to rounding along the axis and exactly across it. *)
Theorem C193_box : forall ax o d b, axis3 ax -> along ax d -> upto3 1000 o -> box_upto3 1000 b -> off_faces ax o b ->
  match intersection (mkline3 o d) b with
  | Some p => ray_hits (real3 o) (real3 d) (realbox3 b) /\ finite3 p /\ (forall bx, axis3 bx -> bx <> ax -> fval (bx p) = fval (bx o)) /\
      exists x, entry ax d b x /\ Rabs (fval (ax p) - x) <= powerRZ 2 (-51) * (Rabs x + Rabs (fval (ax o)))
  | None => ~ ray_hits (real3 o) (real3 d) (realbox3 b)
  end.
Proof.
  intros ax o d b A D O B F. pose proof (hit_iff ax A 1000 ltac:(lia) o d b O D B F) as H. pose proof (hit_at ax A 1000 ltac:(lia) o d b O D B F) as P.
  destruct (intersection (mkline3 o d) b) as [p|] eqn:E.
  - split; [apply H; eauto|]. rewrite bp_powerRZ. apply P; [reflexivity|lia].
  - intros R. apply H in R. destruct R; discriminate.
Qed.
Print Assumptions C193_box.
(** The candidates of a tree are exactly the boxes hit, however deep it is and however large its buckets are. *)
Theorem C193_tree : forall (HB : Type) (bbox : HB -> bb3 F64) data maxdepth bucket ax o d, axis3 ax -> along ax d -> upto3 1000 o ->
  Forall (fun x => box_upto3 1000 (bbox x) /\ off_faces ax o (bbox x)) data ->
  exists found, aabb3_intersection_candidates bbox (mkline3 o d) (aabb3_new bbox data maxdepth bucket) = Ok found /\
  forall x, In x found <-> In x data /\ ray_hits (real3 o) (real3 d) (realbox3 (bbox x)).
Proof.
  intros HB bbox data maxdepth bucket ax o d A D O F. apply (tree_rays ax 1000); try assumption; [lia| |]; eapply Forall_impl; try exact F; cbv beta; tauto.
Qed.
Print Assumptions C193_tree.

Ltac axd := split; [intros ? [->|[->| ->]]; split; vm_compute; first [reflexivity|exact I]|]; split; [cbn [fp3 px py pz]; rewrite val_lit by discriminate; unfold Rabs; destruct (Rcase_abs _); lra|];
  intros ? [->|[->| ->]] NE; cbn [fp3 px py pz]; rewrite ?val_lit by discriminate; first [reflexivity|exfalso; apply NE; reflexivity].
(** The directions the library offers are such. *)
Theorem C193_directions : exists x y z x' y' z' : pt3 F64, norm3_x = Ok x /\ norm3_y = Ok y /\ norm3_z = Ok z /\ norm3_x_neg = Ok x' /\ norm3_y_neg = Ok y' /\ norm3_z_neg = Ok z' /\
  along px x /\ along py y /\ along pz z /\ along px x' /\ along py y' /\ along pz z' /\ fval (px x) = 1 /\ fval (px x') = -1 /\ fval (py y) = 1 /\ fval (py y') = -1 /\ fval (pz z) = 1 /\ fval (pz z') = -1.
Proof.
  exists (fp3 1 0 0), (fp3 0 1 0), (fp3 0 0 1), (fp3 (-1) 0 0), (fp3 0 (-1) 0), (fp3 0 0 (-1)). do 6 (split; [vmeq|]). do 6 (split; [axd|]).
  cbn [fp3 px py pz]. rewrite !val_lit by discriminate. repeat split; reflexivity.
Qed.
Print Assumptions C193_directions.
(** In the plane of a face the answer is wrong: a ray towards a box, in the plane of its lower y face, passes along that face, yet misses it. *)
Lemma lit_upto a b c : (Z.abs a <= 2 ^ 20)%Z -> (Z.abs b <= 2 ^ 20)%Z -> (Z.abs c <= 2 ^ 20)%Z -> upto3 1000 (fp3 a b c).
Proof.
  intros A B C. assert (H : forall z, (Z.abs z <= 2 ^ 20)%Z -> Rabs (fval (fz z)) <= powerRZ 2 1000).
  { intros z Z. rewrite (val_lit z Z), <- abs_IZR, bp_powerRZ. apply Rle_trans with (IZR (2 ^ 20)); [apply IZR_le, Z|]. change (IZR (2 ^ 20)) with (bpow radix2 20). apply bpow_le. lia. }
  split; [|intros ? [->|[->| ->]]; apply H; assumption]. intros ? [->|[->| ->]]; (split; [apply double_lit|]); cbn [fp3 px py pz].
  - apply DistLemmas.finite_f, lit_int. lia.
  - apply DistLemmas.finite_f, lit_int. lia.
  - apply DistLemmas.finite_f, lit_int. lia.
Qed.
Lemma lit_box a b c a' b' c' : (Z.abs a <= 2 ^ 20)%Z -> (Z.abs b <= 2 ^ 20)%Z -> (Z.abs c <= 2 ^ 20)%Z -> (Z.abs a' <= 2 ^ 20)%Z -> (Z.abs b' <= 2 ^ 20)%Z -> (Z.abs c' <= 2 ^ 20)%Z ->
  fvalid3 (mkbb3 (fp3 a b c) (fp3 a' b' c')) -> box_upto3 1000 (mkbb3 (fp3 a b c) (fp3 a' b' c')).
Proof.
  intros A B C A' B' C' V. destruct (lit_upto a b c A B C) as [F U], (lit_upto a' b' c' A' B' C') as [F' U']. split; [split; [exact F|split; [exact F'|exact V]]|].
  intros ax X. split; [apply U, X|apply U', X].
Qed.
Theorem C193_face_refuted : exists o d b, along px d /\ upto3 1000 o /\ box_upto3 1000 b /\ ray_hits (real3 o) (real3 d) (realbox3 b) /\ intersection (mkline3 o d) b = None.
Proof.
  exists (fp3 (-1) 0 1), (fp3 1 0 0), (mkbb3 (fp3 0 0 0) (fp3 2 2 2)). split; [axd|]. split; [apply lit_upto; discriminate|].
  split; [apply lit_box; try discriminate; intros ? [->|[->| ->]]; vmeq|]. split; [|vmeq].
  exists 1. split; [lra|]. unfold realbox3. cbn [min3 max3]. rewrite !real_lit by discriminate. intros ? [->|[->| ->]]; cbn; lra.
Qed.
Print Assumptions C193_face_refuted.

(** Against the y axis through three boxes, one of them behind; a ray starting inside is given the side it would have come in by, behind it. *)
Definition c193_boxes : list (nat * bb3 F64) := [(1%nat, mkbb3 (fp3 0 0 0) (fp3 2 2 2)); (2%nat, mkbb3 (fp3 (-3) 4 (-3)) (fp3 3 5 3)); (3%nat, mkbb3 (fp3 0 (-9) 0) (fp3 2 (-8) 2)); (4%nat, mkbb3 (fp3 2 (-9) 0) (fp3 3 9 3))].
Example C193_case : along py (fp3 0 (-1) 0) /\ upto3 1000 (fp3 1 1 1) /\ Forall (fun x => box_upto3 1000 (snd x) /\ off_faces py (fp3 1 1 1) (snd x)) c193_boxes /\
  obind (aabb3_intersection_candidates snd (mkline3 (fp3 1 1 1) (fp3 0 (-1) 0)) (aabb3_new snd c193_boxes 5 1)) (fun l => Ok (map fst l)) = Ok [3; 1]%nat /\
  intersection (mkline3 (fp3 1 1 1) (fp3 0 (-1) 0)) (mkbb3 (fp3 0 0 0) (fp3 2 2 2)) = Some (fp3 1 2 1).
Proof.
  split; [axd|]. split; [apply lit_upto; discriminate|]. split; [|split; vmeq].
  assert (H : forall a b c a' b' c', (Z.abs a <= 2 ^ 20)%Z -> (Z.abs c <= 2 ^ 20)%Z -> (Z.abs a' <= 2 ^ 20)%Z -> (Z.abs c' <= 2 ^ 20)%Z -> a <> 1%Z -> c <> 1%Z -> a' <> 1%Z -> c' <> 1%Z -> off_faces py (fp3 1 1 1) (mkbb3 (fp3 a b c) (fp3 a' b' c'))).
  { intros a b c a' b' c' A C A' C' NA NC NA' NC' ? [->|[->| ->]] NE; cbn [min3 max3 fp3 px py pz]; [|exfalso; apply NE; reflexivity|]; rewrite !val_lit by (assumption || discriminate); split; apply not_eq_sym, IZR_neq; assumption. }
  unfold c193_boxes. repeat (constructor; [split; [apply lit_box; try discriminate; intros ? [->|[->| ->]]; vmeq|apply H; discriminate]|]). constructor.
Qed.
