(** C184: boxes on a grid and trees of them, in doubles. *)
From Verif Require Import Base BaseLemmas Num NumLemmas BBoxModel GeomSpec FloatSpec FloatLemmas FloatBridge RootLemmas DistSpec DistLemmas LineModel AabbModel AabbSpec BBoxLemmas BBoxProps AabbProps ClusterLemmas2 BoxDistSpec GridSpec GridLemmas GridKdLemmas GridBoxSpec GridBoxLemmas.
From Coq Require Import Floats.SpecFloat Reals Lra Lia.
Local Open Scope R_scope.

(** Two boxes on a grid collide exactly if their interiors meet. *)
Theorem C184_collides_3d : forall e a b, (-1070 <= e <= 950)%Z -> gridbox3 e a -> gridbox3 e b ->
  exists r, bb3_collides_with a b = Ok r /\ (r = true <-> meet3 (realbox3 a) (realbox3 b)).
Proof.
  intros e a b E A B. rewrite (collides_same3 e E a b A B). exact (C14_collides_with_3d _ _ (valid_same3 e a A) (valid_same3 e b B)).
Qed.
Print Assumptions C184_collides_3d.
Theorem C184_collides_2d : forall e a b, (-1070 <= e <= 950)%Z -> gridbox2 e a -> gridbox2 e b ->
  exists r, bb2_collides_with a b = Ok r /\ (r = true <-> meet2 (realbox2 a) (realbox2 b)).
Proof.
  intros e a b E A B. rewrite (collides_same2 e E a b A B). exact (C14_collides_with_2d _ _ (valid_same2 e a A) (valid_same2 e b B)).
Qed.
Print Assumptions C184_collides_2d.

(** A tree of boxes on a grid finds exactly the elements whose box meets the given one. *)
Theorem C184_tree_3d : forall e (HB : Type) (bbox : HB -> bb3 F64) (data : list HB) maxdepth bucket bb, (-1070 <= e <= 950)%Z ->
  Forall (fun x => gridbox3 e (bbox x)) data -> gridbox3 e bb -> let t := aabb3_new bbox data maxdepth bucket in
  (forall before, exists found, aabb3_bb_colliding bbox bb t before = Ok (before ++ found) /\
     forall x, In x found <-> In x data /\ meet3 (realbox3 (bbox x)) (realbox3 bb)) /\
  (exists visited, aabb3_collision_candidates bbox bb t = Ok visited /\
     forall x, In x visited <-> In x data /\ meet3 (realbox3 (bbox x)) (realbox3 bb)) /\
  (exists r, aabb3_any_collides_with_bounding bbox t bb = Ok r /\
     (r = true <-> exists x, In x data /\ meet3 (realbox3 (bbox x)) (realbox3 bb))).
Proof.
  intros e HB bbox data maxdepth bucket bb E F B t.
  assert (F' : Forall (fun x => valid3 (rbox3 bbox x)) data) by (eapply Forall_impl; [intros x; apply valid_same3|exact F]).
  destruct (C26_colliding_3d HB (rbox3 bbox) data maxdepth bucket (realbox3 bb) F' (valid_same3 e bb B)) as (H1 & H2 & H3).
  unfold aabb3_any_collides_with_bounding, t in *. rewrite (candidates_same3 e E bbox data maxdepth bucket bb F B).
  split; [|split; [exact H2|exact H3]]. intros before. rewrite (colliding_same3 e E bbox data maxdepth bucket bb before F B). apply H1.
Qed.
Print Assumptions C184_tree_3d.
Theorem C184_tree_2d : forall e (HB : Type) (bbox : HB -> bb2 F64) (data : list HB) maxdepth bucket bb, (-1070 <= e <= 950)%Z ->
  Forall (fun x => gridbox2 e (bbox x)) data -> gridbox2 e bb -> let t := aabb2_new bbox data maxdepth bucket in
  (forall before, exists found, aabb2_bb_colliding bbox bb t before = Ok (before ++ found) /\
     forall x, In x found <-> In x data /\ meet2 (realbox2 (bbox x)) (realbox2 bb)) /\
  (exists visited, aabb2_collision_candidates bbox bb t = Ok visited /\
     forall x, In x visited <-> In x data /\ meet2 (realbox2 (bbox x)) (realbox2 bb)).
Proof.
  intros e HB bbox data maxdepth bucket bb E F B t.
  assert (F' : Forall (fun x => valid2 (rbox2 bbox x)) data) by (eapply Forall_impl; [intros x; apply valid_same2|exact F]).
  destruct (C26_colliding_2d HB (rbox2 bbox) data maxdepth bucket (realbox2 bb) F' (valid_same2 e bb B)) as (H1 & H2).
  unfold t in *. rewrite (candidates_same2 e E bbox data maxdepth bucket bb F B).
  split; [|exact H2]. intros before. rewrite (colliding_same2 e E bbox data maxdepth bucket bb before F B). apply H1.
Qed.
Print Assumptions C184_tree_2d.

Lemma grid_lit48 z : (Z.abs z <= 2 ^ 48)%Z -> on_grid 0 48 (fz z).
Proof.
  intros Z. assert (L : (Z.abs z < 2 ^ 53)%Z) by (eapply Z.le_lt_trans; [exact Z|reflexivity]). destruct (lit_int z L) as [F V].
  split; [apply double_lit|]. split; [apply finite_f, F|]. exists z. split; [exact Z|]. unfold fz. rewrite V. cbn [powerRZ]. ring.
Qed.
(** Four labelled boxes of whole numbers; the third only touches the box asked for. *)
Definition gboxes : list (nat * bb3 F64) :=
  [(1, mkbb3 (fp3 0 0 0) (fp3 1 1 1)); (2, mkbb3 (fp3 0 0 0) (fp3 9 9 9)); (3, mkbb3 (fp3 7 7 7) (fp3 9 9 9)); (4, mkbb3 (fp3 (-5) 2 2) (fp3 6 3 1000000))]%nat.
Definition gquery : bb3 F64 := mkbb3 (fp3 5 2 1) (fp3 7 8 7).
Example C184_case : Forall (fun x => gridbox3 0 (snd x)) gboxes /\ gridbox3 0 gquery /\
  obind (aabb3_bb_colliding snd gquery (aabb3_new snd gboxes 5 1) []) (fun o => Ok (nodup Nat.eq_dec (map fst o))) = Ok [4; 2]%nat.
Proof.
  assert (G : forall a b c, (Z.abs a <= 2 ^ 48)%Z -> (Z.abs b <= 2 ^ 48)%Z -> (Z.abs c <= 2 ^ 48)%Z -> grid3 0 48 (fp3 a b c)) by (intros; split; [|split]; apply grid_lit48; assumption).
  split; [|split].
  - repeat constructor; try (apply G; vm_compute; discriminate); intros ax [->|[->| ->]]; vm_compute; reflexivity.
  - split; [apply G; vm_compute; discriminate|]. split; [apply G; vm_compute; discriminate|]. intros ax [->|[->| ->]]; vm_compute; reflexivity.
  - vm_compute. reflexivity.
Qed.
