(** Searching a KdTree of grid points, in doubles (C182). *)
From Verif Require Import Base BaseLemmas Num NumLemmas SortSpec SortLemmas BBoxModel GeomSpec FloatSpec FloatLemmas FloatBridge RootLemmas DistSpec DistLemmas DistLemmas2 DistLemmas3 CloudModel ClusterLemmas2 KdModel KdSpec KdLemmas KdProps KdF64Lemmas KdF64Props BoxDistLemmas GridSpec GridLemmas GridHullLemmas GridKdLemmas.
From Coq Require Import Floats.SpecFloat Reals Lra Lia Psatz.
Local Open Scope R_scope.

Lemma build_same {P} (pos : P -> pt3 F64) sort e k pc t : sort_ok sort -> Forall (fun p => grid3 e k (pos p)) pc -> kd_build pos sort pc = Ok t -> kd_build (rpos pos) sort pc = Ok t.
Proof. intros SO F. unfold kd_build. destruct pc as [|p r]; [discriminate|]. rewrite (new_same e pos sort k _ SO _ _ F). auto. Qed.
Lemma elems_grid {P} (pos : P -> pt3 F64) sort e k pc t : sort_ok sort -> Forall (fun p => grid3 e k (pos p)) pc -> kd_build pos sort pc = Ok t -> Forall (fun p => grid3 e k (pos p)) (elems t).
Proof. intros SO F B. destruct (build_ok pos sort SO pc t B) as [Q _]. eapply Permutation_Forall; [exact Q|exact F]. Qed.

Theorem C182_sphere : forall (P : Type) (pos : P -> pt3 F64) sort, sort_ok sort ->
  forall e pc t c r before, (-500 <= e <= 480)%Z -> Forall (fun p => grid3 e 23 (pos p)) pc -> grid3 e 23 c -> on_grid e 25 r ->
  kd_build pos sort pc = Ok t ->
  exists found, kd_in_sphere pos (mksphere c r) t before = before ++ found /\
    Permutation found (filter (fun p => in_ball (real3 c) (fval r) (real3 (pos p))) pc).
Proof.
  intros P pos sort SO e pc t c r before E F C R B. rewrite (sphere_same e E pos c r t C R (elems_grid _ _ _ _ _ _ SO F B)).
  exact (C18_in_sphere_exact P (rpos pos) sort SO pc t (real3 c) (fval r) before (build_same _ _ _ _ _ _ SO F B)).
Qed.
Print Assumptions C182_sphere.
Theorem C182_box : forall (P : Type) (pos : P -> pt3 F64) sort, sort_ok sort ->
  forall e pc t c sx sy sz before, (-500 <= e <= 480)%Z -> Forall (fun p => grid3 e 23 (pos p)) pc -> grid3 e 23 c ->
  on_grid e 25 sx -> on_grid e 25 sy -> on_grid e 25 sz -> kd_build pos sort pc = Ok t ->
  exists found, kd_in_box pos (mkbox3d c sx sy sz) t before = before ++ found /\
    Permutation found (filter (fun p => in_cuboid (real3 c) (fval sx) (fval sy) (fval sz) (real3 (pos p))) pc).
Proof.
  intros P pos sort SO e pc t c sx sy sz before E F C SX SY SZ B. rewrite (box_same e E pos c sx sy sz t C SX SY SZ (elems_grid _ _ _ _ _ _ SO F B)).
  exact (C19_in_box_exact P (rpos pos) sort SO pc t (real3 c) (fval sx) (fval sy) (fval sz) before (build_same _ _ _ _ _ _ SO F B)).
Qed.
Print Assumptions C182_box.
Lemma grid_fin3 e k p : grid3 e k p -> finite3 p.
Proof. intros ((A & A' & _) & (B & B' & _) & (C & C' & _)) ax [->|[->| ->]]; (split; assumption). Qed.
Theorem C182_nearest : forall (P : Type) (pos : P -> pt3 F64) sort, sort_ok sort ->
  forall e pc t search, (-500 <= e <= 480)%Z -> Forall (fun p => grid3 e 23 (pos p)) pc -> grid3 e 23 search ->
  kd_build pos sort pc = Ok t ->
  exists m, kd_nearest pos sort search t = Ok (Some m) /\ In m pc /\
    forall p, In p pc -> sqd3 (real3 search) (real3 (pos m)) <= sqd3 (real3 search) (real3 (pos p)).
Proof.
  intros P pos sort SO e pc t search E F S B. assert (FF : Forall (fun p => finite3 (pos p)) pc) by (eapply Forall_impl; [intros p; apply grid_fin3|exact F]).
  destruct (C167_nearest P pos sort SO pc t search B (grid_fin3 _ _ _ S) FF) as (m & M & I & D). exists m. split; [exact M|]. split; [exact I|]. intros p Hp.
  rewrite Forall_forall in F. destruct (dist_grid e E search (pos m) S (F m I)) as (n1 & N1 & F1 & V1 & _ & S1), (dist_grid e E search (pos p) S (F p Hp)) as (n2 & N2 & F2 & V2 & _ & S2).
  rewrite S1, S2. apply Rmult_le_compat_r; [apply Rlt_le, bp_pos|]. apply IZR_le. apply Z.nlt_ge. intros L.
  pose proof (root_strict n2 n1 e ltac:(lia) ltac:(lia) E) as ST. rewrite <- V1, <- V2 in ST. specialize (D p Hp).
  apply fle_val in D; [lra| | | |]; first [apply F1|apply F2].
Qed.
Print Assumptions C182_nearest.

Lemma grid_lit z : (Z.abs z <= 2 ^ 23)%Z -> on_grid 0 23 (fz z).
Proof.
  intros Z. assert (L : (Z.abs z < 2 ^ 53)%Z) by (eapply Z.le_lt_trans; [exact Z|reflexivity]). destruct (lit_int z L) as [F V].
  split; [apply double_lit|]. split; [apply finite_f, F|]. exists z. split; [exact Z|]. unfold fz. rewrite V. cbn [powerRZ]. ring.
Qed.
(** Five labelled points. *)
Definition kpts : list (nat * pt3 F64) := [lp 0 3 1 0; lp 1 9 9 0; lp 2 0 0 0; lp 3 5 5 1; lp 4 5 6 0].
Example C182_case : Forall (fun p => grid3 0 23 (snd p)) kpts /\ grid3 0 23 (fp3 4 4 0) /\ on_grid 0 25 (fz 2) /\
  map fst (kd_in_sphere snd (mksphere (fp3 4 4 0) (fz 2)) (tree_of kpts) []) = [3]%nat /\
  map fst (kd_in_box snd (mkbox3d (fp3 4 4 0) (fz 2) (fz 4) (fz 2)) (tree_of kpts) []) = [3; 4]%nat.
Proof.
  assert (G : forall a b c, (Z.abs a <= 2 ^ 23)%Z -> (Z.abs b <= 2 ^ 23)%Z -> (Z.abs c <= 2 ^ 23)%Z -> grid3 0 23 (fp3 a b c)) by (intros; split; [|split]; apply grid_lit; assumption).
  split; [|split; [|split; [|split]]].
  - repeat constructor; apply G; vm_compute; discriminate.
  - apply G; vm_compute; discriminate.
  - apply (grid_wide 0 23); [lia|]. apply grid_lit. vm_compute; discriminate.
  - vm_compute. reflexivity.
  - vm_compute. reflexivity.
Qed.
