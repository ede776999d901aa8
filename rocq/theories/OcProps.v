(** Theorems about the OcTree (C22, C23, C77).  The stored points have any type [P] with a
    position; [uniq] is the HashSet of the points, [fuel] bounds the recursion depth. *)
From Verif Require Import Base Num NumLemmas BBoxModel GeomSpec BBoxLemmas PermTac OcModel OcSpec OcLemmas.
From Coq Require Import Floats.SpecFloat Reals Lra Permutation.

(** ** C22 *)
Theorem C22_octree_sound : forall (NM : Num) (P : Type) (pos : P -> pt3 NM) (of_pos : pt3 NM -> P) uniq,
  (forall pc, exists rest, Permutation pc (uniq pc ++ rest)) ->
  forall fuel dbg pc t, oc_build pos uniq fuel dbg pc = Some (Ok t) ->
  exists kept lost, oc_to_pointcloud pos of_pos false t = Ok kept /\
    Permutation pc (kept ++ lost) /\ oc_size t = length kept /\
    (forall out, oc_to_pointcloud pos of_pos true t = Ok out -> out = kept) /\
    (forall maxdepth, exists out, oc_collect_api pos of_pos false maxdepth t = Ok out /\
       (length out <= oc_size t)%nat).
Proof.
  intros NM P pos of_pos uniq U fuel dbg pc t H. unfold oc_build in H.
  destruct (bb3_from_iterator dbg (map pos pc)) as [b|e|]; try discriminate.
  destruct (oc_new_perm pos fuel b (uniq pc) t H) as [r1 H1]. destruct (U pc) as [r2 H2].
  exists (oelems t), (r1 ++ r2). unfold oc_to_pointcloud, oc_collect_api.
  destruct (collect_neg pos of_pos false (-1) ltac:(lia) t 0 []) as [X|[X _]]; [|discriminate].
  split; [exact X|]. split; [rewrite H2, H1; perm|]. split; [apply oc_size_elems|]. split.
  - intros out E. destruct (collect_neg pos of_pos true (-1) ltac:(lia) t 0 []) as [Y|[_ Y]].
    + rewrite Y in E. injection E as <-. reflexivity.
    + rewrite Y in E. discriminate.
  - intro m. destruct (collect_le pos of_pos m t 0 []) as (out & E & L). exists out.
    split; [exact E|]. rewrite oc_size_elems. exact L.
Qed.
Print Assumptions C22_octree_sound.

(** In exact arithmetic the build ends, and it keeps every point that is on no halving plane. *)
Theorem C22_octree_keeps_off_grid : forall (P : Type) (pos : P -> pt3 RN) (of_pos : pt3 RN -> P) uniq,
  dedup_exact pos uniq -> forall dbg pc b, (Z.of_nat (length pc) < 2 ^ 31)%Z ->
  bb3_from_iterator dbg (map pos pc) = Ok b ->
  exists fuel0, forall fuel, (fuel0 <= fuel)%nat -> exists t kept,
    oc_build pos uniq fuel dbg pc = Some (Ok t) /\ oc_to_pointcloud pos of_pos false t = Ok kept /\
    forall p, In p pc -> off_grid b (pos p) -> exists q, In q kept /\ pos q = pos p.
Proof.
  intros P pos of_pos uniq U dbg pc b Hl Hb.
  destruct (from3_R dbg (map pos pc) b ltac:(rewrite map_length; exact Hl) Hb) as [V C].
  destruct (apart_exists pos (uniq pc) (dedup_exact_distinct _ _ U pc)) as (d & D & A).
  assert (S : exists n : nat, forall ax, axis3 ax -> (ax (max3 b) - ax (min3 b) <= d * 2 ^ n)%R).
  { destruct (pow2_big ((px (max3 b) - px (min3 b) + (py (max3 b) - py (min3 b)) + (pz (max3 b) - pz (min3 b))) / d)%R) as [n Hn].
    exists n.
    pose proof (V px (or_introl eq_refl)) as V1. pose proof (V py (or_intror (or_introl eq_refl))) as V2.
    pose proof (V pz (or_intror (or_intror eq_refl))) as V3.
    apply (Rmult_le_compat_l d) in Hn; [|lra]. unfold Rdiv in Hn.
    rewrite (Rmult_comm _ (/ d)), <- Rmult_assoc, Rinv_r, Rmult_1_l in Hn by lra.
    intros ax [->|[->| ->]]; lra. }
  destruct S as [n Hn]. exists (S (S n)). intros fuel Hf.
  assert (N : oc_new pos fuel b (uniq pc) <> None) by (apply (oc_new_total_root pos n d); auto; lia).
  destruct (oc_new_no_err pos fuel b (uniq pc) V N) as [t Ht].
  exists t, (oelems t). unfold oc_build. rewrite Hb. split; [exact Ht|]. split.
  { unfold oc_to_pointcloud, oc_collect_api.
    destruct (collect_neg pos of_pos false (-1) ltac:(lia) t 0 []) as [X|[X _]]; [exact X|discriminate]. }
  intros p Ip G. destruct (dedup_exact_rep _ _ U pc p Ip) as (q & Iq & Eq). exists q. split; [|exact Eq].
  rewrite <- Eq in G. apply (oc_new_keeps pos fuel b (uniq pc) t q Ht V Iq G).
  assert (Cq : closed3 b (pos q)) by (rewrite Eq; apply C, in_map, Ip).
  intros ax Hax. pose proof (Cq ax Hax) as K. pose proof (G ax Hax 0%Z 0%nat) as G0. pose proof (G ax Hax 1%Z 0%nat) as G1.
  cbn [pow] in G0, G1.
  assert (ax (pos q) <> ax (min3 b)) by (intro E; apply G0; rewrite E; lra).
  assert (ax (pos q) <> ax (max3 b)) by (intro E; apply G1; rewrite E; lra).
  split; apply Rnot_le_lt; intro; lra.
Qed.
Print Assumptions C22_octree_keeps_off_grid.
(** A point at a third of the box is on no halving plane; the running build. *)
Lemma third_off_grid : off_grid (mkbb3 (rp3 0 0 0) (rp3 1 1 1)) (rp3 (1/3) (1/3) (1/3)).
Proof.
  assert (K : forall (k : Z) (n : nat), (1 / 3 <> 0 + (1 - 0) * (IZR k / 2 ^ n))%R).
  { intros k n E.
    assert (P2 : (2 ^ n <> 0)%R) by (apply pow_nonzero; lra).
    assert (X : (2 ^ n = 3 * IZR k)%R).
    { transitivity (3 * (1 / 3 * 2 ^ n))%R; [field|]. rewrite E. field. exact P2. }
    assert (Y : (2 ^ Z.of_nat n = 3 * k)%Z).
    { apply eq_IZR. rewrite mult_IZR, <- pow_IZR. exact X. }
    assert (Z : forall n : nat, (2 ^ Z.of_nat n mod 3 <> 0)%Z).
    { induction n0 as [|m IH]; [discriminate|]. rewrite Nat2Z.inj_succ, Z.pow_succ_r by lia.
      rewrite Z.mul_mod by lia. pose proof (Z.mod_pos_bound (2 ^ Z.of_nat m) 3 ltac:(lia)).
      assert ((2 ^ Z.of_nat m) mod 3 = 1 \/ (2 ^ Z.of_nat m) mod 3 = 2)%Z as [-> | ->] by lia; discriminate. }
    apply (Z n). rewrite Y, Z.mul_comm, Z.mod_mul; lia. }
  intros ax [->|[->| ->]]; exact K.
Qed.
Definition lp3 (n : nat) (x y z : Z) : nat * pt3 F64 := (n, fp3 x y z).
Definition oc_labels (o : option (res (octree (nat * pt3 F64)))) : list nat :=
  match o with
  | Some (Ok t) => match oc_to_pointcloud snd (fun p => (99%nat, p)) true t with Ok l => oc_size t :: map fst l | _ => [] end
  | _ => [] end.
Definition pt3R_dec (p q : pt3 RN) : {p = q} + {p <> q}.
Proof.
  destruct p as [a b c], q as [d e f].
  destruct (Req_EM_T a d) as [->|N]; [|right; congruence]. destruct (Req_EM_T b e) as [->|N]; [|right; congruence].
  destruct (Req_EM_T c f) as [->|N]; [left; reflexivity|right; congruence].
Defined.
Lemma nodup_dedup : dedup_exact (fun p : pt3 RN => p) (nodup pt3R_dec).
Proof.
  split.
  - intro pc. induction pc as [|p r [rest IH]]; [exists []; reflexivity|]. cbn [nodup].
    destruct (in_dec pt3R_dec p r).
    + exists (p :: rest). rewrite IH at 1. perm.
    + exists rest. rewrite IH at 1. perm.
  - intros pc p Ip. exists p. split; [apply nodup_In, Ip|reflexivity].
  - intro pc. rewrite map_id. apply NoDup_nodup.
Qed.
Example C22_case :
  oc_labels (oc_build snd (fun l => l) 50 true [lp3 0 0 0 0; lp3 1 9 9 9; lp3 2 1 1 1; lp3 3 2 2 2; lp3 4 8 1 8; lp3 5 4 9 4])
    = [3; 4; 3; 2]%nat /\
  off_grid (mkbb3 (rp3 0 0 0) (rp3 1 1 1)) (rp3 (1/3) (1/3) (1/3)) /\
  dedup_exact (fun p : pt3 RN => p) (nodup pt3R_dec).
Proof.
  split; [vm_compute; reflexivity|]. split; [exact third_off_grid|]. exact nodup_dedup.
Qed.

(** ** C23 *)
Theorem C23_octree_loses_boundary : forall (P : Type) (pos : P -> pt3 F64) uniq, dedup_ok pos uniq ->
  forall fuel dbg pc b t, Forall (fun p => number3 (pos p)) pc -> (Z.of_nat (length pc) < 2 ^ 31)%Z ->
  bb3_from_iterator dbg (map pos pc) = Ok b -> oc_build pos uniq fuel dbg pc = Some (Ok t) ->
  (oc_size t + 2 <= length pc)%nat /\
  forall of_pos kept, oc_to_pointcloud pos of_pos false t = Ok kept -> Forall (fun p => finterior3 b (pos p)) kept.
Proof.
  intros P pos uniq U fuel dbg pc b t N Hl Hb H. unfold oc_build in H. rewrite Hb in H.
  assert (N' : Forall number3 (map pos pc)) by (apply Forall_map; exact N).
  pose proof (from3_spec dbg (map pos pc) N' ltac:(rewrite map_length; exact Hl)) as F. rewrite Hb in F.
  destruct F as [L2 F].
  assert (NB : number3 (min3 b) /\ number3 (max3 b)).
  { split; intros ax Hax; destruct (F ax Hax) as ([I _] & [J _] & _);
      [apply in_map_iff in I as (p & <- & Ip)|apply in_map_iff in J as (p & <- & Ip)];
      (rewrite Forall_forall in N'; apply (N' p Ip ax Hax)). }
  assert (NE : length (uniq pc) <> 1%nat).
  { intro E. destruct (uniq pc) as [|u [|? ?]] eqn:Eu; try discriminate.
    destruct (F px (or_introl eq_refl)) as (_ & _ & x & y & Ix & Iy & Lxy).
    apply in_map_iff in Ix as (x' & <- & Ix). apply in_map_iff in Iy as (y' & <- & Iy).
    apply in_map_iff in Ix as (p & <- & Ip). apply in_map_iff in Iy as (q & <- & Iq).
    destruct (dedup_rep _ _ U pc p Ip N) as (p' & Ip' & Ep). destruct (dedup_rep _ _ U pc q Iq N) as (q' & Iq' & Eq).
    rewrite Eu in *. destruct Ip' as [<-|[]], Iq' as [<-|[]].
    specialize (Ep px (or_introl eq_refl)). specialize (Eq px (or_introl eq_refl)).
    unfold flt, feq in *. change SFltb with (@nltb F64) in *. change SFeqb with (@neqb F64) in *.
    assert (X : nleb (px (pos q)) (px (pos p)) = true).
    { apply (leb_trans F64_laws) with (px (pos u)); [apply (eqb_geb F64_laws), Eq|apply eqb_leb, Ep]. }
    rewrite (ltb_not_leb F64_laws _ _ Lxy) in X. discriminate. }
  pose proof (oc_new_inside pos fuel b (uniq pc) t H NE (proj1 NB) (proj2 NB)) as I.
  split.
  - destruct (oc_new_perm pos fuel b (uniq pc) t H) as [r1 H1]. destruct (dedup_part _ _ U pc) as [r2 H2].
    rewrite oc_size_elems, <- (map_length pos (oelems t)), <- (map_length pos pc).
    apply (boundary_two (map pos pc) b (map pos (oelems t)) (map pos (r1 ++ r2)) L2 F).
    + apply Forall_map. exact I.
    + rewrite <- map_app. apply Permutation_map. rewrite H2, H1. perm.
  - intros of_pos kept K. unfold oc_to_pointcloud, oc_collect_api in K.
    destruct (collect_neg pos of_pos false (-1) ltac:(lia) t 0 []) as [X|[X _]]; [|discriminate].
    rewrite X in K. injection K as <-. exact I.
Qed.
Print Assumptions C23_octree_loses_boundary.
(** Two opposite corners: the build succeeds, both points are lost. *)
Theorem C23_octree_corners_refuted : exists (pc : list (nat * pt3 F64)) t,
  Forall (fun p => number3 (snd p)) pc /\ length pc = 2%nat /\
  oc_build snd (fun l => l) 2 true pc = Some (Ok t) /\ oc_size t = 0%nat.
Proof.
  exists [lp3 0 0 0 0; lp3 1 1 1 1]. eexists. split.
  { repeat constructor; intros ? [->|[->| ->]]; vm_compute; discriminate. }
  split; [reflexivity|]. split; [reflexivity|]. vm_compute. reflexivity.
Qed.
Print Assumptions C23_octree_corners_refuted.
Example C23_case :
  oc_labels (oc_build snd (fun l => l) 50 false [lp3 0 0 0 0; lp3 1 9 9 9; lp3 2 1 1 1; lp3 3 2 2 2; lp3 4 8 1 8; lp3 5 4 9 4])
    = [3; 4; 3; 2]%nat /\
  bb3_from_iterator false (map snd [lp3 0 0 0 0; lp3 1 9 9 9; lp3 2 1 1 1; lp3 3 2 2 2; lp3 4 8 1 8; lp3 5 4 9 4])
    = Ok (mkbb3 (fp3 0 0 0) (fp3 9 9 9)) /\
  dedup_ok (@snd nat (pt3 F64)) (fun l => l).
Proof.
  split; [vm_compute; reflexivity|]. split; [vmeq|]. split; [intro pc; exists []; now rewrite app_nil_r|].
  intros pc p Ip N. exists p. split; [exact Ip|]. intros ax Hax. rewrite Forall_forall in N.
  apply (eqb_refl F64_laws), (N p Ip ax Hax).
Qed.

(** ** C77: more than 127 levels. *)
Definition tiny (m : Z) : T F64 := lit m (-203).
(** Two points near a corner, less than 2^-200 apart, off every halving plane. *)
Definition deep_cloud : list (nat * pt3 F64) :=
  [lp3 0 0 0 0; lp3 1 1 1 1; (2%nat, @mk3 F64 (tiny 9) (tiny 9) (tiny 9)); (3%nat, @mk3 F64 (tiny 14) (tiny 14) (tiny 14))].
Definition oc_outcome (dbg : bool) (o : option (res (octree (nat * pt3 F64)))) : res (list nat) :=
  match o with
  | Some (Ok t) => match oc_to_pointcloud snd (fun p => (99%nat, p)) dbg t with
                   | Ok l => Ok (oc_size t :: map fst l) | Err e => Err e | Panic => Panic end
  | _ => Err TooFewPoints end.
Theorem C77_octree_depth_refuted : exists (pc : list (nat * pt3 F64)) fuel,
  Forall (fun p => number3 (snd p)) pc /\ length pc = 4%nat /\
  oc_outcome true (oc_build snd (fun l => l) fuel true pc) = Panic /\
  oc_outcome false (oc_build snd (fun l => l) fuel false pc) = Ok [2; 3; 2]%nat.
Proof.
  exists deep_cloud, 300%nat. split.
  { repeat constructor; intros ? [->|[->| ->]]; vm_compute; discriminate. }
  split; [reflexivity|]. split; vm_compute; reflexivity.
Qed.
Print Assumptions C77_octree_depth_refuted.
(** Without a panic both builds agree; a tree of at most 127 levels does not panic. *)
Theorem C77_octree_shallow : forall (NM : Num) (P : Type) (pos : P -> pt3 NM) (of_pos : pt3 NM -> P) uniq fuel dbg pc t,
  (fuel <= 128)%nat -> oc_build pos uniq fuel dbg pc = Some (Ok t) ->
  oc_to_pointcloud pos of_pos true t = oc_to_pointcloud pos of_pos false t.
Proof.
  intros NM P pos of_pos uniq fuel dbg pc t Hf H. unfold oc_build in H.
  destruct (bb3_from_iterator dbg (map pos pc)) as [b|e|]; try discriminate.
  apply oc_new_height in H. unfold oc_to_pointcloud, oc_collect_api.
  rewrite !collect_shallow; [reflexivity|lia..].
Qed.
Print Assumptions C77_octree_shallow.
Example C77_case : oc_build snd (fun l => l) 128 true deep_cloud = None /\
  oc_labels (oc_build snd (fun l => l) 128 true [lp3 0 0 0 0; lp3 1 9 9 9; lp3 2 1 1 1; lp3 3 2 2 2]) = [2; 3; 2]%nat.
Proof. split; [vmeq|vm_compute; reflexivity]. Qed.
