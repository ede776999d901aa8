(** Theorems about the KdTree (C17-C21).  The stored points have any type [P]
    with a position; [sort] is any function with the contract of slice::sort_by. *)
From Verif Require Import Base Num NumLemmas SortSpec SortLemmas KdModel GeomSpec KdSpec KdLemmas.
From Coq Require Import Floats.SpecFloat Reals Lra.

Lemma build_ok {NM P} (pos : P -> pt3 NM) sort (SO : sort_ok sort) pc t :
  kd_build pos sort pc = Ok t -> Permutation pc (elems t) /\ t = kd_new pos sort (length pc) 0 pc.
Proof.
  unfold kd_build. destruct pc as [|p r]; [discriminate|]. intro H.
  assert (E : t = kd_new pos sort (length (p :: r)) 0 (p :: r)) by congruence. clear H. subst t.
  split; [apply kd_new_perm; auto|reflexivity].
Qed.

(** ** C17 *)
Theorem C17_kdtree_keeps_points : forall (NM : Num) (P : Type) (pos : P -> pt3 NM) sort, sort_ok sort ->
  (kd_build pos sort [] = Err TooFewPoints) /\
  forall pc, pc <> [] -> exists t, kd_build pos sort pc = Ok t /\
    Permutation (kd_to_pc t []) pc /\ kd_size t = length pc.
Proof.
  intros NM P pos sort SO. split; [reflexivity|]. intros pc NE.
  assert (B : exists t, kd_build pos sort pc = Ok t) by (destruct pc; [congruence|eexists; reflexivity]).
  destruct B as [t B]. exists t. split; [exact B|]. destruct (build_ok pos sort SO pc t B) as [Q _].
  rewrite kd_to_pc_elems, kd_size_elems, (Permutation_length Q). split; [symmetry; exact Q|reflexivity].
Qed.
Print Assumptions C17_kdtree_keeps_points.

(** Points with a label, to see that equal positions stay apart. *)
Definition lp (n : nat) (x y z : Z) : nat * pt3 F64 := (n, fp3 x y z).
Definition labels (r : res (list (nat * pt3 F64))) : list nat := match r with Ok l => map fst l | _ => [99] end.
Definition tree_of (pc : list (nat * pt3 F64)) : kdtree (nat * pt3 F64) := kd_new snd isort (length pc) 0 pc.
Example C17_case :
  map fst (kd_to_pc (tree_of [lp 0 3 1 0; lp 1 1 1 0; lp 2 3 1 0; (3%nat, @mk3 F64 S754_nan (fz 0) (fz 0))]) [])
    = [1; 0; 2; 3]%nat /\ sort_ok isort.
Proof. split; [vm_compute; reflexivity|exact isort_ok]. Qed.

(** ** C18 *)
Theorem C18_in_sphere_exact : forall (P : Type) (pos : P -> pt3 RN) sort, sort_ok sort ->
  forall pc t c r before, kd_build pos sort pc = Ok t ->
  exists found, kd_in_sphere pos (mksphere c r) t before = before ++ found /\
    Permutation found (filter (fun p => in_ball c r (pos p)) pc).
Proof.
  intros P pos sort SO pc t c r before B. destruct (build_ok pos sort SO pc t B) as [Q E].
  assert (I : kd_inv pos t) by (subst t; apply kd_new_inv; auto).
  pose proof (trav_adds_all _ _ _ _ t (sphere_prune pos (mksphere c r) t I) before) as (found & Ef & Pf).
  exists found. rewrite in_sphere_trav. split; [exact Ef|].
  rewrite Pf. rewrite <- (filter_perm _ _ _ Q).
  erewrite filter_ext; [reflexivity|]. intro p. unfold sph_test, in_ball, Rleb.
  rewrite dist_R. cbn [sph_center sph_radius].
  destruct (R_leb_spec (sqrt (sqd3 c (pos p))) r), (Rle_dec (sqrt (sqd3 c (pos p))) r); try reflexivity; contradiction.
Qed.
Print Assumptions C18_in_sphere_exact.
(** Soundness for doubles: nothing but stored points that pass the test, each at most as often as stored. *)
Theorem C18_in_sphere_sound_f64 : forall (P : Type) (pos : P -> pt3 F64) sort, sort_ok sort ->
  forall pc t c r before, kd_build pos sort pc = Ok t ->
  exists found rest, kd_in_sphere pos (mksphere c r) t before = before ++ found /\
    Permutation pc (found ++ rest) /\ Forall (fun p => fle (dist_3d c (pos p)) r) found.
Proof.
  intros P pos sort SO pc t c r before B. destruct (build_ok pos sort SO pc t B) as [Q _].
  destruct (trav_adds (sph_test pos (mksphere c r)) (fun v d => dimension_compare c (pos v) d)
    (fun v d => nleb (nsub (sph_coord d (mksphere c r)) r) (coordN d (pos v)))
    (fun v d => ngeb (nadd (sph_coord d (mksphere c r)) r) (coordN d (pos v))) t before) as (found & rest & E & Pf & F).
  exists found, rest. rewrite in_sphere_trav. split; [exact E|]. split; [rewrite Q; exact Pf|exact F].
Qed.
Print Assumptions C18_in_sphere_sound_f64.
(** Completeness fails for doubles: of three points at the same position some are returned, others not. *)
Theorem C18_in_sphere_f64_refuted : exists (pc : list (nat * pt3 F64)) t c r,
  kd_build snd isort pc = Ok t /\ (exists p, forall q, In q pc -> snd q = p) /\ flt n0 r /\
  map fst (kd_in_sphere snd (mksphere c r) t []) = [1; 0]%nat /\ map fst pc = [0; 1; 2]%nat.
Proof.
  set (p := @mk3 F64 (lit 1 (-60)) n0 n0).
  exists [(0%nat, p); (1%nat, p); (2%nat, p)]. eexists. exists (fp3 (-1) 0 0), (fz 1).
  split; [reflexivity|]. split; [exists p; intros q [<-|[<-|[<-|[]]]]; reflexivity|].
  split; [vmeq|]. split; vm_compute; reflexivity.
Qed.
Print Assumptions C18_in_sphere_f64_refuted.
Example C18_case :
  map fst (kd_in_sphere snd (mksphere (fp3 0 0 0) (fz 5)) (tree_of [lp 0 3 4 0; lp 1 9 0 0; lp 2 0 0 (-5); lp 3 1 1 5]) [lp 7 0 0 0])
    = [7; 0; 2]%nat /\
  in_ball (rp3 0 0 0) 5 (rp3 3 4 0) = true.
Proof.
  split; [vm_compute; reflexivity|]. unfold in_ball, Rleb. destruct (Rle_dec _ _) as [|H]; [reflexivity|].
  exfalso. apply H. unfold sqd3. cbn [px py pz rp3]. replace ((0 - 3)^2 + (0 - 4)^2 + (0 - 0)^2)%R with (5 * 5)%R by ring.
  rewrite sqrt_square; lra.
Qed.

(** ** C19 *)
Theorem C19_in_box_exact : forall (P : Type) (pos : P -> pt3 RN) sort, sort_ok sort ->
  forall pc t c sx sy sz before, kd_build pos sort pc = Ok t ->
  exists found, kd_in_box pos (mkbox3d c sx sy sz) t before = before ++ found /\
    Permutation found (filter (fun p => in_cuboid c sx sy sz (pos p)) pc).
Proof.
  intros P pos sort SO pc t c sx sy sz before B. destruct (build_ok pos sort SO pc t B) as [Q E].
  assert (I : kd_inv pos t) by (subst t; apply kd_new_inv; auto).
  pose proof (trav_adds_all _ _ _ _ t (box_prune pos (mkbox3d c sx sy sz) t I) before) as (found & Ef & Pf).
  exists found. rewrite in_box_trav. split; [exact Ef|].
  rewrite Pf. rewrite <- (filter_perm _ _ _ Q).
  erewrite filter_ext; [reflexivity|]. intro p. unfold box_test, in_cuboid, Rleb. rewrite R_nhalf.
  cbn [box_center box_sx box_sy box_sz].
  assert (X : forall u v : R, @nleb RN u (@nmul RN (1/2)%R v) = (if Rle_dec u (v / 2)%R then true else false)).
  { intros u v. destruct (R_leb_spec u (@nmul RN (1/2)%R v)), (Rle_dec u (v / 2)%R); try reflexivity; cbn in *; lra. }
  rewrite !X. reflexivity.
Qed.
Print Assumptions C19_in_box_exact.
Theorem C19_in_box_sound_f64 : forall (P : Type) (pos : P -> pt3 F64) sort, sort_ok sort ->
  forall pc t c sx sy sz before, kd_build pos sort pc = Ok t ->
  exists found rest, kd_in_box pos (mkbox3d c sx sy sz) t before = before ++ found /\
    Permutation pc (found ++ rest) /\
    Forall (fun p => fle (nabs (px c - px (pos p)))%num (nhalf * sx)%num /\
                     fle (nabs (py c - py (pos p)))%num (nhalf * sy)%num /\
                     fle (nabs (pz c - pz (pos p)))%num (nhalf * sz)%num) found.
Proof.
  intros P pos sort SO pc t c sx sy sz before B. destruct (build_ok pos sort SO pc t B) as [Q _].
  set (b := mkbox3d c sx sy sz).
  destruct (trav_adds (box_test pos b) (fun v d => dimension_compare (box_center b) (pos v) d)
    (fun v d => nleb (nsub (coordN d (box_center b)) (nmul nhalf (box_size d b))) (coordN d (pos v)))
    (fun v d => ngeb (nadd (coordN d (box_center b)) (nmul nhalf (box_size d b))) (coordN d (pos v))) t before) as (found & rest & E & Pf & F).
  exists found, rest. rewrite in_box_trav. split; [exact E|]. split; [rewrite Q; exact Pf|].
  eapply Forall_impl; [|exact F]. intros p H. unfold box_test in H. rewrite !Bool.andb_true_iff in H.
  destruct H as [[H1 H2] H3]. split; [exact H1|]. split; [exact H2|exact H3].
Qed.
Print Assumptions C19_in_box_sound_f64.
Theorem C19_in_box_f64_refuted : exists (pc : list (nat * pt3 F64)) t c sx sy sz,
  kd_build snd isort pc = Ok t /\ (exists p, forall q, In q pc -> snd q = p) /\
  flt n0 sx /\ flt n0 sy /\ flt n0 sz /\
  map fst (kd_in_box snd (mkbox3d c sx sy sz) t []) = [1; 0]%nat /\ map fst pc = [0; 1; 2]%nat.
Proof.
  set (p := @mk3 F64 (lit 1 (-60)) n0 n0).
  exists [(0%nat, p); (1%nat, p); (2%nat, p)]. eexists. exists (fp3 (-1) 0 0), (fz 2), (fz 1), (fz 1).
  split; [reflexivity|]. split; [exists p; intros q [<-|[<-|[<-|[]]]]; reflexivity|].
  split; [vmeq|]. split; [vmeq|]. split; [vmeq|]. split; vm_compute; reflexivity.
Qed.
Print Assumptions C19_in_box_f64_refuted.
Example C19_case :
  map fst (kd_in_box snd (mkbox3d (fp3 0 0 0) (fz 2) (fz 4) (fz 6)) (tree_of [lp 0 1 2 3; lp 1 2 0 0; lp 2 0 0 (-3); lp 3 0 3 0]) [])
    = [0; 2]%nat /\
  in_cuboid (rp3 0 0 0) 2 4 6 (rp3 1 2 3) = true.
Proof.
  split; [vm_compute; reflexivity|]. unfold in_cuboid, Rleb. cbn [px py pz rp3].
  repeat destruct (Rle_dec _ _) as [|H]; try reflexivity; exfalso; apply H; unfold Rabs; destruct (Rcase_abs _); lra.
Qed.

(** ** C20 *)
Theorem C20_nearest_exact : forall (P : Type) (pos : P -> pt3 RN) sort, sort_ok sort ->
  forall pc t search, kd_build pos sort pc = Ok t ->
  exists m, kd_nearest pos sort search t = Ok (Some m) /\ In m pc /\
    forall p, In p pc -> (sqd3 search (pos m) <= sqd3 search (pos p))%R.
Proof.
  intros P pos sort SO pc t search B. destruct (build_ok pos sort SO pc t B) as [Q E].
  assert (I : kd_inv pos t) by (subst t; apply kd_new_inv; auto).
  assert (NE : t <> KNone).
  { intros ->. apply Permutation_length in Q. destruct pc; [discriminate B|cbn in Q; discriminate]. }
  destruct (nearest_inv pos sort SO search t I NE [] Logic.I) as (m & Em & Im & Mm).
  exists m. unfold kd_nearest, kd_knearest_api. cbn [Nat.ltb Nat.leb]. rewrite Em. cbn [obind nth_error].
  split; [reflexivity|]. cbn [app] in *. split; [apply (Permutation_in _ (Permutation_sym Q) Im)|].
  intros p Hp. apply Mm, (Permutation_in _ Q Hp).
Qed.
Print Assumptions C20_nearest_exact.
(** The empty tree has no nearest point. *)
Theorem C20_nearest_empty : forall (P : Type) (pos : P -> pt3 F64) sort search,
  kd_nearest pos sort search (KNone : kdtree P) = Ok None.
Proof. reflexivity. Qed.
Print Assumptions C20_nearest_empty.
Example C20_case :
  match kd_nearest snd isort (fp3 4 4 0) (tree_of [lp 0 3 1 0; lp 1 9 9 0; lp 2 0 0 0; lp 3 5 5 1; lp 4 5 6 0]) with
  | Ok (Some p) => fst p | _ => 99%nat end = 3%nat.
Proof. vm_compute. reflexivity. Qed.

(** ** C21 *)
Theorem C21_knearest_count : forall (P : Type) (pos : P -> pt3 F64) sort, sort_ok sort ->
  forall pc t search n, kd_build pos sort pc = Ok t -> number3 search -> Forall (fun p => number3 (pos p)) pc ->
  exists out rest, kd_knearest_api pos sort search n t [] = Ok out /\
    length out = Nat.min n (length pc) /\ Permutation pc (out ++ rest).
Proof.
  intros P pos sort SO pc t search n B Ns Np. destruct (build_ok pos sort SO pc t B) as [Q E].
  unfold kd_knearest_api. destruct (Nat.ltb_spec n 1) as [L|L].
  - exists [], pc. replace n with 0%nat by lia. cbn. auto.
  - assert (D : dims_ok t) by (subst t; apply kd_new_dims).
    assert (F : Forall (total_for pos search) (elems t)).
    { apply (Forall_perm _ _ _ Q). eapply Forall_impl; [|exact Np]. intros p Hp.
      assert (X : forall a b : T F64, number a -> number b -> ncmp a b <> None).
      { intros a b Ha Hb. destruct (num_cmp F64_laws a b Ha Hb) as [c Hc]. rewrite Hc. discriminate. }
      split; apply X; first [apply Ns|apply Hp]; unfold axis3; auto. }
    destruct (knn_spec pos sort SO search n t L D F []) as (out & rest & Eo & Po & Lo & _).
    exists out, rest. split; [exact Eo|]. rewrite (Permutation_length Q). split.
    + rewrite Lo; [reflexivity|]. intros ->. apply Permutation_length in Q. destruct pc; [discriminate B|discriminate].
    + rewrite Q. exact Po.
Qed.
Print Assumptions C21_knearest_count.
(** For n >= 2 the points returned need not be the nearest ones. *)
Theorem C21_knearest_refuted : exists (pc : list (nat * pt3 F64)) t search out p q,
  kd_build snd isort pc = Ok t /\ kd_knearest_api snd isort search 2 t [] = Ok out /\
  In p pc /\ ~ In (fst p) (map fst out) /\ In q out /\
  flt (sqr_dist_3d search (snd p)) (sqr_dist_3d search (snd q)).
Proof.
  exists [lp 0 1 1 0; lp 1 5 0 0; lp 2 10 0 0; lp 3 11 0 0; lp 4 12 0 0]. eexists. exists (fp3 0 0 0).
  exists [lp 2 10 0 0; lp 0 1 1 0], (lp 1 5 0 0), (lp 2 10 0 0).
  split; [reflexivity|]. split; [vm_cast_no_check (eq_refl (Ok [lp 2 10 0 0; lp 0 1 1 0] : res (list (nat * pt3 F64))))|].
  split; [right; left; reflexivity|]. split; [cbn; intuition discriminate|]. split; [left; reflexivity|]. vmeq.
Qed.
Print Assumptions C21_knearest_refuted.
Example C21_case :
  labels (kd_knearest_api snd isort (fp3 0 0 0) 2 (tree_of [lp 0 1 1 0; lp 1 5 0 0; lp 2 10 0 0; lp 3 11 0 0; lp 4 12 0 0]) [])
    = [2; 0]%nat /\ number3 (fp3 0 0 0) /\
  labels (kd_knearest_api snd isort (fp3 0 0 0) 9 (tree_of [lp 0 1 1 0; lp 1 5 0 0; lp 2 10 0 0]) []) = [1; 0; 2]%nat.
Proof.
  split; [vm_compute; reflexivity|]. split; [intros ? [->|[->| ->]]; vm_compute; discriminate|vm_compute; reflexivity].
Qed.
