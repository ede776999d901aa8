(** Computing with whatever a mesh loader left behind (C199). *)
From Verif Require Import Base BaseLemmas Num GeomSpec FloatSpec FloatBridge VecModel MeshModel MeshSpec MeshLemmas MatrixLemmas IoModel IoSpec IoLemmas ByteModel ByteSpec ByteLemmas StlModel StlSpec StlLemmas StlProps PlyModel PlySpec PlyLemmas PlySaveLemmas PlyTotalLemmas PlyProps ScanModel ScanSpec ScanLemmas ObjOffLemmas GcodeLemmas ScanProps ScanTotalProps MeshAlgoModel MeshAlgoSpec MeshAlgoProps HalfEdgeModel HalfEdgeSpec HalfEdgeProps ConvSpec ConvLemmas ConvProps UsableSpec.
From Coq Require Import Lia ZifyBool ZifyNat ZifyN.
Local Open Scope nat_scope.

Lemma filter_le {A} (f : A -> bool) l : length (filter f l) <= length l.
Proof. induction l as [|x l IH]; [reflexivity|]. cbn [filter]. destruct (f x); cbn [length]; lia. Qed.
Lemma small_usable m s : shows m s -> faces_ok s -> Forall double3 (pc m) -> (lenN (pc m) < 2 ^ 32)%N -> (lenN (topology m) <= 3 * 2 ^ 32)%N -> usable m.
Proof.
  intros SH FO _ _ T. exists s. split; [exact SH|]. split; [exact FO|].
  assert (NE : num_faces m = lenN (sfs s)) by (destruct SH as (_ & _ & NF & _); exact NF).
  assert (NF : (lenN (sfs s) <= 2 ^ 32)%N) by (rewrite <- NE; unfold num_faces; apply N.div_le_upper_bound; lia).
  assert (B : (3 * N.of_nat (length (sfs s)) < 2 ^ 64)%N) by (fold (lenN (sfs s)); lia).
  split; [|split].
  - destruct (C05_half_edge_topology _ m) as (h & E & N1 & _); [unfold HalfEdgeSpec.fits; lia|]. exists h. split; [exact E|]. rewrite N1, NE. reflexivity.
  - intros same Q. destruct (C36_heal_mesh same m s Q SH B) as (m' & s' & E & S' & F' & _ & _ & _ & K). exists m', s'. split; [exact E|]. split; [exact S'|]. split; [exact F'|].
    apply MeshAlgoLemmas.Forall2_len in K. pose proof (filter_le (fun f => negb (collapsed same s f)) (sfs s)). unfold lenN. lia.
  - intros mid. destruct (C38_subdivide_linear mid m s SH FO B) as (m' & new & mid_id & E & S' & F' & _). exists m', new, (flat_map (quarters mid_id) (sfs s)). split; [exact E|]. split; [exact S'|]. split; [exact F'|].
    unfold lenN. clear. induction (sfs s) as [|((a, b), c) l IH]; [reflexivity|]. cbn [flat_map]. rewrite app_length. cbn [quarters length]. lia.
Qed.

(** Whatever the file and the result of loading it. *)
Theorem C199_ply : forall ft file, parses_doubles ft -> below_4gb file -> exists m r, (forall k, length file < k -> load_ply_mesh ft k file = Some (m, r)) /\ usable m.
Proof.
  intros ft file D B. destruct (C98_mesh ft file) as (m & r & H & (s & SH & FO) & _). exists m, r. split; [exact H|]. specialize (H (S (length file)) ltac:(lia)). unfold below_4gb, lenN in B.
  assert (G : (Forall double3 (pc m)) /\ length (pc m) <= S (length file) /\ length (topology m) <= 3 * S (length file)).
  { assert (Z : Forall double3 (pc (@mesh_empty (pt3 F64))) /\ length (pc (@mesh_empty (pt3 F64))) <= S (length file) /\ length (topology (@mesh_empty (pt3 F64))) <= 3 * S (length file)) by (cbn [pc topology mesh_empty length]; repeat split; [constructor|lia|lia]).
    unfold load_ply_mesh in H. destruct (load_header h_start 0 (raw_lines file)) as [[[[fmt v [f|]] ls] i]|e|]; try (injection H as <- <-; exact Z).
    destruct (_ && _); [|injection H as <- <-; exact Z]. destruct fmt as [|en].
    - destruct (fold_grows (ascii_mesh_next ft v f) add_simple point_double (mesh_next_item _ _ _ (fun s a s' => ascii_point_double ft v s a s' D)) grows_add_item _ _ _ _ _ H) as (P & Q & R). cbn [pc topology mesh_empty length] in *. repeat split; [apply P; constructor|lia|lia].
    - destruct (fold_grows (simple_next (binary_mesh_next en v f)) add_simple point_double) with (k := S (length file)) (s := IPoints (mkbs (concat ls) false 0)) (m := @mesh_empty (pt3 F64)) (m' := m) (r := r) as (P & Q & R); [|exact grows_add_item|exact H|].
      + intros t a t'. unfold simple_next. destruct (binary_mesh_next en v f t) as (o, t1) eqn:BN. destruct o as [[x|e|]|]; cbn [simple]; try discriminate. intros X. apply (f_equal fst) in X. cbn [fst] in X. injection X as ->.
        revert BN. unfold binary_mesh_next. apply mesh_next_item. intros u p u'. unfold binary_next. destruct (bs_done u); [discriminate|]. destruct (_ <? _)%N; [|discriminate]. destruct (binary_vertex en v (bs_read u)) as [(q, w)|e|] eqn:V; try discriminate.
        intros X. apply (f_equal fst) in X. cbn [fst] in X. injection X as <-. exact (binary_point_double _ _ _ _ _ V).
      + cbn [pc topology mesh_empty length] in *. repeat split; [apply P; constructor|lia|lia]. }
  destruct G as (G1 & G2 & G3). apply (small_usable m s SH FO G1); unfold lenN; lia.
Qed.
Print Assumptions C199_ply.
(** The same of .obj, .off and .stl files. *)
Theorem C199_obj : forall ft file, parses_doubles ft -> below_4gb file -> exists m r, (forall k, length file < k -> load_obj_mesh ft k file = Some (m, r)) /\ usable m.
Proof.
  intros ft file D B. destruct (C102_obj_mesh ft file) as (m & r & H & _ & s & SH & FO). exists m, r. split; [exact H|]. specialize (H (S (length file)) ltac:(lia)). unfold below_4gb, lenN in B.
  destruct (fold_grows _ _ point_double (line_next_item (obj_mesh_step ft) point_double (fun s t a s' => obj_item ft s t a s' D)) (grows_mesh_add ObjInvalidMeshIndices) _ _ _ _ _ H) as (P & Q & R). cbn [pc topology mesh_empty length] in *.
  apply (small_usable m s SH FO (P ltac:(constructor))); unfold lenN; lia.
Qed.
Print Assumptions C199_obj.
Theorem C199_off : forall ft file, parses_doubles ft -> below_4gb file -> exists m r, (forall k, length file < k -> load_off_mesh ft k file = Some (m, r)) /\ usable m.
Proof.
  intros ft file D B. destruct (C102_off_mesh ft file) as (m & r & H & _ & s & SH & FO). exists m, r. split; [exact H|]. specialize (H (S (length file)) ltac:(lia)). unfold below_4gb, lenN in B.
  destruct (fold_grows _ _ off_double (line_next_item (off_mesh_step ft) off_double (fun s t a s' => off_item ft s t a s' D)) grows_off _ _ _ _ _ H) as (P & Q & R). cbn [pc topology mesh_empty length] in *.
  apply (small_usable m s SH FO (P ltac:(constructor))); unfold lenN; lia.
Qed.
Print Assumptions C199_off.
Theorem C199_stl_duped : forall ft fmt file, parses_doubles ft -> below_1gb file -> exists m ns r, (forall k, length file < k -> load_stl_mesh_duped ft k fmt file mesh_empty [] = Some (m, ns, r)) /\ usable m.
Proof.
  intros ft fmt file D B. destruct (C194_duped ft fmt file) as (m & ns & r & H & _ & s & SH & FO & _). exists m, ns, r. split; [exact H|]. specialize (H (S (length file)) ltac:(lia)). unfold below_1gb, lenN in B.
  destruct (stl_any ft fmt file) as (is & r' & HI & _ & L & DI). unfold load_stl_mesh_duped in H. rewrite (HI (S (length file)) ltac:(lia)) in H. pose proof (duped_keeps is mesh_empty []) as K. destruct (fold_left duped_step is (mesh_empty, [])) as (m', ns'). injection H as -> -> ->.
  cbn [pc topology mesh_empty length] in K. destruct K as (P & Q & R). apply (small_usable m s SH FO (R (DI D) ltac:(constructor))); unfold lenN; lia.
Qed.
Print Assumptions C199_stl_duped.
Theorem C199_stl_unique : forall ft same fmt file, parses_doubles ft -> below_1gb file -> exists m ns r, (forall k, length file < k -> load_stl_mesh_unique ft same k fmt file mesh_empty [] = Some (m, ns, r)) /\ usable m.
Proof.
  intros ft same fmt file D B. destruct (C194_unique ft same fmt file) as (m & ns & r & H & _ & s & SH & FO & _). exists m, ns, r. split; [exact H|]. specialize (H (S (length file)) ltac:(lia)). unfold below_1gb, lenN in B.
  destruct (stl_any ft fmt file) as (is & r' & HI & _ & L & DI). unfold load_stl_mesh_unique in H. rewrite (HI (S (length file)) ltac:(lia)) in H. pose proof (unique_keeps same is mesh_empty [] [] valid_empty eq_refl) as K.
  destruct (fold_left (unique_step same) is (mesh_empty, [], [])) as ((m', map), ns'). injection H as -> -> ->. cbn [pc topology mesh_empty length] in K. destruct K as (_ & _ & P & Q & R). apply (small_usable m s SH FO (R (DI D) ltac:(constructor))); unfold lenN; lia.
Qed.
Print Assumptions C199_stl_unique.
(** The mesh left behind after a refused face (see C195_case) can be subdivided and healed. *)
Example C199_case : load_off_mesh case_ft 1000 case_off = Some (Mesh [fp3 0 0 0; fp3 2 0 0; fp3 0 3 0; fp3 0 0 4] [0; 1; 2]%N, Err (WNone OffInvalidMeshIndices)) /\
  subdivide_linear (fun p q => p) (Mesh [fp3 0 0 0; fp3 2 0 0; fp3 0 3 0; fp3 0 0 4] [0; 1; 2]%N) = Ok (Mesh [fp3 0 0 0; fp3 2 0 0; fp3 0 3 0; fp3 0 0 4; fp3 0 0 0; fp3 2 0 0; fp3 0 3 0] [0; 4; 6; 4; 1; 5; 4; 5; 6; 6; 5; 2]%N) /\
  heal_mesh peq (Mesh [fp3 0 0 0; fp3 2 0 0; fp3 0 3 0; fp3 0 0 4] [0; 1; 2]%N) = Ok (Mesh [fp3 0 0 0; fp3 2 0 0; fp3 0 3 0] [0; 1; 2]%N).
Proof. repeat split; vmeq. Qed.
