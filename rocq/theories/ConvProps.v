(** Arbitrary .stl files, and saving what was loaded. *)
From Verif Require Import Base BaseLemmas Num GeomSpec FloatSpec FloatBridge VecModel MeshModel MeshSpec MeshLemmas MatrixLemmas IoModel IoSpec IoLemmas ByteModel ByteSpec ByteLemmas StlModel StlSpec StlLemmas StlProps PlyModel PlySpec PlyLemmas PlySaveLemmas PlyTotalLemmas PlyProps ScanModel ScanSpec ScanLemmas ObjOffLemmas GcodeLemmas ScanProps ScanTotalProps ConvSpec ConvLemmas.
From Coq Require Import Lia ZifyBool ZifyNat ZifyN.
Local Open Scope nat_scope.

(** ** C194 arbitrary .stl files *)
(** Every file is loaded or refused after at most one call per byte, without a panic; every facet has
    three corners and a normal. *)
Theorem C194_triplets : forall ft fmt file, exists ps ns r, (forall k, length file < k -> load_stl_triplets ft k fmt file = Some (ps, ns, r)) /\ r <> Panic /\ length ps = 3 * length ns.
Proof.
  intros ft fmt file. destruct (stl_any ft fmt file) as (is & r & H & NP & _). unfold load_stl_triplets. eexists _, _, r. split; [intros k K; rewrite (H k K); reflexivity|]. split; [exact NP|].
  clear. induction is as [|[n|f] is IH]; cbn [flat_map]; [reflexivity|exact IH|]. rewrite !app_length, IH. cbn [length]. lia.
Qed.
Print Assumptions C194_triplets.
(** The mesh has one face with three vertices of its own and one normal per facet. *)
Theorem C194_duped : forall ft fmt file, exists m ns r, (forall k, length file < k -> load_stl_mesh_duped ft k fmt file mesh_empty [] = Some (m, ns, r)) /\ r <> Panic /\
  exists s, shows m s /\ faces_ok s /\ length (sfs s) = length ns /\ length (svs s) = 3 * length ns.
Proof.
  intros ft fmt file. destruct (C194_triplets ft fmt file) as (ps & ns & r & H & NP & L). destruct (C66_duped ft (S (length file)) fmt file ps ns r (H (S (length file)) ltac:(lia))) as (m & ts & D & P & SH).
  exists m, ns, r. assert (LT : length ts = length ns) by (assert (L3 : length ps = 3 * length ts) by (rewrite <- P; clear; induction ts as [|t ts IH]; [reflexivity|]; cbn [flat_map]; rewrite app_length, IH; destruct t as ((a, b), c); cbn [points length]; lia); lia). split.
  - intros k K. destruct (C66_duped ft k fmt file ps ns r (H k K)) as (m' & ts' & D' & _). rewrite D'. destruct (stl_any ft fmt file) as (is & r' & HI & _). unfold load_stl_mesh_duped in D, D'. rewrite (HI k K) in D'. rewrite (HI (S (length file)) ltac:(lia)) in D. congruence.
  - split; [exact NP|]. exists (MSpec ps (separate_faces 0 (length ts))). split; [exact SH|]. cbn [svs sfs]. split; [|split; [|exact L]].
    + intros a b c I. apply separate_in in I. unfold in_range. cbn [svs]. rewrite L. lia.
    + rewrite <- LT. clear. generalize 0%N. induction (length ts) as [|n IH]; intros i; [reflexivity|]. cbn [separate_faces length]. rewrite IH. reflexivity.
Qed.
Print Assumptions C194_duped.
(** However the points are compared, all faces have three different existing vertices, and there is one
    normal per face. *)
Theorem C194_unique : forall ft same fmt file, exists m ns r, (forall k, length file < k -> load_stl_mesh_unique ft same k fmt file mesh_empty [] = Some (m, ns, r)) /\ r <> Panic /\
  exists s, shows m s /\ faces_ok s /\ length (sfs s) = length ns.
Proof.
  intros ft same fmt file. destruct (stl_any ft fmt file) as (is & r & H & NP & _). pose proof (unique_keeps same is mesh_empty [] [] valid_empty eq_refl) as K. unfold load_stl_mesh_unique.
  destruct (fold_left (unique_step same) is (mesh_empty, [], [])) as ((m, map), ns) eqn:F. destruct K as (V & T & _). exists m, ns, r. split; [intros k K; rewrite (H k K), F; reflexivity|]. split; [exact NP|].
  destruct (valid_shown m V) as (s & S & O & TL). exists s. split; [exact S|]. split; [exact O|lia].
Qed.
Print Assumptions C194_unique.
Example C194_case : load_stl_triplets demo 100 StlAuto (str "solid") = Some ([], [], Ok tt) /\ load_stl_triplets demo 100 StlAuto (str "soli") = Some ([], [], Err (WNone StlAccessFile)) /\
  load_stl_mesh_unique demo (fun _ _ => true) 1000 StlAuto case_text mesh_empty [] = Some (Mesh [fp3 0 0 0] [], [], Ok tt).
Proof. repeat split; vmeq. Qed.

(** ** C195 from any format to .ply *)
(** Whatever the file and the result of loading it: what is left in the mesh can be saved as .ply,
    and loading that gives the same vertices and faces. *)
Theorem C195_ply : forall ft file, parses_doubles ft -> below_4gb file -> exists m r, (forall k, length file < k -> load_ply_mesh ft k file = Some (m, r)) /\ converts ft m.
Proof.
  intros ft file D B. destruct (C98_mesh ft file) as (m & r & H & (s & SH & FO) & _). exists m, r. split; [exact H|]. specialize (H (S (length file)) ltac:(lia)). unfold below_4gb, lenN in B.
  assert (G : (Forall double3 (pc m)) /\ length (pc m) <= S (length file) /\ length (topology m) <= 3 * S (length file)).
  { assert (Z : Forall double3 (pc (@mesh_empty (pt3 F64))) /\ length (pc (@mesh_empty (pt3 F64))) <= S (length file) /\ length (topology (@mesh_empty (pt3 F64))) <= 3 * S (length file)) by (cbn [pc topology mesh_empty length]; repeat split; [constructor|lia|lia]).
    unfold load_ply_mesh in H. destruct (load_header h_start 0 (raw_lines file)) as [[[[fmt v [f|]] ls] i]|e|]; try (injection H as <- <-; exact Z).
    destruct (_ && _); [|injection H as <- <-; exact Z]. destruct fmt as [|en].
    - destruct (fold_grows (ascii_mesh_next ft v f) add_simple point_double (mesh_next_item _ _ _ (fun s a s' => ascii_point_double ft v s a s' D)) grows_add_item _ _ _ _ _ H) as (P & Q & R). cbn [pc topology mesh_empty length] in *. repeat split; [apply P; constructor|lia|lia].
    - destruct (fold_grows (simple_next (binary_mesh_next en v f)) add_simple point_double) with (k := S (length file)) (s := IPoints (mkbs (concat ls) false 0)) (m := @mesh_empty (pt3 F64)) (m' := m) (r := r) as (P & Q & R); [|exact grows_add_item|exact H|].
      + intros t a t'. unfold simple_next. destruct (binary_mesh_next en v f t) as (o, t1) eqn:BN. destruct o as [[x|e|]|]; cbn [simple]; try discriminate. intros X. apply (f_equal fst) in X. cbn [fst] in X. injection X as ->.
        revert BN. unfold binary_mesh_next. apply mesh_next_item. intros u p u'. unfold binary_next. destruct (bs_done u); [discriminate|]. destruct (_ <? _)%N; [|discriminate]. destruct (binary_vertex en v (bs_read u)) as [(q, w)|e|] eqn:V; try discriminate.
        intros X. apply (f_equal fst) in X. cbn [fst] in X. injection X as <-. exact (binary_point_double _ _ _ _ _ V).
      + cbn [pc topology mesh_empty length] in *. repeat split; [apply P; constructor|lia|lia]. }
  destruct G as (G1 & G2 & G3). apply (small_converts ft m s SH FO G1); unfold lenN; lia.
Qed.
Print Assumptions C195_ply.
Theorem C195_obj : forall ft file, parses_doubles ft -> below_4gb file -> exists m r, (forall k, length file < k -> load_obj_mesh ft k file = Some (m, r)) /\ converts ft m.
Proof.
  intros ft file D B. destruct (C102_obj_mesh ft file) as (m & r & H & _ & s & SH & FO). exists m, r. split; [exact H|]. specialize (H (S (length file)) ltac:(lia)). unfold below_4gb, lenN in B.
  destruct (fold_grows _ _ point_double (line_next_item (obj_mesh_step ft) point_double (fun s t a s' => obj_item ft s t a s' D)) (grows_mesh_add ObjInvalidMeshIndices) _ _ _ _ _ H) as (P & Q & R). cbn [pc topology mesh_empty length] in *.
  apply (small_converts ft m s SH FO (P ltac:(constructor))); unfold lenN; lia.
Qed.
Print Assumptions C195_obj.
Theorem C195_off : forall ft file, parses_doubles ft -> below_4gb file -> exists m r, (forall k, length file < k -> load_off_mesh ft k file = Some (m, r)) /\ converts ft m.
Proof.
  intros ft file D B. destruct (C102_off_mesh ft file) as (m & r & H & _ & s & SH & FO). exists m, r. split; [exact H|]. specialize (H (S (length file)) ltac:(lia)). unfold below_4gb, lenN in B.
  destruct (fold_grows _ _ off_double (line_next_item (off_mesh_step ft) off_double (fun s t a s' => off_item ft s t a s' D)) grows_off _ _ _ _ _ H) as (P & Q & R). cbn [pc topology mesh_empty length] in *.
  apply (small_converts ft m s SH FO (P ltac:(constructor))); unfold lenN; lia.
Qed.
Print Assumptions C195_off.
Theorem C195_stl_duped : forall ft fmt file, parses_doubles ft -> below_1gb file -> exists m ns r, (forall k, length file < k -> load_stl_mesh_duped ft k fmt file mesh_empty [] = Some (m, ns, r)) /\ converts ft m.
Proof.
  intros ft fmt file D B. destruct (C194_duped ft fmt file) as (m & ns & r & H & _ & s & SH & FO & _). exists m, ns, r. split; [exact H|]. specialize (H (S (length file)) ltac:(lia)). unfold below_1gb, lenN in B.
  destruct (stl_any ft fmt file) as (is & r' & HI & _ & L & DI). unfold load_stl_mesh_duped in H. rewrite (HI (S (length file)) ltac:(lia)) in H. pose proof (duped_keeps is mesh_empty []) as K. destruct (fold_left duped_step is (mesh_empty, [])) as (m', ns'). injection H as -> -> ->.
  cbn [pc topology mesh_empty length] in K. destruct K as (P & Q & R). apply (small_converts ft m s SH FO (R (DI D) ltac:(constructor))); unfold lenN; lia.
Qed.
Print Assumptions C195_stl_duped.
Theorem C195_stl_unique : forall ft same fmt file, parses_doubles ft -> below_1gb file -> exists m ns r, (forall k, length file < k -> load_stl_mesh_unique ft same k fmt file mesh_empty [] = Some (m, ns, r)) /\ converts ft m.
Proof.
  intros ft same fmt file D B. destruct (C194_unique ft same fmt file) as (m & ns & r & H & _ & s & SH & FO & _). exists m, ns, r. split; [exact H|]. specialize (H (S (length file)) ltac:(lia)). unfold below_1gb, lenN in B.
  destruct (stl_any ft fmt file) as (is & r' & HI & _ & L & DI). unfold load_stl_mesh_unique in H. rewrite (HI (S (length file)) ltac:(lia)) in H. pose proof (unique_keeps same is mesh_empty [] [] valid_empty eq_refl) as K.
  destruct (fold_left (unique_step same) is (mesh_empty, [], [])) as ((m', map), ns'). injection H as -> -> ->. cbn [pc topology mesh_empty length] in K. destruct K as (_ & _ & P & Q & R). apply (small_converts ft m s SH FO (R (DI D) ltac:(constructor))); unfold lenN; lia.
Qed.
Print Assumptions C195_stl_unique.
(** Integers only. *)
Definition case_ft : FText := mkft demo_print demo_print (fun s => option_map fz (parse_Z s)).
Definition case_off : bytes := unlines (map str ["OFF"; "4 3"; "0 0 0"; "2 0 0"; "0 3 0"; "0 0 4"; "3 0 1 2"; "3 3 1 3"; "3 1 2 3"]%string).
(** The second face of the file is refused; what came before it is saved and loaded again. *)
Example C195_case : parses_doubles case_ft /\ below_4gb case_off /\
  load_off_mesh case_ft 1000 case_off = Some (Mesh [fp3 0 0 0; fp3 2 0 0; fp3 0 3 0; fp3 0 0 4] [0; 1; 2]%N, Err (WNone OffInvalidMeshIndices)) /\
  load_ply_mesh case_ft 1000 (bytes_of (save_ply_binary P64 (Mesh [fp3 0 0 0; fp3 2 0 0; fp3 0 3 0; fp3 0 0 4] [0; 1; 2]%N) None)) = Some (Mesh [fp3 0 0 0; fp3 2 0 0; fp3 0 3 0; fp3 0 0 4] [0; 1; 2]%N, Ok tt).
Proof.
  split; [|split; [vm_compute; reflexivity|split; vmeq]]. intros w x H. cbn [fparse case_ft] in H. destruct (parse_Z w) as [z|]; [|discriminate]. injection H as <-. exact (FloatBridge.double_lit z 0).
Qed.
