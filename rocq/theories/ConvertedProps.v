(** Theorems about data converted to always have a bounding box, and trees of it (C196). *)
From Verif Require Import Base BaseLemmas Num NumLemmas FloatLemmas BBoxModel BBoxLemmas GeomSpec MatrixModel LineModel AabbModel AabbSpec AabbLemmas
  MeshModel HalfEdgeModel PlaceModel ConvertedModel ConvertedSpec ConvertedLemmas.
From Coq Require Import Floats.SpecFloat.

(** Whatever passed the conversion is kept as it was and never panics when asked for its box. *)
Theorem C196_box : forall (A BB : Type) (maybe : A -> res (option BB)) a c, conv_new maybe a = Ok (Some c) ->
  conv_get c = a /\ exists b, conv_bounding_box maybe c = Ok b /\ conv_bounding_box_maybe maybe c = Ok (Some b) /\ maybe a = Ok (Some b).
Proof.
  intros A BB maybe a c H. unfold conv_new in H. destruct (maybe a) as [[b|]|e|] eqn:E; cbn [obind] in H; try discriminate H.
  injection H as <-. split; [reflexivity|]. exists b. unfold conv_bounding_box, conv_bounding_box_maybe. cbn [conv_data]. rewrite E. repeat split.
Qed.
Print Assumptions C196_box.

(** Exactly the clouds whose points do not share a coordinate can be converted; nothing panics. *)
Theorem C196_clouds_3d : forall dbg (ps : list (pt3 F64)), fine3 ps ->
  (spread3 ps /\ conv_new (pts3_bb_maybe dbg) ps = Ok (Some (mkconverted ps))) \/
  (~ spread3 ps /\ conv_new (pts3_bb_maybe dbg) ps = Ok None).
Proof.
  intros dbg ps F. unfold conv_new. destruct (maybe3 dbg ps F) as [(b & E & S & _)|(E & S)]; rewrite E; cbn [obind]; auto.
Qed.
Print Assumptions C196_clouds_3d.
Theorem C196_clouds_2d : forall dbg (ps : list (pt2 F64)), fine2 ps ->
  (spread2 ps /\ conv_new (pts2_bb_maybe dbg) ps = Ok (Some (mkconverted ps))) \/
  (~ spread2 ps /\ conv_new (pts2_bb_maybe dbg) ps = Ok None).
Proof.
  intros dbg ps F. unfold conv_new. destruct (maybe2 dbg ps F) as [(b & E & S & _)|(E & S)]; rewrite E; cbn [obind]; auto.
Qed.
Print Assumptions C196_clouds_2d.
Theorem C196_meshes : forall dbg (m : mesh (pt3 F64)), fine3 (pc m) ->
  (spread3 (pc m) /\ conv_new (mesh_bounding_box_maybe dbg) m = Ok (Some (mkconverted m))) \/
  (~ spread3 (pc m) /\ conv_new (mesh_bounding_box_maybe dbg) m = Ok None).
Proof.
  intros dbg m F. unfold conv_new, mesh_bounding_box_maybe. destruct (maybe3 dbg (pc m) F) as [(b & E & S & _)|(E & S)]; rewrite E; cbn [obind]; auto.
Qed.
Print Assumptions C196_meshes.

(** A tree of converted clouds finds exactly those with points on both sides of a plane across an axis. *)
Theorem C196_tree_clouds : forall dbg (cs : list (converted (list (pt3 F64)))) bbox maxdepth bucket v before,
  (forall c, In c cs -> fine3 (conv_get c)) ->
  (forall c, In c cs -> conv_bounding_box (pts3_bb_maybe dbg) c = Ok (bbox c)) ->
  let t := aabb3_new bbox cs maxdepth bucket in
  (exists found, aabb3_crossing_x bbox v t before = Ok (before ++ found) /\
     forall c, In c found <-> In c cs /\ both_sides px v (conv_get c)) /\
  (exists found, aabb3_crossing_y bbox v t before = Ok (before ++ found) /\
     forall c, In c found <-> In c cs /\ both_sides py v (conv_get c)) /\
  (exists found, aabb3_crossing_z bbox v t before = Ok (before ++ found) /\
     forall c, In c found <-> In c cs /\ both_sides pz v (conv_get c)).
Proof. intros dbg cs bbox maxdepth bucket v before F B. exact (tree3 (fun ps => ps) dbg cs bbox maxdepth bucket v before F B). Qed.
Print Assumptions C196_tree_clouds.
(** The same of meshes and their vertices. *)
Theorem C196_tree_meshes : forall dbg (cs : list (converted (mesh (pt3 F64)))) bbox maxdepth bucket v before,
  (forall c, In c cs -> fine3 (pc (conv_get c))) ->
  (forall c, In c cs -> conv_bounding_box (mesh_bounding_box_maybe dbg) c = Ok (bbox c)) ->
  let t := aabb3_new bbox cs maxdepth bucket in
  (exists found, aabb3_crossing_x bbox v t before = Ok (before ++ found) /\
     forall c, In c found <-> In c cs /\ both_sides px v (pc (conv_get c))) /\
  (exists found, aabb3_crossing_y bbox v t before = Ok (before ++ found) /\
     forall c, In c found <-> In c cs /\ both_sides py v (pc (conv_get c))) /\
  (exists found, aabb3_crossing_z bbox v t before = Ok (before ++ found) /\
     forall c, In c found <-> In c cs /\ both_sides pz v (pc (conv_get c))).
Proof. intros dbg cs bbox maxdepth bucket v before F B. exact (tree3 (fun m => pc m) dbg cs bbox maxdepth bucket v before F B). Qed.
Print Assumptions C196_tree_meshes.
(** The same of clouds and polygons in the plane. *)
Theorem C196_tree_2d : forall dbg (cs : list (converted (list (pt2 F64)))) bbox maxdepth bucket v before,
  (forall c, In c cs -> fine2 (conv_get c)) ->
  (forall c, In c cs -> conv_bounding_box (pts2_bb_maybe dbg) c = Ok (bbox c)) ->
  let t := aabb2_new bbox cs maxdepth bucket in
  (exists found, aabb2_crossing_x bbox v t before = Ok (before ++ found) /\
     forall c, In c found <-> In c cs /\ both_sides x2 v (conv_get c)) /\
  (exists found, aabb2_crossing_y bbox v t before = Ok (before ++ found) /\
     forall c, In c found <-> In c cs /\ both_sides y2 v (conv_get c)).
Proof. intros dbg cs bbox maxdepth bucket v before F B. exact (tree2 cs dbg bbox maxdepth bucket v before F B). Qed.
Print Assumptions C196_tree_2d.

(** Two clouds that can be converted and one, in a plane, that cannot; a plane cuts the first but not the second. *)
Example C196_case :
  let a := [fp3 0 0 0; fp3 4 1 1] in let b := [fp3 1 0 0; fp3 2 5 5; fp3 0 1 1] in let flat := [fp3 0 0 3; fp3 4 1 3] in
  let cs := [mkconverted a; mkconverted b] in
  let bbox c := match conv_bounding_box (pts3_bb_maybe true) c with Ok b => b | _ => bb3_default end in
  (forall c, In c cs -> fine3 (conv_get c)) /\
  (forall c, In c cs -> conv_bounding_box (pts3_bb_maybe true) c = Ok (bbox c)) /\
  conv_new (pts3_bb_maybe true) a = Ok (Some (mkconverted a)) /\ conv_new (pts3_bb_maybe true) flat = Ok None /\
  aabb3_crossing_x bbox (fz 3) (aabb3_new bbox cs 4 1) [] = Ok [mkconverted a].
Proof.
  cbv zeta. split; [|split; [|split; [vmeq|split; [vmeq|vmeq]]]].
  - intros c [<-|[<-|[]]]; (split; [|cbn; lia]); intros p ax I X; cbn [conv_get conv_data In] in I;
    repeat (destruct I as [<-|I]; [destruct X as [->|[->| ->]]; (split; [|intros s]; intros H; vm_compute in H; discriminate H)|]); destruct I.
  - intros c [<-|[<-|[]]]; vmeq.
Qed.
