(** Theorems about mesh algorithms on meshes assembled from points and indices that do not fit (C188). *)
From Verif Require Import Base BaseLemmas Num GeomSpec VecModel MeshModel MeshSpec MeshLemmas MeshAlgoModel MeshAlgoSpec MeshAlgoLemmas ShapeModel NormalModel IoModel IoSpec ByteModel StlModel PlyModel PlySpec PartsModel PartsSpec PartsLemmas BadMeshSpec BadMeshLemmas.
From Verif Require MeshAlgoProps.
Local Open Scope N_scope.

(** A face with a missing vertex makes healing panic; faces that name a vertex twice are healed away. *)
Theorem C188_heal : forall (P : Type) (same : P -> P -> bool) (ps : list P) (ids : list N), ids_fit ids -> equality same ->
  let m := mesh_from (ps, ids) in let s := MSpec ps (triples ids) in
  (lacking ps ids <-> heal_mesh same m = Panic) /\
  (~ lacking ps ids -> exists m' s', heal_mesh same m = Ok m' /\ shows m' s' /\ faces_ok s' /\ no_two_same same (svs s') /\
    Forall2 (fun f g => same_corners same s f s' g) (filter (fun f => negb (collapsed same s f)) (sfs s)) (sfs s')).
Proof.
  intros P same ps ids FIT Q m s.
  assert (H : ~ lacking ps ids -> exists m' s', heal_mesh same m = Ok m' /\ shows m' s' /\ faces_ok s' /\ no_two_same same (svs s') /\
    Forall2 (fun f g => same_corners same s f s' g) (filter (fun f => negb (collapsed same s f)) (sfs s)) (sfs s')).
  { intros L. destruct (MeshAlgoProps.C36_heal_mesh same m s Q (shows_from ps ids L) (bound ids FIT)) as (m' & s' & A & B & C & D & _ & _ & E). exists m', s'. auto. }
  split; [|exact H]. split; [apply heal_lacking; exact FIT|]. intros E. destruct (lacking_dec ps ids) as [L|L]; [exact L|].
  destruct (H L) as (m' & s' & A & _). congruence.
Qed.
Print Assumptions C188_heal.

(** Subdivision succeeds exactly for valid faces. *)
Theorem C188_subdivide : forall (P : Type) (mid : P -> P -> P) (ps : list P) (ids : list N), ids_fit ids ->
  (exists m', subdivide_linear mid (mesh_from (ps, ids)) = Ok m') <-> ~ lacking ps ids /\ ~ repeating ids.
Proof.
  intros P mid ps ids FIT. rewrite <- (ok_iff ps ids). split.
  - intros (m' & E). exact (subdivide_valid ps ids FIT mid m' E).
  - intros F. destruct (proj1 (ok_iff ps ids) F) as (L & _).
    destruct (MeshAlgoProps.C38_subdivide_linear mid (mesh_from (ps, ids)) (MSpec ps (triples ids)) (shows_from ps ids L) F (bound ids FIT)) as (m' & _ & _ & E & _). eauto.
Qed.
Print Assumptions C188_subdivide.

(** Unification of face directions panics for a missing vertex and never succeeds with a vertex named twice. *)
Theorem C188_unify : forall (NM : Num) (ps : list (pt3 NM)) (ids : list N) fuel, ids_fit ids ->
  (lacking ps ids -> unify_faces3 fuel (mesh_from (ps, ids)) = Some Panic) /\
  (forall m', unify_faces3 fuel (mesh_from (ps, ids)) = Some (Ok m') -> ~ lacking ps ids /\ ~ repeating ids).
Proof.
  intros NM ps ids fuel FIT. split; [apply unify_lacking; exact FIT|]. intros m' H. apply (ok_iff ps ids). exact (unify_valid ps ids FIT _ _ _ _ H).
Qed.
Print Assumptions C188_unify.

(** Normals of the vertices and saving as .stl panic for a missing vertex; saving as .ply goes ahead. *)
Theorem C188_normals_and_saving : forall ft pr (ps : list (pt3 F64)) (ids : list N), ids_fit ids ->
  (lacking ps ids -> normals_of_mesh (mesh_from (ps, ids)) = Panic /\ save_stl_ascii ft (mesh_from (ps, ids)) = Panic) /\
  (exists calls, save_ply_ascii ft (mesh_from (ps, ids)) None = Ok calls) /\ (exists calls, save_ply_binary pr (mesh_from (ps, ids)) None = Ok calls).
Proof.
  intros ft pr ps ids FIT. split; [|apply ply_saved; exact FIT]. intros L. split; [apply normals_lacking|apply stl_lacking]; assumption.
Qed.
Print Assumptions C188_normals_and_saving.

(** What is saved then is not what is loaded: the text cannot be loaded, the binary file is loaded as another mesh, as
    indices are cut to 32 bits. *)
Definition c188_ps : list (pt3 F64) := [fp3 0 0 0; fp3 2 0 0; fp3 0 (-3) 0].
Definition c188_calls (r : outcome PlyError (list write_call)) : list write_call := match r with Ok calls => calls | _ => [] end.
Definition c188_err {A} (r : option (A * outcome (with_line PlyError) unit)) : option (with_line PlyError) := match r with Some (_, Err e) => Some e | _ => None end.
Definition c188_m : mesh (pt3 F64) := mesh_from (c188_ps, [0; 1; 2 ^ 32 + 2]).
Theorem C188_saved_ply_refuted : exists (m m' : mesh (pt3 F64)) (text bin : list write_call),
  save_ply_ascii demo m None = Ok text /\ save_ply_binary P64 m None = Ok bin /\ face_vertices m 0 = Ok None /\
  (exists l e, load_ply_mesh demo 1000 (all_bytes text) = Some (l, Err e)) /\
  load_ply_mesh demo 1000 (all_bytes bin) = Some (m', Ok tt) /\ face_vertices m' 0 = Ok (Some (fp3 0 0 0, fp3 2 0 0, fp3 0 (-3) 0)).
Proof.
  exists c188_m, (mesh_from (c188_ps, [0; 1; 2])), (c188_calls (save_ply_ascii demo c188_m None)), (c188_calls (save_ply_binary P64 c188_m None)).
  split; [vmeq|]. split; [vmeq|]. split; [vmeq|].
  assert (E : c188_err (load_ply_mesh demo 1000 (all_bytes (c188_calls (save_ply_ascii demo c188_m None)))) <> None) by (vm_compute; discriminate).
  split; [|split; vmeq]. destruct (load_ply_mesh demo 1000 _) as [[l [u|e|]]|]; cbn [c188_err] in E; try (exfalso; apply E; reflexivity). eauto.
Qed.
Print Assumptions C188_saved_ply_refuted.

Example C188_case : lacking c188_ps [0; 1; 3] /\ ids_fit [0; 1; 3] /\ repeating [0; 1; 1] /\ ~ lacking c188_ps [0; 1; 1; 0; 1; 2] /\
  heal_mesh (fun p q => neqb (px p) (px q) && neqb (py p) (py q)) (mesh_from (c188_ps, [0; 1; 1; 0; 1; 2])) = Ok (mesh_from (c188_ps, [0; 1; 2])) /\
  subdivide_linear (fun p q => p) (mesh_from (c188_ps, [0; 1; 1])) = Err FaceIDsNotUnique /\
  unify_faces3 5 (mesh_from (c188_ps, [0; 1; 2; 0; 1; 3])) = Some Panic.
Proof.
  split; [exists 0, 1, 3; split; [left; reflexivity|reflexivity]|]. split; [vm_compute; reflexivity|]. split; [exists 0, 1, 1; split; [left; reflexivity|auto]|].
  split; [intros (a & b & c & [E|[E|[]]] & T); injection E as <- <- <-; discriminate|]. split; [vmeq|]. split; vmeq.
Qed.
