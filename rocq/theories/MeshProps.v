(** Properties C03, C04 (Mesh3D editing). *)
From Verif Require Import Base MeshModel MeshSpec MeshLemmas.
Local Open Scope N_scope.

(** C03: any history of editing calls on an empty mesh behaves like the specification, the
    resulting mesh shows exactly the specified vertices and faces, all faces are valid. *)
Theorem C03_mesh_history_refines_spec : forall (P : Type) (ops : list (mop P)),
  exists s, mspec_run (MSpec [] []) ops s (snd (mesh_run mesh_empty ops)) /\
            shows (fst (mesh_run mesh_empty ops)) s /\ faces_ok s.
Proof. exact @mesh_refines. Qed.
Print Assumptions C03_mesh_history_refines_spec.

(** C03: ids handed out stay valid and keep their meaning under further editing. *)
Theorem C03_mesh_ids_stay_valid : forall (P : Type) (ops1 ops2 : list (mop P)),
  let m1 := fst (mesh_run mesh_empty ops1) in
  let m2 := fst (mesh_run mesh_empty (ops1 ++ ops2)) in
  (forall v, vertex m1 v <> None -> vertex m2 v <> None) /\
  (forall f, 3 * f + 2 < 2 ^ 64 -> f < num_faces m1 -> face_vertex_ids m2 f = face_vertex_ids m1 f) /\
  num_vertices m1 <= num_vertices m2 /\ num_faces m1 <= num_faces m2.
Proof. exact @mesh_ids_stable. Qed.
Print Assumptions C03_mesh_ids_stay_valid.

Example C03_case :
  let ops := [MAddFace 10 11 12; MAddVertex 13; MConnect 0 1 3; MConnect 0 1 9; MConnect 1 1 2; MChange 1 99] in
  snd (mesh_run (@mesh_empty N) ops) =
    [MFId 0; MVId 3; MFId 1; MErr IncorrectVertexID; MErr FaceIDsNotUnique; MDone]%N
  /\ face_vertices (fst (mesh_run mesh_empty ops)) 1 = Ok (Some (10, 99, 13)).
Proof. vm_compute; auto. Qed.

(** C04: outcome and frame of the fallible edits, on an arbitrary mesh. *)
Theorem C04_try_add_connection_outcome : forall (P : Type) (m : mesh P) (a b c : N),
  let r := try_add_connection m a b c in
  let out := num_vertices m <= a \/ num_vertices m <= b \/ num_vertices m <= c in
  let dup := a = b \/ a = c \/ b = c in
  (snd r = Err IncorrectVertexID <-> out) /\
  (snd r = Err FaceIDsNotUnique <-> ~ out /\ dup) /\
  ((exists f, snd r = Ok f) <-> ~ out /\ ~ dup) /\
  (snd r <> Panic) /\
  ((forall f, snd r <> Ok f) -> fst r = m).
Proof. exact @connect_outcome. Qed.
Print Assumptions C04_try_add_connection_outcome.

Theorem C04_change_vertex_outcome : forall (P : Type) (m : mesh P) (v : N) (p : P),
  (snd (change_vertex m v p) = Err IncorrectVertexID <-> num_vertices m <= v) /\
  (snd (change_vertex m v p) = Ok tt <-> v < num_vertices m) /\
  (num_vertices m <= v -> fst (change_vertex m v p) = m).
Proof. exact @change_outcome. Qed.
Print Assumptions C04_change_vertex_outcome.

Example C04_case : snd (try_add_connection (Mesh [0; 0; 0]%nat []) 7 7 1) = Err IncorrectVertexID /\
  snd (try_add_connection (Mesh [0; 0; 0]%nat []) 2 2 1) = Err FaceIDsNotUnique /\
  snd (try_add_connection (Mesh [0; 0; 0]%nat []) 2 0 1) = Ok 0.
Proof. vm_compute; auto. Qed.

(** C75: in a release build (wrapping usize arithmetic) there is a face id far above the number of
    faces for which every mesh with at least two faces returns vertex ids - of no face of the mesh. *)
Theorem C75_out_of_range_face_id_aliases : forall (P : Type) (m : mesh P) (a b c d : N) (r : list N),
  topology m = a :: b :: c :: d :: r ->
  face_vertex_ids m 12297829382473034411 = Ok (Some (b, c, d)).
Proof. exact @alias_face. Qed.
Print Assumptions C75_out_of_range_face_id_aliases.

Example C75_case : 
  let m := fst (mesh_run (@mesh_empty N) [MAddFace 1 2 3; MAddFace 4 5 6]) in
  num_faces m = 2 /\ 12297829382473034411 < 2 ^ 64 /\
  face_vertex_ids m 12297829382473034411 = Ok (Some (1, 2, 3)) /\
  face_vertices m 12297829382473034411 = Ok (Some (2, 3, 4)).
Proof. vm_compute; auto. Qed.
