(** Mesh3D and the mesh traits. *)
From Verif Require Import Base.
Local Open Scope N_scope.

(** Face3, src/face3.rs:33-44. *)
Definition face3 : Set := (N * N * N)%type.

(** Mesh3D, src/mesh_3d.rs:33-42.  The point container (IsDataContainer) is a
    list; the index container (IsIndexContainer) is a list of indices, which is
    what Vec<usize> is and what C01 shows DynamicPrecisionIndexVec to be. *)
Record mesh (P : Type) : Type := Mesh { pc : list P; topology : list N }.
Arguments Mesh {P}. Arguments pc {P}. Arguments topology {P}.

Section MeshFunctions.
  Context {P : Type}.

  (** Mesh3D::default, src/mesh_3d.rs:31 (derive Default). *)
  Definition mesh_empty : mesh P := Mesh [] [].

  (** num_faces, src/mesh_3d.rs:50-52. *)
  Definition num_faces (m : mesh P) : N := lenN (topology m) / 3.

  (** num_vertices, src/mesh_3d.rs:54-56. *)
  Definition num_vertices (m : mesh P) : N := lenN (pc m).

  (** vertex, src/mesh_3d.rs:83-85. *)
  Definition vertex (m : mesh P) (v : N) : option P := nthN (pc m) v.

  (** face_vertex_ids, src/mesh_3d.rs:58-72, with the wrapping arithmetic of a release
      build (a debug build panics where the arithmetic would wrap).  The three gets
      panic when out of range (Panic), which only wrapping ids could provoke. *)
  Definition face_vertex_ids (m : mesh P) (f : N) : res (option face3) :=
    let id1 := w64 (w64 (3 * f) + 0) in
    let id2 := w64 (w64 (3 * f) + 1) in
    let id3 := w64 (w64 (3 * f) + 2) in
    if lenN (topology m) <=? id3 then Ok None
    else match nthN (topology m) id1, nthN (topology m) id2, nthN (topology m) id3 with
         | Some a, Some b, Some c => Ok (Some (a, b, c))
         | _, _, _ => Panic
         end.

  (** face_vertices, src/mesh_3d.rs:74-81. *)
  Definition face_vertices (m : mesh P) (f : N) : res (option (P * P * P)) :=
    obind (face_vertex_ids m f) (fun o =>
      match o with
      | None => Ok None
      | Some (a, b, c) =>
          match vertex m a, vertex m b, vertex m c with
          | Some v1, Some v2, Some v3 => Ok (Some (v1, v2, v3))
          | _, _, _ => Ok None
          end
      end).

  (** add_vertex, src/mesh_3d.rs:128-131. *)
  Definition add_vertex (m : mesh P) (p : P) : mesh P * N :=
    let m' := Mesh (pc m ++ [p]) (topology m) in (m', lenN (pc m') - 1).

  (** add_face, src/mesh_3d.rs:94-102. *)
  Definition add_face (m : mesh P) (v1 v2 v3 : P) : mesh P * N :=
    let '(m1, id1) := add_vertex m v1 in
    let '(m2, id2) := add_vertex m1 v2 in
    let '(m3, id3) := add_vertex m2 v3 in
    let m' := Mesh (pc m3) (((topology m3 ++ [id1]) ++ [id2]) ++ [id3]) in
    (m', lenN (topology m') / 3 - 1).

  (** try_add_connection, src/mesh_3d.rs:104-115. *)
  Definition try_add_connection (m : mesh P) (v1 v2 v3 : N) : mesh P * res N :=
    if (lenN (pc m) <=? v1) || (lenN (pc m) <=? v2) || (lenN (pc m) <=? v3) then (m, Err IncorrectVertexID)
    else if (v1 =? v2) || (v1 =? v3) || (v2 =? v3) then (m, Err FaceIDsNotUnique)
    else let m' := Mesh (pc m) (((topology m ++ [v1]) ++ [v2]) ++ [v3]) in
         (m', Ok (lenN (topology m') / 3 - 1)).

  (** change_vertex, src/mesh_3d.rs:133-140. *)
  Definition change_vertex (m : mesh P) (v : N) (p : P) : mesh P * res unit :=
    if v <? lenN (pc m) then (Mesh (setN (pc m) v p) (topology m), Ok tt)
    else (m, Err IncorrectVertexID).

  (** The editing calls of IsFaceEditableMesh / IsVertexEditableMesh,
      src/mesh_3d.rs:88-145. *)
  Inductive mop : Type :=
  | MAddVertex (p : P) | MAddFace (p q r : P) | MConnect (a b c : N) | MChange (v : N) (p : P).

  (** What the caller gets back from one editing call. *)
  Inductive mobs : Type := MVId (v : N) | MFId (f : N) | MDone | MErr (e : ErrorKind) | MPanic.

  (** One editing call (dispatch only, lines as above). *)
  Definition mesh_step (m : mesh P) (o : mop) : mesh P * mobs :=
    match o with
    | MAddVertex p => let '(m', v) := add_vertex m p in (m', MVId v)
    | MAddFace p q r => let '(m', f) := add_face m p q r in (m', MFId f)
    | MConnect a b c =>
        let '(m', r) := try_add_connection m a b c in
        (m', match r with Ok f => MFId f | Err e => MErr e | Panic => MPanic end)
    | MChange v p =>
        let '(m', r) := change_vertex m v p in
        (m', match r with Ok _ => MDone | Err e => MErr e | Panic => MPanic end)
    end.

  (** A history of editing calls: final mesh and everything returned. *)
  Fixpoint mesh_run (m : mesh P) (ops : list mop) : mesh P * list mobs :=
    match ops with
    | [] => (m, [])
    | o :: r => let '(m1, b) := mesh_step m o in
                let '(m2, bs) := mesh_run m1 r in (m2, b :: bs)
    end.
End MeshFunctions.
Arguments mop : clear implicits.
