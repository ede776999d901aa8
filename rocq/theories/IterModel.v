(** The public iterators over .ply and .stl files, on top of the iterators of ReaderModel.v. *)
From Verif Require Import Base Num ByteModel PlyModel StlModel IoModel ReaderModel.

(** What next of a PlyMeshIterator gives, src/io/types.rs:57-61. *)
Inductive ply_mesh_item : Type := PReserve (data faces : N) | PItem (x : mesh_item).
(** The state of PlyMeshIterator, src/io/ply/iterators.rs:36-43: [to_reserve] until the first call, and the inner iterator with its header. *)
Inductive ply_mesh_state : Type :=
| PlyMeshAscii (to_reserve : option (N * N)) (v : vertex_data) (f : face_data) (s : mesh_iter ascii_reader)
| PlyMeshBinary (to_reserve : option (N * N)) (en : endian) (v : vertex_data) (f : face_data) (s : mesh_iter binary_reader).
(** PlyMeshIterator::new, src/io/ply/iterators.rs:50-77. *)
Definition ply_mesh_iterator (r : reader) : outcome (with_line PlyError) ply_mesh_state :=
  match load_header_from (calls_left r) h_start 0 r with
  | Ok (mkheader fmt v (Some f), r, i) =>
      let n := Some (vd_count v, fd_count f) in
      Ok (match fmt with
          | FAscii => PlyMeshAscii n v f (IPoints (mkar r false 0 i))
          | FBinary en => PlyMeshBinary n en v f (IPoints (mkbr r false 0))
          end)
  | Ok (mkheader _ _ None, _, _) => Err (WNone LoadHeaderInvalid)
  | Err e => Err e
  | Panic => Panic
  end.
(** `.map(|x| x.map(..))` of the next functions, src/io/ply/iterators.rs:98,101,104,175. *)
Definition as_item {E A B} (f : A -> B) (x : option (outcome E A)) : option (outcome E B) :=
  match x with None => None | Some (Ok a) => Some (Ok (f a)) | Some (Err e) => Some (Err e) | Some Panic => Some Panic end.
(** PlyMeshIterator::next, src/io/ply/iterators.rs:87-107. *)
Definition ply_mesh_next (ft : FText) (s : ply_mesh_state) : option (outcome (with_line PlyError) ply_mesh_item) * ply_mesh_state :=
  match s with
  | PlyMeshAscii (Some (d, n)) v f i => (Some (Ok (PReserve d n)), PlyMeshAscii None v f i)
  | PlyMeshAscii None v f i => let (x, i) := ascii_mesh_next_from ft v f i in (as_item PItem x, PlyMeshAscii None v f i)
  | PlyMeshBinary (Some (d, n)) en v f i => (Some (Ok (PReserve d n)), PlyMeshBinary None en v f i)
  | PlyMeshBinary None en v f i => let (x, i) := simple_next (binary_mesh_next_from en v f) i in (as_item PItem x, PlyMeshBinary None en v f i)
  end.
(** The state of PlyPointsIterator, src/io/ply/iterators.rs:118-125. *)
Inductive ply_points_state : Type :=
| PlyPointsAscii (to_reserve : option N) (v : vertex_data) (s : ascii_reader)
| PlyPointsBinary (to_reserve : option N) (en : endian) (v : vertex_data) (s : binary_reader).
(** PlyPointsIterator::new, src/io/ply/iterators.rs:132-155. *)
Definition ply_points_iterator (r : reader) : outcome (with_line PlyError) ply_points_state :=
  match load_header_from (calls_left r) h_start 0 r with
  | Ok (mkheader fmt v _, r, i) =>
      let n := Some (vd_count v) in
      Ok (match fmt with
          | FAscii => PlyPointsAscii n v (mkar r false 0 i)
          | FBinary en => PlyPointsBinary n en v (mkbr r false 0)
          end)
  | Err e => Err e
  | Panic => Panic
  end.
(** PlyPointsIterator::next, src/io/ply/iterators.rs:164-178. *)
Definition ply_points_next (ft : FText) (s : ply_points_state) : option (outcome (with_line PlyError) (data_reserve (pt3 F64))) * ply_points_state :=
  match s with
  | PlyPointsAscii (Some n) v i => (Some (Ok (Reserve n)), PlyPointsAscii None v i)
  | PlyPointsAscii None v i => let (x, i) := ascii_points_next_from ft v i in (as_item Data x, PlyPointsAscii None v i)
  | PlyPointsBinary (Some n) en v i => (Some (Ok (Reserve n)), PlyPointsBinary None en v i)
  | PlyPointsBinary None en v i => let (x, i) := simple_next (binary_next_from (vd_count v) (binary_vertex_from en v)) i in (as_item Data x, PlyPointsBinary None en v i)
  end.
(** The state of StlIterator, src/io/stl.rs:91-98. *)
Inductive stl_state : Type := StlAsciiState (s : stl_ascii_reader) | StlBinaryState (s : stl_binary_reader).
(** StlIterator::new, src/io/stl.rs:104-116. *)
Definition stl_iterator (fmt : StlFormat) (r : reader) : outcome (with_line StlError) stl_state :=
  match simple (stl_is_ascii_from fmt r) with
  | Ok (true, r) => Ok (StlAsciiState (mksar r false false 0))
  | Ok (false, r) => Ok (StlBinaryState (mksbr r false false 0 0))
  | Err e => Err e
  | Panic => Panic
  end.
(** StlIterator::next, src/io/stl.rs:124-130. *)
Definition stl_next (ft : FText) (s : stl_state) : option (outcome (with_line StlError) (StlModel.data_reserve stl_face)) * stl_state :=
  match s with
  | StlAsciiState s => let (x, s) := stl_ascii_next_from ft s in (x, StlAsciiState s)
  | StlBinaryState s => let (x, s) := stl_binary_next_from s in (x, StlBinaryState s)
  end.
