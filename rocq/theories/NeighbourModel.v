(** The default methods of IsSearchableMesh, src/is_searchable_mesh.rs:64-129, for SearchableMesh, which
    does not override them.  Vectors of the caller are passed and returned. *)
From Verif Require Import Base MeshModel HalfEdgeModel MeshAlgoModel.
Local Open Scope N_scope.

Section Neighbours.
Context {P : Type}.

(** `for edgeid in cache { self.edge_face( *edgeid).map(push).ok_or(IncorrectEdgeID)?; }`,
    src/is_searchable_mesh.rs:79-83. *)
Fixpoint push_faces (s : smesh P) (es result : list N) : list N * res unit :=
  match es with
  | [] => (result, Ok tt)
  | e :: r => match edge_face s e with
              | Some f => push_faces s r (result ++ [f])
              | None => (result, Err IncorrectEdgeID)
              end
  end.
(** Models faces_of_vertex, src/is_searchable_mesh.rs:70-85; returns (cache, result). *)
Definition faces_of_vertex (s : smesh P) (v : N) (cache result : list N) : (list N * list N) * res unit :=
  match edges_originating_from_vertex s v [] with
  | (c, Ok _) => let '(r, o) := push_faces s c result in ((c, r), o)
  | (c, Err e) => ((c, result), Err e)
  | (c, Panic) => ((c, result), Panic)
  end.
(** The closure add_twin_face, src/is_searchable_mesh.rs:93-97. *)
Definition add_twin_face (s : smesh P) (e : N) (result : list N) : list N :=
  match edge_twin s e with Some t => push_opt result (edge_face s t) | None => result end.
(** Models face_edge_neighbours, src/is_searchable_mesh.rs:87-104. *)
Definition face_edge_neighbours (s : smesh P) (f : N) (result : list N) : list N * res unit :=
  match edges_of_face s f with
  | None => (result, Err IncorrectFaceID)
  | Some (e1, e2, e3) => (add_twin_face s e3 (add_twin_face s e2 (add_twin_face s e1 result)), Ok tt)
  end.
(** The three calls with `?`, src/is_searchable_mesh.rs:119-123. *)
Fixpoint vertex_faces (s : smesh P) (vs cache result : list N) : (list N * list N) * res unit :=
  match vs with
  | [] => ((cache, result), Ok tt)
  | v :: r => match faces_of_vertex s v cache result with
              | ((c, l), Ok _) => vertex_faces s r c l
              | bad => bad
              end
  end.
(** Models face_vertex_neighbours, src/is_searchable_mesh.rs:107-128; face_vertex_ids is the one of the
    mesh, src/searchable_mesh.rs:88-90. *)
Definition face_vertex_neighbours (s : smesh P) (f : N) (cache result : list N) : (list N * list N) * res unit :=
  match face_vertex_ids (smesh_mesh s) f with
  | Ok (Some (a, b, c)) =>
      match vertex_faces s [a; b; c] [] result with
      | ((ca, l), Ok _) => ((ca, dedup_from None (usize_sort l)), Ok tt)
      | bad => bad
      end
  | Ok None => (([], result), Err IncorrectFaceID)
  | Err e => (([], result), Err e)
  | Panic => (([], result), Panic)
  end.
(** Models IsVertexEditableMesh of SearchableMesh, src/searchable_mesh.rs:107-113: the calls go to the mesh, the
    half edges stay.  (reserve_vertices, 115-117, has no observable effect.) *)
Inductive vop : Type := VAdd (p : P) | VChange (v : N) (p : P).
(** One such call; the returned ids and errors are those of the mesh, src/searchable_mesh.rs:107-113. *)
Definition smesh_edit (s : smesh P) (o : vop) : smesh P :=
  match o with
  | VAdd p => SMesh (fst (add_vertex (smesh_mesh s) p)) (smesh_he s)
  | VChange v p => SMesh (fst (change_vertex (smesh_mesh s) v p)) (smesh_he s)
  end.
End Neighbours.
Arguments vop : clear implicits.
