(** HalfEdge and SearchableMesh. *)
From Verif Require Import Base MeshModel.
Local Open Scope N_scope.

(** HalfEdge, src/half_edge.rs:31-38 (index containers as lists, see MeshModel). *)
Record halfedge : Set := HalfEdge { tails : list N; twins : list (option N); vse : list (list N) }.

(** ensure_edge_id, src/half_edge.rs:205-210. *)
Definition he_edge_ok (h : halfedge) (e : N) : bool := e <? lenN (tails h).

(** tail, src/half_edge.rs:123-126 (the get cannot be out of range after the check). *)
Definition he_tail (h : halfedge) (e : N) : option N :=
  if he_edge_ok h e then nthN (tails h) e else None.

(** face, src/half_edge.rs:128-131. *)
Definition he_face (h : halfedge) (e : N) : option N :=
  if he_edge_ok h e then Some (e / 3) else None.

(** twin, src/half_edge.rs:133-136. *)
Definition he_twin (h : halfedge) (e : N) : option N :=
  if he_edge_ok h e then match nthN (twins h) e with Some t => t | None => None end else None.

(** next, src/half_edge.rs:138-144, last_in_face :201-203. *)
Definition he_next (h : halfedge) (e : N) : option N :=
  if he_edge_ok h e then (if e mod 3 =? 2 then Some (e - 2) else Some (e + 1)) else None.

(** prev, src/half_edge.rs:146-152, first_in_face :197-199. *)
Definition he_prev (h : halfedge) (e : N) : option N :=
  if he_edge_ok h e then (if e mod 3 =? 0 then Some (e + 2) else Some (e - 1)) else None.

(** edges_originating, src/half_edge.rs:154-158 with ensure_vertex_id :212-217;
    [result] is the caller's vector, the new content is returned. *)
Definition he_edges_originating (h : halfedge) (v : N) (result : list N) : list N * res unit :=
  match nthN (vse h) v with
  | None => (result, Err IncorrectVertexID)
  | Some es => (result ++ es, Ok tt)
  end.

(** `if let Some(x) = .. { result.push(x) }` (Rust idiom used in the loops below). *)
Definition push_opt (result : list N) (o : option N) : list N :=
  match o with Some x => result ++ [x] | None => result end.

(** edges_ending, src/half_edge.rs:161-170; returns (cache, result). *)
Definition he_edges_ending (h : halfedge) (v : N) (cache result : list N) : (list N * list N) * res unit :=
  match he_edges_originating h v [] with
  | (c, Ok _) => ((c, fold_left (fun r e => push_opt r (he_prev h e)) c result), Ok tt)
  | (c, Err e) => ((c, result), Err e)
  | (c, Panic) => ((c, result), Panic)
  end.

(** edges_all, src/half_edge.rs:173-183. *)
Definition he_edges_all (h : halfedge) (v : N) (cache result : list N) : (list N * list N) * res unit :=
  match he_edges_originating h v [] with
  | (c, Ok _) => ((c, fold_left (fun r e => push_opt (r ++ [e]) (he_prev h e)) c result), Ok tt)
  | (c, Err e) => ((c, result), Err e)
  | (c, Panic) => ((c, result), Panic)
  end.

(** faces, src/half_edge.rs:186-195. *)
Definition he_faces (h : halfedge) (v : N) (cache result : list N) : (list N * list N) * res unit :=
  match he_edges_originating h v [] with
  | (c, Ok _) => ((c, fold_left (fun r e => push_opt r (he_face h e)) c result), Ok tt)
  | (c, Err e) => ((c, result), Err e)
  | (c, Panic) => ((c, result), Panic)
  end.

(** safe_append_at, src/half_edge.rs:264-273 (capacity and precision hints have no
    observable effect and are omitted). *)
Definition safe_append_at (vec : list (list N)) (i val : N) : list (list N) :=
  let vec' := if lenN vec <=? i then vec ++ repeat [] (N.to_nat (i + 1 - lenN vec)) else vec in
  match nthN vec' i with
  | Some l => setN vec' i (l ++ [val])
  | None => vec'
  end.

Section New.
  Context {P : Type}.

  (** The face loop of HalfEdge::new, src/half_edge.rs:61-92; [n] faces remain, [i] is the loop variable. *)
  Fixpoint he_pass1 (m : mesh P) (n : nat) (i : N) (st : list N * list (list N)) : res (list N * list (list N)) :=
    match n with
    | O => Ok st
    | S k =>
        obind (face_vertex_ids m i) (fun o =>
          match o with
          | None => he_pass1 m k (i + 1) st
          | Some (a, b, c) =>
              let '(t, v) := st in
              he_pass1 m k (i + 1)
                (((t ++ [a]) ++ [b]) ++ [c],
                 safe_append_at (safe_append_at (safe_append_at v a (i * 3 + 0)) b (i * 3 + 1)) c (i * 3 + 2))
          end)
    end.

  (** The inner loop over the candidates, src/half_edge.rs:112-118; gets out of range panic. *)
  Fixpoint he_twin_scan (h : halfedge) (i : N) (cache : list N) (tw : list (option N)) : res (list (option N)) :=
    match cache with
    | [] => Ok tw
    | o :: rest =>
        match he_next h o with
        | None => he_twin_scan h i rest tw
        | Some cand =>
            match nthN (tails h) cand, nthN (tails h) i with
            | Some tc, Some ti =>
                if tc =? ti
                then (if i <? lenN tw then he_twin_scan h i rest (setN tw i (Some cand)) else Panic)
                else he_twin_scan h i rest tw
            | _, _ => Panic
            end
        end
    end.

  (** The twin loop, src/half_edge.rs:104-119; [n] edges remain. *)
  Fixpoint he_pass2 (h : halfedge) (n : nat) (i : N) (tw : list (option N)) : res (list (option N)) :=
    match n with
    | O => Ok tw
    | S k =>
        match he_next h i with
        | None => he_pass2 h k (i + 1) tw
        | Some nx =>
            match nthN (tails h) nx with
            | None => Panic
            | Some hd =>
                obind (he_twin_scan h i (fst (he_edges_originating h hd [])) tw)
                      (fun tw' => he_pass2 h k (i + 1) tw')
            end
        end
    end.

  (** HalfEdge::new, src/half_edge.rs:47-121. *)
  Definition he_new (m : mesh P) : res halfedge :=
    let n_faces := num_faces m in
    obind (he_pass1 m (N.to_nat n_faces) 0 ([], [])) (fun st =>
      let '(t, v) := st in
      let tw := repeat None (N.to_nat (3 * n_faces)) in
      let h := HalfEdge t tw v in
      obind (he_pass2 h (length t) 0 tw) (fun tw' => Ok (HalfEdge t tw' v))).

  (** SearchableMesh, src/searchable_mesh.rs:33-59: the mesh and its half edges. *)
  Record smesh : Type := SMesh { smesh_mesh : mesh P; smesh_he : halfedge }.
  (** SearchableMesh::new, src/searchable_mesh.rs:51-59. *)
  Definition smesh_new (m : mesh P) : res smesh := obind (he_new m) (fun h => Ok (SMesh m h)).
  (** num_edges, src/searchable_mesh.rs:125-127. *)
  Definition num_edges (s : smesh) : N := num_faces (smesh_mesh s) * 3.
  (** edges_of_face, src/searchable_mesh.rs:129-136, ensure_face_id :62-67. *)
  Definition edges_of_face (s : smesh) (f : N) : option (N * N * N) :=
    if num_faces (smesh_mesh s) <=? f then None else Some (f * 3 + 0, f * 3 + 1, f * 3 + 2).
  (** edge_tail / edge_head / edge_next / edge_prev / edge_twin / edge_face,
      src/searchable_mesh.rs:160-182. *)
  Definition edge_tail (s : smesh) (e : N) : option N := he_tail (smesh_he s) e.
  (** Models edge_head, src/searchable_mesh.rs:164-166. *)
  Definition edge_head (s : smesh) (e : N) : option N :=
    match he_next (smesh_he s) e with Some n => he_tail (smesh_he s) n | None => None end.
  (** Models edge_next, src/searchable_mesh.rs:168-170. *)
  Definition edge_next (s : smesh) (e : N) : option N := he_next (smesh_he s) e.
  (** Models edge_prev, src/searchable_mesh.rs:172-174. *)
  Definition edge_prev (s : smesh) (e : N) : option N := he_prev (smesh_he s) e.
  (** Models edge_twin, src/searchable_mesh.rs:176-178. *)
  Definition edge_twin (s : smesh) (e : N) : option N := he_twin (smesh_he s) e.
  (** Models edge_face, src/searchable_mesh.rs:180-182. *)
  Definition edge_face (s : smesh) (e : N) : option N := he_face (smesh_he s) e.
  (** edges_originating_from_vertex / edges_ending_at_vertex / edges_of_vertex,
      src/searchable_mesh.rs:138-158. *)
  Definition edges_originating_from_vertex (s : smesh) := he_edges_originating (smesh_he s).
  (** Models edges_ending_at_vertex, src/searchable_mesh.rs:142-149. *)
  Definition edges_ending_at_vertex (s : smesh) := he_edges_ending (smesh_he s).
  (** Models edges_of_vertex, src/searchable_mesh.rs:151-158. *)
  Definition edges_of_vertex (s : smesh) := he_edges_all (smesh_he s).
End New.
Arguments smesh : clear implicits.
