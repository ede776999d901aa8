(** Properties C05 - C09 (half edges of a mesh). *)
From Verif Require Import Base MeshModel HalfEdgeModel HalfEdgeSpec HalfEdgeLemmas HalfEdgeLemmas2.
Local Open Scope N_scope.

(** C05 *)
Theorem C05_half_edge_topology : forall (P : Type) (m : mesh P), fits m -> exists s, smesh_new m = Ok s /\
  num_edges s = 3 * num_faces m /\
  (forall e, e < num_edges s -> exists n p f,
      edge_next s e = Some n /\ edge_prev s e = Some p /\ n < num_edges s /\ p < num_edges s /\
      edge_prev s n = Some e /\ edge_next s p = Some e /\ edge_next s n = Some p /\ n <> e /\ p <> e /\
      edge_face s e = Some f /\ edge_face s n = Some f /\ edge_face s p = Some f /\ f < num_faces m) /\
  (forall e, num_edges s <= e ->
      edge_next s e = None /\ edge_prev s e = None /\ edge_face s e = None /\
      edge_tail s e = None /\ edge_head s e = None /\ edge_twin s e = None) /\
  (forall f, f < num_faces m -> exists a b c,
      edges_of_face s f = Some (a, b, c) /\ edge_next s a = Some b /\ edge_next s b = Some c /\
      edge_next s c = Some a /\ forall e, edge_face s e = Some f <-> (e = a \/ e = b \/ e = c)) /\
  (forall f, num_faces m <= f -> edges_of_face s f = None).
Proof. exact C05_l. Qed.
Print Assumptions C05_half_edge_topology.

(** C06: the three edges of face (a,b,c) run a->b, b->c, c->a. *)
Theorem C06_edges_of_face_follow_vertices : forall (P : Type) (m : mesh P) (s : smesh P) (f a b c : N),
  fits m -> smesh_new m = Ok s -> f < num_faces m -> face_vertex_ids m f = Ok (Some (a, b, c)) ->
  exists e1 e2 e3, edges_of_face s f = Some (e1, e2, e3) /\
    edge_tail s e1 = Some a /\ edge_head s e1 = Some b /\
    edge_tail s e2 = Some b /\ edge_head s e2 = Some c /\
    edge_tail s e3 = Some c /\ edge_head s e3 = Some a.
Proof. exact (fun P m s f a b c H E => face_edges m s (smesh_he_of m s H E) f a b c H). Qed.
Print Assumptions C06_edges_of_face_follow_vertices.

(** C07 *)
Theorem C07_edges_originating_exact : forall (P : Type) (m : mesh P) (s : smesh P) (v : N) (res : list N),
  fits m -> smesh_new m = Ok s ->
  (covered s v ->
     edges_originating_from_vertex s v res =
     (res ++ filter (fun e => match edge_tail s e with Some w => w =? v | None => false end) (edge_ids s), Ok tt)) /\
  (~ covered s v -> edges_originating_from_vertex s v res = (res, Err IncorrectVertexID)).
Proof. exact (fun P m s v res H E => originating m s (smesh_he_of m s H E) v res). Qed.
Print Assumptions C07_edges_originating_exact.

(** C08 *)
Theorem C08_edges_ending_exact : forall (P : Type) (m : mesh P) (s : smesh P) (v : N) (cache res : list N),
  fits m -> smesh_new m = Ok s ->
  (covered s v -> exists c l, edges_ending_at_vertex s v cache res = ((c, res ++ l), Ok tt) /\
      NoDup l /\ forall e, In e l <-> edge_head s e = Some v) /\
  (~ covered s v -> edges_ending_at_vertex s v cache res = (([], res), Err IncorrectVertexID)).
Proof.
  exact (fun P m s v cache res H E =>
    let T := ending m s (smesh_he_of m s H E) v cache res in
    conj (fun Hc => ex_intro _ _ (proj1 T Hc)) (proj2 T)).
Qed.
Print Assumptions C08_edges_ending_exact.

Theorem C08_edges_of_vertex_exact : forall (P : Type) (m : mesh P) (s : smesh P) (v : N) (cache res : list N),
  fits m -> smesh_new m = Ok s ->
  (covered s v -> exists c l, edges_of_vertex s v cache res = ((c, res ++ l), Ok tt) /\
      forall e, count_occ N.eq_dec l e =
         (is_v (edge_tail s e) v + is_v (edge_head s e) v)%nat) /\
  (~ covered s v -> edges_of_vertex s v cache res = (([], res), Err IncorrectVertexID)).
Proof.
  exact (fun P m s v cache res H E =>
    let T := all_edges m s (smesh_he_of m s H E) v cache res in
    conj (fun Hc => ex_intro _ _ (proj1 T Hc)) (proj2 T)).
Qed.
Print Assumptions C08_edges_of_vertex_exact.

Theorem C08_faces_of_vertex_exact : forall (P : Type) (m : mesh P) (s : smesh P) (v : N) (cache res : list N),
  fits m -> smesh_new m = Ok s ->
  (covered s v -> exists ca l, he_faces (smesh_he s) v cache res = ((ca, res ++ l), Ok tt) /\
      (forall f a b c, f < num_faces m -> face_vertex_ids m f = Ok (Some (a, b, c)) ->
         count_occ N.eq_dec l f = count_occ N.eq_dec [a; b; c] v) /\
      (forall f, In f l -> f < num_faces m)) /\
  (~ covered s v -> he_faces (smesh_he s) v cache res = (([], res), Err IncorrectVertexID)).
Proof.
  exact (fun P m s v cache res H E =>
    let T := faces_of m s (smesh_he_of m s H E) v cache res H in
    conj (fun Hc => ex_intro _ _ (proj1 T Hc)) (proj2 T)).
Qed.
Print Assumptions C08_faces_of_vertex_exact.

(** C09: what edge_twin really returns ... *)
Theorem C09_twin_is_successor_of_opposite : forall (P : Type) (m : mesh P) (s : smesh P) (e t : N),
  fits m -> smesh_new m = Ok s -> edge_twin s e = Some t ->
  exists o, opposite s e o /\ edge_next s o = Some t /\ edge_tail s t = edge_tail s e /\ edge_face s t = edge_face s o.
Proof. exact (fun P m s e t H E => twin_some m s (smesh_he_of m s H E) e t). Qed.
Print Assumptions C09_twin_is_successor_of_opposite.

Theorem C09_no_twin_means_no_opposite : forall (P : Type) (m : mesh P) (s : smesh P) (e o : N),
  fits m -> smesh_new m = Ok s -> edge_twin s e = None -> ~ opposite s e o.
Proof. exact (fun P m s e o H E => twin_none m s (smesh_he_of m s H E) e o). Qed.
Print Assumptions C09_no_twin_means_no_opposite.

(** ... and hence it is never an opposite edge of a non-degenerate edge. *)
Theorem C09_twin_never_opposite : forall (P : Type) (m : mesh P) (s : smesh P) (e t : N),
  fits m -> smesh_new m = Ok s -> edge_twin s e = Some t -> edge_tail s e <> edge_head s e -> ~ opposite s e t.
Proof. exact (fun P m s e t H E => twin_not_opposite m s (smesh_he_of m s H E) e t). Qed.
Print Assumptions C09_twin_never_opposite.

(** A mesh of two triangles sharing an edge, with an isolated trailing vertex 4. *)
Definition two_tris : mesh N := Mesh [0; 0; 0; 0; 0] [0; 1; 2; 2; 1; 3].
Example C05_C09_case : fits two_tris /\ exists s, smesh_new two_tris = Ok s /\
  edge_tail s 1 = Some 1 /\ edge_head s 1 = Some 2 /\ opposite s 1 3 /\
  edge_twin s 1 = Some 4 /\ edge_tail s 4 = Some 1 /\ edge_twin s 0 = None /\
  edges_originating_from_vertex s 1 [77] = ([77; 1; 4], Ok tt) /\
  edges_ending_at_vertex s 1 [5] [] = (([1; 4], [0; 3]), Ok tt) /\
  edges_of_vertex s 2 [] [] = (([2; 3], [2; 1; 3; 5]), Ok tt) /\
  he_faces (smesh_he s) 2 [] [] = (([2; 3], [0; 1]), Ok tt) /\
  covered s 3 /\ vertex two_tris 4 = Some 0 /\ edges_originating_from_vertex s 4 [] = ([], Err IncorrectVertexID).
Proof.
  split; [vm_compute; reflexivity|]. eexists; split; [vm_compute; reflexivity|].
  repeat match goal with |- _ /\ _ => split end; try (vm_compute; reflexivity).
  - exists 1, 2; vm_compute; auto.
  - exists 5, 3; vm_compute; split; [reflexivity|discriminate].
Qed.
