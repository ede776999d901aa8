(** Theorems about meshes, half edges and searchable meshes assembled from parts (C187). *)
From Verif Require HalfEdgeProps.
From Verif Require Import Base BaseLemmas MeshModel MeshSpec MeshLemmas HalfEdgeModel HalfEdgeSpec PartsModel PartsSpec PartsLemmas.
Local Open Scope N_scope.
From Coq Require Import ZifyBool ZifyNat ZifyN.
Ltac Zify.zify_post_hook ::= Z.div_mod_to_equations.

(** A mesh made of any points and indices has these points and one face per complete triple of indices; indices are not
    checked, a face with a missing vertex has ids but no vertices. *)
Theorem C187_mesh : forall (P : Type) (ps : list P) (ids : list N), let m := mesh_from (ps, ids) in
  mesh_into m = (ps, ids) /\ num_vertices m = N.of_nat (length ps) /\ (forall v, vertex m v = nth_error ps (N.to_nat v)) /\
  num_faces m = N.of_nat (length (triples ids)) /\
  (forall f, 3 * f + 2 < 2 ^ 64 -> face_vertex_ids m f = Ok (nth_error (triples ids) (N.to_nat f))) /\
  (forall f, 3 * f + 2 < 2 ^ 64 -> face_vertices m f = Ok match nth_error (triples ids) (N.to_nat f) with Some (a, b, c) => three ps a b c | None => None end).
Proof.
  intros P ps ids m. split; [reflexivity|]. split; [reflexivity|]. split; [intros v; apply nthN_nth_error|]. split; [apply triples_len|].
  split; [intros f H; apply from_face; exact H|]. intros f H. unfold face_vertices. subst m. rewrite from_face by exact H. cbn [obind].
  destruct (nth_error (triples ids) (N.to_nat f)) as [[[a b] c]|]; [|reflexivity]. unfold vertex, three. cbn [mesh_from pc fst snd]. rewrite !nthN_nth_error.
  destruct (nth_error ps (N.to_nat a)), (nth_error ps (N.to_nat b)), (nth_error ps (N.to_nat c)); reflexivity.
Qed.
Print Assumptions C187_mesh.

(** With complete triples of distinct, existing indices every history of edits goes on as specified. *)
Theorem C187_mesh_history : forall (P : Type) (ps : list P) (ids : list N) (ops : list (mop P)), lenN ids mod 3 = 0 -> faces_ok (MSpec ps (triples ids)) ->
  exists s, mspec_run (MSpec ps (triples ids)) ops s (snd (mesh_run (mesh_from (ps, ids)) ops)) /\ shows (fst (mesh_run (mesh_from (ps, ids)) ops)) s /\ faces_ok s.
Proof.
  intros P ps ids ops H F. destruct (run_sim ops (mesh_from (ps, ids)) (MSpec ps (triples ids))) as (s & A & B & C); [|exact F|].
  - split; [reflexivity|]. cbn [mesh_from topology snd sfs]. rewrite (triples_split ids) at 1. apply rest3_nil in H. rewrite H. apply app_nil_r.
  - exists s. split; [exact A|]. split; [apply abs_shows; assumption|exact C].
Qed.
Print Assumptions C187_mesh_history.

(** Left over indices become part of the next face: the id returned for an added face shows the given vertices exactly if
    there are none. *)
Theorem C187_added_face : forall (P : Type) (ps : list P) (ids : list N) a b c m f,
  try_add_connection (mesh_from (ps, ids)) a b c = (m, Ok f) -> 3 * f + 2 < 2 ^ 64 ->
  face_vertex_ids m f = Ok (nth_error (triples (rest3 ids ++ [a; b; c])) 0) /\
  (face_vertex_ids m f = Ok (Some (a, b, c)) <-> lenN ids mod 3 = 0).
Proof.
  intros P ps ids a b c m f H Hf. destruct (connect_from ps ids a b c m f H Hf) as (_ & F). split; [exact F|]. rewrite F, rest3_nil.
  assert (D : a <> b /\ a <> c /\ b <> c).
  { unfold try_add_connection in H. destruct (_ || _ || _); [discriminate|]. destruct (N.eqb_spec a b), (N.eqb_spec a c), (N.eqb_spec b c); cbn in H; try discriminate. tauto. }
  pose proof (rest3_length ids) as L. destruct (rest3 ids) as [|x [|y [|z l]]]; cbn [length app triples nth_error] in *; try lia.
  - split; reflexivity || tauto.
  - split; intros E; [injection E as E1 E2 E3; exfalso; destruct D as (D1 & D2 & D3); congruence|discriminate].
  - split; intros E; [injection E as E1 E2 E3; exfalso; destruct D as (D1 & D2 & D3); congruence|discriminate].
Qed.
Print Assumptions C187_added_face.

(** Half edges of any parts: taking apart and assembling changes nothing, and what each query answers. *)
Theorem C187_half_edge : forall tl tw vs, let h := he_from (tl, tw, vs) in let n := N.of_nat (length tl) in
  he_into h = (tl, tw, vs) /\ he_into_edges h = (tl, tw) /\ he_into_starts h = vs /\
  (forall e, n <= e -> he_tail h e = None /\ he_face h e = None /\ he_twin h e = None /\ he_next h e = None /\ he_prev h e = None) /\
  (forall e, e < n -> he_tail h e = nth_error tl (N.to_nat e) /\ he_face h e = Some (e / 3) /\
     he_twin h e = match nth_error tw (N.to_nat e) with Some t => t | None => None end /\
     (exists x, he_next h e = Some x /\ x / 3 = e / 3 /\ x mod 3 = (e + 1) mod 3) /\
     (exists x, he_prev h e = Some x /\ x / 3 = e / 3 /\ x mod 3 = (e + 2) mod 3)).
Proof.
  intros tl tw vs h n. do 3 (split; [reflexivity|]). unfold he_tail, he_face, he_twin, he_next, he_prev, he_edge_ok, lenN. cbn [h he_from tails twins fst snd].
  split; intros e H.
  - rewrite (proj2 (N.ltb_ge e _)) by exact H. repeat split.
  - rewrite (proj2 (N.ltb_lt e _)) by exact H. rewrite !nthN_nth_error. split; [reflexivity|]. split; [reflexivity|]. split; [destruct (nth_error tw (N.to_nat e)); reflexivity|].
    split; [destruct (N.eqb_spec (e mod 3) 2) as [E|E]|destruct (N.eqb_spec (e mod 3) 0) as [E|E]]; eexists; (split; [reflexivity|lia]).
Qed.
Print Assumptions C187_half_edge.

(** Following next or prev stays among the edges for every edge exactly if the number of tails is a multiple of three. *)
Theorem C187_next_range : forall tl tw vs, let h := he_from (tl, tw, vs) in
  (forall e x, he_next h e = Some x \/ he_prev h e = Some x -> he_tail h x <> None) <-> N.of_nat (length tl) mod 3 = 0.
Proof.
  intros tl tw vs h. destruct (C187_half_edge tl tw vs) as (_ & _ & _ & O & I). fold h in O, I. cbv zeta in O, I. set (n := N.of_nat (length tl)) in *. split.
  - intros H. destruct (N.eq_dec (n mod 3) 0) as [E|E]; [exact E|exfalso].
    assert (B : n - 1 < n) by lia. destruct (I _ B) as (_ & _ & _ & (x & X & X1 & X2) & (y & Y & Y1 & Y2)).
    destruct (N.le_gt_cases n x) as [L|L]; [apply (H _ _ (or_introl X)); apply (O x L)|].
    destruct (N.le_gt_cases n y) as [L2|L2]; [apply (H _ _ (or_intror Y)); apply (O y L2)|]. lia.
  - intros E e x H. destruct (N.le_gt_cases n e) as [L|L]; [destruct (O e L) as (_ & _ & _ & N1 & N2), H; congruence|].
    destruct (I e L) as (_ & _ & _ & (y & Y & Y1 & _) & (z & Z & Z1 & _)). assert (x < n) as B.
    { destruct H as [H|H]; rewrite H in *; [injection Y as <-|injection Z as <-]; lia. }
    destruct (I x B) as (T & _). rewrite T. apply nth_error_Some. lia.
Qed.
Print Assumptions C187_next_range.

(** What the vertex queries append: the stored ids, unchecked, and of these that are edges the previous edges and faces. *)
Theorem C187_vertex_queries : forall tl tw vs v cache out, let h := he_from (tl, tw, vs) in
  match nth_error vs (N.to_nat v) with
  | None => he_edges_originating h v out = (out, Err IncorrectVertexID) /\ he_edges_ending h v cache out = (([], out), Err IncorrectVertexID) /\
            he_edges_all h v cache out = (([], out), Err IncorrectVertexID) /\ he_faces h v cache out = (([], out), Err IncorrectVertexID)
  | Some es => he_edges_originating h v out = (out ++ es, Ok tt) /\
      he_edges_ending h v cache out = ((es, out ++ flat_map (fun e => match he_prev h e with Some x => [x] | None => [] end) es), Ok tt) /\
      he_edges_all h v cache out = ((es, out ++ flat_map (fun e => e :: match he_prev h e with Some x => [x] | None => [] end) es), Ok tt) /\
      he_faces h v cache out = ((es, out ++ flat_map (fun e => match he_face h e with Some x => [x] | None => [] end) es), Ok tt)
  end.
Proof.
  intros tl tw vs v cache out h. unfold he_edges_ending, he_edges_all, he_faces, he_edges_originating. change (vse h) with vs. rewrite nthN_nth_error.
  destruct (nth_error vs (N.to_nat v)) as [es|]; [|repeat split]. cbn [app]. rewrite !fold_push, fold_push2. repeat split.
Qed.
Print Assumptions C187_vertex_queries.

(** A searchable mesh assembled from a mesh and its own half edges is the one built by new, and taking it apart gives them back. *)
Theorem C187_searchable : forall (P : Type) (m : mesh P), fits m -> exists h s, he_new m = Ok h /\ smesh_new m = Ok s /\
  smesh_from (m, h) = s /\ smesh_from (m, he_from (he_into h)) = s /\ smesh_into s = (m, h) /\ smesh_as_ref s = m.
Proof.
  intros P m F. destruct (HalfEdgeProps.C05_half_edge_topology P m F) as (s & E & _). unfold smesh_new in *.
  destruct (he_new m) as [h|e|]; cbn [obind] in E; try discriminate. injection E as <-. exists h, (SMesh m h). destruct h. repeat split.
Qed.
Print Assumptions C187_searchable.

(** Parts that do not belong together are not noticed: faces then have edges that are no edges. *)
Definition c187_two : mesh N := mesh_from ([10; 11; 12; 13], [0; 1; 2; 2; 1; 3]).
Definition c187_one : mesh N := mesh_from ([10; 11; 12], [0; 1; 2]).
Theorem C187_mixed_parts_refuted : exists (m m' : mesh N) (h : halfedge), fits m /\ fits m' /\ he_new m' = Ok h /\
  exists f e1 e2 e3, edges_of_face (smesh_from (m, h)) f = Some (e1, e2, e3) /\ e1 < num_edges (smesh_from (m, h)) /\ edge_tail (smesh_from (m, h)) e1 = None.
Proof.
  exists c187_two, c187_one. eexists. split; [vm_compute; reflexivity|]. split; [vm_compute; reflexivity|]. split; [vm_compute; reflexivity|].
  exists 1, 3, 4, 5. vm_compute. repeat split.
Qed.
Print Assumptions C187_mixed_parts_refuted.

Example C187_case :
  num_faces c187_two = 2 /\ face_vertices c187_two 1 = Ok (Some (12, 11, 13)) /\ face_vertices (mesh_from ([10], [0; 1; 2])) 0 = Ok None /\
  faces_ok (MSpec [10; 11; 12; 13] (triples [0; 1; 2; 2; 1; 3])) /\
  (let '(m, r) := try_add_connection (mesh_from ([10; 11; 12; 13], [0; 1; 2; 3])) 0 1 3 in r = Ok 1 /\ face_vertex_ids m 1 = Ok (Some (3, 0, 1))) /\
  he_next (he_from ([7; 8; 9; 5], [], [])) 3 = Some 4 /\ he_tail (he_from ([7; 8; 9; 5], [], [])) 4 = None /\
  he_edges_all (he_from ([7; 8; 9], [], [[2; 9]])) 0 [] [] = (([2; 9], [2; 1; 9]), Ok tt).
Proof.
  do 3 (split; [reflexivity|]). split; [|repeat split]. intros a b c [E|[E|[]]]; injection E as <- <- <-; unfold in_range; cbn; lia.
Qed.
