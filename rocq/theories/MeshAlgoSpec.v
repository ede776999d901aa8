(** Vocabulary for the mesh algorithms: corners of faces, merged positions, undirected edges. *)
From Verif Require Import Base MeshModel MeshSpec.
Local Open Scope N_scope.

Section Spec.
  Context {P : Type}.
  (** Corner positions of a face. *)
  Definition corners (s : mspec P) (f : face3) : option (P * P * P) :=
    let '(a, b, c) := f in
    match nth_error (svs s) (N.to_nat a), nth_error (svs s) (N.to_nat b), nth_error (svs s) (N.to_nat c) with
    | Some p, Some q, Some r => Some (p, q, r)
    | _, _, _ => None
    end.
  (** An equality test. *)
  Record equality (same : P -> P -> bool) : Prop := {
    eq_refl_b : forall x, same x x = true;
    eq_sym_b : forall x y, same x y = true -> same y x = true;
    eq_trans_b : forall x y z, same x y = true -> same y z = true -> same x z = true }.
  Context (same : P -> P -> bool).
  (** A list without two equal elements. *)
  Definition no_two_same (l : list P) : Prop :=
    forall i j x y, nth_error l i = Some x -> nth_error l j = Some y -> i <> j -> same x y = false.
  (** The first occurrence of every element, in order. *)
  Fixpoint first_occurrences (l : list P) : list P :=
    match l with [] => [] | x :: r => x :: filter (fun y => negb (same x y)) (first_occurrences r) end.
  (** Two corners of the face share a position. *)
  Definition collapsed (s : mspec P) (f : face3) : bool :=
    match corners s f with Some (p, q, r) => same p q || same p r || same q r | None => true end.
  (** Face [g] of [s'] has the corner positions of face [f] of [s]. *)
  Definition same_corners (s : mspec P) (f : face3) (s' : mspec P) (g : face3) : Prop :=
    exists p q r p' q' r', corners s f = Some (p, q, r) /\ corners s' g = Some (p', q', r') /\
      same p p' = true /\ same q q' = true /\ same r r' = true.
  (** The corner positions of all faces, in order. *)
  Definition all_corners (s : mspec P) : list P :=
    flat_map (fun f => match corners s f with Some (p, q, r) => [p; q; r] | None => [] end) (sfs s).
End Spec.

(** The undirected edge between two vertices belongs to one of the faces. *)
Definition face_edge (fs : list face3) (a b : N) : Prop :=
  exists x y z, In (x, y, z) fs /\
    ((a, b) = (x, y) \/ (a, b) = (y, z) \/ (a, b) = (z, x) \/ (b, a) = (x, y) \/ (b, a) = (y, z) \/ (b, a) = (z, x)).
(** The four faces replacing a face, given the ids of the edge midpoints. *)
Definition quarters (mid_id : N -> N -> N) (f : face3) : list face3 :=
  let '(a, b, c) := f in
  [(a, mid_id a b, mid_id c a); (mid_id a b, b, mid_id b c); (mid_id a b, mid_id b c, mid_id c a); (mid_id c a, mid_id b c, c)].
(** A face and the same face with the opposite orientation. *)
Definition oriented (flip : bool) (f : face3) : face3 := let '(a, b, c) := f in if flip then (a, c, b) else f.
(** Two faces have a vertex in common. *)
Definition touching (f g : face3) : Prop :=
  let '(a, b, c) := f in let '(x, y, z) := g in
  exists v, (v = a \/ v = b \/ v = c) /\ (v = x \/ v = y \/ v = z).
