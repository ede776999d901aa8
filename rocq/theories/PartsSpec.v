(** Vocabulary for objects assembled from parts. *)
From Verif Require Import Base MeshModel.
Local Open Scope N_scope.

(** The list cut into triples; what remains at the end (at most two elements) is dropped. *)
Fixpoint triples {A} (l : list A) : list (A * A * A) :=
  match l with a :: b :: c :: r => (a, b, c) :: triples r | _ => [] end.

(** What remains at the end. *)
Fixpoint rest3 {A} (l : list A) : list A :=
  match l with _ :: _ :: _ :: r => rest3 r | _ => l end.

(** Points at three positions, where all three exist. *)
Definition three {P} (ps : list P) (a b c : N) : option (P * P * P) :=
  match nth_error ps (N.to_nat a), nth_error ps (N.to_nat b), nth_error ps (N.to_nat c) with
  | Some p, Some q, Some r => Some (p, q, r)
  | _, _, _ => None
  end.
