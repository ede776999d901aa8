(** slice::sort_by of Rust's standard library.  It is not part of /repo; the
    models take it as an argument, the theorems assume the documented contract. *)
From Verif Require Import Base.
From Coq Require Export Sorting.Permutation Sorting.Sorted.

(** The type of `sort_by`: a comparison and a vector. *)
Definition sorter : Type := forall A : Type, (A -> A -> comparison) -> list A -> list A.

(** [cmp] is a total preorder on the elements of [l]. *)
Definition cmp_ok {A} (cmp : A -> A -> comparison) (l : list A) : Prop :=
  (forall a b, In a l -> In b l -> cmp b a = CompOpp (cmp a b)) /\
  (forall a b c, In a l -> In b l -> In c l -> cmp a b <> Gt -> cmp b c <> Gt -> cmp a c <> Gt).

Definition is_eq (c : comparison) : bool := match c with Eq => true | _ => false end.

(** The contract: always a permutation; for a total preorder the result is
    sorted and equal elements keep their order. *)
Record sort_ok (s : sorter) : Prop := {
  sort_perm : forall A cmp (l : list A), Permutation l (s A cmp l);
  sort_sorted : forall A cmp (l : list A), cmp_ok cmp l ->
    StronglySorted (fun a b => cmp a b <> Gt) (s A cmp l);
  sort_stable : forall A cmp (l : list A), cmp_ok cmp l ->
    forall x, In x l -> filter (fun y => is_eq (cmp x y)) (s A cmp l) = filter (fun y => is_eq (cmp x y)) l
}.

(** A concrete implementation (insertion sort), used to run examples and to show
    that the contract can be met. *)
Fixpoint insert_by {A} (cmp : A -> A -> comparison) (x : A) (l : list A) : list A :=
  match l with
  | [] => [x]
  | y :: r => match cmp x y with Gt => y :: insert_by cmp x r | _ => x :: y :: r end
  end.
Definition isort : sorter := fun A cmp l => fold_right (insert_by cmp) [] l.
