(** Iterators after their end. *)
From Verif Require Import Base Num MeshModel PlyModel.

Section Iterators.
Context {S E A : Type} (next : S -> option (outcome E A) * S).
(** Calling next again and again. *)
Fixpoint after_calls (n : nat) (s : S) : S := match n with O => s | Datatypes.S n => after_calls n (snd (next s)) end.
(** Once there was None, there is None for ever. *)
Definition ends_for_good : Prop := forall s n, fst (next s) = None -> fst (next (after_calls n (snd (next s)))) = None.
(** Once there was an error, there is None for ever. *)
Definition stops_on_error : Prop := forall s n e, fst (next s) = Some (Err e) -> fst (next (after_calls n (snd (next s)))) = None.
(** The answers of [n] calls. *)
Fixpoint answers (n : nat) (s : S) : list (option (outcome E A)) := match n with O => [] | Datatypes.S n => let (x, s) := next s in x :: answers n s end.
(** Calling next until the end, an error or a panic gives these items and ends like this. *)
Inductive gives : S -> list A -> outcome E unit -> Prop :=
| gives_end s : fst (next s) = None -> gives s [] (Ok tt)
| gives_err s e : fst (next s) = Some (Err e) -> gives s [] (Err e)
| gives_panic s : fst (next s) = Some Panic -> gives s [] Panic
| gives_item s s' a l r : next s = (Some (Ok a), s') -> gives s' l r -> gives s (a :: l) r.
End Iterators.

(** The points and the indices of faces among the items of a mesh, in order. *)
Definition points_of (l : list mesh_item) : list (pt3 F64) := flat_map (fun x => match x with MPoint p => [p] | MFace _ => [] end) l.
Definition indices_of (l : list mesh_item) : list N := flat_map (fun x => match x with MPoint _ => [] | MFace (a, b, c) => [a; b; c] end) l.
