(** Vocabulary for centers of gravity in doubles. *)
From Verif Require Import Base Num GeomSpec FloatSpec DistSpec CloudSpec.
From Coq Require Import Reals.
Local Open Scope R_scope.

(** The true mean of doubles, and the mean of their absolute values. *)
Definition mean (xs : list (T F64)) : R := total (map fval xs) / INR (length xs).
Definition mean_abs (xs : list (T F64)) : R := total (map (fun x => Rabs (fval x)) xs) / INR (length xs).
(** A double that is an integer. *)
Definition whole (x : T F64) : Prop := exists z : Z, fval x = IZR z.
(** No double is closer to [r]. *)
Definition nearest (c : T F64) (r : R) : Prop := is_double c /\ finite c /\ forall y, is_double y -> finite y -> Rabs (fval c - r) <= Rabs (fval y - r).
