(** What addressing coordinates by dimension should mean. *)
From Verif Require Import Base Num.
Local Open Scope N_scope.

Section NdSpec.
Context {NM : Num} {A B : Type} (n : N) (get : A -> N -> option (T NM)) (size : A -> B).
(** Writing a coordinate of an existing dimension is read back, leaves the others and the size; other dimensions are
    refused, and nothing changes. *)
Definition nd_sets (set : A -> N -> T NM -> A * res unit) : Prop := forall a d v,
  (d < n -> exists a', set a d v = (a', Ok tt) /\ get a' d = Some v /\ (forall e, e <> d -> get a' e = get a e) /\ size a' = size a) /\
  (n <= d -> set a d v = (a, Err DimensionsDontMatch) /\ get a d = None).
(** Copying the coordinates of another object given by its number of dimensions and its coordinates: another number of
    dimensions is refused and nothing changes; the first missing coordinate makes it fail with the coordinates before
    it overwritten. *)
Definition nd_copies (from : A -> N -> (N -> option (T NM)) -> A * res unit) : Prop := forall a o,
  (forall dims, dims <> n -> from a dims o = (a, Err DimensionsDontMatch)) /\
  ((forall e, e < n -> o e <> None) -> exists a', from a n o = (a', Ok tt) /\ (forall e, e < n -> get a' e = o e) /\ size a' = size a) /\
  (forall d, d < n -> (forall e, e < d -> o e <> None) -> o d = None -> exists a', from a n o = (a', Err IncorrectDimension) /\
     (forall e, e < d -> get a' e = o e) /\ (forall e, d <= e -> get a' e = get a e) /\ size a' = size a).
(** Building from a list of coordinates: exactly [n] of them are needed, and the size is [unit]. *)
Definition nd_builds (unit : B) (new : list (T NM) -> res A) : Prop := forall l,
  (lenN l = n -> exists a, new l = Ok a /\ (forall e, e < n -> get a e = nthN l e) /\ size a = unit) /\
  (lenN l <> n -> new l = Err DimensionsDontMatch).
End NdSpec.
