(** Contracts of equality, hashing and ordering of values that hold doubles. *)
From Verif Require Import Base Num KdModel GeomSpec SortSpec.
From Coq Require Import Floats.SpecFloat.

Section Contracts.
(** [nums] lists the doubles a value consists of. *)
Context {A H : Type} (nums : A -> list (T F64)).
Definition no_nan (a : A) : Prop := Forall number (nums a).
Definition no_negative_zero (a : A) : Prop := Forall (fun x => x <> S754_zero true) (nums a).

(** Equality is an equivalence relation, where exactly the values without NaN take part. *)
Definition eq_contract (eq : A -> A -> bool) : Prop :=
  (forall a, eq a a = true <-> no_nan a) /\ (forall a b, eq a b = eq b a) /\
  (forall a b c, eq a b = true -> eq b c = true -> eq a c = true).
(** Values are hashed alike exactly if they are identical, also as part of larger values; equal values are identical but for
    the signs of zeros. *)
Definition hash_contract (eq : A -> A -> bool) (feed : A -> list H) : Prop :=
  (forall a b r s, feed a ++ r = feed b ++ s <-> a = b /\ r = s) /\
  (forall a b, no_negative_zero a -> no_negative_zero b -> eq a b = true -> a = b).
(** A partial order in keeping with equality, total on values without NaN. *)
Definition partial_order_contract (eq : A -> A -> bool) (pcmp : A -> A -> option comparison) : Prop :=
  (forall a b, pcmp a b = Some Eq <-> eq a b = true) /\
  (forall a b, pcmp b a = option_map CompOpp (pcmp a b)) /\
  (forall a b c, pcmp a b = Some Lt -> pcmp b c = Some Lt \/ eq b c = true -> pcmp a c = Some Lt) /\
  (forall a b c, eq a b = true -> pcmp b c = Some Lt -> pcmp a c = Some Lt) /\
  (forall a b, no_nan a -> no_nan b -> pcmp a b <> None).
(** All three. *)
Definition contracts (eq : A -> A -> bool) (pcmp : A -> A -> option comparison) (feed : A -> list H) : Prop :=
  eq_contract eq /\ hash_contract eq feed /\ partial_order_contract eq pcmp.
(** A total preorder on the values without NaN. *)
Definition preorder_contract (cmp : A -> A -> comparison) : Prop :=
  forall l, Forall no_nan l -> cmp_ok cmp l.
End Contracts.

(** The coordinates of a point. *)
Definition nums2 (p : pt2 F64) : list (T F64) := [x2 p; y2 p].
Definition nums3 (p : pt3 F64) : list (T F64) := [px p; py p; pz p].
(** The points stored in a k-d tree. *)
Fixpoint stored {A} (t : kdtree A) : list A := match t with KNone => [] | KNode l v r _ => stored l ++ stored r ++ [v] end.
