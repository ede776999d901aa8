(** Vocabulary for triangles that enclose a solid. *)
From Verif Require Import Base StlSpec.

(** The directed sides of a triangle, as positions. *)
Definition psides {P} (t : P * P * P) : list (P * P) := let '(a, b, c) := t in [(a, b); (b, c); (c, a)].
(** How often a triangle runs from [p] to [q]. *)
Definition pruns {P} (same : P -> P -> bool) (ts : list (P * P * P)) (p q : P) : nat :=
  length (filter (fun e => same (fst e) p && same (snd e) q) (flat_map psides ts)).
(** Between any two positions as many triangles run in one direction as in the other. *)
Definition solid {P} (same : P -> P -> bool) (ts : list (P * P * P)) : Prop :=
  forall p q, In p (flat_map points ts) -> In q (flat_map points ts) -> pruns same ts p q = pruns same ts q p.
