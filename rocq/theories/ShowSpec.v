(** Vocabulary for displayed texts. *)
From Verif Require Import Base Num IoModel IoSpec.

(** No number is written with an opening parenthesis. *)
Definition no_parentheses (ft : FText) : Prop := forall w, In "("%char w -> fparse ft w = None.
(** How often a character occurs. *)
Definition occurs (c : ascii) (s : bytes) : nat := length (filter (Ascii.eqb c) s).
