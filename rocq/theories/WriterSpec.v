(** What saving through a writer may do. *)
From Verif Require Import Base IoModel WriterModel.

(** A writer whose calls may take little and be interrupted, but never fail or take nothing. *)
Definition reliable (calls : list wevent) : Prop := Forall (fun e => match e with Takes n => n <> 0 | WInterrupted => True | WFailure => False end) calls.
(** A writer whose calls take everything (of up to eight bytes) or fail. *)
Definition no_short_writes (calls : list wevent) : Prop := Forall (fun e => match e with Takes n => 8 <= n | _ => True end) calls.
(** A writer whose calls take everything (of up to eight bytes). *)
Definition takes_all (calls : list wevent) : Prop := Forall (fun e => match e with Takes n => 8 <= n | _ => False end) calls.
(** Saving answers Ok and hands over the whole text, or answers with the error [e] and has handed over a part of it from its
    start; for writers as in [allowed], and without error for writers as in [fine]. *)
Definition saves {E} (allowed fine : list wevent -> Prop) (e : E) (save : writer -> outcome E unit * writer) (text : bytes) : Prop :=
  forall calls out, allowed calls -> exists calls' o r, save (mkw calls out) = (r, mkw calls' (out ++ o)) /\
    (r = Ok tt /\ o = text \/ r = Err e /\ exists rest, rest <> [] /\ text = o ++ rest) /\ (fine calls -> r = Ok tt).
(** Saving panics, or answers with the error [e]; without error for writers as in [fine]. *)
Definition panics {E} (fine : list wevent -> Prop) (e : E) (save : writer -> outcome E unit * writer) : Prop :=
  forall calls out, (fst (save (mkw calls out)) = Panic \/ fst (save (mkw calls out)) = Err e) /\ (fine calls -> fst (save (mkw calls out)) = Panic).
(** No restriction. *)
Definition any_writer (calls : list wevent) : Prop := True.
