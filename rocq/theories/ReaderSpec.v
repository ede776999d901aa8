(** Vocabulary for readers that hand over their data in pieces and that can fail. *)
From Verif Require Import Base IoModel ReaderModel.

(** The bytes of the chunks of a reader, in order. *)
Definition sent (r : reader) : bytes := flat_map (fun e => match e with Chunk b => b | _ => [] end) r.
(** The reader never fails and never hands over an empty chunk before its end; how the data is cut into
    chunks and where calls are interrupted is arbitrary. *)
Definition steady (r : reader) : Prop := Forall (fun e => match e with Chunk b => b <> [] | Interrupted => True | Failure => False end) r.
(** The reader hands over [b] and fails then; what it would do afterwards is arbitrary ... *)
Definition breaks_after (b : bytes) (r : reader) : Prop := exists r1 r2, r = r1 ++ Failure :: r2 /\ steady r1 /\ sent r1 = b.
(** ... or it hands over no data afterwards. *)
Definition breaks_for_good (b : bytes) (r : reader) : Prop :=
  exists r1 r2, r = r1 ++ Failure :: r2 /\ steady r1 /\ sent r1 = b /\ Forall (fun e => match e with Chunk _ => False | _ => True end) r2.
(** [whole] is [b] without the beginning of a line at its end. *)
Definition whole_lines (b whole : bytes) : Prop :=
  exists torn, b = whole ++ torn /\ ~ In nl torn /\ (whole = [] \/ exists w, whole = w ++ [nl]).
(** The error in a result, without the line it was found in. *)
Definition error_of {E A} (r : outcome (with_line E) A) : option E :=
  match r with Err (WNone e) | Err (WIndex _ e) | Err (WLine _ _ e) => Some e | _ => None end.
