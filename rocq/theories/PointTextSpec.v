(** What words in a text are. *)
From Verif Require Import Base IoModel.

(** The text consists of the words [ws], in this order, apart from any number of separators [d] before, after and - at least one -
    between them. *)
Inductive apart (d : ascii) : bytes -> list bytes -> Prop :=
| apart_end : apart d [] []
| apart_sep s ws : apart d s ws -> apart d (d :: s) ws
| apart_word w s ws : w <> [] -> ~ In d w -> (s = [] \/ exists s', s = d :: s') -> apart d s ws -> apart d (w ++ s) (w :: ws).

(** A carriage return, as in lines ended in the Windows manner. *)
Definition cr : ascii := ascii_of_N 13.
