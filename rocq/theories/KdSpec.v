(** Specification vocabulary for spatial search in exact arithmetic. *)
From Verif Require Import Base Num GeomSpec.
From Coq Require Import Reals.
(** Decidable <= on the reals as a boolean. *)
Definition Rleb (a b : R) : bool := if Rle_dec a b then true else false.
(** The closed ball. *)
Definition in_ball (c : pt3 RN) (r : R) (p : pt3 RN) : bool := Rleb (sqrt (sqd3 c p)) r.
(** The closed axis aligned box around [c] with the given edge lengths. *)
Definition in_cuboid (c : pt3 RN) (sx sy sz : R) (p : pt3 RN) : bool :=
  (Rleb (Rabs (px c - px p)) (sx / 2) && Rleb (Rabs (py c - py p)) (sy / 2) && Rleb (Rabs (pz c - pz p)) (sz / 2))%R.
