(** Specification vocabulary for boxes turned around the z axis. *)
From Verif Require Import Base Num GeomSpec.
From Coq Require Import Reals.
Local Open Scope R_scope.

(** [v] turned clockwise, seen from above, by [r] around the z axis. *)
Definition clockwise (r : R) (v : pt3 RN) : pt3 RN :=
  rp3 (px v * cos r + py v * sin r) (py v * cos r - px v * sin r) (pz v).
(** [v] turned counterclockwise. *)
Definition counterclockwise (r : R) (v : pt3 RN) : pt3 RN := clockwise (- r) v.
(** The sign of a corner. *)
Definition sign (s : R) : Prop := s = 1 \/ s = -1.
