(** Vocabulary for coordinates on a grid. *)
From Verif Require Import Base Num GeomSpec FloatSpec.
From Coq Require Import Reals.
Local Open Scope R_scope.

(** A finite double that is a multiple of 2^e by an integer of absolute value up to 2^k. *)
Definition on_grid (e k : Z) (x : T F64) : Prop := is_double x /\ finite x /\ exists z : Z, (Z.abs z <= 2 ^ k)%Z /\ fval x = IZR z * powerRZ 2 e.
(** Both coordinates are. *)
Definition grid2 (e k : Z) (p : pt2 F64) : Prop := on_grid e k (x2 p) /\ on_grid e k (y2 p).
Definition grid3 (e k : Z) (p : pt3 F64) : Prop := on_grid e k (px p) /\ on_grid e k (py p) /\ on_grid e k (pz p).
