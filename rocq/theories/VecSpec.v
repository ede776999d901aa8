(** Vector geometry over the reals. *)
From Verif Require Import Base Num.
From Coq Require Import Reals.
Local Open Scope R_scope.

(** Scalar product. *)
Definition rdot3 (a b : pt3 RN) : R := px a * px b + py a * py b + pz a * pz b.
Definition rdot2 (a b : pt2 RN) : R := x2 a * x2 b + y2 a * y2 b.
(** Squared length. *)
Definition rsq3 (a : pt3 RN) : R := rdot3 a a.
Definition rsq2 (a : pt2 RN) : R := rdot2 a a.
(** Twice the area of the triangle, as a vector perpendicular to it. *)
Definition area_vec (p q r : pt3 RN) : pt3 RN :=
  mk3 ((py q - py p) * (pz r - pz q) - (pz q - pz p) * (py r - py q) : T RN)
      ((pz q - pz p) * (px r - px q) - (px q - px p) * (pz r - pz q) : T RN)
      ((px q - px p) * (py r - py q) - (py q - py p) * (px r - px q) : T RN).
