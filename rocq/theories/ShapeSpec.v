(** Specification vocabulary for shapes: convex hulls and the solids colliders stand for. *)
From Verif Require Import Base Num BBoxModel KdModel FilterModel GeomSpec VecSpec MatrixSpec ShapeModel.
From Coq Require Import Reals.
Local Open Scope R_scope.

(** Weighted sums. *)
Fixpoint wsum (ws vs : list R) : R :=
  match ws, vs with w :: ws, v :: vs => w * v + wsum ws vs | _, _ => 0 end.
(** [p] is a convex combination of the points. *)
Definition in_hull (ps : list (pt3 RN)) (p : pt3 RN) : Prop := exists ws,
  length ws = length ps /\ (forall w, In w ws -> 0 <= w) /\ fold_right Rplus 0 ws = 1 /\
  forall ax, axis3 ax -> ax p = wsum ws (map ax ps).
(** y and z are perpendicular unit vectors and the sizes are positive. *)
Definition proper_ubox (u : ubox RN) : Prop :=
  rsq3 (ub_y u) = 1 /\ rsq3 (ub_z u) = 1 /\ rdot3 (ub_y u) (ub_z u) = 0 /\
  0 < ub_sx u /\ 0 < ub_sy u /\ 0 < ub_sz u.
(** The solid a box with the given center, directions and sizes stands for. *)
Definition solid_ubox (u : ubox RN) (p : pt3 RN) : Prop := exists i j k,
  Rabs i <= ub_sx u / 2 /\ Rabs j <= ub_sy u / 2 /\ Rabs k <= ub_sz u / 2 /\
  forall ax, axis3 ax -> ax p = ax (ub_center u) + i * ax (rcross (ub_z u) (ub_y u)) + j * ax (ub_y u) + k * ax (ub_z u).
(** The points of a triangle. *)
Definition solid_tri (t : tri RN) (p : pt3 RN) : Prop := exists i j k,
  0 <= i /\ 0 <= j /\ 0 <= k /\ i + j + k = 1 /\
  forall ax, axis3 ax -> ax p = i * ax (tri_a t) + j * ax (tri_b t) + k * ax (tri_c t).
Definition proper (c : collider RN) : Prop :=
  match c with CAABB b => valid3 b | CBox u => proper_ubox u | CFace _ => True end.
Definition solid (c : collider RN) (p : pt3 RN) : Prop :=
  match c with CAABB b => closed3 b p | CBox u => solid_ubox u p | CFace t => solid_tri t p end.
(** Two colliders share a point; two axis aligned boxes must share an inner point. *)
Definition meet (a b : collider RN) : Prop := exists p,
  match a, b with
  | CAABB a, CAABB b => interior3 a p /\ interior3 b p
  | _, _ => solid a p /\ solid b p
  end.
