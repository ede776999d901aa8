(** Vocabulary for collisions of boxes and triangles in doubles. *)
From Verif Require Import Base Num BBoxModel GeomSpec VecSpec FloatSpec DistSpec ShapeModel ShapeSpec BoxDistSpec.
From Coq Require Import Reals.
Local Open Scope R_scope.

(** Finite coordinates of absolute value at most [M]. *)
Definition small3 (M : R) (p : pt3 F64) : Prop := finite3 p /\ forall ax, axis3 ax -> Rabs (fval (ax p)) <= M.
(** A box or a triangle with such corners. *)
Definition small_shape (M : R) (c : collider F64) : Prop :=
  match c with
  | CAABB b => finite_box3 b /\ small3 M (min3 b) /\ small3 M (max3 b)
  | CFace t => small3 M (tri_a t) /\ small3 M (tri_b t) /\ small3 M (tri_c t)
  | CBox _ => False
  end.
(** The corners. *)
Definition vertices (c : collider F64) : list (pt3 F64) :=
  match c with CAABB b => bb3_corners b | CFace t => [tri_a t; tri_b t; tri_c t] | CBox _ => [] end.
(** The points of space that the box or the triangle consists of. *)
Definition space (c : collider F64) (p : pt3 RN) : Prop :=
  match c with
  | CAABB b => closed3 (realbox3 b) p
  | CFace t => solid_tri (mktri (real3 (tri_a t)) (real3 (tri_b t)) (real3 (tri_c t))) p
  | CBox _ => False
  end.
Definition is_aabb (c : collider F64) : Prop := match c with CAABB _ => True | _ => False end.
(** They share a point, and still do when one of them is moved by up to [r] in any direction. *)
Definition deep (r : R) (a b : collider F64) : Prop := forall w : pt3 RN, rsq3 w <= r * r ->
  exists p q, space a p /\ space b q /\ forall ax, axis3 ax -> ax q = ax p + ax w.
