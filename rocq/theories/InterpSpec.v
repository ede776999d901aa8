(** Vocabulary for interpolation. *)
From Verif Require Import Base Num GeomSpec VecSpec CloudSpec.
From Coq Require Import Reals.
Local Open Scope R_scope.

(** The point between two points. *)
Definition blend (t : R) (p q : pt2 RN) : pt2 RN :=
  @mk2 RN ((1 - t) * x2 p + t * x2 q) ((1 - t) * y2 p + t * y2 q).
(** De Casteljau's construction: replace the points by the points between neighbours until one is left. *)
Fixpoint neighbours {P} (f : P -> P -> P) (ps : list P) : list P :=
  match ps with
  | p :: (q :: _) as r => f p q :: neighbours f r
  | _ => []
  end.
Fixpoint casteljau (rounds : nat) (t : R) (ps : list (pt2 RN)) : list (pt2 RN) :=
  match rounds with O => ps | S k => casteljau k t (neighbours (blend t) ps) end.
(** [q] is the point of the Bezier curve of [ps] at parameter [t]. *)
Definition on_bezier (ps : list (pt2 RN)) (t : R) (q : pt2 RN) : Prop := casteljau (length ps - 1) t ps = [q].

(** The exact power. *)
Definition real_powi (x : T RN) (k : N) : T RN := pow x (N.to_nat k).
(** Powers by repeated multiplication. *)
Definition mul_powi {NM} (x : T NM) (k : N) : T NM := N.iter k (fun a => (a * x)%num) n1.

(** [q] is reached after walking the distance [d] along the path; [point a b s] is the point of the segment from [a] to [b]
    at the fraction [s]. *)
Inductive along (point : pt2 RN -> pt2 RN -> R -> pt2 RN) : list (pt2 RN) -> R -> pt2 RN -> Prop :=
| along_here a b r d : 0 < rdist2 a b -> 0 <= d <= rdist2 a b -> along point (a :: b :: r) d (point a b (d / rdist2 a b))
| along_next a b r d q : rdist2 a b < d -> along point (b :: r) (d - rdist2 a b) q -> along point (a :: b :: r) d q.
Definition straight (a b : pt2 RN) (s : R) : pt2 RN := @mk2 RN (x2 a + s * (x2 b - x2 a)) (y2 a + s * (y2 b - y2 a)).
(** As [straight] in x; in y the fraction is eased. *)
Definition eased (a b : pt2 RN) (s : R) : pt2 RN :=
  @mk2 RN (x2 a + s * (x2 b - x2 a)) (y2 a + (1 - cos (PI * s)) / 2 * (y2 b - y2 a)).
