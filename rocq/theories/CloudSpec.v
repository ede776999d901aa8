(** Vocabulary for clouds, rays and orderings. *)
From Verif Require Import Base Num BBoxModel GeomSpec VecSpec LineModel.
From Coq Require Import Reals.
Local Open Scope R_scope.

(** The sum of the distances of neighbours. *)
Fixpoint path {P} (d : P -> P -> R) (ps : list P) : R :=
  match ps with
  | p :: (q :: _) as r => d p q + path d r
  | _ => 0
  end.
(** Euclidean distances. *)
Definition rdist3 (p q : pt3 RN) : R := sqrt (sqd3 p q).
Definition rdist2 (p q : pt2 RN) : R := sqrt (sqd2 p q).
(** The sum of a list of numbers. *)
Definition total (l : list R) : R := fold_right Rplus 0 l.

(** The point with the given weights with respect to three corners. *)
Definition weighted (u v w : R) (a b c : pt3 RN) : pt3 RN :=
  rp3 (u * px a + v * px b + w * px c) (u * py a + v * py b + w * py c) (u * pz a + v * pz b + w * pz c).
(** The point of a line at parameter [t]. *)
Definition at_param (l : line3 RN) (t : R) : pt3 RN :=
  rp3 (px (anchor l) + t * px (dir l)) (py (anchor l) + t * py (dir l)) (pz (anchor l) + t * pz (dir l)).
(** [p] is strictly inside the triangle, at a positive parameter of the line, and the line is not
    parallel to the triangle. *)
Definition crosses (l : line3 RN) (a b c p : pt3 RN) : Prop :=
  rdot3 (area_vec a b c) (dir l) <> 0 /\ (exists t, 0 < t /\ p = at_param l t) /\
  exists u v w, 0 < u /\ 0 < v /\ 0 < w /\ u + v + w = 1 /\ p = weighted u v w a b c.
