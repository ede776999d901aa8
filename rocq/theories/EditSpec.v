(** What editing a position should mean. *)
From Verif Require Import Base Num BBoxModel KdModel FilterModel GeomSpec EditModel.
From Coq Require Import Reals.
Local Open Scope R_scope.

(** Every coordinate reads back what was last written to it. *)
Definition lawful3 {NM A} (E : pos3 NM A) : Prop := forall a v,
  (g3x E (s3x E a v) = v /\ g3y E (s3x E a v) = g3y E a /\ g3z E (s3x E a v) = g3z E a) /\
  (g3x E (s3y E a v) = g3x E a /\ g3y E (s3y E a v) = v /\ g3z E (s3y E a v) = g3z E a) /\
  (g3x E (s3z E a v) = g3x E a /\ g3y E (s3z E a v) = g3y E a /\ g3z E (s3z E a v) = v).
Definition lawful2 {NM A} (E : pos2 NM A) : Prop := forall a v,
  (g2x E (s2x E a v) = v /\ g2y E (s2x E a v) = g2y E a) /\
  (g2x E (s2y E a v) = g2x E a /\ g2y E (s2y E a v) = v).
(** The setters keep what [ext] reads. *)
Definition keeps3 {NM A B} (E : pos3 NM A) (ext : A -> B) : Prop := forall a v,
  ext (s3x E a v) = ext a /\ ext (s3y E a v) = ext a /\ ext (s3z E a v) = ext a.
Definition keeps2 {NM A B} (E : pos2 NM A) (ext : A -> B) : Prop := forall a v, ext (s2x E a v) = ext a /\ ext (s2y E a v) = ext a.
Definition extent3 {NM} (b : box3d NM) : T NM * T NM * T NM := (box_sx b, box_sy b, box_sz b).
Definition extent2 {NM} (b : box2d NM) : T NM * T NM := (box2_sx b, box2_sy b).

(** Polar form of the vectors from [c]: the length, and the two products that determine the turning angle. *)
Definition rad2 (c p : pt2 RN) : R := (x2 p - x2 c) * (x2 p - x2 c) + (y2 p - y2 c) * (y2 p - y2 c).
Definition dot_at (c p q : pt2 RN) : R := (x2 p - x2 c) * (x2 q - x2 c) + (y2 p - y2 c) * (y2 q - y2 c).
Definition cross_at (c p q : pt2 RN) : R := (x2 p - x2 c) * (y2 q - y2 c) - (y2 p - y2 c) * (x2 q - x2 c).
(** [q] is [p] turned counterclockwise around [c] by the angle [t]. *)
Definition turned (c : pt2 RN) (t : R) (p q : pt2 RN) : Prop :=
  rad2 c q = rad2 c p /\ dot_at c p q = rad2 c p * cos t /\ cross_at c p q = rad2 c p * sin t.
(** The middle between two points. *)
Definition middle3 (p q m : pt3 RN) : Prop := forall ax, axis3 ax -> ax m - ax p = ax q - ax m.
Definition middle2 (p q m : pt2 RN) : Prop := forall ax, axis2 ax -> ax m - ax p = ax q - ax m.
