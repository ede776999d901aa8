(** Vocabulary for bodies. *)
From Verif Require Import Base Num BBoxModel GeomSpec ShapeModel ShapeSpec AabbSpec CollideModel.

(** The solids a body consists of: its colliders, or its bounding box if it declares none. *)
Definition parts {NM} (a : body NM) : list (collider NM) := if body_additional a then body_colliders a else [CAABB (body_box a)].
(** Every pair of parts gets an answer (no panic). *)
Definition answered {NM} (a b : body NM) : Prop := forall c d, In c (parts a) -> In d (parts b) -> exists r, collider_collides c d = Ok r.
(** Some pair of parts is reported to collide. *)
Definition touching {NM} (a b : body NM) : Prop := exists c d, In c (parts a) /\ In d (parts b) /\ collider_collides c d = Ok true.
(** A body of real space. *)
Definition proper_body (a : body RN) : Prop := valid3 (body_box a) /\ Forall proper (body_colliders a).
