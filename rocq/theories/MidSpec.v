(** Vocabulary for midpoints and repeated subdivision. *)
From Verif Require Import Base Num MeshModel MeshAlgoModel.

(** Subdividing [n] times. *)
Fixpoint refine (n : nat) (m : mesh (pt3 F64)) : res (mesh (pt3 F64)) :=
  match n with O => Ok m | S n => obind (subdivide_linear center_nd3 m) (refine n) end.
