(** Vocabulary for placing meshes. *)
From Verif Require Import Base Num VecSpec GeomSpec MatrixModel MatrixSpec MeshModel PlaceModel.
From Coq Require Import Reals.
Local Open Scope R_scope.

(** The determinant of the part of a matrix that acts on directions. *)
Definition det_linear (m : mat4 RN) : R :=
  entry4 m 0 0 * (entry4 m 1 1 * entry4 m 2 2 - entry4 m 1 2 * entry4 m 2 1)
  - entry4 m 0 1 * (entry4 m 1 0 * entry4 m 2 2 - entry4 m 1 2 * entry4 m 2 0)
  + entry4 m 0 2 * (entry4 m 1 0 * entry4 m 2 1 - entry4 m 1 1 * entry4 m 2 0).
(** By how much a point is on the side of a plane through [p] its normal [n] points to. *)
Definition side (n p q : pt3 RN) : R := rdot3 n (rp3 (px q - px p) (py q - py p) (pz q - pz p)).
(** The product of the determinants of the matrices of a history. *)
Fixpoint mirroring (os : list (placement RN)) : R :=
  match os with [] => 1 | PTransform t :: r => det_linear t * mirroring r | _ :: r => mirroring r end.
(** All scaling factors are above zero (the type Positive). *)
Definition scales_ok (os : list (placement RN)) : Prop := forall f, In (PScale f) os -> 0 < f.
(** The same faces between equally many vertices. *)
Definition same_net {P} (m m' : mesh P) : Prop :=
  num_vertices m' = num_vertices m /\ num_faces m' = num_faces m /\ (forall f, face_vertex_ids m' f = face_vertex_ids m f) /\
  (forall v, vertex m' v = None <-> vertex m v = None).
