(** Specification vocabulary for matrices: entries, affine maps, isometries, histories. *)
From Verif Require Import Base Num VecSpec GeomSpec MatrixModel.
From Coq Require Import Reals.
Local Open Scope R_scope.

(** The real functions. *)
Definition RT : Trig RN := mkTrig RN cos sin tan.

(** The entry in row [i] and column [j] (0 outside the matrix). *)
Definition entry3 (m : mat3 RN) (i j : nat) : R :=
  match i, j with
  | 0, 0 => m3_00 m | 0, 1 => m3_01 m | 0, 2 => m3_02 m
  | 1, 0 => m3_10 m | 1, 1 => m3_11 m | 1, 2 => m3_12 m
  | 2, 0 => m3_20 m | 2, 1 => m3_21 m | 2, 2 => m3_22 m
  | _, _ => 0%R
  end%nat.
Definition entry4 (m : mat4 RN) (i j : nat) : R :=
  match i, j with
  | 0, 0 => m4_00 m | 0, 1 => m4_01 m | 0, 2 => m4_02 m | 0, 3 => m4_03 m
  | 1, 0 => m4_10 m | 1, 1 => m4_11 m | 1, 2 => m4_12 m | 1, 3 => m4_13 m
  | 2, 0 => m4_20 m | 2, 1 => m4_21 m | 2, 2 => m4_22 m | 2, 3 => m4_23 m
  | 3, 0 => m4_30 m | 3, 1 => m4_31 m | 3, 2 => m4_32 m | 3, 3 => m4_33 m
  | _, _ => 0%R
  end%nat.
(** f 0 + ... + f (n-1). *)
Fixpoint sum_to (n : nat) (f : nat -> R) : R := match n with O => 0 | S n => sum_to n f + f n end.

(** The last row is that of an affine map. *)
Definition affine3 (m : mat3 RN) : Prop := entry3 m 2 0 = 0 /\ entry3 m 2 1 = 0 /\ entry3 m 2 2 = 1.
Definition affine4 (m : mat4 RN) : Prop :=
  entry4 m 3 0 = 0 /\ entry4 m 3 1 = 0 /\ entry4 m 3 2 = 0 /\ entry4 m 3 3 = 1.

(** Maps that keep distances. *)
Definition isometry2 (f : pt2 RN -> pt2 RN) : Prop := forall p q, sqd2 (f p) (f q) = sqd2 p q.
Definition isometry3 (f : pt3 RN -> pt3 RN) : Prop := forall p q, sqd3 (f p) (f q) = sqd3 p q.
(** Vector product. *)
Definition rcross (a b : pt3 RN) : pt3 RN :=
  rp3 (py a * pz b - pz a * py b) (pz a * px b - px a * pz b) (px a * py b - py a * px b).

(** The value of the last element of a history on which [f] is defined. *)
Fixpoint latest {O A} (f : O -> option A) (d : A) (h : list O) : A :=
  match h with [] => d | o :: r => latest f (match f o with Some a => a | None => d end) r end.

(** What a pipe operation sets, component by component. *)
Section Sets.
Context {NM : Num} (tr : Trig NM).
Definition sets3_translation (o : pipe3_op NM) : option (mat3 NM) :=
  match o with P3AddTranslation x y => Some (m3_translation x y) | P3RemoveTranslation => Some m3_identity | _ => None end.
Definition sets3_rotation (o : pipe3_op NM) : option (mat3 NM) :=
  match o with P3AddRotation r => Some (m3_rotation tr r) | P3RemoveRotation => Some m3_identity | _ => None end.
Definition sets3_scale (o : pipe3_op NM) : option (mat3 NM) :=
  match o with P3AddScale x y => Some (m3_scale x y) | P3RemoveScale => Some m3_identity | _ => None end.
Definition sets4_translation (o : pipe4_op NM) : option (mat4 NM) :=
  match o with P4AddTranslation x y z => Some (m4_translation x y z) | P4RemoveTranslation => Some m4_identity | _ => None end.
Definition sets4_rotation (o : pipe4_op NM) : option (mat4 NM) :=
  match o with
  | P4AddRotation x y z => Some (m4_rotation tr x y z)
  | P4AddRotationAxis u r => Some (m4_rotation_axis tr u r)
  | P4RemoveRotation => Some m4_identity
  | _ => None end.
Definition sets4_scale (o : pipe4_op NM) : option (mat4 NM) :=
  match o with P4AddScale x y z => Some (m4_scale x y z) | P4RemoveScale => Some m4_identity | _ => None end.
Definition sets4_perspective (o : pipe4_op NM) : option (mat4 NM) :=
  match o with P4AddPerspective c a r => Some (m4_perspective tr c a r) | P4RemovePerspective => Some m4_identity | _ => None end.
Definition sets4_camera_translation (o : pipe4_op NM) : option (mat4 NM) :=
  match o with
  | P4AddCameraTranslation x y z => Some (m4_translation (nneg x) (nneg y) (nneg z))
  | P4RemoveCameraTranslation => Some m4_identity
  | _ => None end.
(** A failing add_look_at sets nothing. *)
Definition sets4_look_at (o : pipe4_op NM) : option (mat4 NM) :=
  match o with
  | P4AddLookAt t up => match m4_look_at t up with Ok m => Some m | _ => None end
  | P4RemoveLookAt => Some m4_identity
  | _ => None end.
End Sets.
