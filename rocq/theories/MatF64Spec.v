(** Vocabulary for matrices in doubles. *)
From Verif Require Import Base Num BBoxModel GeomSpec FloatSpec DistSpec MatrixModel GridSpec.
From Coq Require Import Reals.
Local Open Scope R_scope.

(** All entries, row by row. *)
Definition entries3 {NM} (m : mat3 NM) : list (T NM) := [m3_00 m; m3_01 m; m3_02 m; m3_10 m; m3_11 m; m3_12 m; m3_20 m; m3_21 m; m3_22 m].
Definition entries4 {NM} (m : mat4 NM) : list (T NM) :=
  [m4_00 m; m4_01 m; m4_02 m; m4_03 m; m4_10 m; m4_11 m; m4_12 m; m4_13 m; m4_20 m; m4_21 m; m4_22 m; m4_23 m; m4_30 m; m4_31 m; m4_32 m; m4_33 m].
(** The matrix of the values. *)
Definition realm3 (m : mat3 F64) : mat3 RN :=
  @mkm3 RN (fval (m3_00 m)) (fval (m3_01 m)) (fval (m3_02 m)) (fval (m3_10 m)) (fval (m3_11 m)) (fval (m3_12 m)) (fval (m3_20 m)) (fval (m3_21 m)) (fval (m3_22 m)).
Definition realm4 (m : mat4 F64) : mat4 RN :=
  @mkm4 RN (fval (m4_00 m)) (fval (m4_01 m)) (fval (m4_02 m)) (fval (m4_03 m)) (fval (m4_10 m)) (fval (m4_11 m)) (fval (m4_12 m)) (fval (m4_13 m))
    (fval (m4_20 m)) (fval (m4_21 m)) (fval (m4_22 m)) (fval (m4_23 m)) (fval (m4_30 m)) (fval (m4_31 m)) (fval (m4_32 m)) (fval (m4_33 m)).
(** A finite double. *)
Definition fin (x : T F64) : Prop := is_double x /\ finite x.
(** Whole numbers of absolute value up to 2^10. *)
Definition whole3 (m : mat3 F64) : Prop := Forall (on_grid 0 10) (entries3 m).
Definition whole4 (m : mat4 F64) : Prop := Forall (on_grid 0 10) (entries4 m).
(** What row [i] of a matrix makes of a point, and the sum of the absolute values of its terms. *)
Definition row4 (m : mat4 RN) (p : pt3 RN) (i : nat) : R :=
  let t k := nth (4 * i + k) (entries4 m) 0 in px p * t 0%nat + py p * t 1%nat + pz p * t 2%nat + t 3%nat.
Definition rowsum4 (m : mat4 RN) (p : pt3 RN) (i : nat) : R :=
  let t k := nth (4 * i + k) (entries4 m) 0 in Rabs (px p * t 0%nat) + Rabs (py p * t 1%nat) + Rabs (pz p * t 2%nat) + Rabs (t 3%nat).
