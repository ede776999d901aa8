(** Angles between vectors and the filters built from direction fields.
    Models rad_to of src/is_2d.rs and src/is_3d.rs, src/filter_direction_field_2d.rs and
    src/filter_direction_field_3d.rs. *)
From Verif Require Import Base Num VecModel WrapModel.
Local Open Scope num_scope.

(** f64::acos and f64::atan2 (receiver first) of Rust's standard library, as parameters: their results are
    not part of the model (language level, no line). *)
Record Angles (NM : Num) : Type := mkAngles { nacos : T NM -> T NM; natan2 : T NM -> T NM -> T NM }.
Arguments nacos {NM}. Arguments natan2 {NM}.

Section Angle.
Context {NM : Num} (an : Angles NM).
(** Models Is3D::rad_to, src/is_3d.rs:70-75: `||` evaluates the second length only if the first is not zero. *)
Definition rad_to3 (a b : pt3 NM) : res (T NM) :=
  obind (abs3 a) (fun la =>
  if la == n0 then Err CantCalculateAngleIfZeroLength else
  obind (abs3 b) (fun lb =>
  if lb == n0 then Err CantCalculateAngleIfZeroLength else
  Ok (nacos an (dot3 a b / nn_mul la lb)))).
(** Models Is2D::rad_to, src/is_2d.rs:57-59. *)
Definition rad_to2 (a b : pt2 NM) : T NM := natan2 an (y2 b - y2 a) (x2 b - x2 a).
(** Models FilterDirectionField3D, src/filter_direction_field_3d.rs:30-45; the field is an arbitrary function
    (IsDirectionField3D::direction_at, src/is_direction_field_3d.rs:30-35). *)
Record dfilter3 : Type := mkDF3 { field3 : pt3 NM -> pt3 NM; tol3 : T NM }.
(** Models FilterDirectionField2D, src/filter_direction_field_2d.rs:30-45, and
    IsDirectionField2D::direction_at, src/is_direction_field_2d.rs:30-35. *)
Record dfilter2 : Type := mkDF2 { field2 : pt2 NM -> pt2 NM; tol2 : T NM }.
(** Models is_allowed of FilterDirectionField3D, src/filter_direction_field_3d.rs:53-60; `Rad` compares like
    its f64, src/strong_types.rs:60-88. *)
Definition dfilter3_allowed (f : dfilter3) (pn : pt3 NM * pt3 NM) : res bool :=
  match rad_to3 (field3 f (fst pn)) (snd pn) with
  | Ok angle => Ok (angle <= tol3 f)
  | Err _ => Ok false
  | Panic => Panic
  end.
(** Models is_allowed of FilterDirectionField2D, src/filter_direction_field_2d.rs:53-56. *)
Definition dfilter2_allowed (f : dfilter2) (pn : pt2 NM * pt2 NM) : bool :=
  rad_to2 (field2 f (fst pn)) (snd pn) <= tol2 f.
End Angle.
