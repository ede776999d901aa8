(** Matrices, matrix pipes and transformations.
    Models src/matrix3.rs, src/matrix4.rs, src/matrix3_pipe.rs, src/matrix4_pipe.rs, multiply_m of
    src/is_buildable_2d.rs and src/is_buildable_3d.rs, and `center`, `set_size` of src/functions.rs. *)
From Verif Require Import Base Num BBoxModel VecModel.
Local Open Scope num_scope.

(** f64::cos, f64::sin and f64::tan (language level, no line): /repo gets them from the platform. *)
Record Trig (NM : Num) : Type := mkTrig { ncos : T NM -> T NM; nsin : T NM -> T NM; ntan : T NM -> T NM }.
Arguments ncos {NM}. Arguments nsin {NM}. Arguments ntan {NM}.

Section Mat.
Context {NM : Num}.
(** Models Matrix3, src/matrix3.rs:33-35: data[i][j] is the field [m3_ij]. *)
Record mat3 : Type := mkm3 {
  m3_00 : T NM; m3_01 : T NM; m3_02 : T NM;
  m3_10 : T NM; m3_11 : T NM; m3_12 : T NM;
  m3_20 : T NM; m3_21 : T NM; m3_22 : T NM }.
(** Models Matrix4, src/matrix4.rs:33-35: data[i][j] is the field [m4_ij]. *)
Record mat4 : Type := mkm4 {
  m4_00 : T NM; m4_01 : T NM; m4_02 : T NM; m4_03 : T NM;
  m4_10 : T NM; m4_11 : T NM; m4_12 : T NM; m4_13 : T NM;
  m4_20 : T NM; m4_21 : T NM; m4_22 : T NM; m4_23 : T NM;
  m4_30 : T NM; m4_31 : T NM; m4_32 : T NM; m4_33 : T NM }.

(** ** Matrix3 *)
(** Models Matrix3::identity (and Default), src/matrix3.rs:39-43,74-78. *)
Definition m3_identity : mat3 := mkm3 n1 n0 n0  n0 n1 n0  n0 n0 n1.
(** Models Matrix3::zeroes, src/matrix3.rs:45-49. *)
Definition m3_zeroes : mat3 := mkm3 n0 n0 n0  n0 n0 n0  n0 n0 n0.
(** Models Matrix3::translation, src/matrix3.rs:51-55. *)
Definition m3_translation (x y : T NM) : mat3 := mkm3 n1 n0 x  n0 n1 y  n0 n0 n1.
(** Models Matrix3::scale, src/matrix3.rs:57-61. *)
Definition m3_scale (x y : T NM) : mat3 := mkm3 x n0 n0  n0 y n0  n0 n0 n1.
(** Models Matrix3::rotation, src/matrix3.rs:63-71. *)
Definition m3_rotation (tr : Trig NM) (rad : T NM) : mat3 :=
  mkm3 (ncos tr rad) (- nsin tr rad) n0  (nsin tr rad) (ncos tr rad) n0  n0 n0 n1.
(** Models Mul for Matrix3 (three variants with the same body), src/matrix3.rs:80-126;
    [e a0 a1 a2 b0 b1 b2] is one entry, a row of the left times a column of the right. *)
Definition m3_mul (a b : mat3) : mat3 :=
  let e a0 a1 a2 b0 b1 b2 := a0 * b0 + a1 * b1 + a2 * b2 in
  let row a0 a1 a2 k :=
    k (e a0 a1 a2 (m3_00 b) (m3_10 b) (m3_20 b))
      (e a0 a1 a2 (m3_01 b) (m3_11 b) (m3_21 b))
      (e a0 a1 a2 (m3_02 b) (m3_12 b) (m3_22 b)) in
  row (m3_00 a) (m3_01 a) (m3_02 a) (fun r0 r1 r2 =>
  row (m3_10 a) (m3_11 a) (m3_12 a) (fun s0 s1 s2 =>
  row (m3_20 a) (m3_21 a) (m3_22 a) (fun t0 t1 t2 => mkm3 r0 r1 r2 s0 s1 s2 t0 t1 t2))).
(** Models Mul<f64> for Matrix3, src/matrix3.rs:128-154. *)
Definition m3_mul_num (a : mat3) (k : T NM) : mat3 :=
  mkm3 (k * m3_00 a) (k * m3_01 a) (k * m3_02 a)
       (k * m3_10 a) (k * m3_11 a) (k * m3_12 a)
       (k * m3_20 a) (k * m3_21 a) (k * m3_22 a).
(** Models IsBuildable2D::multiply_m, src/is_buildable_2d.rs:65-69, and Point2D::transformed /
    transform, src/point_2d.rs:320-328. *)
Definition pt2_multiply_m (p : pt2 NM) (m : mat3) : pt2 NM :=
  mk2 (x2 p * m3_00 m + y2 p * m3_01 m + m3_02 m)
      (x2 p * m3_10 m + y2 p * m3_11 m + m3_12 m).
(** Models transform / transformed of PointCloud2D, src/point_cloud_2d.rs:341-356, and through it
    of Polygon2D, src/polygon_2d.rs:138-151: every point. *)
Definition pts2_transform (ps : list (pt2 NM)) (m : mat3) : list (pt2 NM) := map (fun p => pt2_multiply_m p m) ps.

(** ** Matrix4 *)
(** Models Matrix4::identity (and Default), src/matrix4.rs:39-48,224-228. *)
Definition m4_identity : mat4 := mkm4 n1 n0 n0 n0  n0 n1 n0 n0  n0 n0 n1 n0  n0 n0 n0 n1.
(** Models Matrix4::zeroes, src/matrix4.rs:50-59. *)
Definition m4_zeroes : mat4 := mkm4 n0 n0 n0 n0  n0 n0 n0 n0  n0 n0 n0 n0  n0 n0 n0 n0.
(** Models Matrix4::translation, src/matrix4.rs:61-70. *)
Definition m4_translation (x y z : T NM) : mat4 := mkm4 n1 n0 n0 x  n0 n1 n0 y  n0 n0 n1 z  n0 n0 n0 n1.
(** Models Matrix4::scale, src/matrix4.rs:72-81. *)
Definition m4_scale (x y z : T NM) : mat4 := mkm4 x n0 n0 n0  n0 y n0 n0  n0 n0 z n0  n0 n0 n0 n1.
(** Models Mul for Matrix4 (three variants with the same body), src/matrix4.rs:230-279. *)
Definition m4_mul (a b : mat4) : mat4 :=
  let e a0 a1 a2 a3 b0 b1 b2 b3 := a0 * b0 + a1 * b1 + a2 * b2 + a3 * b3 in
  let row a0 a1 a2 a3 k :=
    k (e a0 a1 a2 a3 (m4_00 b) (m4_10 b) (m4_20 b) (m4_30 b))
      (e a0 a1 a2 a3 (m4_01 b) (m4_11 b) (m4_21 b) (m4_31 b))
      (e a0 a1 a2 a3 (m4_02 b) (m4_12 b) (m4_22 b) (m4_32 b))
      (e a0 a1 a2 a3 (m4_03 b) (m4_13 b) (m4_23 b) (m4_33 b)) in
  row (m4_00 a) (m4_01 a) (m4_02 a) (m4_03 a) (fun r0 r1 r2 r3 =>
  row (m4_10 a) (m4_11 a) (m4_12 a) (m4_13 a) (fun s0 s1 s2 s3 =>
  row (m4_20 a) (m4_21 a) (m4_22 a) (m4_23 a) (fun t0 t1 t2 t3 =>
  row (m4_30 a) (m4_31 a) (m4_32 a) (m4_33 a) (fun u0 u1 u2 u3 =>
  mkm4 r0 r1 r2 r3 s0 s1 s2 s3 t0 t1 t2 t3 u0 u1 u2 u3)))).
(** Models Mul<f64> for Matrix4, src/matrix4.rs:281-307. *)
Definition m4_mul_num (a : mat4) (k : T NM) : mat4 :=
  mkm4 (k * m4_00 a) (k * m4_01 a) (k * m4_02 a) (k * m4_03 a)
       (k * m4_10 a) (k * m4_11 a) (k * m4_12 a) (k * m4_13 a)
       (k * m4_20 a) (k * m4_21 a) (k * m4_22 a) (k * m4_23 a)
       (k * m4_30 a) (k * m4_31 a) (k * m4_32 a) (k * m4_33 a).
(** Models Matrix4::rotation, src/matrix4.rs:83-139. *)
Definition m4_rotation (tr : Trig NM) (x y z : T NM) : mat4 :=
  let mx := mkm4 n1 n0 n0 n0  n0 (ncos tr x) (- nsin tr x) n0  n0 (nsin tr x) (ncos tr x) n0  n0 n0 n0 n1 in
  let my := mkm4 (ncos tr y) n0 (nsin tr y) n0  n0 n1 n0 n0  (- nsin tr y) n0 (ncos tr y) n0  n0 n0 n0 n1 in
  let mz := mkm4 (ncos tr z) (- nsin tr z) n0 n0  (nsin tr z) (ncos tr z) n0 n0  n0 n0 n1 n0  n0 n0 n0 n1 in
  m4_mul (m4_mul mx my) mz.
(** Models Matrix4::rotation_axis, src/matrix4.rs:141-165. *)
Definition m4_rotation_axis (tr : Trig NM) (u : pt3 NM) (rad : T NM) : mat4 :=
  let c := ncos tr rad in let s := nsin tr rad in
  mkm4 (c + px u * px u * (n1 - c)) (px u * py u * (n1 - c) - pz u * s) (px u * pz u * (n1 - c) + py u * s) n0
       (py u * px u * (n1 - c) + pz u * s) (c + py u * py u * (n1 - c)) (py u * pz u * (n1 - c) - px u * s) n0
       (pz u * px u * (n1 - c) - py u * s) (pz u * py u * (n1 - c) + px u * s) (c + pz u * pz u * (n1 - c)) n0
       n0 n0 n0 n1.
(** Models Matrix4::perspective, src/matrix4.rs:167-190. *)
Definition m4_perspective (tr : Trig NM) (close away fov : T NM) : mat4 :=
  let range := close - away in
  let tan_fov_half := ntan tr (fov / n2) in
  mkm4 (n1 / (tan_fov_half * away)) n0 n0 n0
       n0 (n1 / tan_fov_half) n0 n0
       n0 n0 ((- close - away) / range) (n2 * away * close / range)
       n0 n0 n1 n1.
(** Models IsBuildable3D::normalized, src/is_buildable_3d.rs:67-73. *)
Definition normalized3 (p : pt3 NM) : res (pt3 NM) :=
  obind (abs3 p) (fun l => if l == n0 then Err NormalizeVecWithoutLength
                           else Ok (mk3 (px p / l) (py p / l) (pz p / l))).
(** Models IsBuildable2D::normalized, src/is_buildable_2d.rs:52-58. *)
Definition normalized2 (p : pt2 NM) : res (pt2 NM) :=
  obind (abs2 p) (fun l => if l == n0 then Err NormalizeVecWithoutLength
                           else Ok (mk2 (x2 p / l) (y2 p / l))).
(** Models Matrix4::look_at, src/matrix4.rs:192-219. *)
Definition m4_look_at (target up : pt3 NM) : res mat4 :=
  obind (normalized3 target) (fun n =>
  let u := cross3 up target in
  let v := cross3 n u in
  Ok (mkm4 (px u) (py u) (pz u) n0  (px v) (py v) (pz v) n0  (px n) (py n) (pz n) n0  n0 n0 n0 n1)).
(** Models IsBuildable3D::multiply_m, src/is_buildable_3d.rs:51-65, and Point3D::transformed /
    transform, src/point_3d.rs:349-357. *)
Definition pt3_multiply_m (p : pt3 NM) (m : mat4) : pt3 NM :=
  mk3 (px p * m4_00 m + py p * m4_01 m + pz p * m4_02 m + m4_03 m)
      (px p * m4_10 m + py p * m4_11 m + pz p * m4_12 m + m4_13 m)
      (px p * m4_20 m + py p * m4_21 m + pz p * m4_22 m + m4_23 m).
(** Models transform / transformed of PointCloud3D, src/point_cloud_3d.rs:351-366, and through it
    of Polygon3D, src/polygon_3d.rs:138-151, and of the vertices of Mesh3D, src/mesh_3d.rs:180-195. *)
Definition pts3_transform (ps : list (pt3 NM)) (m : mat4) : list (pt3 NM) := map (fun p => pt3_multiply_m p m) ps.

(** ** Pipes *)
(** Models Matrix3Pipe, src/matrix3_pipe.rs:31-35. *)
Record pipe3 : Type := mkpipe3 { p3_translation : mat3; p3_rotation : mat3; p3_scale : mat3 }.
(** Models Default for Matrix3Pipe (derived), src/matrix3_pipe.rs:29. *)
Definition pipe3_default : pipe3 := mkpipe3 m3_identity m3_identity m3_identity.
(** Models Matrix3Pipe::result, src/matrix3_pipe.rs:39-41. *)
Definition pipe3_result (p : pipe3) : mat3 := m3_mul (m3_mul (p3_translation p) (p3_rotation p)) (p3_scale p).
(** The methods with `&mut self` of Matrix3Pipe as data. *)
Inductive pipe3_op : Type :=
  | P3AddTranslation (x y : T NM) | P3RemoveTranslation
  | P3AddRotation (rad : T NM) | P3RemoveRotation
  | P3AddScale (x y : T NM) | P3RemoveScale.
(** Models add_translation, remove_translation, add_rotation, remove_rotation, add_scale and
    remove_scale of Matrix3Pipe, src/matrix3_pipe.rs:43-67. *)
Definition pipe3_do (tr : Trig NM) (p : pipe3) (o : pipe3_op) : pipe3 :=
  match o with
  | P3AddTranslation x y => mkpipe3 (m3_translation x y) (p3_rotation p) (p3_scale p)
  | P3RemoveTranslation => mkpipe3 m3_identity (p3_rotation p) (p3_scale p)
  | P3AddRotation rad => mkpipe3 (p3_translation p) (m3_rotation tr rad) (p3_scale p)
  | P3RemoveRotation => mkpipe3 (p3_translation p) m3_identity (p3_scale p)
  | P3AddScale x y => mkpipe3 (p3_translation p) (p3_rotation p) (m3_scale x y)
  | P3RemoveScale => mkpipe3 (p3_translation p) (p3_rotation p) m3_identity
  end.
(** Models Matrix4Pipe, src/matrix4_pipe.rs:31-38. *)
Record pipe4 : Type := mkpipe4 {
  p4_translation : mat4; p4_rotation : mat4; p4_scale : mat4;
  p4_perspective : mat4; p4_camtrans : mat4; p4_camlook : mat4 }.
(** Models Default for Matrix4Pipe (derived), src/matrix4_pipe.rs:29. *)
Definition pipe4_default : pipe4 :=
  mkpipe4 m4_identity m4_identity m4_identity m4_identity m4_identity m4_identity.
(** Models Matrix4Pipe::result, src/matrix4_pipe.rs:42-49. *)
Definition pipe4_result (p : pipe4) : mat4 :=
  m4_mul (m4_mul (m4_mul (m4_mul (m4_mul (p4_perspective p) (p4_camlook p)) (p4_camtrans p))
                         (p4_translation p)) (p4_rotation p)) (p4_scale p).
(** The methods with `&mut self` of Matrix4Pipe as data. *)
Inductive pipe4_op : Type :=
  | P4AddTranslation (x y z : T NM) | P4RemoveTranslation
  | P4AddRotation (x y z : T NM) | P4AddRotationAxis (axis : pt3 NM) (rad : T NM) | P4RemoveRotation
  | P4AddScale (x y z : T NM) | P4RemoveScale
  | P4AddPerspective (close away rad : T NM) | P4RemovePerspective
  | P4AddCameraTranslation (x y z : T NM) | P4RemoveCameraTranslation
  | P4AddLookAt (target up : pt3 NM) | P4RemoveLookAt.
(** Models the methods of Matrix4Pipe, src/matrix4_pipe.rs:51-114: the new pipe and the result
    (only add_look_at can fail, 103-110). *)
Definition pipe4_do (tr : Trig NM) (p : pipe4) (o : pipe4_op) : pipe4 * res unit :=
  match o with
  | P4AddTranslation x y z =>
      (mkpipe4 (m4_translation x y z) (p4_rotation p) (p4_scale p) (p4_perspective p) (p4_camtrans p) (p4_camlook p), Ok tt)
  | P4RemoveTranslation =>
      (mkpipe4 m4_identity (p4_rotation p) (p4_scale p) (p4_perspective p) (p4_camtrans p) (p4_camlook p), Ok tt)
  | P4AddRotation x y z =>
      (mkpipe4 (p4_translation p) (m4_rotation tr x y z) (p4_scale p) (p4_perspective p) (p4_camtrans p) (p4_camlook p), Ok tt)
  | P4AddRotationAxis axis rad =>
      (mkpipe4 (p4_translation p) (m4_rotation_axis tr axis rad) (p4_scale p) (p4_perspective p) (p4_camtrans p) (p4_camlook p), Ok tt)
  | P4RemoveRotation =>
      (mkpipe4 (p4_translation p) m4_identity (p4_scale p) (p4_perspective p) (p4_camtrans p) (p4_camlook p), Ok tt)
  | P4AddScale x y z =>
      (mkpipe4 (p4_translation p) (p4_rotation p) (m4_scale x y z) (p4_perspective p) (p4_camtrans p) (p4_camlook p), Ok tt)
  | P4RemoveScale =>
      (mkpipe4 (p4_translation p) (p4_rotation p) m4_identity (p4_perspective p) (p4_camtrans p) (p4_camlook p), Ok tt)
  | P4AddPerspective close away rad =>
      (mkpipe4 (p4_translation p) (p4_rotation p) (p4_scale p) (m4_perspective tr close away rad) (p4_camtrans p) (p4_camlook p), Ok tt)
  | P4RemovePerspective =>
      (mkpipe4 (p4_translation p) (p4_rotation p) (p4_scale p) m4_identity (p4_camtrans p) (p4_camlook p), Ok tt)
  | P4AddCameraTranslation x y z =>
      (mkpipe4 (p4_translation p) (p4_rotation p) (p4_scale p) (p4_perspective p) (m4_translation (- x) (- y) (- z)) (p4_camlook p), Ok tt)
  | P4RemoveCameraTranslation =>
      (mkpipe4 (p4_translation p) (p4_rotation p) (p4_scale p) (p4_perspective p) m4_identity (p4_camlook p), Ok tt)
  | P4AddLookAt target up =>
      match m4_look_at target up with
      | Ok m => (mkpipe4 (p4_translation p) (p4_rotation p) (p4_scale p) (p4_perspective p) (p4_camtrans p) m, Ok tt)
      | Err e => (p, Err e)
      | Panic => (p, Panic)
      end
  | P4RemoveLookAt =>
      (mkpipe4 (p4_translation p) (p4_rotation p) (p4_scale p) (p4_perspective p) (p4_camtrans p) m4_identity, Ok tt)
  end.

(** ** center and set_size for point sets *)
(** bounding_box_maybe of PointCloud3D, src/point_cloud_3d.rs:203-210: `from_iterator(..).ok()`. *)
Definition pts3_bb_maybe (dbg : bool) (ps : list (pt3 NM)) : res (option (@bb3 NM)) :=
  match bb3_from_iterator dbg ps with Ok b => Ok (Some b) | Err _ => Ok None | Panic => Panic end.
(** Models center, src/functions.rs:212-220, of a PointCloud3D. *)
Definition pts3_center (dbg : bool) (ps : list (pt3 NM)) : res (list (pt3 NM)) :=
  obind (pts3_bb_maybe dbg ps) (fun o => match o with
  | Some bb => let c := bb3_center bb in Ok (map (fun p => pt3_move_by p (- px c) (- py c) (- pz c)) ps)
  | None => Ok ps end).
(** Models set_size, src/functions.rs:223-235, of a PointCloud3D. *)
Definition pts3_set_size (dbg : bool) (ps : list (pt3 NM)) (sx sy sz : T NM) : res (list (pt3 NM)) :=
  obind (pts3_bb_maybe dbg ps) (fun o => match o with
  | Some bb => obind (bb3_size_x bb) (fun bx => obind (bb3_size_y bb) (fun by_ => obind (bb3_size_z bb) (fun bz =>
               Ok (pts3_transform ps (m4_scale (sx / bx) (sy / by_) (sz / bz))))))
  | None => Ok ps end).
End Mat.
Arguments mat3 : clear implicits.
Arguments mat4 : clear implicits.
Arguments pipe3 : clear implicits.
Arguments pipe4 : clear implicits.
Arguments pipe3_op : clear implicits.
Arguments pipe4_op : clear implicits.
