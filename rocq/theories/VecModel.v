(** Vector arithmetic and normalized vectors.
    Models src/is_2d.rs, src/is_3d.rs, src/norm_2d.rs, src/norm_3d.rs and the helpers of src/functions.rs. *)
From Verif Require Import Base Num.
Local Open Scope num_scope.

Section Vec.
Context {NM : Num}.
(** Models conn, src/functions.rs:200-209. *)
Definition conn (a b : pt3 NM) : pt3 NM := mk3 (px b - px a) (py b - py a) (pz b - pz a).
(** Models cross, src/functions.rs:60-69. *)
Definition cross3 (a b : pt3 NM) : pt3 NM :=
  mk3 (py a * pz b - pz a * py b) (pz a * px b - px a * pz b) (px a * py b - py a * px b).
(** Models Is3D::dot, src/is_3d.rs:60-62. *)
Definition dot3 (a b : pt3 NM) : T NM := px a * px b + py a * py b + pz a * pz b.
(** Models Is3D::abs, src/is_3d.rs:65-68; the unwrap panics on NaN. *)
Definition abs3 (a : pt3 NM) : res (T NM) := unwrap (nonneg_new (nsqrt (nsq (px a) + nsq (py a) + nsq (pz a)))).
(** Models Norm3D::new, src/norm_3d.rs:144-160. *)
Definition norm3_new (p : pt3 NM) : res (pt3 NM) :=
  obind (abs3 p) (fun l =>
  if l == n0 then Err NormalizeVecWithoutLength
  else let f := n1 / l in Ok (mk3 (f * px p) (f * py p) (f * pz p))).
(** `unwrap` of a Result (language convention): an error panics. *)
Definition unwrap_res {E A} (r : outcome E A) : outcome E A := match r with Ok a => Ok a | _ => Panic end.
(** Models IsNormalized3D::norm_x, src/is_normalized_3d.rs:37-39. *)
Definition norm3_x : res (pt3 NM) := unwrap_res (norm3_new (mk3 n1 n0 n0)).
(** Models IsNormalized3D::norm_y, src/is_normalized_3d.rs:41-43. *)
Definition norm3_y : res (pt3 NM) := unwrap_res (norm3_new (mk3 n0 n1 n0)).
(** Models IsNormalized3D::norm_z, src/is_normalized_3d.rs:45-47. *)
Definition norm3_z : res (pt3 NM) := unwrap_res (norm3_new (mk3 n0 n0 n1)).
(** Models Neg for Norm3D, src/norm_3d.rs:86-108. *)
Definition norm3_neg (a : pt3 NM) : pt3 NM := mk3 (- px a) (- py a) (- pz a).
(** Models normal_of_face, src/functions.rs:395-402: unwrap_or evaluates norm_z first. *)
Definition normal_of_face (v1 v2 v3 : pt3 NM) : res (pt3 NM) :=
  match norm3_new (cross3 (conn v1 v2) (conn v2 v3)) with
  | Ok n => obind norm3_z (fun _ => Ok n)
  | Err _ => norm3_z
  | Panic => Panic
  end.

(** Models Is2D::dot, src/is_2d.rs:43-45. *)
Definition dot2 (a b : pt2 NM) : T NM := x2 a * x2 b + y2 a * y2 b.
(** Models Is2D::cross, src/is_2d.rs:48-50. *)
Definition cross2 (a b : pt2 NM) : T NM := x2 a * y2 b - y2 a * x2 b.
(** Models Is2D::abs, src/is_2d.rs:53-55. *)
Definition abs2 (a : pt2 NM) : res (T NM) := unwrap (nonneg_new (nsqrt (nsq (x2 a) + nsq (y2 a)))).
(** Models Norm2D::new, src/norm_2d.rs:132-147. *)
Definition norm2_new (p : pt2 NM) : res (pt2 NM) :=
  obind (abs2 p) (fun l =>
  if l == n0 then Err NormalizeVecWithoutLength
  else let f := n1 / l in Ok (mk2 (f * x2 p) (f * y2 p))).
(** Models IsNormalized2D::norm_x, src/is_normalized_2d.rs:37-39. *)
Definition norm2_x : res (pt2 NM) := unwrap_res (norm2_new (mk2 n1 n0)).
(** Models IsNormalized2D::norm_y, src/is_normalized_2d.rs:41-43. *)
Definition norm2_y : res (pt2 NM) := unwrap_res (norm2_new (mk2 n0 n1)).
(** Models Neg for Norm2D, src/norm_2d.rs:83-103. *)
Definition norm2_neg (a : pt2 NM) : pt2 NM := mk2 (- x2 a) (- y2 a).
End Vec.
