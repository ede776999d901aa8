(** Lines and their intersection with boxes.
    Models src/line_3d.rs and intersection of src/functions.rs. *)
From Verif Require Import Base Num BBoxModel.
Local Open Scope num_scope.

Section Line.
Context {NM : Num}.
(** Models Line3D, src/line_3d.rs:31-36 (dir: Norm3D is its coordinates). *)
Record line3 : Type := mkline3 { anchor : pt3 NM; dir : pt3 NM }.
(** Models min64, src/functions.rs:424-430. *)
Definition min64 (a b : T NM) : T NM := if a < b then a else b.
(** Models max64, src/functions.rs:433-439. *)
Definition max64 (a b : T NM) : T NM := if a > b then a else b.
(** Models &Norm3D * f64, src/norm_3d.rs:75-84. *)
Definition norm3_mul (d : pt3 NM) (f : T NM) : pt3 NM := mk3 (f * px d) (f * py d) (f * pz d).
(** Models &Point3D + Point3D, src/point_3d.rs:101-111. *)
Definition pt3_add (a b : pt3 NM) : pt3 NM := mk3 (px a + px b) (py a + py b) (pz a + pz b).
(** Models intersection, src/functions.rs:443-471. *)
Definition intersection (l : line3) (b : bb3 NM) : option (pt3 NM) :=
  let ix := n1 / px (dir l) in let iy := n1 / py (dir l) in let iz := n1 / pz (dir l) in
  let mn := min3 b in let mx := max3 b in
  let tx1 := (px mn - px (anchor l)) * ix in
  let tx2 := (px mx - px (anchor l)) * ix in
  let tmin := min64 tx1 tx2 in
  let tmax := max64 tx1 tx2 in
  let ty1 := (py mn - py (anchor l)) * iy in
  let ty2 := (py mx - py (anchor l)) * iy in
  let tmin := max64 tmin (min64 ty1 ty2) in
  let tmax := min64 tmax (max64 ty1 ty2) in
  let tz1 := (pz mn - pz (anchor l)) * iz in
  let tz2 := (pz mx - pz (anchor l)) * iz in
  let tmin := max64 tmin (min64 tz1 tz2) in
  let tmax := min64 tmax (max64 tz1 tz2) in
  if (tmax >= tmin) && (tmax >= n0) then Some (pt3_add (anchor l) (norm3_mul (dir l) tmin)) else None.
End Line.
Arguments line3 : clear implicits.
