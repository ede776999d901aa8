(** Positions of the plane addressed by dimension, and the operators of points.
    Models the IsBuildableND, IsBuildable2D::from and IsEditableND implementations of src/point_2d.rs, src/circle.rs,
    src/box_2d.rs and the filters wrapping them, the operators of src/point_2d.rs, and the negative directions of
    src/is_normalized_2d.rs and src/is_normalized_3d.rs. *)
From Verif Require Import Base Num BBoxModel KdModel FilterModel VecModel LineModel MatrixModel WrapModel ShapeModel CloudModel EditModel.
Local Open Scope num_scope.

Section Nd.
Context {NM : Num}.
(** Models IsBuildableND::new_nd for Point2D, src/point_2d.rs:247-255. *)
Definition point2_new_nd (coords : list (T NM)) : res (pt2 NM) :=
  match coords with [x; y] => Ok (mk2 x y) | _ => Err DimensionsDontMatch end.
(** Models new_nd for Circle, src/circle.rs:77-82 (FilterCircle, src/filter_circle.rs:67-69, wraps it). *)
Definition circle_new_nd (coords : list (T NM)) : res (circle NM) :=
  obind (point2_new_nd coords) (fun c => Ok (mkcircle c pos_one)).
(** Models new_nd for Box2D, src/box_2d.rs:104-110 (FilterBox2D, src/filter_box_2d.rs:68-70, wraps it). *)
Definition box2_new_nd (coords : list (T NM)) : res (box2d NM) :=
  obind (point2_new_nd coords) (fun c => Ok (mkbox2d c pos_one pos_one)).
(** Models IsBuildableND::from_nd for Point2D, src/point_2d.rs:258-269: the point after the call, and the result. *)
Definition point2_from_nd (p : pt2 NM) (dims : N) (o : N -> option (T NM)) : pt2 NM * res unit :=
  if negb (N.eqb dims 2) then (p, Err DimensionsDontMatch)
  else match o 0%N with None => (p, Err IncorrectDimension) | Some x =>
    let p := mk2 x (y2 p) in
    match o 1%N with None => (p, Err IncorrectDimension) | Some y => (mk2 (x2 p) y, Ok tt) end end.
(** Models from_nd for Circle, src/circle.rs:85-90 (FilterCircle, src/filter_circle.rs:72-77, passes it on). *)
Definition circle_from_nd (c : circle NM) (dims : N) (o : N -> option (T NM)) : circle NM * res unit :=
  let '(p, r) := point2_from_nd (cir_center c) dims o in (circle_at c p, r).
(** Models from_nd for Box2D, src/box_2d.rs:113-118 (FilterBox2D, src/filter_box_2d.rs:73-78, passes it on). *)
Definition box2_from_nd (b : box2d NM) (dims : N) (o : N -> option (T NM)) : box2d NM * res unit :=
  let '(p, r) := point2_from_nd (box2_center b) dims o in (box2_at b p, r).
(** Models IsBuildable2D::from for Point2D, src/point_2d.rs:279-285. *)
Definition point2_from (p o : pt2 NM) : pt2 NM := mk2 (x2 o) (y2 o).
(** Models from for Circle, src/circle.rs:103-108 (FilterCircle, src/filter_circle.rs:87-92, passes it on). *)
Definition circle_from (c : circle NM) (o : pt2 NM) : circle NM := circle_at c (point2_from (cir_center c) o).
(** Models from for Box2D, src/box_2d.rs:132-137 (FilterBox2D, src/filter_box_2d.rs:88-93, passes it on). *)
Definition box2_from (b : box2d NM) (o : pt2 NM) : box2d NM := box2_at b (point2_from (box2_center b) o).
(** Models IsEditableND::set_position for Point2D, src/point_2d.rs:289-296. *)
Definition point2_set_position (p : pt2 NM) (d : N) (v : T NM) : pt2 NM * res unit :=
  match d with 0%N => (mk2 v (y2 p), Ok tt) | 1%N => (mk2 (x2 p) v, Ok tt) | _ => (p, Err DimensionsDontMatch) end.
(** Models set_position for Circle, src/circle.rs:112-114 (FilterCircle, src/filter_circle.rs:96-98, passes it on). *)
Definition circle_set_position (c : circle NM) (d : N) (v : T NM) : circle NM * res unit :=
  let '(p, r) := point2_set_position (cir_center c) d v in (circle_at c p, r).
(** Models set_position for Box2D, src/box_2d.rs:141-143 (FilterBox2D, src/filter_box_2d.rs:97-99, passes it on). *)
Definition box2_set_position (b : box2d NM) (d : N) (v : T NM) : box2d NM * res unit :=
  let '(p, r) := point2_set_position (box2_center b) d v in (box2_at b p, r).

(** Models Add for Point2D, src/point_2d.rs:68-105. *)
Definition pt2_add (a b : pt2 NM) : pt2 NM := mk2 (x2 a + x2 b) (y2 a + y2 b).
(** Models Sub for Point2D, src/point_2d.rs:107-144. *)
Definition pt2_sub (a b : pt2 NM) : pt2 NM := mk2 (x2 a - x2 b) (y2 a - y2 b).
(** Models Mul<f64> for Point2D, src/point_2d.rs:146-166. *)
Definition pt2_mul (a : pt2 NM) (k : T NM) : pt2 NM := mk2 (k * x2 a) (k * y2 a).
(** Models Div<f64> for Point2D, src/point_2d.rs:168-188. *)
Definition pt2_div (a : pt2 NM) (k : T NM) : pt2 NM := mk2 (x2 a / k) (y2 a / k).
(** Models Neg for Point2D, src/point_2d.rs:190-210. *)
Definition pt2_neg (a : pt2 NM) : pt2 NM := mk2 (- x2 a) (- y2 a).

(** Models IsNormalized2D::norm_x_neg, src/is_normalized_2d.rs:45-47. *)
Definition norm2_x_neg : res (pt2 NM) := unwrap_res (norm2_new (mk2 (- n1) n0)).
(** Models IsNormalized2D::norm_y_neg, src/is_normalized_2d.rs:49-51. *)
Definition norm2_y_neg : res (pt2 NM) := unwrap_res (norm2_new (mk2 n0 (- n1))).
(** Models IsNormalized3D::norm_x_neg, src/is_normalized_3d.rs:49-51. *)
Definition norm3_x_neg : res (pt3 NM) := unwrap_res (norm3_new (mk3 (- n1) n0 n0)).
(** Models IsNormalized3D::norm_y_neg, src/is_normalized_3d.rs:53-55. *)
Definition norm3_y_neg : res (pt3 NM) := unwrap_res (norm3_new (mk3 n0 (- n1) n0)).
(** Models IsNormalized3D::norm_z_neg, src/is_normalized_3d.rs:57-59. *)
Definition norm3_z_neg : res (pt3 NM) := unwrap_res (norm3_new (mk3 n0 n0 (- n1))).
End Nd.
