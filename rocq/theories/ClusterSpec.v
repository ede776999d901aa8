(** Vocabulary for clusters: the float casts of the language and regions. *)
From Verif Require Import Base Num BBoxModel GeomSpec FloatSpec.
From Coq Require Import Floats.SpecFloat Reals.

(** `x as uN` of a double, as the Rust reference defines it: towards zero, saturating, NaN gives 0. *)
Definition f64_as (bits : N) (x : T F64) : N :=
  match (x : spec_float) with
  | S754_zero _ | S754_nan => 0%N
  | S754_infinity s => if s then 0%N else (2 ^ bits - 1)%N
  | S754_finite s m e =>
      if s then 0%N
      else N.min (2 ^ bits - 1) (Z.to_N (if (0 <=? e)%Z then Zpos m * 2 ^ e else Zpos m / 2 ^ (- e))%Z)
  end.
(** The same on real numbers. *)
Definition real_as (bits : N) (x : T RN) : N := N.min (2 ^ bits - 1) (Z.to_N (Int_part x)).

(** A box as BoundingBox3D::new makes it from finite doubles. *)
Definition good_box (b : bb3 F64) : Prop :=
  box_double3 b /\ fvalid3 b /\ forall ax, axis3 ax -> finite (ax (min3 b)) /\ finite (ax (max3 b)).
(** The position lies in the box seen from above, boundaries included. *)
Definition inside_xy (b : bb3 F64) (x y : T F64) : Prop :=
  fle (px (min3 b)) x /\ fle x (px (max3 b)) /\ fle (py (min3 b)) y /\ fle y (py (max3 b)).
(** Boxes over the reals, corners in order. *)
Definition real_box (b : bb3 RN) : Prop := forall ax : pt3 RN -> R, axis3 (NM:=RN) ax -> (ax (min3 b) < ax (max3 b))%R.
(** [w] is the extent of the values: their greatest minus their least one. *)
Definition spans (los his : list R) (lo hi : R) : Prop :=
  In lo los /\ In hi his /\ (forall v, In v los -> lo <= v)%R /\ (forall v, In v his -> v <= hi)%R.

(** ** Clusters of vertices *)
(** [q] is the last element of [vs] with the key of [p]. *)
Definition last_like {P K} (key : P -> K) (vs : list P) (p q : P) : Prop :=
  exists l r, vs = l ++ q :: r /\ key q = key p /\ forall z, In z r -> key z <> key p.
(** The cell of a point in a grid starting at [mn]. *)
Definition grid_cell {NM} (cast : N -> T NM -> N) (mn : pt3 NM) (size : T NM) (p : pt3 NM) : N * N * N :=
  (cast 64%N ((px p - px mn) / size)%num, cast 64%N ((py p - py mn) / size)%num, cast 64%N ((pz p - pz mn) / size)%num).
