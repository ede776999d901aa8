(** Specification vocabulary for coordinates, independent of the models:
    axes, IEEE comparisons, regions and distances in real space. *)
From Verif Require Import Base Num BBoxModel.
From Coq Require Import Floats.SpecFloat Reals.

(** A coordinate selector. *)
Definition axis3 {NM} (ax : pt3 NM -> T NM) : Prop := ax = px \/ ax = py \/ ax = pz.
Definition axis2 {NM} (ax : pt2 NM -> T NM) : Prop := ax = x2 \/ ax = y2.

(** IEEE comparisons as relations; every one is false on NaN. *)
Definition flt (a b : T F64) : Prop := SFltb a b = true.
Definition fle (a b : T F64) : Prop := SFleb a b = true.
Definition feq (a b : T F64) : Prop := SFeqb a b = true.
(** Not NaN. *)
Definition number (a : T F64) : Prop := a <> S754_nan.
Definition number3 (p : pt3 F64) : Prop := forall ax, axis3 ax -> number (ax p).
Definition number2 (p : pt2 F64) : Prop := forall ax, axis2 ax -> number (ax p).
Definition box_number3 (b : bb3 F64) : Prop := number3 (min3 b) /\ number3 (max3 b).
Definition box_number2 (b : bb2 F64) : Prop := number2 (min2 b) /\ number2 (max2 b).

(** [lo], [hi] are the least and the greatest value of a list of doubles. *)
Definition is_min (lo : T F64) (vs : list (T F64)) : Prop := In lo vs /\ forall v, In v vs -> fle lo v.
Definition is_max (hi : T F64) (vs : list (T F64)) : Prop := In hi vs /\ forall v, In v vs -> fle v hi.
(** Two of the values differ. *)
Definition differ (vs : list (T F64)) : Prop := exists u v, In u vs /\ In v vs /\ flt u v.

(** [a] lies within [b], boundaries included. *)
Definition box_le3 (a b : bb3 F64) : Prop := forall ax, axis3 ax ->
  fle (ax (min3 b)) (ax (min3 a)) /\ fle (ax (max3 a)) (ax (max3 b)).
Definition box_le2 (a b : bb2 F64) : Prop := forall ax, axis2 ax ->
  fle (ax (min2 b)) (ax (min2 a)) /\ fle (ax (max2 a)) (ax (max2 b)).
(** Equal as IEEE numbers in every coordinate. *)
Definition box_eq3 (a b : bb3 F64) : Prop := forall ax, axis3 ax ->
  feq (ax (min3 a)) (ax (min3 b)) /\ feq (ax (max3 a)) (ax (max3 b)).
Definition box_eq2 (a b : bb2 F64) : Prop := forall ax, axis2 ax ->
  feq (ax (min2 a)) (ax (min2 b)) /\ feq (ax (max2 a)) (ax (max2 b)).
(** Strictly ordered corners. *)
Definition fvalid3 (b : bb3 F64) : Prop := forall ax, axis3 ax -> flt (ax (min3 b)) (ax (max3 b)).
Definition fvalid2 (b : bb2 F64) : Prop := forall ax, axis2 ax -> flt (ax (min2 b)) (ax (max2 b)).

(** What creating a box from two corners must do. *)
Definition new3_outcome (mn mx : pt3 F64) (r : res (bb3 F64)) : Prop :=
  match r with
  | Ok b => b = mkbb3 mn mx /\ forall ax, axis3 ax -> flt (ax mn) (ax mx)
  | Err MinMaxEqual => exists ax, axis3 ax /\ feq (ax mn) (ax mx)
  | Err MinMaxSwapped => (forall ax, axis3 ax -> ~ feq (ax mn) (ax mx)) /\
                         exists ax, axis3 ax /\ flt (ax mx) (ax mn)
  | _ => False
  end.
Definition new2_outcome (mn mx : pt2 F64) (r : res (bb2 F64)) : Prop :=
  match r with
  | Ok b => b = mkbb2 mn mx /\ forall ax, axis2 ax -> flt (ax mn) (ax mx)
  | Err MinMaxEqual => exists ax, axis2 ax /\ feq (ax mn) (ax mx)
  | Err MinMaxSwapped => (forall ax, axis2 ax -> ~ feq (ax mn) (ax mx)) /\
                         exists ax, axis2 ax /\ flt (ax mx) (ax mn)
  | _ => False
  end.
(** What creating a box from a sequence of points must do: the box is tight in
    every coordinate; it exists iff the points differ in every coordinate. *)
Definition from3_outcome (ps : list (pt3 F64)) (r : res (bb3 F64)) : Prop :=
  match r with
  | Ok b => (2 <= length ps)%nat /\ forall ax, axis3 ax ->
      is_min (ax (min3 b)) (map ax ps) /\ is_max (ax (max3 b)) (map ax ps) /\ differ (map ax ps)
  | Err TooFewPoints => (length ps < 2)%nat
  | Err MinMaxEqual => (2 <= length ps)%nat /\ exists ax, axis3 ax /\ ~ differ (map ax ps)
  | _ => False
  end.
Definition from2_outcome (ps : list (pt2 F64)) (r : res (bb2 F64)) : Prop :=
  match r with
  | Ok b => (2 <= length ps)%nat /\ forall ax, axis2 ax ->
      is_min (ax (min2 b)) (map ax ps) /\ is_max (ax (max2 b)) (map ax ps) /\ differ (map ax ps)
  | Err TooFewPoints => (length ps < 2)%nat
  | Err MinMaxEqual => (2 <= length ps)%nat /\ exists ax, axis2 ax /\ ~ differ (map ax ps)
  | _ => False
  end.

(** Real space. *)
Definition valid3 (b : bb3 RN) : Prop := forall ax, axis3 ax -> (ax (min3 b) < ax (max3 b))%R.
Definition valid2 (b : bb2 RN) : Prop := forall ax, axis2 ax -> (ax (min2 b) < ax (max2 b))%R.
Definition interior3 (b : bb3 RN) (p : pt3 RN) : Prop :=
  forall ax, axis3 ax -> (ax (min3 b) < ax p < ax (max3 b))%R.
Definition interior2 (b : bb2 RN) (p : pt2 RN) : Prop :=
  forall ax, axis2 ax -> (ax (min2 b) < ax p < ax (max2 b))%R.
Definition closed3 (b : bb3 RN) (p : pt3 RN) : Prop :=
  forall ax, axis3 ax -> (ax (min3 b) <= ax p <= ax (max3 b))%R.
Definition closed2 (b : bb2 RN) (p : pt2 RN) : Prop :=
  forall ax, axis2 ax -> (ax (min2 b) <= ax p <= ax (max2 b))%R.
Definition sqd3 (p q : pt3 RN) : R :=
  ((px p - px q)^2 + (py p - py q)^2 + (pz p - pz q)^2)%R.
Definition sqd2 (p q : pt2 RN) : R := ((x2 p - x2 q)^2 + (y2 p - y2 q)^2)%R.

(** Doubles and points with integer coordinates, for the examples. *)
Definition fz (z : Z) : T F64 := lit z 0.
Definition fp3 (x y z : Z) : pt3 F64 := mk3 (fz x) (fz y) (fz z).
Definition fp2 (x y : Z) : pt2 F64 := mk2 (fz x) (fz y).
Definition rp3 (x y z : R) : pt3 RN := @mk3 RN x y z.
Definition rp2 (x y : R) : pt2 RN := @mk2 RN x y.

(** Equality of closed terms, checked by the kernel's virtual machine. *)
Ltac vmeq := unfold flt, fle, feq;
  lazymatch goal with |- @eq ?A ?a ?b => vm_cast_no_check (@eq_refl A b) end.
