(** Doubles and their values. *)
From Verif Require Import Base Num BBoxModel GeomSpec.
From Coq Require Import Floats.SpecFloat Reals.

(** A value of Rust's f64: the mantissa and exponent are in range and canonical.
    (The carrier of [F64] also contains other pairs, which no f64 has.) *)
Definition is_double (x : T F64) : Prop := valid_binary f64_prec f64_emax x = true.
(** The number a finite double stands for (0 for infinities and NaN). *)
Definition fval (x : T F64) : R :=
  match (x : spec_float) with
  | S754_finite s m e => ((if s then -1 else 1) * IZR (Zpos m) * powerRZ 2 e)%R
  | _ => 0%R
  end.
(** The infinity. *)
Definition infinity : T F64 := S754_infinity false.
(** Neither an infinity nor NaN. *)
Definition finite (x : T F64) : Prop :=
  match (x : spec_float) with S754_zero _ | S754_finite _ _ _ => True | _ => False end.
(** Minus zero, which f64 tells apart from zero in divisions only. *)
Definition minus_zero : T F64 := S754_zero true.
(** Every corner coordinate is a double. *)
Definition box_double3 (b : bb3 F64) : Prop := forall ax, axis3 ax -> is_double (ax (min3 b)) /\ is_double (ax (max3 b)).
Definition box_double2 (b : bb2 F64) : Prop := forall ax, axis2 ax -> is_double (ax (min2 b)) /\ is_double (ax (max2 b)).
(** The operation panics in exactly the case [Q] and otherwise returns a value with [P]. *)
Definition if_panics {A} (r : res A) (Q : Prop) (P : A -> Prop) : Prop :=
  match r with Ok a => ~ Q /\ P a | Panic => Q | Err _ => False end.
