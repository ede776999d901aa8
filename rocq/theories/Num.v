(** The number type of the modelled code.

    /repo computes with f64 throughout.  The models are written once over a
    record of operations and are then read at two instances:
    [F64], IEEE-754 binary64 as specified by Coq's standard library
    (Coq.Floats.SpecFloat, round to nearest even), and [RN], the exact reals. *)
From Verif Require Import Base.
From Coq Require Import Floats.SpecFloat Reals.

(** The f64 primitives used by /repo (language level, no line). *)
Record Num : Type := mkNum {
  T : Type;
  lit : Z -> Z -> T;                       (* the literal m * 2^e *)
  nadd : T -> T -> T;                      (* + *)
  nsub : T -> T -> T;                      (* - *)
  nmul : T -> T -> T;                      (* * *)
  ndiv : T -> T -> T;                      (* / *)
  nneg : T -> T;                           (* unary - *)
  nabs : T -> T;                           (* f64::abs *)
  nsqrt : T -> T;                          (* f64::sqrt *)
  ncmp : T -> T -> option comparison       (* f64::partial_cmp *)
}.
Arguments lit {n}. Arguments nadd {n}. Arguments nsub {n}. Arguments nmul {n}.
Arguments ndiv {n}. Arguments nneg {n}. Arguments nabs {n}. Arguments nsqrt {n}.
Arguments ncmp {n}.

Declare Scope num_scope.
Delimit Scope num_scope with num.
Notation "x + y" := (nadd x y) : num_scope.
Notation "x - y" := (nsub x y) : num_scope.
Notation "x * y" := (nmul x y) : num_scope.
Notation "x / y" := (ndiv x y) : num_scope.
Notation "- x" := (nneg x) : num_scope.

Section Derived.
Context {NM : Num}.
(** The literals 0.0, 1.0, 2.0, 0.5 (language level, no line). *)
Definition n0 : T NM := lit 0 0.
Definition n1 : T NM := lit 1 0.
Definition n2 : T NM := lit 2 0.
Definition nhalf : T NM := lit 1 (-1).
(** `usize as f64` (language level, no line). *)
Definition of_usize (n : N) : T NM := lit (Z.of_N n) 0.
(** <, <=, ==, >, >= on f64: false when a NaN is involved (language level). *)
Definition nltb (a b : T NM) : bool := match ncmp a b with Some Lt => true | _ => false end.
Definition nleb (a b : T NM) : bool :=
  match ncmp a b with Some Lt | Some Eq => true | _ => false end.
Definition neqb (a b : T NM) : bool := match ncmp a b with Some Eq => true | _ => false end.
Definition ngtb (a b : T NM) : bool := match ncmp a b with Some Gt => true | _ => false end.
Definition ngeb (a b : T NM) : bool :=
  match ncmp a b with Some Gt | Some Eq => true | _ => false end.
(** f64::powi(2); equals one multiplication (language level). *)
Definition nsq (a : T NM) : T NM := (a * a)%num.
(** Models max_f64, src/utils.rs:50-55. *)
Definition max_f64 (a b : T NM) : T NM := if ngtb a b then a else b.
(** Models max_f64_3, src/utils.rs:66-68. *)
Definition max_f64_3 (a b c : T NM) : T NM := max_f64 (max_f64 a b) c.
End Derived.

Notation "x < y" := (nltb x y) : num_scope.
Notation "x <= y" := (nleb x y) : num_scope.
Notation "x == y" := (neqb x y) (at level 70, no associativity) : num_scope.
Notation "x > y" := (ngtb x y) : num_scope.
Notation "x >= y" := (ngeb x y) : num_scope.

(** IEEE-754 binary64 (Rust's f64). *)
Definition f64_prec : Z := 53.
Definition f64_emax : Z := 1024.
Definition F64 : Num := {|
  T := spec_float;
  lit := fun m e => binary_normalize f64_prec f64_emax m e false;
  nadd := SFadd f64_prec f64_emax;
  nsub := SFsub f64_prec f64_emax;
  nmul := SFmul f64_prec f64_emax;
  ndiv := SFdiv f64_prec f64_emax;
  nneg := SFopp;
  nabs := SFabs;
  nsqrt := SFsqrt f64_prec f64_emax;
  ncmp := SFcompare |}.

(** Exact real arithmetic, the idealisation used where the claim is about
    geometry rather than rounding. *)
Definition Rcmp (a b : R) : option comparison :=
  Some (match total_order_T a b with
        | inleft (left _) => Lt | inleft (right _) => Eq | inright _ => Gt end).
Definition RN : Num := {|
  T := R;
  lit := fun m e => (IZR m * powerRZ 2 e)%R;
  nadd := Rplus; nsub := Rminus; nmul := Rmult; ndiv := Rdiv;
  nneg := Ropp; nabs := Rabs; nsqrt := sqrt; ncmp := Rcmp |}.

(** Models Point2D, src/point_2d.rs:36-41, and any other implementation of the
    accessor trait Is2D (src/is_2d.rs). *)
Record pt2 (NM : Num) : Type := mk2 { x2 : T NM; y2 : T NM }.
(** Models Point3D, src/point_3d.rs:37-43, and any other implementation of the
    accessor trait Is3D (src/is_3d.rs). *)
Record pt3 (NM : Num) : Type := mk3 { px : T NM; py : T NM; pz : T NM }.
Arguments mk2 {NM}. Arguments x2 {NM}. Arguments y2 {NM}.
Arguments mk3 {NM}. Arguments px {NM}. Arguments py {NM}. Arguments pz {NM}.

(** Models sqr_dist_2d, src/distances_2d.rs:39-45. *)
Definition sqr_dist_2d {NM} (p q : pt2 NM) : T NM :=
  (nsq (x2 p - x2 q) + nsq (y2 p - y2 q))%num.
(** Models dist_2d, src/distances_2d.rs:30-36. *)
Definition dist_2d {NM} (p q : pt2 NM) : T NM := nsqrt (sqr_dist_2d p q).
(** Models sqr_dist_3d, src/distances_3d.rs:39-45. *)
Definition sqr_dist_3d {NM} (p q : pt3 NM) : T NM :=
  (nsq (px p - px q) + nsq (py p - py q) + nsq (pz p - pz q))%num.
(** Models dist_3d, src/distances_3d.rs:30-36. *)
Definition dist_3d {NM} (p q : pt3 NM) : T NM := nsqrt (sqr_dist_3d p q).

(** Models Positive::new, src/positive.rs:43-48; a Positive is its value. *)
Definition positive_new {NM} (v : T NM) : option (T NM) := if (v > n0)%num then Some v else None.
(** Models NonNegative::new, src/non_negative.rs:43-48. *)
Definition nonneg_new {NM} (v : T NM) : option (T NM) := if (v >= n0)%num then Some v else None.
(** Option::unwrap (language level, no line). *)
Definition unwrap {A} (o : option A) : res A := match o with Some a => Ok a | None => Panic end.
