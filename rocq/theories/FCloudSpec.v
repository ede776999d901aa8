(** Vocabulary for the single precision cloud. *)
From Verif Require Import Base Num BBoxModel GeomSpec FloatSpec ByteSpec FCloudModel.
From Coq Require Import Floats.SpecFloat Reals.
From Flocq Require Import Core.

(** The real number rounded to single precision (24 bits, nearest, ties to even). *)
Definition round32 (r : R) : R := round radix2 (FLT_exp (-149) 24) ZnearestE r.
(** [z] is [r] rounded to single precision, infinite beyond the range. *)
Definition rounds32 (r : R) (z : T F64) : Prop :=
  ((Rabs (round32 r) < powerRZ 2 128)%R /\ finite z /\ fval z = round32 r) \/
  ((powerRZ 2 128 <= round32 r)%R /\ z = S754_infinity false) \/ ((round32 r <= - powerRZ 2 128)%R /\ z = S754_infinity true).
(** [y] is what single precision keeps of the double [x]. *)
Definition kept (x y : T F64) : Prop :=
  is_double y /\ (finite x -> rounds32 (fval x) y /\ sign_of y = sign_of x) /\ (~ finite x -> y = x).
Definition kept3 (p q : pt3 F64) : Prop := forall ax, axis3 ax -> kept (ax p) (ax q).
(** [w] is [v] moved by [s] in single precision: the shift is rounded first, then the sum. *)
Definition moved32 (v s w : T F64) : Prop :=
  exists s', kept s s' /\ (finite v -> finite s' -> rounds32 (fval v + fval s') w).

(** What a list of points does with the same operations. *)
Fixpoint plain_run (ps : list (pt3 F64)) (ops : list fop) : option (list (pt3 F64)) :=
  match ops with
  | [] => Some ps
  | FPush p :: r => plain_run (ps ++ [p]) r
  | FSet i p :: r => if (i <? lenN ps)%N then plain_run (setN ps i p) r else None
  end.
(** The indices [i] with [3 * i + 2] below [2 ^ 64]; those of a cloud in memory are far below. *)
Definition index_limit : N := 6148914691236517205.
Definition op_in_range (o : fop) : Prop := match o with FPush _ => True | FSet i _ => (i < index_limit)%N end.
(** Everything that is read from the cloud is the list [qs]. *)
Definition reads (dbg : bool) (d : fcloud) (qs : list (pt3 F64)) : Prop :=
  fc_len d = lenN qs /\ forall i, (i < index_limit)%N -> fc_get dbg d i = Ok (nthN qs i).
(** The box of a list of points, None unless it has an extent in every direction. *)
Definition tight_box (qs : list (pt3 F64)) (o : option (bb3 F64)) : Prop :=
  match o with
  | Some b => forall ax, axis3 ax -> is_min (ax (min3 b)) (map ax qs) /\ is_max (ax (max3 b)) (map ax qs) /\ flt (ax (min3 b)) (ax (max3 b))
  | None => exists ax, axis3 ax /\ ~ differ (map ax qs)
  end.
