(** Vocabulary for hulls, simplified lines and compressed clouds. *)
From Verif Require Import Base Num SortSpec BBoxModel GeomSpec FloatSpec HullModel.
From Coq Require Import Floats.SpecFloat Reals.

(** [a] is directly followed by [b]. *)
Definition adjacent {A} (l : list A) (a b : A) : Prop := exists u v, l = u ++ a :: b :: v.
(** [a], [b], [c] follow each other directly. *)
Definition adjacent3 {A} (l : list A) (a b c : A) : Prop := exists u v, l = u ++ a :: b :: c :: v.
(** Twice the signed area of the triangle: positive when a, b, c turn to the left. *)
Definition turn (a b c : pt2 RN) : R :=
  ((x2 b - x2 a) * (y2 c - y2 a) - (y2 b - y2 a) * (x2 c - x2 a))%R.
(** [l] is [m] without some of its elements. *)
Inductive subsequence {A} : list A -> list A -> Prop :=
| sub_nil : subsequence [] []
| sub_keep : forall x l m, subsequence l m -> subsequence (x :: l) (x :: m)
| sub_drop : forall x l m, subsequence l m -> subsequence l (x :: m).

(** The conversion of a double to an unsigned integer (num-traits 0.2, NumCast): the value without
    its fraction if it fits. *)
Definition f64_to_uint (bits : N) (x : T F64) : option N :=
  match (x : spec_float) with
  | S754_zero _ => Some 0%N
  | S754_finite s m e =>
      let t := Z.to_N (if (0 <=? e)%Z then Zpos m * 2 ^ e else Zpos m / 2 ^ (- e))%Z in
      if s then if (t =? 0)%N then Some 0%N else None
      else if (t <? 2 ^ bits)%N then Some t else None
  | _ => None
  end.
Definition F64C : Cast F64 := mkcast f64_to_uint.
(** The same on real numbers. *)
Definition real_to_uint (bits : N) (x : T RN) : option N :=
  if Rlt_dec (-1) x then if Rlt_dec x (IZR (2 ^ Z.of_N bits)) then Some (Z.to_N (Int_part x)) else None else None.
Definition RC : Cast RN := mkcast real_to_uint.
(** The values span a range of width [w]. *)
Definition extent (vs : list R) (w : R) : Prop :=
  exists lo hi, In lo vs /\ In hi vs /\ (forall v, In v vs -> lo <= v <= hi)%R /\ w = (hi - lo)%R.
(** Finite doubles whose range neither overflows nor is absurdly small (below 2^-900). *)
Definition spread (vs : list (T F64)) : Prop :=
  (forall v, In v vs -> is_double v /\ finite v) /\
  (forall u v, In u vs -> In v vs -> fval v - fval u <= powerRZ 2 1023)%R /\
  exists u v, In u vs /\ In v vs /\ (powerRZ 2 (-900) <= fval v - fval u)%R.
