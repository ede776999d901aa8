(** Vocabulary for binary numbers. *)
From Verif Require Import Base Num GeomSpec FloatSpec IoModel ByteModel.
From Coq Require Import Floats.SpecFloat Reals.

(** The [i]-th byte of [b] as a number. *)
Definition byte_at (b : bytes) (i : nat) : N := N_of_ascii (nth i b Ascii.zero).
(** [b] is the little (big) endian encoding of [v] in [length b] bytes. *)
Definition encodes (en : endian) (b : bytes) (v : N) : Prop :=
  (v < 256 ^ N.of_nat (length b))%N /\
  forall i, i < length b -> byte_at b i = (v / 256 ^ N.of_nat (match en with Little => i | Big => length b - 1 - i end) mod 256)%N.
(** The values of single precision. *)
Definition is_f32 (x : spec_float) : Prop := valid_binary 24 128 x = true.
(** The number of a sign, exponent and mantissa field: with [mw] bits of mantissa and an exponent
    offset [bias], a zero exponent field being that of the subnormal numbers. *)
Definition ieee_value (mw bias : Z) (s : bool) (e m : Z) : R :=
  ((if s then -1 else 1) * IZR (if (e =? 0)%Z then m else 2 ^ mw + m) * powerRZ 2 (Z.max e 1 - bias - mw))%R.
(** The sign of a float. *)
Definition sign_of (x : spec_float) : option bool :=
  match x with S754_zero s | S754_infinity s | S754_finite s _ _ => Some s | S754_nan => None end.
