(** Binary numbers: src/io/byte_reader.rs and src/io/from_bytes.rs.  f32 values are the spec_floats
    of 24 bits precision, f64 values those of 53 bits; all NaNs are one value. *)
From Verif Require Import Base Num IoModel.
From Coq Require Import Floats.SpecFloat.

(** `read_exact` into a buffer of [n] bytes, e.g. src/io/byte_reader.rs:83-84; None is the error. *)
Definition take_bytes (n : nat) (s : bytes) : option (bytes * bytes) :=
  if (length s <? n)%nat then None else Some (firstn n s, skipn n s).
(** `from_le_bytes` of the unsigned types, e.g. src/io/byte_reader.rs:95. *)
Fixpoint le_value (b : bytes) : N := match b with [] => 0%N | c :: r => (N_of_ascii c + 256 * le_value r)%N end.
(** `from_be_bytes` of the unsigned types, e.g. src/io/byte_reader.rs:202. *)
Definition be_value (b : bytes) : N := fold_left (fun n c => (256 * n + N_of_ascii c)%N) b 0%N.
(** `to_be_bytes`, e.g. src/io/ply/save.rs:195; the last [n] bytes of the number. *)
Fixpoint be_bytes (n : nat) (v : N) : bytes := match n with O => [] | S n => be_bytes n (v / 256)%N ++ [ascii_of_N (v mod 256)%N] end.
(** `from_le_bytes`/`from_be_bytes` of the signed types of [n] bytes, e.g. src/io/byte_reader.rs:85:
    two's complement. *)
Definition to_signed (n : nat) (v : N) : Z :=
  if (v <? 2 ^ (8 * N.of_nat n - 1))%N then Z.of_N v else (Z.of_N v - 2 ^ (8 * Z.of_nat n))%Z.

(** `from_bits` for the format with [mw] bits of mantissa and [ew] bits of exponent, the last step
    of f32/f64::from_le_bytes (src/io/byte_reader.rs:145,175) and from_be_bytes (252,282). *)
Definition float_of_bits (mw ew : Z) (bits : N) : spec_float :=
  let b := Z.of_N bits in
  let m := (b mod 2 ^ mw)%Z in
  let e := (b / 2 ^ mw mod 2 ^ ew)%Z in
  let s := (2 ^ (mw + ew) <=? b)%Z in
  let emin := (3 - 2 ^ (ew - 1) - (mw + 1))%Z in
  if (e =? 0)%Z then match m with Zpos p => S754_finite s p emin | _ => S754_zero s end
  else if (e =? 2 ^ ew - 1)%Z then match m with Z0 => S754_infinity s | _ => S754_nan end
  else match (m + 2 ^ mw)%Z with Zpos p => S754_finite s p (e - 1 + emin) | _ => S754_nan end.
(** `to_bits`, the first step of f32/f64::to_be_bytes (src/io/ply/save.rs:195,204); NaN is the quiet
    NaN without payload. *)
Definition bits_of_float (mw ew : Z) (x : spec_float) : N :=
  let emin := (3 - 2 ^ (ew - 1) - (mw + 1))%Z in
  let join (s : bool) (e m : Z) := Z.to_N ((if s then 2 ^ (mw + ew) else 0) + e * 2 ^ mw + m)%Z in
  match x with
  | S754_zero s => join s 0%Z 0%Z
  | S754_infinity s => join s (2 ^ ew - 1)%Z 0%Z
  | S754_nan => join false (2 ^ ew - 1)%Z (2 ^ (mw - 1))%Z
  | S754_finite s m e => if (Zpos m <? 2 ^ mw)%Z then join s 0%Z (Zpos m) else join s (e - emin + 1)%Z (Zpos m - 2 ^ mw)%Z
  end.
(** f32::from_le_bytes etc., src/io/byte_reader.rs:145,252. *)
Definition f32_of_bits : N -> spec_float := float_of_bits 23 8.
(** f64::from_le_bytes etc., src/io/byte_reader.rs:175,282. *)
Definition f64_of_bits : N -> T F64 := float_of_bits 52 11.
(** f32::to_be_bytes, src/io/ply/save.rs:195-197. *)
Definition f32_bits : spec_float -> N := bits_of_float 23 8.
(** f64::to_be_bytes, src/io/ply/save.rs:204-206. *)
Definition f64_bits : T F64 -> N := bits_of_float 52 11.
(** `as f64` and `as f32`, e.g. src/io/stl.rs:230, src/io/ply/save.rs:195: rounding to nearest even. *)
Definition convert (prec emax : Z) (x : spec_float) : spec_float :=
  match x with S754_finite s m e => binary_round prec emax s m e | _ => x end.
(** `as f64` of an f32, e.g. src/io/stl.rs:230. *)
Definition widen (x : spec_float) : T F64 := convert f64_prec f64_emax x.
(** `as f32` of an f64, e.g. src/io/ply/save.rs:195. *)
Definition narrow (x : T F64) : spec_float := convert 24 128 x.

(** Models LittleReader and BigReader, src/io/byte_reader.rs:77-284. *)
Inductive endian : Type := Little | Big.
(** The unsigned value of the next [n] bytes, the common part of src/io/byte_reader.rs:77-284. *)
Definition read_uint (en : endian) (n : nat) (s : bytes) : option (N * bytes) :=
  match take_bytes n s with
  | Some (b, r) => Some (match en with Little => le_value b | Big => be_value b end, r)
  | None => None
  end.
(** Models read_u8, u16, u32 and u64 ([n] = 1, 2, 4, 8), src/io/byte_reader.rs:89-96,109-116,129-136,159-166,196-203,216-223,236-243,266-273. *)
Definition read_unsigned (en : endian) (n : nat) (s : bytes) : option (N * bytes) := read_uint en n s.
(** Models read_i8, i16, i32 and i64, src/io/byte_reader.rs:79-86,99-106,119-126,149-156,186-193,206-213,226-233,256-263. *)
Definition read_signed (en : endian) (n : nat) (s : bytes) : option (Z * bytes) :=
  match read_uint en n s with Some (v, r) => Some (to_signed n v, r) | None => None end.
(** Models read_f32, src/io/byte_reader.rs:139-146,246-253. *)
Definition read_f32 (en : endian) (s : bytes) : option (spec_float * bytes) :=
  match read_uint en 4 s with Some (v, r) => Some (f32_of_bits v, r) | None => None end.
(** Models read_f64, src/io/byte_reader.rs:169-176,276-283. *)
Definition read_f64 (en : endian) (s : bytes) : option (T F64 * bytes) :=
  match read_uint en 8 s with Some (v, r) => Some (f64_of_bits v, r) | None => None end.

(** ** FromBytes *)
(** Models FromBytesError, src/io/from_bytes.rs:228-231. *)
Inductive FromBytesError : Type := FBinaryData | SizeMismatch.
(** `from_le_slice`/`from_be_slice` of the types of [n] bytes, src/io/from_bytes.rs:115-223: the raw
    value; the conversion of the slice to an array fails unless it has the size. *)
Definition from_slice (en : endian) (n : nat) (b : bytes) : outcome FromBytesError N :=
  if (length b =? n)%nat then Ok (match en with Little => le_value b | Big => be_value b end) else Err FBinaryData.
(** `&bytes[i..j]`, src/io/from_bytes.rs:39: out of range panics. *)
Definition slice (b : bytes) (i j : nat) : outcome FromBytesError bytes :=
  if (i <=? j)%nat && (j <=? length b)%nat then Ok (firstn (j - i) (skipn i b)) else Panic.
(** The loop, src/io/from_bytes.rs:38-40,55-57,77-79,98-100, from the index [i] for [n] elements of
    [size] bytes. *)
Fixpoint from_slices (en : endian) (size : nat) (b : bytes) (n i : nat) : outcome FromBytesError (list N) :=
  match n with
  | O => Ok []
  | S n => obind (slice b (i * size) ((i + 1) * size)) (fun w => obind (from_slice en size w) (fun v =>
           obind (from_slices en size b n (i + 1)) (fun vs => Ok (v :: vs))))
  end.
(** Models array_from_bytes_le and array_from_bytes_be, src/io/from_bytes.rs:30-61, and
    slice_from_bytes_le, src/io/from_bytes.rs:67-82 (there [n] is the length of the target). *)
Definition array_from_bytes (en : endian) (size n : nat) (b : bytes) : outcome FromBytesError (list N) :=
  if (length b =? size * n)%nat then from_slices en size b n 0 else Err SizeMismatch.
(** Models slice_from_bytes_be, src/io/from_bytes.rs:88-103, with its size check. *)
Definition slice_from_bytes_be (size n : nat) (b : bytes) : outcome FromBytesError (list N) :=
  if (size * length b =? n)%nat then from_slices Big size b n 0 else Err SizeMismatch.
