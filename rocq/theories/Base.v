(** Common vocabulary of the model.
    Every definition cites the part of /repo it stands for; definitions that
    only encode Rust's runtime conventions (slices, panics) say so. *)
From Coq Require Export List Arith NArith ZArith Lia Bool.
Export ListNotations.

(** Models ErrorKind, src/result.rs:37-70.  The payload carrying variants
    (PlyError etc.) are modelled in the files of the respective formats. *)
Inductive ErrorKind : Set :=
| MinMaxSwapped | MinMaxEqual | TooFewPoints | BoundingBoxMissing
| NormalizeVecWithoutLength | IOError | ParseError | IndexOutOfBounds
| IncorrectFaceID | IncorrectVertexID | FaceIDsNotUnique | IncorrectEdgeID
| IncorrectVoxelID | IncorrectUnitID | IncorrectSegmentID | IncorrectDimension
| DimensionsDontMatch | NumberConversionError | NumberInWrongRange
| ComparisionFailed | ClusterTooBig | CantCalculateAngleIfZeroLength
| TriFace3DNotSpanningVolume.

(** Models Result<T>, src/result.rs:123, extended by the outcome of a Rust
    panic (index out of range, unwrap of an error, checked overflow). *)
Inductive outcome (E A : Type) : Type :=
| Ok (a : A)
| Err (e : E)
| Panic.
Arguments Ok {E A}. Arguments Err {E A}. Arguments Panic {E A}.

Definition res := outcome ErrorKind. (* Result<T>, src/result.rs:123 *)

(** The `?` operator / early return of Rust (language convention, no line). *)
Definition obind {E A B} (x : outcome E A) (f : A -> outcome E B) : outcome E B :=
  match x with Ok a => f a | Err e => Err e | Panic => Panic end.

(** Option::ok_or / Result::ok (language convention, no line). *)
Definition to_option {E A} (x : outcome E A) : option A :=
  match x with Ok a => Some a | _ => None end.

(** `Vec::len` as a usize (language convention, no line). *)
Definition lenN {A} (l : list A) : N := N.of_nat (length l).

(** `Vec::get` with a usize index (language convention, no line). *)
Fixpoint nthN {A} (l : list A) (i : N) : option A :=
  match l with
  | [] => None
  | x :: r => if N.eqb i 0 then Some x else nthN r (i - 1)%N
  end.

(** `vec[i] = x` for an in-range i; identity otherwise (callers turn the
    out-of-range case into Panic).  Language convention, no line. *)
Fixpoint setN {A} (l : list A) (i : N) (x : A) : list A :=
  match l with
  | [] => []
  | y :: r => if N.eqb i 0 then x :: r else y :: setN r (i - 1)%N x
  end.

(** Wrapping usize arithmetic on a 64 bit target (Rust release build). *)
Definition w64 (x : N) : N := N.modulo x (2 ^ 64)%N.
