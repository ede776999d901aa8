(** Index containers: DynamicPrecisionIndexVec and U32IndexVec. *)
From Verif Require Import Base.
Local Open Scope N_scope.

(** enum Mode, src/dynamic_precision_index_vec.rs:330-335.  A Vec<uK> is a list
    of numbers; the width of the stored integers is enforced by the casts below. *)
Inductive mode : Set :=
| MU8 (v : list N) | MU16 (v : list N) | MU32 (v : list N) | MUsize (v : list N).

(** `x as u8` / `x as u16` / `x as u32`: truncating casts of Rust. *)
Definition as_u8 (x : N) : N := x mod 2 ^ 8.   (* used at src/dynamic_precision_index_vec.rs:209,220 *)
Definition as_u16 (x : N) : N := x mod 2 ^ 16. (* used at :159,210,221 *)
Definition as_u32 (x : N) : N := x mod 2 ^ 32. (* used at :141,145,211,222 and src/u32_index_vec.rs:43,47 *)
Definition as_usize (x : N) : N := x mod 2 ^ 64. (* used at src/dynamic_precision_index_vec.rs:121-129 *)

(** DynamicPrecisionIndexVec::new and Default, src/dynamic_precision_index_vec.rs:40-44,337-341. *)
Definition dp_new : mode := MU8 [].

(** upgrade_to_usize, src/dynamic_precision_index_vec.rs:118-136. *)
Definition dp_upgrade_to_usize (m : mode) : mode :=
  match m with
  | MU8 v => MUsize (map as_usize v)
  | MU16 v => MUsize (map as_usize v)
  | MU32 v => MUsize (map as_usize v)
  | MUsize v => MUsize v
  end.

(** upgrade_to_u32, src/dynamic_precision_index_vec.rs:138-153. *)
Definition dp_upgrade_to_u32 (m : mode) : mode :=
  match m with
  | MU8 v => MU32 (map as_u32 v)
  | MU16 v => MU32 (map as_u32 v)
  | MU32 v => MU32 v
  | MUsize v => MUsize v
  end.

(** upgrade_to_u16, src/dynamic_precision_index_vec.rs:155-167. *)
Definition dp_upgrade_to_u16 (m : mode) : mode :=
  match m with
  | MU8 v => MU16 (map as_u16 v)
  | MU16 v => MU16 v
  | MU32 v => MU32 v
  | MUsize v => MUsize v
  end.

(** allowed_max, src/dynamic_precision_index_vec.rs:169-176. *)
Definition dp_allowed_max (m : mode) : N :=
  match m with
  | MU8 _ => 2 ^ 8 - 1
  | MU16 _ => 2 ^ 16 - 1
  | MU32 _ => 2 ^ 32 - 1
  | MUsize _ => 2 ^ 64 - 1
  end.

(** ensure_supported, src/dynamic_precision_index_vec.rs:182-194. *)
Definition dp_ensure_supported (m : mode) (x : N) : mode :=
  if x <=? dp_allowed_max m then m
  else if 2 ^ 32 - 1 <? x then dp_upgrade_to_usize m
  else if 2 ^ 16 - 1 <? x then dp_upgrade_to_u32 m
  else if 2 ^ 8 - 1 <? x then dp_upgrade_to_u16 m
  else m.

(** get, src/dynamic_precision_index_vec.rs:196-203; None is the index panic. *)
Definition dp_get (m : mode) (i : N) : option N :=
  match m with
  | MU8 v => option_map as_usize (nthN v i)
  | MU16 v => option_map as_usize (nthN v i)
  | MU32 v => option_map as_usize (nthN v i)
  | MUsize v => option_map as_usize (nthN v i)
  end.

(** len, src/dynamic_precision_index_vec.rs:227-234. *)
Definition dp_len (m : mode) : N :=
  match m with MU8 v | MU16 v | MU32 v | MUsize v => lenN v end.

(** set, src/dynamic_precision_index_vec.rs:205-214; the flag tells whether the
    indexing panicked (the precision upgrade has already happened then). *)
Definition dp_set (m : mode) (i x : N) : mode * bool :=
  match dp_ensure_supported m x with
  | MU8 v => (MU8 (setN v i (as_u8 x)), i <? lenN v)
  | MU16 v => (MU16 (setN v i (as_u16 x)), i <? lenN v)
  | MU32 v => (MU32 (setN v i (as_u32 x)), i <? lenN v)
  | MUsize v => (MUsize (setN v i x), i <? lenN v)
  end.

(** push, src/dynamic_precision_index_vec.rs:216-225. *)
Definition dp_push (m : mode) (x : N) : mode :=
  match dp_ensure_supported m x with
  | MU8 v => MU8 (v ++ [as_u8 x])
  | MU16 v => MU16 (v ++ [as_u16 x])
  | MU32 v => MU32 (v ++ [as_u32 x])
  | MUsize v => MUsize (v ++ [x])
  end.

(** iter, src/dynamic_precision_index_vec.rs:245-247 with IsIndexContainerIterator,
    src/is_index_container.rs:88-112: get(0), ..., get(len-1). [n] counts the
    remaining items, so [i] is `index`. None as element is a panic in get. *)
Fixpoint ic_iter (get : N -> option N) (n : nat) (i : N) : list (option N) :=
  match n with
  | O => []
  | S k => get i :: ic_iter get k (i + 1)
  end.
(** DynamicPrecisionIndexVec::iter, src/dynamic_precision_index_vec.rs:245-247. *)
Definition dp_iter (m : mode) : list (option N) := ic_iter (dp_get m) (N.to_nat (dp_len m)) 0.

(** From<&Vec<usize>>, src/dynamic_precision_index_vec.rs:250-263: ensure support of
    the maximum, then push everything; and Vec<usize>, Vec<u32>, Vec<u16> (:265-311),
    which differ only in the (lossless) widening cast. *)
Definition list_max_opt (v : list N) : option N :=
  match v with [] => None | x :: r => Some (fold_left N.max r x) end.
(** From<&Vec<usize>>::from, src/dynamic_precision_index_vec.rs:251-262. *)
Definition dp_from (v : list N) : mode :=
  match list_max_opt v with
  | None => dp_new
  | Some mx => fold_left dp_push v (dp_ensure_supported dp_new mx)
  end.
(** From<Vec<u8>>, src/dynamic_precision_index_vec.rs:313-325. *)
Definition dp_from_u8 (v : list N) : mode := MU8 v.

(** U32IndexVec, src/u32_index_vec.rs:31-61. *)
Definition u32v := list N.
(** Models push, src/u32_index_vec.rs:46-48. *)
Definition u32_push (m : u32v) (x : N) : u32v := m ++ [as_u32 x]. (* :46-48 *)
Definition u32_set (m : u32v) (i x : N) : u32v * bool :=          (* :42-44 *)
  (setN m i (as_u32 x), i <? lenN m).
(** Models get, src/u32_index_vec.rs:38-40. *)
Definition u32_get (m : u32v) (i : N) : option N := option_map as_usize (nthN m i). (* :38-40 *)
Definition u32_len (m : u32v) : N := lenN m.                      (* :50-52 *)
Definition u32_iter (m : u32v) : list (option N) :=               (* :58-60 *)
  ic_iter (u32_get m) (N.to_nat (u32_len m)) 0.

(** The public calls on an index container, IsIndexContainer in
    src/is_index_container.rs:27-47 (reserve has no observable effect and is
    represented by IReserve), plus get_usize_upgraded
    (src/dynamic_precision_index_vec.rs:102-116). *)
Inductive iop : Set :=
| IPush (x : N) | ISet (i x : N) | IGet (i : N) | ILen | IIter
| IEnsure (x : N) | IReserve (n : N) | IUpgraded.

(** What a caller sees of one call. *)
Inductive iobs : Set :=
| OUnit | OVal (x : N) | OList (l : list (option N)) | OPanic.

(** What a caller sees of an index access (None = the index panic). *)
Definition obs_opt (o : option N) : iobs := match o with Some x => OVal x | None => OPanic end.

(** Dispatch of one public call to DynamicPrecisionIndexVec (lines as above). *)
Definition dp_step (m : mode) (o : iop) : mode * iobs :=
  match o with
  | IPush x => (dp_push m x, OUnit)
  | ISet i x => let '(m', ok) := dp_set m i x in (m', if ok then OUnit else OPanic)
  | IGet i => (m, obs_opt (dp_get m i))
  | ILen => (m, OVal (dp_len m))
  | IIter => (m, OList (dp_iter m))
  | IEnsure x => (dp_ensure_supported m x, OUnit)
  | IReserve _ => (m, OUnit)
  | IUpgraded => let m' := dp_upgrade_to_usize m in
      (m', match m' with MUsize v => OList (map Some v) | _ => OPanic end)
  end.

(** Dispatch of one public call to U32IndexVec (lines as above; IUpgraded does not
    exist there and is answered like iter). *)
Definition u32_step (m : u32v) (o : iop) : u32v * iobs :=
  match o with
  | IPush x => (u32_push m x, OUnit)
  | ISet i x => let '(m', ok) := u32_set m i x in (m', if ok then OUnit else OPanic)
  | IGet i => (m, obs_opt (u32_get m i))
  | ILen => (m, OVal (u32_len m))
  | IIter | IUpgraded => (m, OList (u32_iter m))
  | IEnsure _ | IReserve _ => (m, OUnit)
  end.

(** A history of calls: the list of everything the caller observed. *)
Fixpoint run {S} (step : S -> iop -> S * iobs) (s : S) (ops : list iop) : list iobs :=
  match ops with
  | [] => []
  | o :: r => let '(s', b) := step s o in b :: run step s' r
  end.
