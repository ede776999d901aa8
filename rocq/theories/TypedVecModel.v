(** Access to the numbers of a DynamicPrecisionIndexVec in the precision they are stored with. *)
From Verif Require Import Base IndexVecModel.
Local Open Scope N_scope.

(** get_u8, src/dynamic_precision_index_vec.rs:46-51. *)
Definition dp_get_u8 (m : mode) : option (list N) := match m with MU8 v => Some v | _ => None end.
(** get_u16, src/dynamic_precision_index_vec.rs:60-65. *)
Definition dp_get_u16 (m : mode) : option (list N) := match m with MU16 v => Some v | _ => None end.
(** get_u32, src/dynamic_precision_index_vec.rs:74-79. *)
Definition dp_get_u32 (m : mode) : option (list N) := match m with MU32 v => Some v | _ => None end.
(** get_usize, src/dynamic_precision_index_vec.rs:88-93. *)
Definition dp_get_usize (m : mode) : option (list N) := match m with MUsize v => Some v | _ => None end.
(** get_u8_mut, src/dynamic_precision_index_vec.rs:53-58: what the caller leaves in the vector it gets is [new]. *)
Definition dp_get_u8_mut (m : mode) (new : list N) : mode * option (list N) := match m with MU8 v => (MU8 new, Some v) | m => (m, None) end.
(** get_u16_mut, src/dynamic_precision_index_vec.rs:67-72. *)
Definition dp_get_u16_mut (m : mode) (new : list N) : mode * option (list N) := match m with MU16 v => (MU16 new, Some v) | m => (m, None) end.
(** get_u32_mut, src/dynamic_precision_index_vec.rs:81-86. *)
Definition dp_get_u32_mut (m : mode) (new : list N) : mode * option (list N) := match m with MU32 v => (MU32 new, Some v) | m => (m, None) end.
(** get_usize_mut, src/dynamic_precision_index_vec.rs:95-100. *)
Definition dp_get_usize_mut (m : mode) (new : list N) : mode * option (list N) := match m with MUsize v => (MUsize new, Some v) | m => (m, None) end.
(** get_usize_upgraded_mut, src/dynamic_precision_index_vec.rs:110-116; None stands for the panic in 114. *)
Definition dp_get_usize_upgraded_mut (m : mode) (new : list N) : mode * option (list N) := dp_get_usize_mut (dp_upgrade_to_usize m) new.
(** with_support_for, src/is_index_container.rs:57-61. *)
Definition dp_with_support_for (x : N) : mode := dp_ensure_supported dp_new x.
(** with_capacity, src/is_index_container.rs:50-54; reserve has no observable effect. *)
Definition dp_with_capacity (n : N) : mode := dp_new.
(** with_capacity_and_support_for, src/is_index_container.rs:64-69. *)
Definition dp_with_capacity_and_support_for (n x : N) : mode := dp_ensure_supported dp_new x.

(** The precisions, src/dynamic_precision_index_vec.rs:330-335. *)
Inductive prec : Set := U8 | U16 | U32 | Usize.
(** Calls: those of IsIndexContainer, and the typed ones, src/dynamic_precision_index_vec.rs:46-116. *)
Inductive top : Set := TCall (o : iop) | TGet (p : prec) | TMut (p : prec) (new : list N) | TUpgradedMut (new : list N).
(** What the caller sees, either of the calls above or the vector borrowed, if any (language level, no line). *)
Inductive tobs : Set := TO (o : iobs) | TV (v : option (list N)).
(** Dispatch of one call (lines as above). *)
Definition typed_step (m : mode) (o : top) : mode * tobs :=
  match o with
  | TCall o => let '(m', b) := dp_step m o in (m', TO b)
  | TGet U8 => (m, TV (dp_get_u8 m))
  | TGet U16 => (m, TV (dp_get_u16 m))
  | TGet U32 => (m, TV (dp_get_u32 m))
  | TGet Usize => (m, TV (dp_get_usize m))
  | TMut U8 new => let '(m', v) := dp_get_u8_mut m new in (m', TV v)
  | TMut U16 new => let '(m', v) := dp_get_u16_mut m new in (m', TV v)
  | TMut U32 new => let '(m', v) := dp_get_u32_mut m new in (m', TV v)
  | TMut Usize new => let '(m', v) := dp_get_usize_mut m new in (m', TV v)
  | TUpgradedMut new => let '(m', v) := dp_get_usize_upgraded_mut m new in (m', TV v)
  end.
(** A history of calls (language level, no line). *)
Fixpoint typed_run {S} (step : S -> top -> S * tobs) (s : S) (ops : list top) : list tobs :=
  match ops with
  | [] => []
  | o :: r => let '(s', b) := step s o in b :: typed_run step s' r
  end.
