(** Specification vocabulary for filters and views. *)
From Verif Require Import Base FilterModel.
(** What a nest of combinators means. *)
Inductive fltexp (T : Type) : Type :=
| FBase (f : T -> bool)
| FAllow | FDeny
| FAnd (a b : fltexp T) | FOr (a b : fltexp T) | FXor (a b : fltexp T)
| FNot (a : fltexp T)
| FHollow (outer inner : fltexp T)
| FAll (l : list (fltexp T)) | FAny (l : list (fltexp T)).
Arguments FBase {T}. Arguments FAllow {T}. Arguments FDeny {T}. Arguments FAnd {T}. Arguments FOr {T}.
Arguments FXor {T}. Arguments FNot {T}. Arguments FHollow {T}. Arguments FAll {T}. Arguments FAny {T}.
(** The filter object a nest of constructor calls gives. *)
Fixpoint fbuild {T} (e : fltexp T) : ifilter T :=
  match e with
  | FBase f => f
  | FAllow => filter_allow
  | FDeny => filter_deny
  | FAnd a b => filter_and (fbuild a) (fbuild b)
  | FOr a b => filter_or (fbuild a) (fbuild b)
  | FXor a b => filter_xor (fbuild a) (fbuild b)
  | FNot a => filter_negate (fbuild a)
  | FHollow a b => filter_outer_inner (fbuild a) (fbuild b)
  | FAll l => filter_all (map fbuild l)
  | FAny l => filter_any (map fbuild l)
  end.
(** Its intended meaning. *)
Fixpoint accepts {T} (e : fltexp T) (x : T) : Prop :=
  match e with
  | FBase f => f x = true
  | FAllow => True
  | FDeny => False
  | FAnd a b => accepts a x /\ accepts b x
  | FOr a b => accepts a x \/ accepts b x
  | FXor a b => (accepts a x /\ ~ accepts b x) \/ (~ accepts a x /\ accepts b x)
  | FNot a => ~ accepts a x
  | FHollow a b => accepts a x /\ ~ accepts b x
  | FAll l => fold_right (fun a p => accepts a x /\ p) True l
  | FAny l => fold_right (fun a p => accepts a x \/ p) False l
  end.
(** An index is part of a view. *)
Definition in_view (v : view) (i : N) : Prop := match v with Full => True | Restricted l => In i l end.
(** The element at a position is accepted. *)
Definition accepted_at {T} (f : T -> bool) (l : list T) (i : N) : Prop :=
  exists x, nth_error l (N.to_nat i) = Some x /\ f x = true.
(** [idx] lists the positions of a view below [n] in increasing order. *)
Fixpoint ascending (lo : N) (idx : list N) : Prop :=
  match idx with [] => True | i :: r => (lo <= i)%N /\ ascending (i + 1)%N r end.
