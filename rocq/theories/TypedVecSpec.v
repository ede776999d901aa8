(** Specification: a plain vector that knows the largest precision ever needed. *)
From Verif Require Import Base IndexVecModel IndexVecSpec TypedVecModel.
Local Open Scope N_scope.

(** The bits of a precision. *)
Definition bits (p : prec) : N := match p with U8 => 8 | U16 => 16 | U32 => 32 | Usize => 64 end.
(** The least precision for a number. *)
Definition needs (x : N) : N := if x <? 2 ^ 8 then 8 else if x <? 2 ^ 16 then 16 else if x <? 2 ^ 32 then 32 else 64.
(** The precision a call asks for. *)
Definition asks (o : iop) : N :=
  match o with IPush x | ISet _ x | IEnsure x => needs x | IUpgraded => 64 | _ => 8 end.
(** The state is the vector and the bits in use. *)
Definition known_step (s : list N * N) (o : top) : (list N * N) * tobs :=
  let '(v, b) := s in
  match o with
  | TCall o => let '(v', r) := vec_step (fun x => x) v o in ((v', N.max b (asks o)), TO r)
  | TGet p => (s, TV (if b =? bits p then Some v else None))
  | TMut p new => if b =? bits p then ((new, b), TV (Some v)) else (s, TV None)
  | TUpgradedMut new => ((new, 64), TV (Some v))
  end.
(** All numbers handed over fit into their types. *)
Definition fits (o : top) : Prop :=
  match o with
  | TCall (IEnsure x) => x < 2 ^ 64
  | TCall o => Forall (fun x => x < 2 ^ 64) (written o)
  | TGet _ => True
  | TMut p new => Forall (fun x => x < 2 ^ bits p) new
  | TUpgradedMut new => Forall (fun x => x < 2 ^ 64) new
  end.
(** The largest of the numbers, at least 0. *)
Definition largest (v : list N) : N := fold_right N.max 0 v.
