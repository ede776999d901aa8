(** Specification: a plain Vec<usize> (a list), independent of the model's helpers. *)
From Verif Require Import Base IndexVecModel.
Local Open Scope N_scope.

(** What a plain vector does: stores values as given. [store] is applied to each
    written value; it is the identity for the ideal container. *)
Definition vec_step (store : N -> N) (v : list N) (o : iop) : list N * iobs :=
  match o with
  | IPush x => (v ++ [store x], OUnit)
  | ISet i x => if i <? N.of_nat (length v)
                then (firstn (N.to_nat i) v ++ [store x] ++ skipn (S (N.to_nat i)) v, OUnit)
                else (v, OPanic)
  | IGet i => (v, match nth_error v (N.to_nat i) with Some x => OVal x | None => OPanic end)
  | ILen => (v, OVal (N.of_nat (length v)))
  | IIter | IUpgraded => (v, OList (map Some v))
  | IEnsure _ | IReserve _ => (v, OUnit)
  end.

(** The values written by a call. *)
Definition written (o : iop) : list N :=
  match o with IPush x => [x] | ISet _ x => [x] | _ => [] end.

(** All values passed are legal usize values (or below another bound). *)
Definition all_below (b : N) (ops : list iop) : Prop :=
  Forall (fun o => Forall (fun x => x < b) (written o)) ops.
