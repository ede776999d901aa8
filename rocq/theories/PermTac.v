(** A reflective tactic for goals [Permutation l1 l2] built from ++, :: and []. *)
From Coq Require Import List Arith Sorting.Permutation.
Import ListNotations.

Inductive pex : Set := PNil | PAtom (n : nat) | PApp (a b : pex).
Section Den.
Context {A : Type} (env : list (list A)).
Fixpoint den (e : pex) : list A :=
  match e with PNil => [] | PAtom n => nth n env [] | PApp a b => den a ++ den b end.
Fixpoint flat (e : pex) : list nat :=
  match e with PNil => [] | PAtom n => [n] | PApp a b => flat a ++ flat b end.
Fixpoint dens (l : list nat) : list A := match l with [] => [] | n :: r => nth n env [] ++ dens r end.
Lemma dens_app l m : dens (l ++ m) = dens l ++ dens m.
Proof. induction l as [|n r IH]; cbn; [reflexivity|]. now rewrite IH, app_assoc. Qed.
Lemma den_flat e : den e = dens (flat e).
Proof.
  induction e; cbn; [reflexivity|now rewrite app_nil_r|]. now rewrite dens_app, IHe1, IHe2.
Qed.
Fixpoint ins (n : nat) (l : list nat) : list nat :=
  match l with [] => [n] | m :: r => if n <=? m then n :: l else m :: ins n r end.
Fixpoint isrt (l : list nat) : list nat := match l with [] => [] | n :: r => ins n (isrt r) end.
Lemma ins_perm n l : Permutation (dens (n :: l)) (dens (ins n l)).
Proof.
  induction l as [|m r IH]; cbn [ins]; [reflexivity|]. destruct (n <=? m); [reflexivity|].
  cbn [dens] in *. rewrite <- IH. apply Permutation_app_swap_app.
Qed.
Lemma isrt_perm l : Permutation (dens l) (dens (isrt l)).
Proof.
  induction l as [|n r IH]; [reflexivity|]. cbn [isrt]. rewrite <- ins_perm. cbn [dens].
  now apply Permutation_app_head.
Qed.
Lemma perm_solve_ok a b : isrt (flat a) = isrt (flat b) -> Permutation (den a) (den b).
Proof. intro H. rewrite !den_flat, isrt_perm, H, <- isrt_perm. reflexivity. Qed.
End Den.

Ltac perm_mem x l :=
  lazymatch l with
  | nil => constr:(false)
  | cons x _ => constr:(true)
  | cons _ ?r => perm_mem x r
  end.
Ltac perm_atoms l acc :=
  lazymatch l with
  | nil => acc
  | app ?a ?b => let acc := perm_atoms a acc in perm_atoms b acc
  | cons ?x nil => lazymatch perm_mem l acc with true => acc | false => constr:(cons l acc) end
  | @cons ?A ?x ?r => let acc := perm_atoms (@cons A x nil) acc in perm_atoms r acc
  | _ => lazymatch perm_mem l acc with true => acc | false => constr:(cons l acc) end
  end.
Ltac perm_idx x l :=
  lazymatch l with
  | cons x _ => constr:(O)
  | cons _ ?r => let n := perm_idx x r in constr:(S n)
  end.
Ltac perm_reify l env :=
  lazymatch l with
  | nil => constr:(PNil)
  | app ?a ?b => let a := perm_reify a env in let b := perm_reify b env in constr:(PApp a b)
  | cons ?x nil => let n := perm_idx l env in constr:(PAtom n)
  | @cons ?A ?x ?r => let a := perm_reify (@cons A x nil) env in let b := perm_reify r env in constr:(PApp a b)
  | _ => let n := perm_idx l env in constr:(PAtom n)
  end.
Ltac perm :=
  lazymatch goal with
  | |- @Permutation ?A ?l ?m =>
      let env := perm_atoms l (@nil (list A)) in
      let env := perm_atoms m env in
      let a := perm_reify l env in
      let b := perm_reify m env in
      change (Permutation (den env a) (den env b)); apply perm_solve_ok; reflexivity
  end.
Goal forall A (x y : A) l m n, Permutation (x :: l ++ (y :: m) ++ n) (n ++ [y] ++ m ++ x :: l).
Proof. intros. perm. Qed.
