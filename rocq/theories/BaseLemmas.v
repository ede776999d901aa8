(** Lemmas about the vocabulary of Base.v. *)
From Verif Require Import Base.

Lemma nthN_nth_error {A} (l : list A) (i : N) : nthN l i = nth_error l (N.to_nat i).
Proof.
  revert i; induction l as [|x r IH]; intros i; cbn [nthN].
  - destruct (N.to_nat i); reflexivity.
  - destruct (N.eqb_spec i 0) as [->|Hi]; [reflexivity|].
    rewrite IH. replace (N.to_nat i) with (S (N.to_nat (i - 1))) by lia. reflexivity.
Qed.

Lemma nthN_of_nat {A} (l : list A) (i : nat) : nthN l (N.of_nat i) = nth_error l i.
Proof. rewrite nthN_nth_error, Nat2N.id; reflexivity. Qed.

Lemma nthN_Some_lt {A} (l : list A) i x : nthN l i = Some x -> (i < lenN l)%N.
Proof.
  rewrite nthN_nth_error; intros H. unfold lenN.
  assert (N.to_nat i < length l) by (apply nth_error_Some; congruence). lia.
Qed.

Lemma nthN_None_ge {A} (l : list A) i : nthN l i = None <-> (lenN l <= i)%N.
Proof. rewrite nthN_nth_error, nth_error_None. unfold lenN; lia. Qed.

Lemma nthN_lt_Some {A} (l : list A) i : (i < lenN l)%N -> exists x, nthN l i = Some x.
Proof.
  intros H. destruct (nthN l i) eqn:E; [eauto|]. apply nthN_None_ge in E; lia.
Qed.

Lemma setN_length {A} (l : list A) i x : length (setN l i x) = length l.
Proof.
  revert i; induction l as [|y r IH]; intros i; cbn [setN]; [reflexivity|].
  destruct (N.eqb i 0); cbn [length]; [reflexivity|]. now rewrite IH.
Qed.

Lemma setN_lenN {A} (l : list A) i x : lenN (setN l i x) = lenN l.
Proof. unfold lenN; now rewrite setN_length. Qed.

Lemma nthN_setN {A} (l : list A) i j x :
  nthN (setN l i x) j = if N.eqb i j then (if N.ltb i (lenN l) then Some x else None) else nthN l j.
Proof.
  revert i j; induction l as [|y r IH]; intros i j; cbn [setN nthN].
  - unfold lenN; cbn. destruct (N.eqb i j); [|reflexivity]. destruct i; reflexivity.
  - destruct (N.eqb_spec i 0) as [->|Hi]; cbn [nthN].
    + destruct (N.eqb_spec j 0) as [->|Hj].
      * rewrite N.eqb_refl. destruct (N.ltb_spec 0 (lenN (y :: r))) as [H|H]; [reflexivity|].
        unfold lenN in H; cbn [length] in H; lia.
      * destruct (N.eqb_spec 0 j); [lia|reflexivity].
    + destruct (N.eqb_spec j 0) as [->|Hj].
      * destruct (N.eqb_spec i 0); [lia|reflexivity].
      * rewrite IH. unfold lenN; cbn [length].
        destruct (N.eqb_spec (i - 1) (j - 1)); destruct (N.eqb_spec i j); try lia; try reflexivity.
        destruct (N.ltb_spec (i - 1) (N.of_nat (length r))); destruct (N.ltb_spec i (N.of_nat (S (length r)))); try lia; reflexivity.
Qed.

Lemma setN_map {A B} (f : A -> B) l i x : map f (setN l i x) = setN (map f l) i (f x).
Proof.
  revert i; induction l as [|y r IH]; intros i; cbn [setN map]; [reflexivity|].
  destruct (N.eqb i 0); cbn [map]; [reflexivity|]. now rewrite IH.
Qed.

Lemma nthN_map {A B} (f : A -> B) l i : nthN (map f l) i = option_map f (nthN l i).
Proof.
  revert i; induction l as [|y r IH]; intros i; cbn [nthN map]; [reflexivity|].
  destruct (N.eqb i 0); [reflexivity|apply IH].
Qed.

Lemma lenN_map {A B} (f : A -> B) l : lenN (map f l) = lenN l.
Proof. unfold lenN; now rewrite map_length. Qed.

Lemma lenN_app {A} (l r : list A) : lenN (l ++ r) = (lenN l + lenN r)%N.
Proof. unfold lenN; rewrite app_length; lia. Qed.

Lemma nthN_app {A} (l r : list A) i :
  nthN (l ++ r) i = if N.ltb i (lenN l) then nthN l i else nthN r (i - lenN l)%N.
Proof.
  rewrite !nthN_nth_error. unfold lenN.
  destruct (N.ltb_spec i (N.of_nat (length l))).
  - apply nth_error_app1; lia.
  - rewrite nth_error_app2 by lia. f_equal; lia.
Qed.

Lemma setN_Forall {A} (P : A -> Prop) l i x : Forall P l -> P x -> Forall P (setN l i x).
Proof.
  intros Hl Hx; revert i; induction Hl as [|y r Hy Hr IH]; intros i; cbn [setN]; [constructor|].
  destruct (N.eqb i 0); constructor; auto.
Qed.

Lemma list_eq_nthN {A} (l r : list A) : (forall i, nthN l i = nthN r i) -> l = r.
Proof.
  revert r; induction l as [|x l IH]; intros r H.
  - destruct r as [|y r]; [reflexivity|]. specialize (H 0%N); cbn in H; discriminate.
  - destruct r as [|y r]; [specialize (H 0%N); cbn in H; discriminate|].
    pose proof (H 0%N) as H0; cbn in H0; injection H0 as ->. f_equal. apply IH; intros i.
    specialize (H (i + 1)%N); cbn [nthN] in H.
    destruct (N.eqb_spec (i + 1) 0); [lia|]. now replace (i + 1 - 1)%N with i in H by lia.
Qed.
