(** The precision of DynamicPrecisionIndexVec (C175). *)
From Verif Require Import Base BaseLemmas IndexVecModel IndexVecSpec IndexVecLemmas TypedVecModel TypedVecSpec.
Local Open Scope N_scope.

Lemma needs_width m x : x < 2 ^ 64 -> width (dp_ensure_supported m x) = N.max (width m) (needs x).
Proof.
  intros H. unfold dp_ensure_supported, needs.
  destruct m as [v|v|v|v]; cbn [dp_allowed_max width]; repeat match goal with |- context [?a <=? ?b] => destruct (N.leb_spec a b) end;
    repeat match goal with |- context [?a <? ?b] => destruct (N.ltb_spec a b) end; cbn [dp_upgrade_to_usize dp_upgrade_to_u32 dp_upgrade_to_u16 width]; try reflexivity; exfalso; lia.
Qed.
Lemma push_width m x : width (dp_push m x) = width (dp_ensure_supported m x).
Proof. unfold dp_push. destruct (dp_ensure_supported m x); reflexivity. Qed.
Lemma set_width m i x : width (fst (dp_set m i x)) = width (dp_ensure_supported m x).
Proof. unfold dp_set. destruct (dp_ensure_supported m x); reflexivity. Qed.
Lemma width_8 m : N.max (width m) 8 = width m. Proof. destruct m; reflexivity. Qed.
Lemma step_width m o : fits (TCall o) -> width (fst (dp_step m o)) = N.max (width m) (asks o).
Proof.
  intros F. destruct o as [x|i x|i| | |x|n|]; cbn [dp_step fst asks]; rewrite ?width_8; try reflexivity.
  - rewrite push_width. apply needs_width. apply (Forall_inv F).
  - pose proof (set_width m i x) as W. destruct (dp_set m i x) as [m' ok]. cbn [fst] in *. rewrite W. apply needs_width. apply (Forall_inv F).
  - apply needs_width. exact F.
  - destruct m; reflexivity.
Qed.
Lemma typed_sim m o : dp_inv m -> fits o -> dp_inv (fst (typed_step m o)) /\
  known_step (contents m, width m) o = ((contents (fst (typed_step m o)), width (fst (typed_step m o))), snd (typed_step m o)).
Proof.
  intros I F. destruct o as [o|p|p new|new].
  - assert (W : Forall (fun x => x < 2 ^ 64) (written o)) by (destruct o; try exact F; apply Forall_nil). destruct (dp_step_sim m o I W) as [I' S]. pose proof (step_width m o F) as SW.
    cbn [typed_step known_step]. rewrite S. destruct (dp_step m o) as [m' b]. cbn [fst snd] in *. rewrite SW. auto.
  - destruct p, m; cbn [typed_step fst snd known_step bits width contents dp_get_u8 dp_get_u16 dp_get_u32 dp_get_usize]; split; try exact I; reflexivity.
  - destruct p, m; cbn [typed_step known_step bits width contents dp_get_u8_mut dp_get_u16_mut dp_get_u32_mut dp_get_usize_mut fst snd]; split; try exact I; try reflexivity; exact F.
  - split; [destruct m; exact F|destruct (upgrade_usize_contents m I) as (C & _); destruct m; cbn in C |- *; rewrite ?C; reflexivity].
Qed.

(** ** Every history of calls sees the plain vector in the least precision that was sufficient so far *)
Lemma typed_runs m ops : dp_inv m -> Forall fits ops -> typed_run typed_step m ops = typed_run known_step (contents m, width m) ops.
Proof.
  revert m. induction ops as [|o r IH]; intros m I F; [reflexivity|]. cbn [typed_run]. destruct (typed_sim m o I (Forall_inv F)) as [I' S]. rewrite S. destruct (typed_step m o) as [m' b]. cbn [fst snd] in *. f_equal. apply IH; [exact I'|exact (Forall_inv_tail F)].
Qed.
Theorem C175_new : forall ops, Forall fits ops -> typed_run typed_step dp_new ops = typed_run known_step ([], 8) ops.
Proof. intros ops F. apply (typed_runs dp_new); [apply Forall_nil|exact F]. Qed.
Print Assumptions C175_new.
Theorem C175_with_support : forall n x ops, x < 2 ^ 64 -> Forall fits ops ->
  typed_run typed_step (dp_with_support_for x) ops = typed_run known_step ([], needs x) ops /\
  typed_run typed_step (dp_with_capacity_and_support_for n x) ops = typed_run known_step ([], needs x) ops /\
  typed_run typed_step (dp_with_capacity n) ops = typed_run known_step ([], 8) ops.
Proof.
  intros n x ops X F. assert (I : dp_inv dp_new) by apply Forall_nil. destruct (ensure_any_ok dp_new x I) as [C I']. pose proof (needs_width dp_new x X) as W.
  replace (N.max (width dp_new) (needs x)) with (needs x) in W by (unfold needs; cbn [width dp_new]; destruct (x <? 2 ^ 8), (x <? 2 ^ 16), (x <? 2 ^ 32); reflexivity).
  pose proof (typed_runs _ ops I' F) as R. rewrite C, W in R. split; [exact R|]. split; [exact R|]. apply C175_new, F.
Qed.
Print Assumptions C175_with_support.
(** Vectors of bytes keep their precision, the others get the least one for the largest element. *)
Lemma needs_mono x y : x <= y -> needs x <= needs y.
Proof. intros H. unfold needs. repeat match goal with |- context [?a <? ?b] => destruct (N.ltb_spec a b) end; lia. Qed.
Lemma fold_max v : forall a, fold_left N.max v a = N.max a (largest v).
Proof. induction v as [|x v IH]; intros a; cbn [fold_left largest fold_right]; [rewrite N.max_0_r; reflexivity|]. rewrite IH. unfold largest. rewrite N.max_assoc. reflexivity. Qed.
Lemma fold_width v : forall m, Forall (fun x => x < 2 ^ 64) v -> Forall (fun x => needs x <= width m) v -> width (fold_left dp_push v m) = width m.
Proof.
  induction v as [|x v IH]; intros m F L; [reflexivity|]. cbn [fold_left]. assert (W : width (dp_push m x) = width m).
  { rewrite push_width, needs_width by exact (Forall_inv F). pose proof (Forall_inv L) as X. cbn in X. lia. }
  rewrite IH; [exact W|exact (Forall_inv_tail F)|]. rewrite W. exact (Forall_inv_tail L).
Qed.
Theorem C175_from : forall v ops, Forall (fun x => x < 2 ^ 64) v -> Forall fits ops -> typed_run typed_step (dp_from v) ops = typed_run known_step (v, needs (largest v)) ops.
Proof.
  intros v ops B F. destruct v as [|x v]; [apply C175_new, F|]. assert (E : dp_from (x :: v) = fold_left dp_push (x :: v) (dp_ensure_supported dp_new (largest (x :: v)))).
  { unfold dp_from. cbn [list_max_opt]. rewrite fold_max. reflexivity. }
  assert (LB : forall w, Forall (fun y => y < 2 ^ 64) w -> largest w < 2 ^ 64). { induction 1 as [|y w Y W IH]; cbn [largest fold_right]; [reflexivity|]. fold (largest w). lia. }
  assert (LE : forall w y, In y w -> y <= largest w). { induction w as [|z w IH]; intros y Y; [destruct Y|]. cbn [largest fold_right]; fold (largest w). destruct Y as [ -> |Y]; [lia|]. specialize (IH y Y). lia. }
  assert (I : dp_inv dp_new) by apply Forall_nil. destruct (ensure_any_ok dp_new (largest (x :: v)) I) as [C I']. pose proof (needs_width dp_new _ (LB _ B)) as W.
  replace (N.max (width dp_new) (needs (largest (x :: v)))) with (needs (largest (x :: v))) in W by (unfold needs; cbn [width dp_new]; destruct (largest (x :: v) <? 2 ^ 8), (largest (x :: v) <? 2 ^ 16), (largest (x :: v) <? 2 ^ 32); reflexivity).
  destruct (fold_push_spec (x :: v) _ I' B) as [C2 I2]. rewrite C in C2. rewrite <- E in C2, I2. pose proof (typed_runs _ ops I2 F) as R. rewrite C2 in R. cbn [contents dp_new app] in R.
  rewrite R. do 2 f_equal. rewrite E, fold_width; [exact W|exact B|]. apply Forall_forall. intros y Y. rewrite W. apply needs_mono, LE, Y.
Qed.
Print Assumptions C175_from.
Theorem C175_from_u8 : forall v ops, Forall (fun x => x < 2 ^ 8) v -> Forall fits ops -> typed_run typed_step (dp_from_u8 v) ops = typed_run known_step (v, 8) ops.
Proof. intros v ops B F. apply (typed_runs (MU8 v)); [exact B|exact F]. Qed.
Print Assumptions C175_from_u8.
(** A call of set that panics still changes the precision. *)
Theorem C175_set_refuted : exists v i x, typed_run typed_step (dp_from v) [TGet U8; TCall (ISet i x); TGet U8; TGet U16] = [TV (Some v); TO OPanic; TV None; TV (Some v)].
Proof. exists [1; 2], 2, 256. reflexivity. Qed.
Print Assumptions C175_set_refuted.
Example C175_case : Forall fits [TGet U8; TCall (IPush 255); TMut U8 [9; 8]; TCall (IPush 256); TGet U8; TGet U16; TMut U8 []; TCall (ISet 0 65536); TGet U32; TUpgradedMut [7]; TGet Usize] /\
  typed_run typed_step (dp_from [1; 2]) [TGet U8; TCall (IPush 255); TMut U8 [9; 8]; TCall (IPush 256); TGet U8; TGet U16; TMut U8 []; TCall (ISet 0 65536); TGet U32; TUpgradedMut [7]; TGet Usize] =
    [TV (Some [1; 2]); TO OUnit; TV (Some [1; 2; 255]); TO OUnit; TV None; TV (Some [9; 8; 256]); TV None; TO OUnit; TV (Some [65536; 8; 256]); TV (Some [65536; 8; 256]); TV (Some [7])] /\
  dp_get_u16 (dp_from [3; 65535]) = Some [3; 65535] /\ dp_get_u32 (dp_with_support_for 65536) = Some [].
Proof.
  split; [|split; [reflexivity|split; reflexivity]].
  repeat (apply Forall_cons; [first [exact I|repeat (apply Forall_cons; [reflexivity|]); apply Forall_nil]|]); apply Forall_nil.
Qed.
