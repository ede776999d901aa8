From Verif Require Import Base BaseLemmas IndexVecModel IndexVecSpec.
Local Open Scope N_scope.

Lemma setN_split {A} (v : list A) i x : i < lenN v ->
  setN v i x = firstn (N.to_nat i) v ++ [x] ++ skipn (S (N.to_nat i)) v.
Proof.
  revert i; induction v as [|y r IH]; intros i Hi; [unfold lenN in Hi; cbn in Hi; lia|].
  cbn [setN]. destruct (N.eqb_spec i 0) as [->|Hz]; [reflexivity|].
  unfold lenN in Hi; cbn [length] in Hi.
  rewrite IH by (unfold lenN; lia).
  replace (N.to_nat i) with (S (N.to_nat (i - 1))) by lia. reflexivity.
Qed.

Lemma setN_oob {A} (v : list A) i x : lenN v <= i -> setN v i x = v.
Proof.
  revert i; induction v as [|y r IH]; intros i Hi; [reflexivity|].
  unfold lenN in Hi; cbn [length] in Hi. cbn [setN].
  destruct (N.eqb_spec i 0) as [->|Hz]; [lia|]. rewrite IH by (unfold lenN; lia). reflexivity.
Qed.

Lemma ic_iter_spec get n i :
  ic_iter get n i = map (fun k => get (i + N.of_nat k)) (seq 0 n).
Proof.
  revert i; induction n as [|n IH]; intros i; cbn [ic_iter]; [reflexivity|].
  cbn [seq map]. f_equal; [f_equal; lia|].
  rewrite IH, <- seq_shift, map_map. apply map_ext; intros k. f_equal; lia.
Qed.

Lemma ic_iter_list (v : list N) (get : N -> option N) :
  (forall i, get i = nthN v i) -> ic_iter get (length v) 0 = map Some v.
Proof.
  intros H. rewrite ic_iter_spec.
  assert (G : forall (pre w : list N), v = pre ++ w ->
            map (fun k => get (0 + N.of_nat k)) (seq (length pre) (length w)) = map Some w).
  { intros pre w; revert pre; induction w as [|x w IH]; intros pre E; [reflexivity|].
    cbn [length seq map]. f_equal.
    - rewrite H, E, N.add_0_l, nthN_of_nat, nth_error_app2, Nat.sub_diag by lia. reflexivity.
    - specialize (IH (pre ++ [x])). rewrite app_length in IH; cbn [length] in IH.
      rewrite Nat.add_1_r in IH. apply IH. rewrite <- app_assoc; exact E. }
  exact (G [] v eq_refl).
Qed.

(** Invariant: contents and width. *)
Definition contents (m : mode) : list N := match m with MU8 v | MU16 v | MU32 v | MUsize v => v end.
Definition width (m : mode) : N :=
  match m with MU8 _ => 8 | MU16 _ => 16 | MU32 _ => 32 | MUsize _ => 64 end.
Definition dp_inv (m : mode) : Prop := Forall (fun x => x < 2 ^ width m) (contents m).

Lemma map_mod_id (b : N) v : Forall (fun x => x < b) v -> map (fun x => x mod b) v = v.
Proof.
  induction 1 as [|x r Hx Hr IH]; [reflexivity|]. cbn [map]. rewrite IH, N.mod_small by exact Hx. reflexivity.
Qed.

Lemma Forall_lt_weaken (a b : N) v : a <= b -> Forall (fun x => x < a) v -> Forall (fun x => x < b) v.
Proof. intros Hab; apply Forall_impl; intros x; lia. Qed.

Local Lemma p8_16 : 2 ^ 8 <= 2 ^ 16. Proof. now vm_compute. Qed.
Local Lemma p8_32 : 2 ^ 8 <= 2 ^ 32. Proof. now vm_compute. Qed.
Local Lemma p8_64 : 2 ^ 8 <= 2 ^ 64. Proof. now vm_compute. Qed.
Local Lemma p16_32 : 2 ^ 16 <= 2 ^ 32. Proof. now vm_compute. Qed.
Local Lemma p16_64 : 2 ^ 16 <= 2 ^ 64. Proof. now vm_compute. Qed.
Local Lemma p32_64 : 2 ^ 32 <= 2 ^ 64. Proof. now vm_compute. Qed.

Ltac wk := match goal with H : Forall _ ?v |- Forall _ ?v => first [exact H |
   eapply Forall_lt_weaken; [|exact H]; first [exact p8_16|exact p8_32|exact p8_64|exact p16_32|exact p16_64|exact p32_64]] end.

Lemma upgrade_usize_contents m : dp_inv m -> contents (dp_upgrade_to_usize m) = contents m /\ dp_inv (dp_upgrade_to_usize m) /\ (2 ^ 64 - 1 <= dp_allowed_max (dp_upgrade_to_usize m)).
Proof.
  unfold dp_inv; destruct m as [v|v|v|v]; cbn [contents width dp_upgrade_to_usize dp_allowed_max]; intros H;
    unfold as_usize; rewrite ?map_mod_id by wk; (split; [reflexivity|split; [wk|lia]]).
Qed.

Lemma upgrade_u32_contents m : dp_inv m -> contents (dp_upgrade_to_u32 m) = contents m /\ dp_inv (dp_upgrade_to_u32 m) /\ (2 ^ 32 - 1 <= dp_allowed_max (dp_upgrade_to_u32 m)).
Proof.
  unfold dp_inv; destruct m as [v|v|v|v]; cbn [contents width dp_upgrade_to_u32 dp_allowed_max]; intros H;
    unfold as_u32; rewrite ?map_mod_id by wk; (split; [reflexivity|split; [wk|vm_compute; discriminate]]).
Qed.

Lemma upgrade_u16_contents m : dp_inv m -> contents (dp_upgrade_to_u16 m) = contents m /\ dp_inv (dp_upgrade_to_u16 m) /\ (2 ^ 16 - 1 <= dp_allowed_max (dp_upgrade_to_u16 m)).
Proof.
  unfold dp_inv; destruct m as [v|v|v|v]; cbn [contents width dp_upgrade_to_u16 dp_allowed_max]; intros H;
    unfold as_u16; rewrite ?map_mod_id by wk; (split; [reflexivity|split; [wk|vm_compute; discriminate]]).
Qed.

Lemma allowed_max_ge m : 2 ^ 8 - 1 <= dp_allowed_max m.
Proof. destruct m; vm_compute; discriminate. Qed.

Lemma ensure_supported_ok m x : dp_inv m -> x < 2 ^ 64 ->
  contents (dp_ensure_supported m x) = contents m /\ dp_inv (dp_ensure_supported m x) /\
  x <= dp_allowed_max (dp_ensure_supported m x).
Proof.
  intros Hm Hx. unfold dp_ensure_supported.
  destruct (N.leb_spec x (dp_allowed_max m)) as [H|H]; [auto|].
  destruct (N.ltb_spec (2 ^ 32 - 1) x) as [H1|H1].
  { destruct (upgrade_usize_contents m Hm) as (A & B & C). split; [exact A|split; [exact B|]]. lia. }
  destruct (N.ltb_spec (2 ^ 16 - 1) x) as [H2|H2].
  { destruct (upgrade_u32_contents m Hm) as (A & B & C). split; [exact A|split; [exact B|]]. lia. }
  destruct (N.ltb_spec (2 ^ 8 - 1) x) as [H3|H3].
  { destruct (upgrade_u16_contents m Hm) as (A & B & C). split; [exact A|split; [exact B|]]. lia. }
  pose proof (allowed_max_ge m). lia.
Qed.

Lemma inv_below_64 m : dp_inv m -> Forall (fun x => x < 2 ^ 64) (contents m).
Proof. unfold dp_inv; destruct m; cbn [contents width]; intros; wk. Qed.

Lemma map_opt_mod_id v i : Forall (fun x => x < 2 ^ 64) v -> option_map as_usize (nthN v i) = nthN v i.
Proof.
  intros H. rewrite <- nthN_map. unfold as_usize. now rewrite map_mod_id.
Qed.

Lemma dp_get_spec m i : dp_inv m -> dp_get m i = nthN (contents m) i.
Proof.
  intros H. apply inv_below_64 in H. destruct m; cbn [contents dp_get] in *; now apply map_opt_mod_id.
Qed.

Lemma dp_len_spec m : dp_len m = lenN (contents m).
Proof. destruct m; reflexivity. Qed.

Lemma dp_iter_spec m : dp_inv m -> dp_iter m = map Some (contents m).
Proof.
  intros H. unfold dp_iter. rewrite dp_len_spec. unfold lenN; rewrite Nat2N.id.
  apply ic_iter_list. intros i; now apply dp_get_spec.
Qed.

Lemma dp_push_spec m x : dp_inv m -> x < 2 ^ 64 ->
  contents (dp_push m x) = contents m ++ [x] /\ dp_inv (dp_push m x).
Proof.
  intros Hm Hx. destruct (ensure_supported_ok m x Hm Hx) as (A & B & C).
  unfold dp_push. destruct (dp_ensure_supported m x) as [v|v|v|v]; unfold dp_inv in *;
    cbn [contents width dp_allowed_max] in *; subst v; unfold as_u8, as_u16, as_u32; rewrite ?N.mod_small by lia;
    (split; [reflexivity|]); apply Forall_app; (split; [exact B|]); constructor; auto; lia.
Qed.

Lemma dp_set_spec m i x : dp_inv m -> x < 2 ^ 64 ->
  contents (fst (dp_set m i x)) = setN (contents m) i x /\ dp_inv (fst (dp_set m i x)) /\
  snd (dp_set m i x) = (i <? lenN (contents m)).
Proof.
  intros Hm Hx. destruct (ensure_supported_ok m x Hm Hx) as (A & B & C).
  unfold dp_set. destruct (dp_ensure_supported m x) as [v|v|v|v]; unfold dp_inv in *;
    cbn [contents width dp_allowed_max fst snd] in *; subst v; unfold as_u8, as_u16, as_u32; rewrite ?N.mod_small by lia;
    (split; [reflexivity|]); (split; [|reflexivity]); apply setN_Forall; auto; lia.
Qed.

Lemma ensure_any_ok m x : dp_inv m ->
  contents (dp_ensure_supported m x) = contents m /\ dp_inv (dp_ensure_supported m x).
Proof.
  intros Hm. unfold dp_ensure_supported.
  destruct (N.leb_spec x (dp_allowed_max m)) as [H|H]; [auto|].
  destruct (N.ltb_spec (2 ^ 32 - 1) x) as [H1|H1].
  { destruct (upgrade_usize_contents m Hm) as (A & B & C). auto. }
  destruct (N.ltb_spec (2 ^ 16 - 1) x) as [H2|H2].
  { destruct (upgrade_u32_contents m Hm) as (A & B & C). auto. }
  destruct (N.ltb_spec (2 ^ 8 - 1) x) as [H3|H3].
  { destruct (upgrade_u16_contents m Hm) as (A & B & C). auto. }
  auto.
Qed.

Definition idN (x : N) := x.

Lemma setN_vec (v : list N) i x :
  (if i <? N.of_nat (length v)
   then (firstn (N.to_nat i) v ++ [x] ++ skipn (S (N.to_nat i)) v, OUnit) else (v, OPanic))
  = (setN v i x, if i <? lenN v then OUnit else OPanic).
Proof.
  unfold lenN. destruct (N.ltb_spec i (N.of_nat (length v))) as [H|H].
  - f_equal. symmetry; apply setN_split; exact H.
  - f_equal. symmetry; apply setN_oob; exact H.
Qed.

Lemma dp_step_sim m o : dp_inv m -> Forall (fun x => x < 2 ^ 64) (written o) ->
  dp_inv (fst (dp_step m o)) /\
  vec_step (fun x => x) (contents m) o = (contents (fst (dp_step m o)), snd (dp_step m o)).
Proof.
  intros Hm Hw. destruct o as [x|i x|i| | |x|n|]; cbn [dp_step vec_step written] in *.
  - inversion Hw; subst. destruct (dp_push_spec m x Hm) as [A B]; [assumption|]. cbn [fst snd]. rewrite A; auto.
  - inversion Hw; subst. destruct (dp_set_spec m i x Hm) as (A & B & C); [assumption|].
    destruct (dp_set m i x) as [m' ok]; cbn [fst snd] in *. split; [exact B|].
    rewrite setN_vec, A, C. reflexivity.
  - cbn [fst snd]. split; [exact Hm|]. rewrite dp_get_spec, nthN_nth_error by exact Hm.
    destruct (nth_error (contents m) (N.to_nat i)); reflexivity.
  - cbn [fst snd]. split; [exact Hm|]. now rewrite dp_len_spec.
  - cbn [fst snd]. split; [exact Hm|]. now rewrite dp_iter_spec.
  - cbn [fst snd]. destruct (ensure_any_ok m x Hm) as [A B]. rewrite A; auto.
  - cbn [fst snd]; auto.
  - destruct (upgrade_usize_contents m Hm) as (A & B & C). cbn [fst snd].
    split; [exact B|]. rewrite A. f_equal. rewrite <- A. destruct m; reflexivity.
Qed.

Lemma dp_run_sim m ops : dp_inv m -> all_below (2 ^ 64) ops ->
  run dp_step m ops = run (vec_step (fun x => x)) (contents m) ops.
Proof.
  revert m; induction ops as [|o r IH]; intros m Hm Hb; [reflexivity|].
  inversion Hb as [|? ? Ho Hr]; subst. cbn [run].
  destruct (dp_step_sim m o Hm Ho) as [Hi Hs]. rewrite Hs.
  destruct (dp_step m o) as [m' b]; cbn [fst snd] in *. f_equal. now apply IH.
Qed.

Lemma fold_push_spec v m : dp_inv m -> Forall (fun x => x < 2 ^ 64) v ->
  contents (fold_left dp_push v m) = contents m ++ v /\ dp_inv (fold_left dp_push v m).
Proof.
  revert m; induction v as [|x v IH]; intros m Hm Hv; cbn [fold_left].
  - rewrite app_nil_r; auto.
  - inversion Hv; subst. destruct (dp_push_spec m x Hm) as [A B]; [assumption|].
    destruct (IH (dp_push m x) B) as [C D]; [assumption|]. split; [|exact D].
    rewrite C, A, <- app_assoc. reflexivity.
Qed.

Lemma dp_from_spec v : Forall (fun x => x < 2 ^ 64) v -> contents (dp_from v) = v /\ dp_inv (dp_from v).
Proof.
  intros Hv. unfold dp_from. assert (Hn : dp_inv dp_new) by (unfold dp_inv, dp_new; constructor).
  destruct (list_max_opt v) as [mx|] eqn:E.
  - destruct (ensure_any_ok dp_new mx Hn) as [A B].
    destruct (fold_push_spec v _ B Hv) as [C D]. rewrite A in C. auto.
  - destruct v; [|discriminate]. split; [reflexivity|exact Hn].
Qed.

Lemma dynamic_refines_vec v ops : Forall (fun x => x < 2 ^ 64) v -> all_below (2 ^ 64) ops ->
  run dp_step (dp_from v) ops = run (vec_step (fun x => x)) v ops.
Proof.
  intros Hv Ho. destruct (dp_from_spec v Hv) as [A B]. rewrite dp_run_sim by assumption. now rewrite A.
Qed.

Lemma dynamic_refines_vec_u8 v ops : Forall (fun x => x < 2 ^ 8) v -> all_below (2 ^ 64) ops ->
  run dp_step (dp_from_u8 v) ops = run (vec_step (fun x => x)) v ops.
Proof. intros Hv Ho. apply (dp_run_sim (MU8 v)); assumption. Qed.

Lemma dynamic_refines_vec_new ops : all_below (2 ^ 64) ops ->
  run dp_step dp_new ops = run (vec_step (fun x => x)) [] ops.
Proof. intros H. apply (dp_run_sim (MU8 [])); [constructor|exact H]. Qed.

(** U32 *)
Definition u32_inv (m : u32v) := Forall (fun x => x < 2 ^ 64) m.

Lemma as_u32_lt x : as_u32 x < 2 ^ 64.
Proof. unfold as_u32. assert (x mod 2 ^ 32 < 2 ^ 32) by (apply N.mod_lt; lia). lia. Qed.

Lemma u32_step_sim m o : u32_inv m ->
  u32_inv (fst (u32_step m o)) /\ vec_step (fun x => x mod 2 ^ 32) m o = u32_step m o.
Proof.
  intros Hm. pose proof as_u32_lt as Hlt.
  assert (Hg : forall i, u32_get m i = nthN m i) by (intros i; apply map_opt_mod_id; exact Hm).
  assert (Hi : u32_iter m = map Some m).
  { unfold u32_iter, u32_len, lenN; rewrite Nat2N.id. now apply ic_iter_list. }
  destruct o as [x|i x|i| | |x|n|]; cbn [u32_step vec_step fst snd]; try (split; [exact Hm|]); try reflexivity.
  - split; [|reflexivity]. unfold u32_push, u32_inv. apply Forall_app; split; [exact Hm|]. constructor; auto.
  - unfold u32_set. cbn [fst snd]. split; [apply setN_Forall; [exact Hm|apply Hlt]|].
    apply setN_vec.
  - rewrite Hg, nthN_nth_error. destruct (nth_error m (N.to_nat i)); reflexivity.
  - now rewrite Hi.
  - now rewrite Hi.
Qed.

Lemma u32_run_sim m ops : u32_inv m -> run u32_step m ops = run (vec_step (fun x => x mod 2 ^ 32)) m ops.
Proof.
  revert m; induction ops as [|o r IH]; intros m Hm; [reflexivity|]. cbn [run].
  destruct (u32_step_sim m o Hm) as [Hi Hs]. rewrite Hs. destruct (u32_step m o) as [m' b]; cbn [fst] in Hi.
  f_equal; now apply IH.
Qed.

Lemma u32_truncates ops : run u32_step [] ops = run (vec_step (fun x => x mod 2 ^ 32)) [] ops.
Proof. apply u32_run_sim; constructor. Qed.

Lemma vec_step_ext (f g : N -> N) v o : Forall (fun x => f x = g x) (written o) -> vec_step f v o = vec_step g v o.
Proof.
  intros H; destruct o; cbn [vec_step written] in *; try reflexivity; inversion H; subst;
  match goal with E : _ = _ |- _ => now rewrite E end.
Qed.

Lemma run_ext (f g : N -> N) v ops : Forall (fun o => Forall (fun x => f x = g x) (written o)) ops ->
  run (vec_step f) v ops = run (vec_step g) v ops.
Proof.
  revert v; induction ops as [|o r IH]; intros v H; [reflexivity|]. inversion H; subst. cbn [run].
  rewrite (vec_step_ext f g) by assumption. destruct (vec_step g v o); f_equal; auto.
Qed.

Lemma u32_exact ops : all_below (2 ^ 32) ops -> run u32_step [] ops = run (vec_step (fun x => x)) [] ops.
Proof.
  intros H. rewrite u32_truncates. apply run_ext. eapply Forall_impl; [|exact H].
  intros o Ho; cbn beta in *. eapply Forall_impl; [|exact Ho]. intros x Hx; now apply N.mod_small.
Qed.
