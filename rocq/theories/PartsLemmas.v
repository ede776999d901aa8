From Verif Require Import Base BaseLemmas MeshModel MeshSpec MeshLemmas IndexVecLemmas HalfEdgeModel HalfEdgeSpec PartsModel PartsSpec.
Local Open Scope N_scope.
From Coq Require Import ZifyBool ZifyNat ZifyN.
Ltac Zify.zify_post_hook ::= Z.div_mod_to_equations.

Lemma list3_ind {A} (Q : list A -> Prop) : Q [] -> (forall a, Q [a]) -> (forall a b, Q [a; b]) -> (forall a b c r, Q r -> Q (a :: b :: c :: r)) -> forall l, Q l.
Proof.
  intros H0 H1 H2 H3. assert (G : forall n l, (length l <= n)%nat -> Q l).
  { induction n as [|n IH]; intros l Hl.
    - destruct l; [exact H0|cbn in Hl; lia].
    - destruct l as [|a [|b [|c r]]]; auto. apply H3, IH. cbn in Hl. lia. }
  intros l. exact (G (length l) l (le_n _)).
Qed.
Lemma triples_split l : l = flat (triples l) ++ rest3 l.
Proof. induction l as [|a|a b|a b c r IH] using list3_ind; try reflexivity. cbn [triples rest3 flat flat_map app]. unfold flat in IH. now rewrite <- IH. Qed.
Lemma rest3_length (l : list N) : (length (rest3 l) < 3)%nat.
Proof. induction l as [|a|a b|a b c r IH] using list3_ind; cbn; lia. Qed.
Lemma rest3_nil (l : list N) : lenN l mod 3 = 0 <-> rest3 l = [].
Proof.
  pose proof (triples_split l) as E. pose proof (rest3_length l) as R. apply (f_equal (@length N)) in E. rewrite app_length, flat_length in E.
  unfold lenN. split.
  - intros H. apply length_zero_iff_nil. lia.
  - intros H. rewrite H in E. cbn [length] in E. lia.
Qed.
Lemma triples_len (l : list N) : lenN l / 3 = N.of_nat (length (triples l)).
Proof.
  pose proof (triples_split l) as E. pose proof (rest3_length l) as R. apply (f_equal (@length N)) in E. rewrite app_length, flat_length in E. unfold lenN, face3 in *. lia.
Qed.
Lemma from_face {P} (ps : list P) ids f : 3 * f + 2 < 2 ^ 64 -> face_vertex_ids (mesh_from (ps, ids)) f = Ok (nth_error (triples ids) (N.to_nat f)).
Proof.
  intros Hf. unfold face_vertex_ids. cbn [mesh_from topology fst snd].
  assert (W : forall x, x < 2 ^ 64 -> w64 x = x) by (intros x Hx; unfold w64; apply N.mod_small; exact Hx).
  rewrite (W (3 * f)) by lia. rewrite !W by lia. rewrite !nthN_nth_error.
  pose proof (triples_split ids) as E. pose proof (rest3_length ids) as R.
  assert (L : length ids = (3 * length (triples ids) + length (rest3 ids))%nat) by (rewrite E at 1; rewrite app_length, flat_length; reflexivity). unfold face3 in *.
  unfold lenN. destruct (N.leb_spec (N.of_nat (length ids)) (3 * f + 2)) as [H|H].
  - rewrite (proj2 (nth_error_None (triples ids) (N.to_nat f))) by lia. reflexivity.
  - destruct (nth_error (triples ids) (N.to_nat f)) as [[[a b] c]|] eqn:En.
    + assert (Lt : (N.to_nat f < length (triples ids))%nat) by (apply nth_error_Some; congruence).
      destruct (flat_nth _ _ _ _ _ En) as (A & B & C). rewrite E.
      rewrite !nth_error_app1 by (rewrite flat_length; unfold face3; lia).
      replace (N.to_nat (3 * f + 0)) with (3 * N.to_nat f)%nat by lia.
      replace (N.to_nat (3 * f + 1)) with (3 * N.to_nat f + 1)%nat by lia.
      replace (N.to_nat (3 * f + 2)) with (3 * N.to_nat f + 2)%nat by lia.
      rewrite A, B, C. reflexivity.
    + apply nth_error_None in En. lia.
Qed.
Lemma triples_app (l r : list N) : triples (l ++ r) = triples l ++ triples (rest3 l ++ r).
Proof. induction l as [|a|a b|a b c l IH] using list3_ind; try reflexivity. cbn [app triples rest3]. now rewrite IH. Qed.
Lemma connect_from {P} (ps : list P) ids a b c m f : try_add_connection (mesh_from (ps, ids)) a b c = (m, Ok f) -> 3 * f + 2 < 2 ^ 64 ->
  f = N.of_nat (length (triples ids)) /\ face_vertex_ids m f = Ok (nth_error (triples (rest3 ids ++ [a; b; c])) 0).
Proof.
  unfold try_add_connection. cbn [mesh_from pc topology fst snd]. destruct (_ || _ || _); [discriminate|]. destruct (_ || _ || _); [discriminate|].
  intros H Hf. injection H as <- <-.
  change (((ids ++ [a]) ++ [b]) ++ [c]) with (((ids ++ [a]) ++ [b]) ++ [c]) in *. rewrite <- !app_assoc in *. cbn [app] in *.
  assert (F : lenN (ids ++ [a; b; c]) / 3 - 1 = N.of_nat (length (triples ids))).
  { rewrite lenN_app. rewrite <- triples_len. change (lenN [a; b; c]) with 3. lia. }
  rewrite F in *. split; [reflexivity|].
  change (Mesh ps (ids ++ [a; b; c])) with (mesh_from (ps, ids ++ [a; b; c])). rewrite from_face by exact Hf.
  rewrite triples_app, Nat2N.id, nth_error_app2 by lia. rewrite Nat.sub_diag. reflexivity.
Qed.
Lemma fold_push {A} (g : A -> option N) c r : fold_left (fun r e => push_opt r (g e)) c r = r ++ flat_map (fun e => match g e with Some x => [x] | None => [] end) c.
Proof.
  revert r. induction c as [|e c IH]; intros r; cbn [fold_left flat_map]; [now rewrite app_nil_r|].
  rewrite IH. unfold push_opt. destruct (g e); [now rewrite <- app_assoc|reflexivity].
Qed.
Lemma fold_push2 (g : N -> option N) c r : fold_left (fun r e => push_opt (r ++ [e]) (g e)) c r = r ++ flat_map (fun e => e :: match g e with Some x => [x] | None => [] end) c.
Proof.
  revert r. induction c as [|e c IH]; intros r; cbn [fold_left flat_map]; [now rewrite app_nil_r|].
  rewrite IH. unfold push_opt. destruct (g e); rewrite <- !app_assoc; reflexivity.
Qed.
