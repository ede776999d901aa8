(** C201: subdividing and healing keep closed meshes closed. *)
From Coq Require Import Permutation.
From Verif Require Import Base BaseLemmas MeshModel MeshSpec MeshLemmas MeshAlgoModel MeshAlgoSpec MeshAlgoLemmas MeshAlgoProps HealTwiceProps ClosedSpec.
Local Open Scope N_scope.

Definition turn (x : N * N) : N * N := (snd x, fst x).
Lemma turn_turn x : turn (turn x) = x.
Proof. destruct x. reflexivity. Qed.
Notation cnt := (count_occ side_dec).
Definition sym (l : list (N * N)) : Prop := forall x, cnt l x = cnt l (turn x).
Definition one (y x : N * N) : nat := if side_dec y x then 1%nat else 0%nat.
Lemma cnt_cons y l x : cnt (y :: l) x = (one y x + cnt l x)%nat.
Proof. cbn [count_occ]. unfold one. destruct (side_dec y x); reflexivity. Qed.
Lemma cnt_turn l x : cnt (map turn l) x = cnt l (turn x).
Proof.
  induction l as [|y l IH]; [reflexivity|]. cbn [map count_occ]. rewrite IH. destruct (side_dec (turn y) x) as [E|E], (side_dec y (turn x)) as [F|F]; try reflexivity; exfalso.
  - apply F. rewrite <- E, turn_turn. reflexivity.
  - apply E. rewrite F, turn_turn. reflexivity.
Qed.
Lemma sym_perm l : sym l <-> Permutation l (map turn l).
Proof. rewrite (Permutation_count_occ side_dec). unfold sym. split; intros H x; specialize (H x); rewrite cnt_turn in *; exact H. Qed.
Lemma closed_sym fs : closed fs <-> sym (flat_map sides fs).
Proof. split; [intros H (a, b); apply H|intros H a b; apply (H (a, b))]. Qed.
Lemma sym_app l k : sym l -> sym k -> sym (l ++ k).
Proof. intros A B x. rewrite !count_occ_app, (A x), (B x). reflexivity. Qed.
Lemma sym_flat {A} (f : A -> list (N * N)) l : (forall x, In x l -> sym (f x)) -> sym (flat_map f l).
Proof. intros H. induction l as [|x l IH]; [intros y; reflexivity|]. cbn [flat_map]. apply sym_app; [apply H; left; reflexivity|apply IH; intros z Z; apply H; right; exact Z]. Qed.
Lemma perm_sym l k : Permutation l k -> sym k -> sym l.
Proof. rewrite !sym_perm. intros P S. rewrite P, S at 1. apply Permutation_map. symmetry. exact P. Qed.

(** ** Subdividing *)
Section Sub.
Context (m : N -> N -> N).
Definition halves (e : N * N) : list (N * N) := [(fst e, m (fst e) (snd e)); (m (fst e) (snd e), snd e)].
Definition inner (f : face3) : list (N * N) :=
  let '(a, b, c) := f in [(m a b, m c a); (m c a, m a b); (m b c, m a b); (m a b, m b c); (m b c, m c a); (m c a, m b c)].
Lemma quarter_sides f : Permutation (flat_map sides (quarters m f)) (flat_map halves (sides f) ++ inner f).
Proof.
  destruct f as ((a, b), c). cbn [quarters flat_map sides halves inner fst snd app]. apply (Permutation_count_occ side_dec). intros x.
  rewrite !cnt_cons. lia.
Qed.
Lemma sub_sides fs : Permutation (flat_map sides (flat_map (quarters m) fs)) (flat_map halves (flat_map sides fs) ++ flat_map inner fs).
Proof.
  induction fs as [|f fs IH]; [reflexivity|]. cbn [flat_map]. rewrite !flat_map_app, quarter_sides, IH, <- !app_assoc. apply Permutation_app_head.
  rewrite !app_assoc. apply Permutation_app_tail, Permutation_app_comm.
Qed.
Lemma inner_sym f : sym (inner f).
Proof.
  apply sym_perm. destruct f as ((a, b), c). cbn [inner map turn fst snd].
  apply (Permutation_trans (l' := [(m c a, m a b); (m a b, m c a); (m a b, m b c); (m b c, m a b); (m c a, m b c); (m b c, m c a)])); [|reflexivity].
  eapply perm_trans; [apply perm_swap|]. do 2 apply perm_skip. eapply perm_trans; [apply perm_swap|]. do 2 apply perm_skip. apply perm_swap.
Qed.
Lemma halves_sym l : (forall a b, In (a, b) l -> m a b = m b a) -> sym l -> sym (flat_map halves l).
Proof.
  intros M. rewrite !sym_perm. intros S. rewrite S at 1. clear S. induction l as [|(a, b) l IH]; [reflexivity|].
  cbn [map flat_map]. rewrite map_app. apply Permutation_app; [|apply IH; intros; apply M; right; assumption].
  unfold halves, turn. cbn [map fst snd]. rewrite (M a b (or_introl eq_refl)). apply perm_swap.
Qed.
End Sub.
Lemma side_edge fs a b : In (a, b) (flat_map sides fs) -> face_edge fs a b.
Proof. intros I. apply in_flat_map in I as (((x, y), z) & F & I). exists x, y, z. split; [exact F|]. cbn [sides In] in I. intuition congruence. Qed.

Theorem C201_subdivide {V} (mid : V -> V -> V) (m : mesh V) (s : mspec V) :
  shows m s -> faces_ok s -> 3 * N.of_nat (length (sfs s)) < 2 ^ 64 -> closed (sfs s) ->
  exists m' s', subdivide_linear mid m = Ok m' /\ shows m' s' /\ faces_ok s' /\ lenN (sfs s') = 4 * lenN (sfs s) /\ closed (sfs s').
Proof.
  intros S F L C. destruct (C38_subdivide_linear mid m s S F L) as (m' & new & mid_id & E & S' & F' & M & _). cbv zeta in *. eexists m', _. split; [exact E|]. split; [exact S'|]. split; [exact F'|]. cbn [sfs].
  split; [unfold lenN; clear; induction (sfs s) as [|((a, b), c) l IH]; [reflexivity|]; cbn [flat_map]; rewrite app_length; cbn [quarters length]; lia|].
  apply closed_sym. apply (perm_sym _ _ (sub_sides mid_id (sfs s))). apply sym_app; [|apply sym_flat; intros f _; apply inner_sym].
  apply halves_sym; [|apply closed_sym, C]. intros a b I. apply side_edge in I. apply M in I. tauto.
Qed.
Print Assumptions C201_subdivide.

(** Nothing becomes closed by subdividing either. *)
Section Back.
Context (m : N -> N -> N) (n : N) (fs : list face3)
  (old : forall a b, face_edge fs a b -> a < n /\ b < n /\ a <> b)
  (new : forall a b, face_edge fs a b -> n <= m a b)
  (inj : forall a b x y, face_edge fs a b -> face_edge fs x y -> m a b = m x y -> (a = x /\ b = y) \/ (a = y /\ b = x)).
Lemma one_no x y : x <> y -> one x y = O.
Proof. unfold one. destruct (side_dec x y); congruence. Qed.
Lemma one_iff x y u v : (x = y <-> u = v) -> one x y = one u v.
Proof. unfold one. intros H. destruct (side_dec x y), (side_dec u v); tauto. Qed.
Lemma halves_count a b E : face_edge fs a b -> (forall x y, In (x, y) E -> face_edge fs x y) ->
  cnt (flat_map (halves m) E) (a, m a b) = cnt E (a, b) /\ (m a b = m b a -> cnt (flat_map (halves m) E) (m a b, a) = cnt E (b, a)).
Proof.
  intros FE H. pose proof (old a b FE) as (A & B & D). pose proof (new a b FE) as M. induction E as [|(x, y) E IH]; [split; reflexivity|].
  destruct (IH (fun u v I => H u v (or_intror I))) as (I1 & I2). specialize (H x y (or_introl eq_refl)). pose proof (old x y H) as (X & Y & _). pose proof (new x y H) as MX.
  cbn [flat_map halves app fst snd]. rewrite !cnt_cons. split.
  - rewrite I1, (one_no (m x y, y)) by (intros [= E1 _]; lia). rewrite (one_iff (x, m x y) (a, m a b) (x, y) (a, b)); [lia|].
    split; [|intros [= -> ->]; reflexivity]. intros [= -> E2]. destruct (inj _ _ _ _ H FE E2) as [(_ & ->)|(Z & _)]; [reflexivity|congruence].
  - intros S. rewrite (I2 S), (one_no (x, m x y)) by (intros [= E1 _]; lia). rewrite (one_iff (m x y, y) (m a b, a) (x, y) (b, a)); [lia|].
    split; [|intros [= -> ->]; rewrite S; reflexivity]. intros [= E1 ->]. destruct (inj _ _ _ _ H FE E1) as [(_ & Z)|(-> & _)]; [congruence|reflexivity].
Qed.
Lemma inner_count u v : u < n \/ v < n -> cnt (flat_map (inner m) fs) (u, v) = O.
Proof.
  intros U. apply count_occ_not_In. intros I. apply in_flat_map in I as (((a, b), c) & F & I).
  assert (E1 : face_edge fs a b) by (exists a, b, c; auto). assert (E2 : face_edge fs b c) by (exists a, b, c; auto). assert (E3 : face_edge fs c a) by (exists a, b, c; auto).
  apply new in E1, E2, E3. cbn [inner In] in I. repeat destruct I as [I|I]; try injection I as <- <-; try destruct I; lia.
Qed.
Lemma edge_turn a b : face_edge fs a b -> face_edge fs b a.
Proof. intros (x & y & z & F & H). exists x, y, z. split; [exact F|]. tauto. Qed.
Lemma closed_back : (forall a b, face_edge fs a b -> m a b = m b a) -> closed (flat_map (quarters m) fs) -> closed fs.
Proof.
  intros S C a b. unfold runs. destruct (in_dec side_dec (a, b) (flat_map sides fs)) as [I|I]; [|destruct (in_dec side_dec (b, a) (flat_map sides fs)) as [J|J]].
  3: { rewrite (proj1 (count_occ_not_In _ _ _) I), (proj1 (count_occ_not_In _ _ _) J). reflexivity. }
  1: apply side_edge in I. 2: apply side_edge, edge_turn in J; clear I; rename J into I.
  all: specialize (C a (m a b)); unfold runs in C; pose proof (sub_sides m fs) as PS; rewrite (Permutation_count_occ side_dec) in PS; rewrite !PS, !count_occ_app in C;
    pose proof (old a b I) as (A & _); rewrite !inner_count in C by auto; destruct (halves_count a b (flat_map sides fs) I (fun x y => side_edge fs x y)) as (H1 & H2);
    rewrite H1, (H2 (S a b I)) in C; lia.
Qed.
End Back.
Theorem C201_subdivide_back {V} (mid : V -> V -> V) (m : mesh V) (s : mspec V) :
  shows m s -> faces_ok s -> 3 * N.of_nat (length (sfs s)) < 2 ^ 64 ->
  exists m' s', subdivide_linear mid m = Ok m' /\ shows m' s' /\ faces_ok s' /\ (closed (sfs s') -> closed (sfs s)).
Proof.
  intros S F L. destruct (C38_subdivide_linear mid m s S F L) as (m' & new & mid_id & E & S' & F' & M & INJ & _). cbv zeta in *. eexists m', _. split; [exact E|]. split; [exact S'|]. split; [exact F'|]. cbn [sfs].
  apply (closed_back mid_id (lenN (svs s))).
  - intros a b (x & y & z & I & H). pose proof (F x y z I) as (X & Y & Z & D1 & D2 & D3). unfold in_range, lenN in *. intuition congruence.
  - intros a b H. apply M in H. tauto.
  - exact INJ.
  - intros a b H. apply M in H. tauto.
Qed.
Print Assumptions C201_subdivide_back.

(** ** Healing *)
Section Heal.
Context {P : Type} (same : P -> P -> bool) (Q : equality same).
Fixpoint idx (l : list P) (p : P) : nat := match l with [] => O | x :: r => if same x p then O else S (idx r p) end.
Lemma idx_same l p q : same p q = true -> idx l p = idx l q.
Proof. intros E. induction l as [|x r IH]; [reflexivity|]. cbn [idx]. rewrite (same_r same Q p q x E), IH. reflexivity. Qed.
Lemma idx_at l p q i : no_two_same same l -> nth_error l i = Some q -> same p q = true -> idx l p = i.
Proof.
  intros ND E S. rewrite (idx_same l p q S). clear p S. revert i ND E. induction l as [|x r IH]; intros [|i] ND E; try discriminate; cbn [nth_error idx] in *.
  - injection E as ->. rewrite (eq_refl_b _ Q). reflexivity.
  - rewrite (ND O (S i) x q eq_refl E ltac:(discriminate)). f_equal. apply IH; [|exact E]. intros a b u v A B D. apply (ND (S a) (S b) u v A B). congruence.
Qed.
Context (s s' : mspec P).
Definition rep (v : N) : N := match nth_error (svs s) (N.to_nat v) with Some p => N.of_nat (idx (svs s') p) | None => 0 end.
Definition rep3 (f : face3) : face3 := let '(a, b, c) := f in (rep a, rep b, rep c).
Definition rep2 (x : N * N) : N * N := (rep (fst x), rep (snd x)).
Lemma rep_sides fs : flat_map sides (map rep3 fs) = map rep2 (flat_map sides fs).
Proof. induction fs as [|((a, b), c) fs IH]; [reflexivity|]. cbn [map flat_map]. rewrite map_app, IH. reflexivity. Qed.
Lemma rep_sym l : sym l -> sym (map rep2 l).
Proof. rewrite !sym_perm. intros S. rewrite S at 1. rewrite !map_map. apply Permutation_refl. Qed.
Lemma split_kept (k : face3 -> bool) fs x : cnt (flat_map sides (map rep3 fs)) x =
  (cnt (flat_map sides (map rep3 (filter k fs))) x + cnt (flat_map sides (map rep3 (filter (fun f => negb (k f)) fs))) x)%nat.
Proof.
  induction fs as [|f fs IH]; [reflexivity|]. cbn [map flat_map filter]. rewrite count_occ_app, IH. destruct (k f); cbn [negb map flat_map]; rewrite count_occ_app; lia.
Qed.
Lemma sides_sym a b c : a = b \/ a = c \/ b = c -> sym (sides (a, b, c)).
Proof.
  intros H. apply sym_perm. cbn [sides map]. unfold turn. cbn [fst snd]. destruct H as [->|[->| ->]].
  - apply perm_skip, perm_swap.
  - eapply perm_trans; [apply perm_swap|]. apply Permutation_refl.
  - apply (Permutation_count_occ side_dec). intros x. rewrite !cnt_cons. lia.
Qed.
Lemma kept_rep fs gs : no_two_same same (svs s') -> Forall2 (fun f g => same_corners same s f s' g) fs gs -> map rep3 fs = gs.
Proof.
  intros ND F. induction F as [|((a, b), c) ((a', b'), c') fs gs (p & q & r & p' & q' & r' & C1 & C2 & E1 & E2 & E3) _ IH]; [reflexivity|]. cbn [map rep3]. rewrite IH. f_equal.
  apply corners_inv in C1 as (X1 & X2 & X3), C2 as (Y1 & Y2 & Y3). unfold rep. rewrite X1, X2, X3.
  rewrite (idx_at _ _ _ _ ND Y1 E1), (idx_at _ _ _ _ ND Y2 E2), (idx_at _ _ _ _ ND Y3 E3), !N2Nat.id. reflexivity.
Qed.
Lemma collapsed_rep f : corners s f <> None -> collapsed same s f = true -> sym (sides (rep3 f)).
Proof.
  destruct f as ((a, b), c). unfold collapsed. destruct (corners s (a, b, c)) as [((p, q), r)|] eqn:C; [|congruence]. intros _ H. apply corners_inv in C as (X1 & X2 & X3).
  apply sides_sym. unfold rep. rewrite X1, X2, X3. apply orb_true_iff in H as [H|H]; [apply orb_true_iff in H as [H|H]|]; rewrite (idx_same _ _ _ H); auto.
Qed.
End Heal.

Theorem C201_heal {P} (same : P -> P -> bool) (m : mesh P) (s : mspec P) :
  equality same -> shows m s -> 3 * N.of_nat (length (sfs s)) < 2 ^ 64 -> closed (sfs s) ->
  exists m' s', heal_mesh same m = Ok m' /\ shows m' s' /\ faces_ok s' /\ closed (sfs s').
Proof.
  intros Q S L C. destruct (heal_exact same Q m s S L) as (m' & s' & E & S' & F' & ND & _ & K & _ & _). exists m', s'. split; [exact E|]. split; [exact S'|]. split; [exact F'|].
  apply closed_sym in C. apply (rep_sym same s s') in C. rewrite <- rep_sides in C. apply closed_sym. rewrite <- (kept_rep same Q s s' _ _ ND K).
  assert (D : sym (flat_map sides (map (rep3 same s s') (filter (fun f => negb (negb (collapsed same s f))) (sfs s))))).
  { apply sym_flat. intros g I. apply in_map_iff in I as (f & <- & I). apply filter_In in I as (I & H). rewrite negb_involutive in H. apply (collapsed_rep same Q); [|exact H].
    destruct (shows_corners m s f S L I) as (p & q & r & X). congruence. }
  intros x. specialize (C x). specialize (D x). pose proof (split_kept same s s' (fun f => negb (collapsed same s f)) (sfs s) x). pose proof (split_kept same s s' (fun f => negb (collapsed same s f)) (sfs s) (turn x)). cbv beta in *. lia.
Qed.
Print Assumptions C201_heal.

(** The faces of a tetrahedron; without one of them it is not closed. *)
Definition tetra : list face3 := [(0, 2, 1); (0, 1, 3); (1, 2, 3); (2, 0, 3)].
Lemma tetra_closed : closed tetra.
Proof. apply closed_sym, sym_perm, (Permutation_count_occ side_dec). intros x. cbn [tetra flat_map sides app map]. unfold turn. cbn [fst snd]. rewrite !cnt_cons. lia. Qed.
Example C201_case : shows (Mesh [10; 20; 30; 40] (flat tetra)) (MSpec [10; 20; 30; 40] tetra) /\ faces_ok (MSpec [10; 20; 30; 40] tetra) /\ closed tetra /\ runs tetra 0 1 = 1%nat /\
  ~ closed [(0, 2, 1); (0, 1, 3); (1, 2, 3)] /\
  (* merging the vertices 10 and 11 collapses two of the four faces and leaves a closed mesh *)
  heal_mesh (fun x y => x / 10 =? y / 10) (Mesh [10; 11; 30; 40] (flat tetra)) = Ok (Mesh [10; 30; 40] [0; 1; 2; 1; 0; 2]) /\
  closed [(0, 1, 2); (1, 0, 2)].
Proof.
  assert (F : faces_ok (MSpec [10; 20; 30; 40] tetra)) by (apply faces_okb; reflexivity).
  split; [apply abs_shows; [split; reflexivity|exact F]|]. split; [exact F|]. split; [exact tetra_closed|]. split; [reflexivity|].
  split; [intros H; specialize (H 0 2); discriminate H|]. split; [reflexivity|].
  apply closed_sym, sym_perm, (Permutation_count_occ side_dec). intros x. cbn [flat_map sides app map]. unfold turn. cbn [fst snd]. rewrite !cnt_cons. lia.
Qed.
