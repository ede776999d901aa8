(** C200: healing a healed mesh. *)
From Verif Require Import Base BaseLemmas MeshModel MeshSpec MeshLemmas MeshAlgoModel MeshAlgoSpec MeshAlgoLemmas MeshAlgoProps.
Local Open Scope N_scope.

Section Heal.
Context {P : Type} (same : P -> P -> bool) (Q : equality same).
Lemma same_l x y z : same x y = true -> same x z = same y z.
Proof.
  intros E. destruct (same x z) eqn:A, (same y z) eqn:B; try reflexivity; exfalso.
  - rewrite (eq_trans_b _ Q y x z (eq_sym_b _ Q _ _ E) A) in B. discriminate.
  - rewrite (eq_trans_b _ Q x y z E B) in A. discriminate.
Qed.
Lemma same_r x y z : same x y = true -> same z x = same z y.
Proof.
  intros E. destruct (same z x) eqn:A, (same z y) eqn:B; try reflexivity; exfalso.
  - rewrite (eq_trans_b _ Q z x y A E) in B. discriminate.
  - rewrite (eq_trans_b _ Q z y x B (eq_sym_b _ Q _ _ E)) in A. discriminate.
Qed.
Lemma filter_pointwise x y l l' : same x y = true -> Forall2 (fun a b => same a b = true) l l' ->
  Forall2 (fun a b => same a b = true) (filter (fun z => negb (same x z)) l) (filter (fun z => negb (same y z)) l').
Proof.
  intros E F. induction F as [|a b l l' H _ IH]; [constructor|]. cbn [filter]. rewrite (same_l x y a E), (same_r a b y H).
  destruct (negb (same y b)); [constructor; assumption|exact IH].
Qed.
Lemma firsts_pointwise l l' : Forall2 (fun a b => same a b = true) l l' ->
  Forall2 (fun a b => same a b = true) (first_occurrences same l) (first_occurrences same l').
Proof.
  intros F. induction F as [|a b l l' H _ IH]; [constructor|]. cbn [first_occurrences]. constructor; [exact H|]. apply filter_pointwise; assumption.
Qed.
Lemma firsts_in l : incl (first_occurrences same l) l.
Proof. induction l as [|x r IH]; [intros z []|]. cbn [first_occurrences]. intros z [<-|Z]; [left; reflexivity|]. apply filter_In in Z as (Z & _). right. apply IH, Z. Qed.
Lemma no_two_eq l x y : no_two_same same l -> In x l -> In y l -> same x y = true -> x = y.
Proof.
  intros N X Y E. apply In_nth_error in X as (i & X), Y as (j & Y). destruct (Nat.eq_dec i j) as [->|D]; [congruence|].
  rewrite (N i j x y X Y D) in E. discriminate.
Qed.
Lemma no_two_idx l i j x y : no_two_same same l -> nth_error l i = Some x -> nth_error l j = Some y -> same x y = true -> i = j.
Proof. intros N X Y E. destruct (Nat.eq_dec i j) as [D|D]; [exact D|]. rewrite (N i j x y X Y D) in E. discriminate. Qed.
Lemma corners_inv (s : mspec P) a b c p q r : corners s (a, b, c) = Some (p, q, r) ->
  nth_error (svs s) (N.to_nat a) = Some p /\ nth_error (svs s) (N.to_nat b) = Some q /\ nth_error (svs s) (N.to_nat c) = Some r.
Proof.
  cbn [corners]. destruct (nth_error (svs s) (N.to_nat a)), (nth_error (svs s) (N.to_nat b)), (nth_error (svs s) (N.to_nat c)); try discriminate.
  intros [= -> -> ->]. auto.
Qed.
Lemma filter_none (s : mspec P) : (forall f, In f (sfs s) -> collapsed same s f = false) -> filter (fun f => negb (collapsed same s f)) (sfs s) = sfs s.
Proof.
  generalize (sfs s). intros l H. induction l as [|x l IH]; [reflexivity|]. cbn [filter]. rewrite (H x (or_introl eq_refl)). cbn [negb]. f_equal. apply IH. intros f I. apply H. right. exact I.
Qed.
Lemma kept_corners (s s' : mspec P) fs gs : Forall2 (fun f g => same_corners same s f s' g) fs gs ->
  Forall2 (fun a b => same a b = true) (all_corners (MSpec (svs s) fs)) (all_corners (MSpec (svs s') gs)).
Proof.
  intros F. unfold all_corners. cbn [sfs]. induction F as [|f g fs gs (p & q & r & p' & q' & r' & C1 & C2 & E1 & E2 & E3) _ IH]; [constructor|].
  cbn [flat_map]. unfold corners in C1, C2 |- *. cbn [svs] in *. rewrite C1, C2. cbn [app]. repeat (constructor; [assumption|]). exact IH.
Qed.
Lemma mspec_eta (s : mspec P) : MSpec (svs s) (sfs s) = s.
Proof. destruct s. reflexivity. Qed.
Lemma corner_vertex (s : mspec P) p : In p (all_corners s) -> exists f v, In f (sfs s) /\ nth_error (svs s) v = Some p /\ (let '(a, b, c) := f in In (N.of_nat v) [a; b; c]).
Proof.
  unfold all_corners. intros I. apply in_flat_map in I as (((a, b), c) & F & I). destruct (corners s (a, b, c)) as [((x, y), z)|] eqn:C; [|destruct I].
  apply corners_inv in C as (A & B & C). exists (a, b, c). destruct I as [<-|[<-|[<-|[]]]].
  - exists (N.to_nat a). rewrite N2Nat.id. split; [exact F|]. split; [assumption|]. cbn [In]. auto.
  - exists (N.to_nat b). rewrite N2Nat.id. split; [exact F|]. split; [assumption|]. cbn [In]. auto.
  - exists (N.to_nat c). rewrite N2Nat.id. split; [exact F|]. split; [assumption|]. cbn [In]. auto.
Qed.
(** A mesh without merged or stray vertices and collapsed faces stays the same. *)
Lemma heal_clean m s : abs_ok m s -> shows m s -> 3 * N.of_nat (length (sfs s)) < 2 ^ 64 ->
  no_two_same same (svs s) -> first_occurrences same (all_corners s) = svs s -> (forall f, In f (sfs s) -> collapsed same s f = false) -> heal_mesh same m = Ok m.
Proof.
  intros (A1 & A2) S L ND FO NC. destruct (heal_exact same Q m s S L) as (m' & s' & E & _ & _ & _ & _ & K & (B1 & B2) & FO').
  rewrite (filter_none s NC) in K. rewrite FO in FO'.
  assert (sfs s' = sfs s).
  { symmetry. clear - K FO' ND. induction K as [|((a, b), c) ((a', b'), c') fs gs (p & q & r & p' & q' & r' & C1 & C2 & E1 & E2 & E3) _ IH]; [reflexivity|].
    apply corners_inv in C1 as (X1 & X2 & X3), C2 as (Y1 & Y2 & Y3). rewrite FO' in Y1, Y2, Y3.
    pose proof (no_two_idx _ _ _ _ _ ND X1 Y1 E1) as I1. pose proof (no_two_idx _ _ _ _ _ ND X2 Y2 E2) as I2. pose proof (no_two_idx _ _ _ _ _ ND X3 Y3 E3) as I3.
    apply N2Nat.inj in I1, I2, I3. subst. reflexivity. }
  rewrite E. f_equal. destruct m as [u1 u2], m' as [w1 w2]. cbn [pc topology] in *. congruence.
Qed.
Lemma healed_uncollapsed (s s' : mspec P) l gs : (forall f, In f l -> collapsed same s f = false) ->
  Forall2 (fun f g => same_corners same s f s' g) l gs -> forall g, In g gs -> collapsed same s' g = false.
Proof.
  intros NC F. induction F as [|f g l gs (p & q & r & p' & q' & r' & C1 & C2 & E1 & E2 & E3) _ IH]; intros h I; [destruct I|].
  destruct I as [<-|I]; [|exact (IH (fun f H => NC f (or_intror H)) h I)].
  specialize (NC f (or_introl eq_refl)). unfold collapsed in NC |- *. rewrite C1 in NC. rewrite C2. rewrite <- NC.
  rewrite (same_l p p' q E1), (same_l p p' r E1), (same_l q q' r E2), (same_r q q' p' E2), (same_r r r' p' E3), (same_r r r' q' E3). reflexivity.
Qed.
Lemma F2_len {A B} (R : A -> B -> Prop) l l' : Forall2 R l l' -> length l = length l'.
Proof. induction 1; cbn [length]; congruence. Qed.
Lemma filter_short {A} (f : A -> bool) l : (length (filter f l) <= length l)%nat.
Proof. induction l as [|x l IH]; [reflexivity|]. cbn [filter]. destruct (f x); cbn [length]; lia. Qed.
Lemma heal_step m s : shows m s -> 3 * N.of_nat (length (sfs s)) < 2 ^ 64 ->
  exists m' s', heal_mesh same m = Ok m' /\ abs_ok m' s' /\ shows m' s' /\ faces_ok s' /\ no_two_same same (svs s') /\ 3 * N.of_nat (length (sfs s')) < 2 ^ 64 /\
    (forall g, In g (sfs s') -> collapsed same s' g = false) /\
    ((forall f, In f (sfs s) -> collapsed same s f = false) -> length (sfs s') = length (sfs s) /\ first_occurrences same (all_corners s') = svs s').
Proof.
  intros S L. destruct (heal_exact same Q m s S L) as (m' & s' & E & S' & F' & ND & _ & K & A & FO). exists m', s'. do 5 (split; [assumption|]).
  pose proof (F2_len _ _ _ K) as LK. pose proof (filter_short (fun f => negb (collapsed same s f)) (sfs s)). split; [lia|]. split.
  - apply (healed_uncollapsed s s' _ _) with (2 := K). intros f I. apply filter_In in I as (_ & I). apply negb_true_iff, I.
  - intros NC. rewrite (filter_none s NC) in K, LK. split; [congruence|]. pose proof (kept_corners s s' _ _ K) as KC. rewrite !mspec_eta in KC. rewrite FO in *.
    pose proof (firsts_pointwise _ _ KC) as FP.
    assert (I1 : incl (first_occurrences same (all_corners s')) (first_occurrences same (all_corners s))).
    { intros p I. apply firsts_in in I. apply corner_vertex in I as (_ & v & _ & V & _). rewrite <- FO. apply (nth_error_In _ _ V). }
    assert (I2 : incl (first_occurrences same (all_corners s)) (first_occurrences same (all_corners s))) by apply incl_refl.
    revert FP I1 I2. generalize (first_occurrences same (all_corners s')) as l'. generalize (first_occurrences same (all_corners s)) at 1 3 5 as l.
    intros l l' FP. induction FP as [|a b l l' HS _ IH]; intros I1 I2; [reflexivity|]. f_equal.
    + symmetry. apply (no_two_eq _ a b ND); [apply I2; left; reflexivity|apply I1; left; reflexivity|exact HS].
    + apply IH; intros z Z; [apply I1|apply I2]; right; exact Z.
Qed.
End Heal.

Theorem C200_once {P} (same : P -> P -> bool) (m : mesh P) (s : mspec P) :
  equality same -> shows m s -> 3 * N.of_nat (length (sfs s)) < 2 ^ 64 -> (forall f, In f (sfs s) -> collapsed same s f = false) ->
  exists m', heal_mesh same m = Ok m' /\ heal_mesh same m' = Ok m'.
Proof.
  intros Q S L NC. destruct (heal_step same Q m s S L) as (m' & s' & E & A & S' & F & ND & L' & NC' & FO). exists m'. split; [exact E|].
  destruct (FO NC) as (_ & FO'). exact (heal_clean same Q m' s' A S' L' ND FO' NC').
Qed.
Print Assumptions C200_once.

Theorem C200_twice {P} (same : P -> P -> bool) (m : mesh P) (s : mspec P) :
  equality same -> shows m s -> 3 * N.of_nat (length (sfs s)) < 2 ^ 64 ->
  exists m1 m2 s2, heal_mesh same m = Ok m1 /\ heal_mesh same m1 = Ok m2 /\ heal_mesh same m2 = Ok m2 /\
    num_faces m2 = num_faces m1 /\ shows m2 s2 /\ faces_ok s2 /\
    (forall v, v < num_vertices m2 -> exists a b c, In (a, b, c) (sfs s2) /\ In v [a; b; c]).
Proof.
  intros Q S L. destruct (heal_step same Q m s S L) as (m1 & s1 & E1 & A1 & S1 & F1 & ND1 & L1 & NC1 & _).
  destruct (heal_step same Q m1 s1 S1 L1) as (m2 & s2 & E2 & A2 & S2 & F2 & ND2 & L2 & NC2 & FO2). destruct (FO2 NC1) as (LE & FO).
  exists m1, m2, s2. split; [exact E1|]. split; [exact E2|]. split; [exact (heal_clean same Q m2 s2 A2 S2 L2 ND2 FO NC2)|].
  split; [destruct S1 as (_ & _ & -> & _), S2 as (_ & _ & -> & _); congruence|]. split; [exact S2|]. split; [exact F2|].
  intros v V. destruct S2 as (NV & _). rewrite NV in V.
  destruct (nth_error (svs s2) (N.to_nat v)) as [p|] eqn:E; [|apply nth_error_None in E; lia].
  assert (I : In p (all_corners s2)) by (apply (firsts_in same); rewrite FO; apply (nth_error_In _ _ E)).
  apply corner_vertex in I as (((a, b), c) & w & IF & W & IN). exists a, b, c. split; [exact IF|].
  rewrite (no_two_idx same _ _ _ _ _ ND2 W E (eq_refl_b _ Q p)), N2Nat.id in IN. exact IN.
Qed.
Print Assumptions C200_twice.

(** The first face collapses; its corners are only dropped by healing again. *)
Definition stray_mesh : mesh N := Mesh [5; 5; 7; 1; 2; 3] [0; 1; 2; 3; 4; 5].
Definition stray_spec : mspec N := MSpec [5; 5; 7; 1; 2; 3] [(0, 1, 2); (3, 4, 5)].
Theorem C200_idempotent_refuted : exists (m m1 m2 : mesh N) (s s1 : mspec N), shows m s /\ faces_ok s /\
  heal_mesh N.eqb m = Ok m1 /\ heal_mesh N.eqb m1 = Ok m2 /\ m2 <> m1 /\
  shows m1 s1 /\ exists v, v < num_vertices m1 /\ forall a b c, In (a, b, c) (sfs s1) -> ~ In v [a; b; c].
Proof.
  exists stray_mesh, (Mesh [5; 7; 1; 2; 3] [2; 3; 4]), (Mesh [1; 2; 3] [0; 1; 2]), stray_spec, (MSpec [5; 7; 1; 2; 3] [(2, 3, 4)]).
  assert (F : faces_ok stray_spec) by (apply faces_okb; reflexivity).
  split; [apply abs_shows; [split; reflexivity|exact F]|]. split; [exact F|]. split; [reflexivity|]. split; [reflexivity|]. split; [discriminate|].
  split; [apply abs_shows; [split; reflexivity|apply faces_okb; reflexivity]|]. exists 0. split; [reflexivity|].
  intros a b c [[= <- <- <-]|[]]. cbn. intuition discriminate.
Qed.
Print Assumptions C200_idempotent_refuted.
(** The mesh above meets the hypotheses of C200_twice, the one of C36_case without its second face those of C200_once. *)
Example C200_case : shows stray_mesh stray_spec /\ 3 * N.of_nat (length (sfs stray_spec)) < 2 ^ 64 /\
  (forall f, In f [(0, 1, 2); (3, 4, 5)] -> collapsed N.eqb (MSpec [10; 11; 12; 10; 11; 13; 99] [(0, 1, 2); (3, 4, 5)]) f = false) /\
  heal_mesh N.eqb (Mesh [10; 11; 12; 10; 11; 13; 99] [0; 1; 2; 3; 4; 5]) = Ok (Mesh [10; 11; 12; 13] [0; 1; 2; 0; 1; 3]) /\
  heal_mesh N.eqb (Mesh [10; 11; 12; 13] [0; 1; 2; 0; 1; 3]) = Ok (Mesh [10; 11; 12; 13] [0; 1; 2; 0; 1; 3]).
Proof.
  split; [apply abs_shows; [split; reflexivity|apply faces_okb; reflexivity]|]. split; [reflexivity|]. split; [|split; reflexivity].
  intros f [<-|[<-|[]]]; reflexivity.
Qed.
