From Verif Require Import Base BaseLemmas Num MeshModel MeshSpec MeshLemmas MeshAlgoModel MeshAlgoSpec.
Local Open Scope N_scope.
From Coq Require Import ZifyBool ZifyNat ZifyN.
Ltac Zify.zify_post_hook ::= Z.div_mod_to_equations.

Lemma for_range_inv {S} (I : N -> S -> Prop) (f : N -> S -> res S) n : forall i s,
  I i s -> (forall j s, i <= j < i + N.of_nat n -> I j s -> exists s', f j s = Ok s' /\ I (j + 1) s') ->
  exists s', for_range n i f s = Ok s' /\ I (i + N.of_nat n) s'.
Proof.
  induction n as [|n IH]; intros i s H0 Hs; cbn [for_range].
  - exists s. split; [reflexivity|]. replace (i + N.of_nat 0) with i by lia. exact H0.
  - destruct (Hs i s) as (s1 & E & H1); [lia|exact H0|]. rewrite E. cbn [obind].
    destruct (IH (i + 1) s1 H1) as (s2 & E2 & H2).
    { intros j s' Hj HI. apply Hs; [lia|exact HI]. }
    exists s2. split; [exact E2|]. replace (i + N.of_nat (Datatypes.S n)) with (i + 1 + N.of_nat n) by lia. exact H2.
Qed.

Lemma firstn_snoc {A} (l : list A) n x : nth_error l n = Some x -> firstn (S n) l = firstn n l ++ [x].
Proof.
  revert n; induction l as [|y l IH]; intros [|n] H; cbn in H; try discriminate.
  - injection H as ->. reflexivity.
  - change (y :: firstn (S n) l = (y :: firstn n l) ++ [x]). rewrite (IH n H). reflexivity.
Qed.

Section Pack.
  Context {T : Type} (same : T -> T -> bool).

  Definition key_ok (map : list (T * N)) (packed : list T) : Prop :=
    (forall x v, In (x, v) map -> nthN packed v = Some x) /\
    (forall x, In x packed -> exists v, In (x, v) map).

  Lemma map_get_In map x v : map_get same map x = Some v -> exists y, In (y, v) map /\ same y x = true.
  Proof.
    induction map as [|[y w] map IH]; cbn [map_get]; [discriminate|].
    destruct (same y x) eqn:E; intros H.
    - injection H as <-. exists y. split; [left; reflexivity|exact E].
    - destruct (IH H) as (z & Hz & Hs). exists z. split; [right; exact Hz|exact Hs].
  Qed.
  Lemma map_get_None map x : map_get same map x = None -> forall y v, In (y, v) map -> same y x = false.
  Proof.
    induction map as [|[y w] map IH]; cbn [map_get]; intros H z v Hin; [destruct Hin|].
    destruct (same y x) eqn:E; [discriminate|]. destruct Hin as [Hin|Hin]; [injection Hin as <- <-; exact E|eauto].
  Qed.

  (** later elements differ from earlier ones *)
  Definition fresh (l : list T) : Prop :=
    forall i j x y, nth_error l i = Some x -> nth_error l j = Some y -> (i < j)%nat -> same x y = false.

  Lemma fresh_snoc l x : fresh l -> (forall y, In y l -> same y x = false) -> fresh (l ++ [x]).
  Proof.
    intros F H i j a b Ha Hb Hij.
    destruct (Nat.lt_ge_cases j (length l)) as [L|L].
    - rewrite nth_error_app1 in Ha by lia. rewrite nth_error_app1 in Hb by lia. eapply F; eassumption.
    - assert (Hj : (j < length (l ++ [x]))%nat) by (apply nth_error_Some; congruence).
      rewrite app_length in Hj; cbn in Hj. assert (j = length l) by lia; subst j.
      rewrite nth_error_app2, Nat.sub_diag in Hb by lia. cbn in Hb. injection Hb as <-.
      rewrite nth_error_app1 in Ha by lia. apply H. eapply nth_error_In, Ha.
  Qed.

  Lemma pack_loop_ok idata : forall map packed ids packed' ids',
    key_ok map packed -> fresh packed ->
    pack_loop same idata map packed ids = (packed', ids') ->
    exists more new, packed' = packed ++ more /\ ids' = ids ++ new /\ fresh packed' /\
      Forall2 (fun x id => exists y, nthN packed' id = Some y /\ (y = x \/ same y x = true)) idata new /\
      (forall x, In x more -> In x idata).
  Proof.
    induction idata as [|x r IH]; intros map packed ids packed' ids' K F H; cbn [pack_loop] in H.
    - injection H as <- <-. exists [], []. rewrite !app_nil_r. split; [reflexivity|]. split; [reflexivity|]. split; [exact F|].
      split; [constructor|]. intros x [].
    - destruct (map_get same map x) as [id|] eqn:E.
      + destruct (IH _ _ _ _ _ K F H) as (more & new & -> & -> & F' & A & B).
        exists more, (id :: new). split; [reflexivity|]. split; [rewrite <- app_assoc; reflexivity|]. split; [exact F'|].
        split; [|intros y Hy; right; auto].
        constructor; [|exact A]. destruct (map_get_In _ _ _ E) as (y & Hy & Hs). exists y. split; [|right; exact Hs].
        pose proof (proj1 K _ _ Hy) as G. pose proof (nthN_Some_lt _ _ _ G) as L. rewrite nthN_app.
        unfold lenN in *. destruct (N.ltb_spec id (N.of_nat (length packed))); [exact G|lia].
      + assert (Nf : forall y, In y packed -> same y x = false).
        { intros y Hy. destruct (proj2 K y Hy) as [v Hv]. eapply map_get_None; eassumption. }
        assert (K' : key_ok ((x, lenN packed) :: map) (packed ++ [x])).
        { split.
          - intros y v [Hin|Hin].
            + injection Hin as <- <-. rewrite nthN_app. destruct (N.ltb_spec (lenN packed) (lenN packed)); [lia|].
              replace (lenN packed - lenN packed) with 0 by lia. reflexivity.
            + pose proof (proj1 K _ _ Hin) as G. pose proof (nthN_Some_lt _ _ _ G) as L. rewrite nthN_app.
              destruct (N.ltb_spec v (lenN packed)); [exact G|lia].
          - intros y Hy. apply in_app_or in Hy as [Hy|[<-|[]]].
            + destruct (proj2 K y Hy) as [v Hv]. exists v. right; exact Hv.
            + eexists. left; reflexivity. }
        destruct (IH _ _ _ _ _ K' (fresh_snoc _ _ F Nf) H) as (more & new & -> & -> & F' & A & B).
        exists (x :: more), (lenN packed :: new).
        split; [rewrite <- app_assoc; reflexivity|]. split; [rewrite <- app_assoc; reflexivity|]. split; [exact F'|].
        split.
        * constructor; [|exact A]. exists x. split; [|left; reflexivity].
          rewrite nthN_app, lenN_app. change (lenN [x]) with 1. destruct (N.ltb_spec (lenN packed) (lenN packed + 1)); [|lia].
          exact (proj1 K' x (lenN packed) (or_introl eq_refl)).
        * intros y [<-|Hy]; [left; reflexivity|right; auto].
  Qed.

  Lemma pack_ok idata packed ids : pack_dupes_indexed same idata = (packed, ids) ->
    fresh packed /\
    Forall2 (fun x id => exists y, nthN packed id = Some y /\ (y = x \/ same y x = true)) idata ids /\
    (forall x, In x packed -> In x idata).
  Proof.
    intros H. apply pack_loop_ok in H as (more & new & -> & -> & F & A & B); cbn [app] in *; auto.
    - split; [intros ? ? []|intros ? []].
    - intros i j x y Hi. destruct i; discriminate.
  Qed.

  Lemma filter_filter {A} (f g : A -> bool) l : filter f (filter g l) = filter (fun x => f x && g x) l.
  Proof. induction l as [|x l IH]; [reflexivity|]. cbn. destruct (g x) eqn:E; cbn; rewrite ?andb_true_r, ?andb_false_r, IH; [destruct (f x)|]; reflexivity. Qed.

  Lemma map_get_seen map packed x : key_ok map packed ->
    match map_get same map x with Some _ => true | None => false end = existsb (fun z => same z x) packed.
  Proof.
    intros K. destruct (map_get same map x) as [v|] eqn:E; symmetry.
    - destruct (map_get_In _ _ _ E) as (y & Hy & Hs). apply existsb_exists. exists y. split; [|exact Hs].
      apply (proj1 K) in Hy. rewrite nthN_nth_error in Hy. eapply nth_error_In, Hy.
    - destruct (existsb _ packed) eqn:X; [|reflexivity]. apply existsb_exists in X as (y & Hy & Hs).
      destruct (proj2 K y Hy) as [v Hv]. rewrite (map_get_None _ _ E y v Hv) in Hs. discriminate.
  Qed.

  Lemma pack_loop_firsts (Q : equality same) idata : forall map packed ids, key_ok map packed ->
    fst (pack_loop same idata map packed ids) =
    packed ++ filter (fun y => negb (existsb (fun z => same z y) packed)) (first_occurrences same idata).
  Proof.
    induction idata as [|x r IH]; intros map packed ids K; cbn [pack_loop first_occurrences filter].
    - cbn. rewrite app_nil_r. reflexivity.
    - pose proof (map_get_seen map packed x K) as Hx. destruct (map_get same map x) as [id|] eqn:E; rewrite <- Hx.
      + rewrite IH by exact K. cbn [negb]. f_equal. rewrite filter_filter. apply filter_ext. intros y.
        destruct (same x y) eqn:Exy; cbn [negb]; rewrite ?andb_true_r, ?andb_false_r; [|reflexivity].
        symmetry in Hx. apply existsb_exists in Hx as (z & Hz & Hzx). apply negb_false_iff. apply existsb_exists.
        exists z. split; [exact Hz|]. exact (eq_trans_b _ Q _ _ _ Hzx Exy).
      + rewrite IH.
        * cbn [negb]. rewrite <- app_assoc. f_equal. cbn [app]. f_equal. rewrite filter_filter. apply filter_ext. intros y.
          rewrite existsb_app. cbn [existsb]. rewrite orb_false_r, negb_orb. reflexivity.
        * split.
          -- intros y v [Hin|Hin].
             ++ injection Hin as <- <-. rewrite nthN_app. destruct (N.ltb_spec (lenN packed) (lenN packed)); [lia|].
                replace (lenN packed - lenN packed) with 0 by lia. reflexivity.
             ++ pose proof (proj1 K _ _ Hin) as G. pose proof (nthN_Some_lt _ _ _ G) as L. rewrite nthN_app.
                destruct (N.ltb_spec v (lenN packed)); [exact G|lia].
          -- intros y Hy. apply in_app_or in Hy as [Hy|[<-|[]]].
             ++ destruct (proj2 K y Hy) as [v Hv]. exists v. right; exact Hv.
             ++ eexists. left; reflexivity.
  Qed.

  Lemma pack_firsts (Q : equality same) idata : fst (pack_dupes_indexed same idata) = first_occurrences same idata.
  Proof.
    unfold pack_dupes_indexed. rewrite pack_loop_firsts; [|exact Q|split; [intros ? ? []|intros ? []]].
    cbn [app existsb negb]. clear. induction (first_occurrences same idata); cbn; congruence.
  Qed.

  Lemma fresh_no_two (Q : equality same) l : fresh l -> no_two_same same l.
  Proof.
    intros F i j x y Hi Hj Hij. destruct (Nat.lt_gt_cases i j) as [D _]. destruct (D Hij) as [L|L]; [eapply F; eassumption|].
    destruct (same x y) eqn:E; [|reflexivity].
    pose proof (eq_sym_b _ Q _ _ E). pose proof (F j i y x Hj Hi L). congruence.
  Qed.
End Pack.

Section Mesh.
  Context {P : Type}.
  Notation msp := (mspec P).

  (** the queries of a mesh that shows [s], for its own faces *)
  Lemma shows_face m (s : msp) i f : shows m s -> 3 * N.of_nat (length (sfs s)) < 2 ^ 64 ->
    nth_error (sfs s) (N.to_nat i) = Some f ->
    face_vertex_ids m i = Ok (Some f) /\
    exists t, corners s f = Some t /\ face_vertices m i = Ok (Some t).
  Proof.
    intros (_ & _ & _ & A & B) L E. assert (Hi : (N.to_nat i < length (sfs s))%nat) by (apply nth_error_Some; congruence).
    split; [rewrite A, E by lia; reflexivity|]. destruct f as [[a b] c].
    destruct (B i a b c ltac:(lia) E) as (p & q & r & Hp & Hq & Hr & G).
    exists (p, q, r). cbn. rewrite Hp, Hq, Hr. auto.
  Qed.

  Lemma connect_ok m (s : msp) a b c : abs_ok m s -> faces_ok s ->
    in_range s a -> in_range s b -> in_range s c -> a <> b -> a <> c -> b <> c ->
    exists m' i, try_add_connection m a b c = (m', Ok i) /\
    abs_ok m' (MSpec (svs s) (sfs s ++ [(a, b, c)])) /\ faces_ok (MSpec (svs s) (sfs s ++ [(a, b, c)])).
  Proof.
    intros [E1 E2] F Ra Rb Rc H1 H2 H3. unfold try_add_connection, in_range, lenN in *. rewrite E1.
    destruct (N.leb_spec (N.of_nat (length (svs s))) a); [lia|].
    destruct (N.leb_spec (N.of_nat (length (svs s))) b); [lia|].
    destruct (N.leb_spec (N.of_nat (length (svs s))) c); [lia|]. cbn [orb].
    destruct (N.eqb_spec a b); [lia|]. destruct (N.eqb_spec a c); [lia|]. destruct (N.eqb_spec b c); [lia|]. cbn [orb].
    eexists _, _. split; [reflexivity|]. split.
    - split; cbn [svs sfs pc topology]; [reflexivity|]. rewrite flat_app, E2, <- !app_assoc. reflexivity.
    - intros a' b' c' Hin. cbn [sfs] in Hin. unfold in_range in *; cbn [svs].
      apply in_app_or in Hin as [Hin|[Hin|[]]]; [apply (F a' b' c' Hin)|]. injection Hin as <- <- <-. tauto.
  Qed.

  Lemma add_vertex_ok m (s : msp) p : abs_ok m s -> faces_ok s ->
    exists m', add_vertex m p = (m', lenN (svs s)) /\ abs_ok m' (MSpec (svs s ++ [p]) (sfs s)) /\
    faces_ok (MSpec (svs s ++ [p]) (sfs s)).
  Proof.
    intros [E1 E2] F. unfold add_vertex. eexists. split; [cbn [pc]; rewrite lenN_app, E1; f_equal; change (lenN [p]) with 1; lia|].
    split; [split; cbn [svs sfs pc topology]; congruence|].
    intros a b c Hin. cbn in Hin. destruct (F a b c Hin) as (A & B & C & D). unfold in_range in *; cbn.
    rewrite app_length; cbn; repeat split; try lia; apply D.
  Qed.

  Lemma empty_ok : abs_ok (@mesh_empty P) (MSpec [] []) /\ faces_ok (@MSpec P [] []).
  Proof. split; [split; reflexivity|intros a b c []]. Qed.

  Lemma add_all l : forall m vs, abs_ok m (MSpec vs []) -> abs_ok (fold_left (fun r x => fst (add_vertex r x)) l m) (@MSpec P (vs ++ l) []).
  Proof.
    induction l as [|x l IH]; intros m vs H; cbn [fold_left]; [rewrite app_nil_r; exact H|].
    replace (vs ++ x :: l) with ((vs ++ [x]) ++ l) by (rewrite <- app_assoc; reflexivity). apply IH.
    destruct H as [H1 H2]. split; cbn in *; congruence.
  Qed.

  Lemma copy_ok m (s : msp) : shows m s ->
    exists m', copy_vertices m = Ok m' /\ abs_ok m' (MSpec (svs s) []).
  Proof.
    intros (A & B & _). unfold copy_vertices. rewrite A, Nat2N.id.
    destruct (for_range_inv (fun j r => abs_ok r (MSpec (firstn (N.to_nat j) (svs s)) []))
      (fun i mo => match vertex m i with Some v => Ok (fst (add_vertex mo v)) | None => Panic end) (length (svs s)) 0 mesh_empty) as (m' & E & H).
    - split; reflexivity.
    - intros j r Hj [H1 H2]. rewrite B. destruct (nth_error (svs s) (N.to_nat j)) as [v|] eqn:Ev; [|apply nth_error_None in Ev; lia].
      eexists. split; [reflexivity|]. replace (N.to_nat (j + 1)) with (S (N.to_nat j)) by lia.
      rewrite (firstn_snoc _ _ _ Ev). split; cbn in *; congruence.
    - exists m'. split; [exact E|]. replace (N.to_nat (0 + N.of_nat (length (svs s)))) with (length (svs s)) in H by lia.
      rewrite firstn_all in H. exact H.
  Qed.
End Mesh.

Section Heal.
  Context {P : Type} (same : P -> P -> bool).
  Definition crn (s : mspec P) (f : face3) : list P := match corners s f with Some (p, q, r) => [p; q; r] | None => [] end.

  Lemma nthN_Forall2 {A B} (R : A -> B -> Prop) l l' i x : Forall2 R l l' -> nthN l i = Some x -> exists y, nthN l' i = Some y /\ R x y.
  Proof.
    intros H. rewrite !nthN_nth_error. generalize (N.to_nat i) as n. clear i. induction H as [|a b l l' Hab _ IH]; intros [|n] E; cbn in *; try discriminate.
    - injection E as ->. eauto. - apply IH, E.
  Qed.

  Lemma flat_crn_nth s fs i f p q r : (forall f, In f fs -> corners s f <> None) ->
    nth_error fs i = Some f -> corners s f = Some (p, q, r) ->
    let d := flat_map (crn s) fs in
    nth_error d (3 * i) = Some p /\ nth_error d (3 * i + 1) = Some q /\ nth_error d (3 * i + 2) = Some r.
  Proof.
    cbv zeta. revert i; induction fs as [|g fs IH]; intros [|i] Hc H Hf; try discriminate.
    - cbn in H; injection H as ->. cbn [flat_map]. unfold crn at 1 3 5. rewrite Hf. cbn. auto.
    - cbn [nth_error] in H. destruct (IH i) as (A & B & C); [intros; apply Hc; right; assumption|exact H|exact Hf|].
      cbn [flat_map]. unfold crn at 1 3 5. destruct (corners s g) as [[[x y] z]|] eqn:Eg; [|destruct (Hc g (or_introl eq_refl) Eg)].
      replace (3 * S i)%nat with (S (S (S (3 * i)))) by lia. cbn [app nth_error plus]. auto.
  Qed.
  Lemma flat_crn_length s fs : (forall f, In f fs -> corners s f <> None) -> length (flat_map (crn s) fs) = (3 * length fs)%nat.
  Proof.
    induction fs as [|g fs IH]; intros Hc; [reflexivity|]. cbn [flat_map]. rewrite app_length, IH by (intros; apply Hc; right; assumption).
    unfold crn. destruct (corners s g) as [[[x y] z]|] eqn:Eg; [cbn; lia|destruct (Hc g (or_introl eq_refl) Eg)].
  Qed.

  Lemma faces_corners (s : mspec P) f : faces_ok s -> In f (sfs s) -> exists p q r, corners s f = Some (p, q, r).
  Proof.
    intros F Hin. destruct f as [[a b] c]. destruct (F a b c Hin) as (A & B & C & _). unfold in_range in *. unfold corners.
    assert (G : forall v, v < N.of_nat (length (svs s)) -> exists p, nth_error (svs s) (N.to_nat v) = Some p).
    { intros v Hvv. destruct (nth_error (svs s) (N.to_nat v)) eqn:Ev; [eauto|]. apply nth_error_None in Ev. lia. }
    destruct (G a A) as [p ->]. destruct (G b B) as [q ->]. destruct (G c C) as [r ->]. eauto.
  Qed.

  Lemma Forall2_len {A B} (R : A -> B -> Prop) l l' : Forall2 R l l' -> length l = length l'.
  Proof. induction 1; cbn; congruence. Qed.
  Lemma Forall2_snoc {A B} (R : A -> B -> Prop) l l' x y : Forall2 R l l' -> R x y -> Forall2 R (l ++ [x]) (l' ++ [y]).
  Proof. intros. apply Forall2_app; auto. Qed.

  Lemma shows_corners m (s : mspec P) f : shows m s -> 3 * N.of_nat (length (sfs s)) < 2 ^ 64 -> In f (sfs s) -> exists p q r, corners s f = Some (p, q, r).
  Proof.
    intros H L I. destruct (In_nth_error _ _ I) as [j J]. rewrite <- (Nat2N.id j) in J.
    destruct (shows_face m s _ f H L J) as (_ & [[p q] r] & C & _). eauto.
  Qed.
  Lemma heal_exact (Q : equality same) m s : shows m s -> 3 * N.of_nat (length (sfs s)) < 2 ^ 64 ->
    exists m' s', heal_mesh same m = Ok m' /\ shows m' s' /\ faces_ok s' /\
      no_two_same same (svs s') /\
      (forall p, In p (svs s') -> exists f, In f (sfs s) /\ exists x y z, corners s f = Some (x, y, z) /\ In p [x; y; z]) /\
      Forall2 (fun f g => same_corners same s f s' g) (filter (fun f => negb (collapsed same s f)) (sfs s)) (sfs s') /\
      abs_ok m' s' /\ svs s' = first_occurrences same (all_corners s).
  Proof.
    intros Hs L. assert (Hc : forall f, In f (sfs s) -> corners s f <> None).
    { intros f Hf. destruct (shows_corners m s f Hs L Hf) as (p & q & r & E). congruence. }
    unfold heal_mesh. pose proof Hs as (_ & _ & Nf & _). rewrite Nf, Nat2N.id.
    match goal with |- context [for_range _ 0 ?f []] => destruct (for_range_inv (fun j d => d = flat_map (crn s) (firstn (N.to_nat j) (sfs s))) f
      (length (sfs s)) 0 []) as (d & E & Hd) end.
    { reflexivity. }
    { intros j d Hj ->. destruct (nth_error (sfs s) (N.to_nat j)) as [f|] eqn:Ef; [|apply nth_error_None in Ef; lia].
      destruct (shows_face m s j f Hs L Ef) as (_ & [[p q] r] & C & ->). cbn [obind]. eexists. split; [reflexivity|].
      replace (N.to_nat (j + 1)) with (S (N.to_nat j)) by lia. rewrite (firstn_snoc _ _ _ Ef), flat_map_app. cbn [flat_map].
      replace (crn s f) with [p; q; r] by (unfold crn; rewrite C; reflexivity). reflexivity. }
    rewrite E. cbn [obind]. replace (N.to_nat (0 + N.of_nat (length (sfs s)))) with (length (sfs s)) in Hd by lia.
    rewrite firstn_all in Hd. destruct (pack_dupes_indexed same d) as [un ix] eqn:Ep.
    destruct (pack_ok _ _ _ _ Ep) as (Fr & F2 & Inn). pose proof (fresh_no_two _ Q _ Fr) as N2.
    assert (Lix : length ix = (3 * length (sfs s))%nat).
    { rewrite <- (Forall2_len _ _ _ F2), Hd. apply flat_crn_length, Hc. }
    pose proof (add_all un mesh_empty [] (conj eq_refl eq_refl)) as A0. cbn [app] in A0.
    set (r0 := fold_left _ un mesh_empty) in *.
    replace (N.to_nat (lenN ix / 3)) with (length (sfs s)) by (unfold lenN; lia).
    match goal with |- context [for_range _ 0 ?body r0] => destruct (for_range_inv (fun j r => exists fs, abs_ok r (MSpec un fs) /\ faces_ok (MSpec un fs) /\
       Forall2 (fun f g => same_corners same s f (MSpec un fs) g) (filter (fun f => negb (collapsed same s f)) (firstn (N.to_nat j) (sfs s))) fs) body
      (length (sfs s)) 0 r0) as (m' & E' & fs & A & Ff & G) end.
    { exists []. split; [exact A0|]. split; [intros ? ? ? []|]. constructor. }
    { intros j r Hj (fs & A & Ff & G).
      destruct (nth_error (sfs s) (N.to_nat j)) as [f|] eqn:Ef; [|apply nth_error_None in Ef; lia].
      destruct (shows_corners m s f Hs L (nth_error_In _ _ Ef)) as (p & q & w & Cf).
      destruct (flat_crn_nth s (sfs s) _ f p q w Hc Ef Cf) as (D1 & D2 & D3). rewrite <- Hd in D1, D2, D3.
      assert (X : forall k z, nth_error d (3 * N.to_nat j + k) = Some z -> exists id, nthN ix (3 * j + N.of_nat k) = Some id /\
        exists y, nthN un id = Some y /\ same z y = true).
      { intros k z Hz. destruct (nthN_Forall2 _ _ _ (3 * j + N.of_nat k) z F2) as (id & I1 & y & I2 & I3).
        - rewrite nthN_nth_error. rewrite <- Hz. f_equal. lia.
        - exists id. split; [exact I1|]. exists y. split; [exact I2|]. destruct I3 as [-> |I3]; [apply (eq_refl_b _ Q)|apply (eq_sym_b _ Q), I3]. }
      destruct (X 0%nat p) as (a & Ia &  p' & Ap & Sp); [rewrite Nat.add_0_r; exact D1|].
      destruct (X 1%nat q) as (b & Ib &  q' & Bq & Sq); [exact D2|].
      destruct (X 2%nat w) as (c & Ic &  w' & Cw & Sw); [exact D3|].
      change (N.of_nat 0) with 0 in Ia. change (N.of_nat 1) with 1 in Ib. change (N.of_nat 2) with 2 in Ic. rewrite Ia, Ib, Ic.
      assert (EQ : forall i k x y x' y', nthN un i = Some x' -> nthN un k = Some y' -> same x x' = true -> same y y' = true -> (i =? k) = same x y).
      { intros i k x y x' y' I1 I2 I3 I4. destruct (N.eqb_spec i k) as [->|D].
        - assert (x' = y') by congruence. subst y'. symmetry. apply (eq_trans_b _ Q _ x'); [exact I3|apply (eq_sym_b _ Q), I4].
        - symmetry. destruct (same x y) eqn:Exy; [|reflexivity].
          rewrite nthN_nth_error in I1, I2. assert (Z : same x' y' = false) by (eapply N2; [exact I1|exact I2|lia]).
          rewrite (eq_trans_b _ Q x' x y') in Z; [discriminate| |].
          + apply (eq_sym_b _ Q), I3.
          + apply (eq_trans_b _ Q _ y); [exact Exy|exact I4]. }
      rewrite (EQ a b p q _ _ Ap Bq Sp Sq), (EQ a c p w _ _ Ap Cw Sp Sw), (EQ b c q w _ _ Bq Cw Sq Sw).
      replace (N.to_nat (j + 1)) with (S (N.to_nat j)) by lia. rewrite (firstn_snoc _ _ _ Ef), filter_app. cbn [filter].
      unfold collapsed at 2. rewrite Cf.
      destruct (same p q || same p w || same q w) eqn:Ec; cbn [negb].
      - exists r. split; [reflexivity|]. exists fs. rewrite app_nil_r. auto.
      - apply orb_false_iff in Ec as [Ec E3]. apply orb_false_iff in Ec as [E1 E2].
        rewrite <- (EQ a b p q _ _ Ap Bq Sp Sq) in E1. rewrite <- (EQ a c p w _ _ Ap Cw Sp Sw) in E2. rewrite <- (EQ b c q w _ _ Bq Cw Sq Sw) in E3.
        destruct (connect_ok r (MSpec un fs) a b c A Ff) as (r' & i & -> & A' & F'); try lia.
        1-3: unfold in_range; cbn [svs]; eapply nthN_Some_lt; eassumption.
        cbn [svs sfs] in A', F'. exists r'. split; [reflexivity|]. exists (fs ++ [(a, b, c)]). split; [exact A'|]. split; [exact F'|].
        apply Forall2_snoc.
        + exact G.
        + exists p, q, w, p', q', w'. split; [exact Cf|]. split; [|auto].
          rewrite nthN_nth_error in Ap, Bq, Cw. cbn. rewrite Ap, Bq, Cw. reflexivity. }
    replace (N.to_nat (0 + N.of_nat (length (sfs s)))) with (length (sfs s)) in G by lia. rewrite firstn_all in G.
    exists m', (MSpec un fs). split; [exact E'|]. split; [apply abs_shows; assumption|]. split; [exact Ff|]. split; [exact N2|].
    split; [|split; [exact G|split; [exact A|]]]; cbn [svs].
    - intros p Hp. apply Inn in Hp. rewrite Hd in Hp. apply in_flat_map in Hp as (f & Hf & Hp).
      exists f. split; [exact Hf|]. unfold crn in Hp. destruct (corners s f) as [[[x y] z]|]; [|destruct Hp]. eauto.
    - pose proof (pack_firsts same Q d) as PF. rewrite Ep in PF. cbn [fst] in PF. rewrite PF, Hd. reflexivity.
  Qed.
  Lemma heal_ok (Q : equality same) m s : shows m s -> 3 * N.of_nat (length (sfs s)) < 2 ^ 64 ->
    exists m' s', heal_mesh same m = Ok m' /\ shows m' s' /\ faces_ok s' /\
      no_two_same same (svs s') /\
      (forall p, In p (svs s') -> exists f, In f (sfs s) /\ exists x y z, corners s f = Some (x, y, z) /\ In p [x; y; z]) /\
      Forall2 (fun f g => same_corners same s f s' g) (filter (fun f => negb (collapsed same s f)) (sfs s)) (sfs s').
  Proof.
    intros Hs L. destruct (heal_exact Q m s Hs L) as (m' & s' & H). exists m', s'. tauto.
  Qed.
End Heal.

Section Subdivide.
  Context {V : Type} (mid : V -> V -> V) (s : mspec V).
  Notation n := (lenN (svs s)).
  Definition ekey (a b : N) : N * N := (N.min a b, N.max a b).
  Definition eid (e : edges) (a b : N) : N := match edge_get e (ekey a b) with Some i => i | None => 0 end.
  Lemma ekey_sym a b : ekey a b = ekey b a.
  Proof. unfold ekey. f_equal; lia. Qed.
  Lemma face_edge_sym fs a b : face_edge fs a b -> face_edge fs b a.
  Proof. intros (x & y & z & Hin & H). exists x, y, z. split; [exact Hin|tauto]. Qed.

  Record einv (e : edges) (mids : list V) : Prop := {
    e_mid : forall a b i, edge_get e (ekey a b) = Some i ->
      exists va vb c, nth_error (svs s) (N.to_nat a) = Some va /\ nth_error (svs s) (N.to_nat b) = Some vb /\
        nthN (svs s ++ mids) i = Some c /\ (c = mid va vb \/ c = mid vb va) /\ n <= i < n + lenN mids;
    e_inj : forall a b a' b' i, edge_get e (ekey a b) = Some i -> edge_get e (ekey a' b') = Some i -> ekey a b = ekey a' b';
    e_all : forall i, n <= i < n + lenN mids -> exists a b, edge_get e (ekey a b) = Some i /\ face_edge (sfs s) a b }.

  Definition extends (e e' : edges) : Prop := forall k v, edge_get e k = Some v -> edge_get e' k = Some v.

  Lemma edge_get_cons k v e k' : edge_get ((k, v) :: e) k' = if (fst k =? fst k') && (snd k =? snd k') then Some v else edge_get e k'.
  Proof. reflexivity. Qed.
  Lemma key_eqb (k k' : N * N) : (fst k =? fst k') && (snd k =? snd k') = true <-> k = k'.
  Proof. destruct k, k'; cbn. rewrite andb_true_iff, !N.eqb_eq. split; [intros [-> ->]; reflexivity|intros [= -> ->]; auto]. Qed.

  Lemma edge_entry_ok e mids mo fs a b va vb :
    einv e mids -> abs_ok mo (MSpec (svs s ++ mids) fs) -> faces_ok (MSpec (svs s ++ mids) fs) ->
    face_edge (sfs s) a b -> nth_error (svs s) (N.to_nat a) = Some va -> nth_error (svs s) (N.to_nat b) = Some vb ->
    exists id e' mids' mo', edge_entry mid e mo a b va vb = (id, (e', mo')) /\
      einv e' mids' /\ abs_ok mo' (MSpec (svs s ++ mids') fs) /\ faces_ok (MSpec (svs s ++ mids') fs) /\
      edge_get e' (ekey a b) = Some id /\ extends e e' /\ n <= id < n + lenN mids' /\ lenN mids <= lenN mids'.
  Proof.
    intros I A F Hf Ha Hb. unfold edge_entry. fold (ekey a b). destruct (edge_get e (ekey a b)) as [id|] eqn:E.
    - exists id, e, mids, mo. split; [reflexivity|]. split; [exact I|]. split; [exact A|]. split; [exact F|]. split; [exact E|].
      split; [intros k v H; exact H|]. destruct (e_mid _ _ I a b id E) as (? & ? & ? & _ & _ & _ & _ & H). split; [exact H|lia].
    - destruct (add_vertex_ok mo _ (mid va vb) A F) as (mo' & -> & A' & F'). cbn [svs sfs] in *.
      rewrite <- app_assoc in A', F'. set (id := lenN (svs s ++ mids)).
      assert (Hid : id = n + lenN mids) by (unfold id; rewrite lenN_app; reflexivity).
      assert (L : lenN (mids ++ [mid va vb]) = lenN mids + 1) by (rewrite lenN_app; reflexivity).
      exists id, ((ekey a b, id) :: e), (mids ++ [mid va vb]), mo'. split; [reflexivity|]. split; [|split; [exact A'|split; [exact F'|]]].
      + constructor.
        * intros a' b' i H. rewrite edge_get_cons in H. destruct (_ && _) eqn:K in H.
          -- injection H as <-. apply key_eqb in K.
             assert (C : nthN (svs s ++ mids ++ [mid va vb]) id = Some (mid va vb)).
             { rewrite app_assoc, nthN_app. fold id. destruct (N.ltb_spec id id); [lia|]. replace (id - id) with 0 by lia. reflexivity. }
             assert (D : (a' = a /\ b' = b) \/ (a' = b /\ b' = a)) by (unfold ekey in K; injection K as K1 K2; lia).
             destruct D as [[-> ->]|[-> ->]].
             ++ exists va, vb, (mid va vb). split; [exact Ha|]. split; [exact Hb|]. split; [exact C|]. split; [left; reflexivity|lia].
             ++ exists vb, va, (mid va vb). split; [exact Hb|]. split; [exact Ha|]. split; [exact C|]. split; [right; reflexivity|lia].
          -- destruct (e_mid _ _ I a' b' i H) as (va' & vb' & c & H1 & H2 & H3 & H4 & H5).
             exists va', vb', c. split; [exact H1|]. split; [exact H2|]. split; [|split; [exact H4|lia]].
             rewrite app_assoc, nthN_app. fold id. destruct (N.ltb_spec i id); [exact H3|lia].
        * intros a1 b1 a2 b2 i H H'. rewrite edge_get_cons in H, H'.
          assert (OLD : forall x y, edge_get e (ekey x y) = Some id -> False) by
            (intros x y G; destruct (e_mid _ _ I _ _ _ G) as (? & ? & ? & _ & _ & _ & _ & ?); lia).
          destruct (_ && _) eqn:K in H; destruct (_ && _) eqn:K' in H'; try (apply key_eqb in K); try (apply key_eqb in K').
          -- congruence.
          -- injection H as <-. destruct (OLD _ _ H').
          -- injection H' as <-. destruct (OLD _ _ H).
          -- eapply (e_inj _ _ I); eassumption.
        * intros i Hi. destruct (N.eqb_spec i id) as [->|D].
          -- exists a, b. split; [|exact Hf]. rewrite edge_get_cons. rewrite (proj2 (key_eqb _ _) eq_refl). reflexivity.
          -- destruct (e_all _ _ I i) as (a' & b' & H1 & H2); [lia|]. exists a', b'. split; [|exact H2].
             rewrite edge_get_cons. destruct (_ && _) eqn:K; [|exact H1]. apply key_eqb in K. rewrite <- K in H1. congruence.
      + split; [rewrite edge_get_cons, (proj2 (key_eqb _ _) eq_refl); reflexivity|]. split; [|lia].
        intros k v H. rewrite edge_get_cons. destruct (_ && _) eqn:K; [|exact H]. apply key_eqb in K. rewrite <- K in H. congruence.
  Qed.

  Definition known (e : edges) (f : face3) : Prop :=
    let '(a, b, c) := f in edge_get e (ekey a b) <> None /\ edge_get e (ekey b c) <> None /\ edge_get e (ekey c a) <> None.
  Lemma known_ext e e' f : extends e e' -> known e f -> known e' f /\ quarters (eid e') f = quarters (eid e) f.
  Proof.
    intros X. destruct f as [[a b] c]. cbn [known quarters]. intros (A & B & C). unfold eid.
    destruct (edge_get e (ekey a b)) as [x|] eqn:E1; [|congruence]. destruct (edge_get e (ekey b c)) as [y|] eqn:E2; [|congruence].
    destruct (edge_get e (ekey c a)) as [z|] eqn:E3; [|congruence].
    rewrite (X _ _ E1), (X _ _ E2), (X _ _ E3). repeat split; discriminate.
  Qed.
  Lemma extends_trans e1 e2 e3 : extends e1 e2 -> extends e2 e3 -> extends e1 e3.
  Proof. intros A B k v H. auto. Qed.

  Definition linv (j : N) (st : edges * mesh V) : Prop :=
    exists mids, einv (fst st) mids /\
      let s' := MSpec (svs s ++ mids) (flat_map (quarters (eid (fst st))) (firstn (N.to_nat j) (sfs s))) in
      abs_ok (snd st) s' /\ faces_ok s' /\ (forall f, In f (firstn (N.to_nat j) (sfs s)) -> known (fst st) f).

  Lemma flat_map_ext_in {A B} (f g : A -> list B) l : (forall x, In x l -> f x = g x) -> flat_map f l = flat_map g l.
  Proof. induction l as [|x l IH]; intros H; [reflexivity|]. cbn. rewrite H, IH; [reflexivity| |left; reflexivity]. intros; apply H; right; assumption. Qed.

  Lemma linear_ok m : shows m s -> faces_ok s -> 3 * N.of_nat (length (sfs s)) < 2 ^ 64 ->
    exists m' e mids, subdivide_linear mid m = Ok m' /\ einv e mids /\ (forall f, In f (sfs s) -> known e f) /\
      let s' := MSpec (svs s ++ mids) (flat_map (quarters (eid e)) (sfs s)) in
      shows m' s' /\ faces_ok s'.
  Proof.
    intros Hs F L. unfold subdivide_linear. destruct (copy_ok m s Hs) as (m0 & -> & A0). cbn [obind].
    pose proof Hs as (_ & _ & -> & _). rewrite Nat2N.id.
    destruct (for_range_inv linv (linear_face mid m) (length (sfs s)) 0 ([], m0)) as ([e mo] & E & mids & I & H).
    - exists []. cbn. rewrite app_nil_r. split; [|split; [exact A0|split; [intros ? ? ? []|intros ? []]]].
      constructor; try (intros; discriminate). intros i Hi. unfold lenN in Hi; cbn in Hi. lia.
    - intros j [e mo] Hj (mids & I & A & Ff & K). cbn [fst snd] in *.
      destruct (nth_error (sfs s) (N.to_nat j)) as [[[a b] c]|] eqn:Ef; [|apply nth_error_None in Ef; lia].
      destruct (shows_face m s j _ Hs L Ef) as (E1 & [[p q] r] & Cf & E2). unfold linear_face. rewrite E1, E2. cbn [obind].
      pose proof (nth_error_In _ _ Ef) as Hin. destruct (F a b c Hin) as (Ra & Rb & Rc & Dab & Dac & Dbc). unfold in_range in *.
      unfold corners in Cf. destruct (nth_error (svs s) (N.to_nat a)) as [p'|] eqn:Ep; [|discriminate].
      destruct (nth_error (svs s) (N.to_nat b)) as [q'|] eqn:Eq; [|discriminate].
      destruct (nth_error (svs s) (N.to_nat c)) as [r'|] eqn:Er; [|discriminate]. injection Cf as -> -> ->.
      destruct (edge_entry_ok e mids mo _ a b p q I A Ff) as (ia & e1 & mids1 & mo1 & -> & I1 & A1 & F1 & G1 & X1 & B1 & M1);
        [exists a, b, c; tauto|exact Ep|exact Eq|].
      destruct (edge_entry_ok e1 mids1 mo1 _ b c q r I1 A1 F1) as (ib & e2 & mids2 & mo2 & -> & I2 & A2 & F2 & G2 & X2 & B2 & M2);
        [exists a, b, c; tauto|exact Eq|exact Er|].
      destruct (edge_entry_ok e2 mids2 mo2 _ c a r p I2 A2 F2) as (ic & e3 & mids3 & mo3 & -> & I3 & A3 & F3 & G3 & X3 & B3 & M3);
        [exists a, b, c; tauto|exact Er|exact Ep|].
      pose proof (X3 _ _ (X2 _ _ G1)) as G1'. pose proof (X3 _ _ G2) as G2'.
      assert (Nab : ia <> ib).
      { intros ->. pose proof (e_inj _ _ I3 _ _ _ _ _ G1' G2') as Z. unfold ekey in Z. injection Z as Z1 Z2. lia. }
      assert (Nac : ia <> ic).
      { intros ->. pose proof (e_inj _ _ I3 _ _ _ _ _ G1' G3) as Z. unfold ekey in Z. injection Z as Z1 Z2. lia. }
      assert (Nbc : ib <> ic).
      { intros ->. pose proof (e_inj _ _ I3 _ _ _ _ _ G2' G3) as Z. unfold ekey in Z. injection Z as Z1 Z2. lia. }
      set (fs0 := flat_map (quarters (eid e)) (firstn (N.to_nat j) (sfs s))) in *.
      assert (Ln : forall x, in_range (MSpec (svs s ++ mids3) fs0) x <-> x < n + lenN mids3).
      { intros x. unfold in_range, lenN; cbn [svs]. rewrite app_length. lia. }
      assert (Vn : N.of_nat (length (svs s)) = n) by reflexivity.
      unfold connect.
      destruct (connect_ok mo3 _ a ia ic A3 F3) as (m1 & i1 & -> & A4 & F4); try (apply Ln; lia); try lia.
      cbn [obind svs sfs] in *.
      destruct (connect_ok m1 _ ia b ib A4 F4) as (m2 & i2 & -> & A5 & F5); try (apply Ln; lia); try lia.
      cbn [obind svs sfs] in *.
      destruct (connect_ok m2 _ ia ib ic A5 F5) as (m3 & i3 & -> & A6 & F6); try (apply Ln; lia); try lia.
      cbn [obind svs sfs] in *.
      destruct (connect_ok m3 _ ic ib c A6 F6) as (m4 & i4 & -> & A7 & F7); try (apply Ln; lia); try lia.
      cbn [obind svs sfs] in *. eexists. split; [reflexivity|].
      pose proof (extends_trans _ _ _ (extends_trans _ _ _ X1 X2) X3) as X.
      assert (EQ : (((fs0 ++ [(a, ia, ic)]) ++ [(ia, b, ib)]) ++ [(ia, ib, ic)]) ++ [(ic, ib, c)] =
        flat_map (quarters (eid e3)) (firstn (N.to_nat (j + 1)) (sfs s))).
      { replace (N.to_nat (j + 1)) with (S (N.to_nat j)) by lia. rewrite (firstn_snoc _ _ _ Ef), flat_map_app.
        rewrite <- !app_assoc. f_equal.
        - apply flat_map_ext_in. intros f Hf. symmetry. apply (known_ext e e3 f X), K, Hf.
        - cbn. unfold eid. rewrite G1', G2', G3. reflexivity. }
      rewrite EQ in A7, F7. exists mids3. cbn [fst snd]. split; [exact I3|]. split; [exact A7|]. split; [exact F7|].
      intros f. replace (N.to_nat (j + 1)) with (S (N.to_nat j)) by lia. rewrite (firstn_snoc _ _ _ Ef). intros Hf.
      apply in_app_or in Hf as [Hf|[<-|[]]].
      + apply (known_ext e e3 f X), K, Hf.
      + cbn. rewrite G1', G2', G3. repeat split; discriminate.
    - rewrite E. cbn [obind fst snd] in *. replace (N.to_nat (0 + N.of_nat (length (sfs s)))) with (length (sfs s)) in H by lia.
      rewrite firstn_all in H. destruct H as (A & Ff & K). exists mo, e, mids. split; [reflexivity|]. split; [exact I|]. split; [exact K|].
      split; [apply abs_shows; assumption|exact Ff].
  Qed.
End Subdivide.
