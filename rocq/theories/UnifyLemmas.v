From Verif Require Import Base BaseLemmas Num MeshModel MeshSpec MeshLemmas MeshAlgoModel MeshAlgoSpec MeshAlgoLemmas.
From Coq Require Import Permutation.
Local Open Scope N_scope.
From Coq Require Import ZifyBool ZifyNat ZifyN.
Ltac Zify.zify_post_hook ::= Z.div_mod_to_equations.

Lemma nth_set {A} (l : list A) i j x : nthN (setN l i x) j = if (j =? i) && (i <? lenN l) then Some x else nthN l j.
Proof.
  rewrite nthN_setN, (N.eqb_sym j i). destruct (N.eqb_spec i j) as [->|D]; [|reflexivity]. cbn [andb].
  destruct (N.ltb_spec j (lenN l)) as [H|H]; [reflexivity|]. symmetry. apply nthN_None_ge, H.
Qed.
Lemma sort_in_In x y l : In y (sort_in x l) <-> y = x \/ In y l.
Proof.
  induction l as [|z l IH]; cbn [sort_in]; [cbn; intuition congruence|].
  destruct (x <=? z); cbn [In] in *; [|rewrite IH]; intuition congruence.
Qed.
Lemma usize_sort_In y l : In y (usize_sort l) <-> In y l.
Proof. induction l as [|x l IH]; [reflexivity|]. cbn [usize_sort fold_right]. fold (usize_sort l). rewrite sort_in_In, IH. cbn; intuition congruence. Qed.
Lemma dedup_In l : forall last y, last <> Some y -> In y (dedup_from last l) <-> In y l.
Proof.
  induction l as [|x l IH]; intros last y H; [reflexivity|]. cbn [dedup_from].
  assert (G : In y (x :: dedup_from (Some x) l) <-> In y (x :: l)).
  { cbn [In]. destruct (N.eq_dec x y) as [->|D]; [tauto|]. rewrite IH by congruence. reflexivity. }
  destruct last as [z|]; [|exact G]. destruct (N.eqb_spec x z) as [->|D]; [|exact G].
  rewrite IH by exact H. cbn [In]. split; [tauto|]. intros [->|?]; [congruence|assumption].
Qed.

Lemma pop_spec l : match pop l with None => l = [] | Some (x, r) => l = r ++ [x] end.
Proof.
  unfold pop. destruct (rev l) as [|x r] eqn:E.
  - apply (f_equal (@rev _)) in E. rewrite rev_involutive in E. exact E.
  - apply (f_equal (@rev _)) in E. rewrite rev_involutive in E. cbn in E. exact E.
Qed.

Section Unify.
  Context {V Nrm : Type} (normal : V -> V -> V -> res Nrm) (opposed : Nrm -> Nrm -> bool).
  Context (m : mesh V) (s : mspec V) (Hs : shows m s) (F : faces_ok s) (L : 3 * N.of_nat (length (sfs s)) < 2 ^ 64).
  Notation nf := (lenN (sfs s)).
  Definition has_normal (i : N) (k : Nrm) : Prop :=
    exists f p q r, nthN (sfs s) i = Some f /\ corners s f = Some (p, q, r) /\ normal p q r = Ok k.
  Context (HN : forall i, i < nf -> exists k, has_normal i k).

  Definition touch (i j : N) : Prop := exists f g, nthN (sfs s) i = Some f /\ nthN (sfs s) j = Some g /\ touching f g.
  Definition on_face (f : face3) (v : N) : Prop := let '(a, b, c) := f in v = a \/ v = b \/ v = c.

  Lemma touch_alt i j : touch i j <-> exists f g v, nthN (sfs s) i = Some f /\ nthN (sfs s) j = Some g /\ on_face f v /\ on_face g v.
  Proof.
    split.
    - intros (f & g & A & B & C). destruct f as [[a b] c], g as [[x y] z]. destruct C as (v & C1 & C2). exists (a, b, c), (x, y, z), v. auto.
    - intros (f & g & v & A & B & C & D). exists f, g. split; [exact A|]. split; [exact B|]. destruct f as [[a b] c], g as [[x y] z]. exists v. auto.
  Qed.

  Lemma face_at i f : nthN (sfs s) i = Some f -> face_vertex_ids m i = Ok (Some f) /\
    exists p q r, corners s f = Some (p, q, r) /\ face_vertices m i = Ok (Some (p, q, r)).
  Proof.
    rewrite nthN_nth_error. intros E. destruct (shows_face m s i f Hs L E) as (A & [[p q] r] & B & C). split; [exact A|]. eauto.
  Qed.
  Lemma face_in i a b c : nthN (sfs s) i = Some (a, b, c) -> a < lenN (svs s) /\ b < lenN (svs s) /\ c < lenN (svs s) /\ a <> b /\ a <> c /\ b <> c.
  Proof. rewrite nthN_nth_error. intros E. apply nth_error_In in E. exact (F a b c E). Qed.

  (** vertex to face table after the first [j] faces *)
  Definition table (j : N) (t : list (list N)) : Prop :=
    lenN t = lenN (svs s) /\
    forall v l, nthN t v = Some l -> forall i, In i l <-> i < j /\ exists f, nthN (sfs s) i = Some f /\ on_face f v.

  Lemma vtf_insert_ok v i t : v < lenN t -> exists t', vtf_insert v i t = Ok t' /\ lenN t' = lenN t /\
    forall w l, nthN t' w = Some l -> exists l0, nthN t w = Some l0 /\ (forall k, In k l <-> In k l0 \/ (k = i /\ w = v)).
  Proof.
    intros H. unfold vtf_insert. destruct (nthN_lt_Some t v H) as [l0 E]. rewrite E. eexists. split; [reflexivity|].
    split; [apply setN_lenN|]. intros w l. rewrite nth_set.
    destruct (N.eqb_spec w v) as [->|D].
    - rewrite (proj2 (N.ltb_lt v (lenN t)) H). cbn [andb]. intros [= <-]. exists l0. split; [exact E|]. intros k. cbn [In]. intuition congruence.
    - cbn [andb]. intros Hw. exists l. split; [exact Hw|]. intros k. intuition congruence.
  Qed.

  Lemma vtf_ok : exists t, vertex_to_face m = Ok t /\ table nf t.
  Proof.
    unfold vertex_to_face. pose proof Hs as (-> & _ & -> & _). rewrite !Nat2N.id.
    match goal with |- context [for_range _ 0 ?g ?i] => destruct (for_range_inv table g (length (sfs s)) 0 i) as (t & E & H) end.
    - split; [unfold lenN; rewrite repeat_length; reflexivity|]. intros v l Hl i. rewrite nthN_nth_error in Hl.
      apply nth_error_In, repeat_spec in Hl. subst l. split; [intros []|lia].
    - intros j t Hj [T1 T2]. destruct (nthN_lt_Some (sfs s) j) as [[[a b] c] Ef]; [unfold lenN; lia|].
      rewrite (proj1 (face_at _ _ Ef)). cbn [obind]. destruct (face_in _ _ _ _ Ef) as (Ra & Rb & Rc & _).
      destruct (vtf_insert_ok a j t) as (t1 & -> & L1 & G1); [lia|]. cbn [obind].
      destruct (vtf_insert_ok b j t1) as (t2 & -> & L2 & G2); [lia|]. cbn [obind].
      destruct (vtf_insert_ok c j t2) as (t3 & -> & L3 & G3); [lia|]. eexists. split; [reflexivity|].
      split; [lia|]. intros v l Hl i. destruct (G3 _ _ Hl) as (l2 & H2 & I3). destruct (G2 _ _ H2) as (l1 & H1 & I2).
      destruct (G1 _ _ H1) as (l0 & H0 & I1). rewrite I3, I2, I1, (T2 _ _ H0).
      split.
      + intros [[[[A B]|[-> ->]]|[-> ->]]|[-> ->]]; (split; [lia|]); [exact B| | |]; eexists; (split; [exact Ef|]); cbn; auto.
      + intros [A (f & B & C)]. destruct (N.eq_dec i j) as [->|D].
        * rewrite Ef in B. injection B as <-. cbn in C. tauto.
        * left; left; left. split; [lia|eauto].
    - exists t. split; [exact E|]. unfold lenN in *. replace (0 + N.of_nat (length (sfs s))) with (N.of_nat (length (sfs s))) in H by lia. exact H.
  Qed.

  Lemma neighbours_ok t i : table nf t -> i < nf ->
    exists ns, collect_neighbour_faces m t i = Ok ns /\ forall h, In h ns <-> h <> i /\ touch i h.
  Proof.
    intros [T1 T2] Hi. destruct (nthN_lt_Some (sfs s) i Hi) as [[[a b] c] Ef]. unfold collect_neighbour_faces.
    rewrite (proj1 (face_at _ _ Ef)). cbn [obind]. destruct (face_in _ _ _ _ Ef) as (Ra & Rb & Rc & _).
    destruct (nthN_lt_Some t a) as [la Ea]; [lia|]. destruct (nthN_lt_Some t b) as [lb Eb]; [lia|]. destruct (nthN_lt_Some t c) as [lc Ec]; [lia|].
    rewrite Ea, Eb, Ec. eexists. split; [reflexivity|]. intros h. rewrite filter_In, dedup_In, usize_sort_In, !in_app_iff by discriminate.
    rewrite (T2 _ _ Ea), (T2 _ _ Eb), (T2 _ _ Ec), touch_alt, negb_true_iff, N.eqb_neq.
    split.
    - intros [[[A (f & B & C)]|[[A (f & B & C)]|[A (f & B & C)]]] D]; (split; [exact D|]); exists (a, b, c), f;
        [exists a|exists b|exists c]; repeat split; try assumption; cbn; auto.
    - intros [D (f & g & v & A & B & C & E)]. split; [|exact D]. rewrite Ef in A. injection A as <-. cbn in C.
      pose proof (nthN_Some_lt _ _ _ B). destruct C as [-> |[-> | ->]]; [left|right; left|right; right]; (split; [assumption|eauto]).
  Qed.

  (** faces in the order they are reached; each starts a component or follows an earlier neighbour *)
  Definition closed_under (l : list N) : Prop := forall g h, In g l -> touch g h -> In h l.
  Inductive reached (fl : list bool) : list N -> Prop :=
  | reach_nil : reached fl []
  | reach_root l i : reached fl l -> closed_under l -> nthN fl i = Some false -> reached fl (l ++ [i])
  | reach_next l i g b ng ni : reached fl l -> In g l -> touch g i -> nthN fl g = Some b ->
      has_normal g ng -> has_normal i ni -> nthN fl i = Some (xorb b (opposed ng ni)) -> reached fl (l ++ [i]).

  Lemma reached_ext fl fl' l : reached fl l -> (forall i, In i l -> nthN fl' i = nthN fl i) -> reached fl' l.
  Proof.
    induction 1 as [|l i R IH C E|l i g b ng ni R IH G T E N1 N2 E']; intros H.
    - constructor.
    - apply reach_root; [apply IH; intros; apply H, in_or_app; auto|exact C|]. rewrite H; [exact E|apply in_or_app; right; left; reflexivity].
    - eapply (reach_next _ _ _ g); [apply IH; intros; apply H, in_or_app; auto|exact G|exact T| |exact N1|exact N2|].
      + rewrite H; [exact E|apply in_or_app; auto].
      + rewrite H; [exact E'|apply in_or_app; right; left; reflexivity].
  Qed.

  Record uinv (ex : N -> Prop) (st : ustate) (ord : list N) : Prop := {
    u_len1 : lenN (checked st) = nf; u_len2 : lenN (must_flip st) = nf;
    u_chk : forall i, nthN (checked st) i = Some true <-> In i ord;
    u_nodup : NoDup ord;
    u_low : forall i, ~ In i ord -> i < nf -> nthN (must_flip st) i = Some false;
    u_fr : forall i, In i (frontier st) -> In i ord;
    u_done : forall g h, In g ord -> ~ In g (frontier st) -> ~ ex g -> touch g h -> In h ord;
    u_reach : reached (must_flip st) ord }.

  Lemma uinv_lt ex st ord i : uinv ex st ord -> In i ord -> i < nf.
  Proof. intros I H. apply (u_chk _ _ _ I) in H. apply nthN_Some_lt in H. rewrite (u_len1 _ _ _ I) in H. exact H. Qed.
  Lemma uinv_unchecked ex st ord i : uinv ex st ord -> nthN (checked st) i = Some false -> ~ In i ord /\ i < nf.
  Proof.
    intros I H. split; [|apply nthN_Some_lt in H; rewrite (u_len1 _ _ _ I) in H; exact H].
    intros G. apply (u_chk _ _ _ I) in G. congruence.
  Qed.
  Lemma uinv_size ex st ord : uinv ex st ord -> (length ord <= length (sfs s))%nat.
  Proof.
    intros I. assert (X : incl (map N.to_nat ord) (seq 0 (length (sfs s)))).
    { intros x Hx. apply in_map_iff in Hx as (i & <- & Hi). apply (uinv_lt _ _ _ _ I) in Hi. apply in_seq. unfold lenN in Hi. lia. }
    apply NoDup_incl_length in X; [rewrite map_length, seq_length in X; exact X|].
    apply FinFun.Injective_map_NoDup; [intros x y; apply N2Nat.inj|apply (u_nodup _ _ _ I)].
  Qed.

  Lemma xor_flip (b d : bool) : (if b then negb d else d) = xorb b d.
  Proof. destruct b, d; reflexivity. Qed.

  (** marking a fresh face and pushing it *)
  Lemma push_inv (ex : N -> Prop) st ord n b : uinv ex st ord -> ~ In n ord -> n < nf ->
    reached (setN (must_flip st) n b) (ord ++ [n]) ->
    uinv ex (mku (setN (checked st) n true) (setN (must_flip st) n b) (frontier st ++ [n])) (ord ++ [n]).
  Proof.
    intros I Hn Ln R. constructor; cbn [checked must_flip frontier].
    - rewrite setN_lenN. apply (u_len1 _ _ _ I).
    - rewrite setN_lenN. apply (u_len2 _ _ _ I).
    - intros i. rewrite nth_set, (u_len1 _ _ _ I), in_app_iff. destruct (N.eqb_spec i n) as [->|D].
      + rewrite (proj2 (N.ltb_lt n nf) Ln). cbn. tauto.
      + cbn [andb In]. rewrite (u_chk _ _ _ I). intuition congruence.
    - eapply (Permutation.Permutation_NoDup (l := n :: ord)); [apply Permutation.Permutation_cons_append|].
      constructor; [exact Hn|apply (u_nodup _ _ _ I)].
    - intros i Hi Li. rewrite in_app_iff in Hi. rewrite nth_set. destruct (N.eqb_spec i n) as [->|D]; [exfalso; apply Hi; right; left; reflexivity|].
      cbn [andb]. apply (u_low _ _ _ I); tauto.
    - intros i. rewrite !in_app_iff. intros [H|H]; [left; apply (u_fr _ _ _ I), H|right; exact H].
    - intros g h Hg Hf Hx T. rewrite in_app_iff in *. destruct Hg as [Hg|Hg]; [|exfalso; tauto].
      left. apply (u_done _ _ _ I g h Hg); tauto.
    - exact R.
  Qed.

  Lemma visit_ok this k : has_normal this k -> forall ns st ord,
    uinv (fun g => g = this) st ord -> In this ord -> (forall h, In h ns -> touch this h) ->
    exists st' more, visit normal opposed m this k ns st = Ok st' /\
      uinv (fun g => g = this) st' (ord ++ more) /\ (forall h, In h ns -> In h (ord ++ more)) /\
      (length (frontier st') = length (frontier st) + length more)%nat.
  Proof.
    intros Hk. induction ns as [|h ns IH]; intros st ord I Ht Hn; cbn [visit].
    - exists st, []. rewrite app_nil_r. split; [reflexivity|]. split; [exact I|]. split; [intros ? []|cbn; lia].
    - assert (Hh : h < nf).
      { destruct (Hn h (or_introl eq_refl)) as (f & g & _ & E & _). eapply nthN_Some_lt, E. }
      unfold bit. destruct (nthN_lt_Some (checked st) h) as [c Ec]; [rewrite (u_len1 _ _ _ I); exact Hh|]. rewrite Ec. cbn [obind].
      destruct c.
      + destruct (IH st ord I Ht) as (st' & more & A & B & C & D); [intros; apply Hn; right; assumption|].
        exists st', more. split; [exact A|]. split; [exact B|]. split; [|exact D]. intros x [<-|Hx]; [|apply C, Hx].
        apply in_or_app. left. apply (u_chk _ _ _ I), Ec.
      + destruct (uinv_unchecked _ _ _ _ I Ec) as [Hno _].
        destruct (HN h Hh) as [kh Nh]. pose proof Nh as (fh & p & q & r & E1 & E2 & E3).
        destruct (face_at _ _ E1) as (_ & p' & q' & r' & E2' & E4). rewrite E2 in E2'. injection E2' as <- <- <-.
        rewrite E4. cbn [obind]. rewrite E3. cbn [obind].
        destruct (nthN_lt_Some (must_flip st) this) as [b Eb]; [rewrite (u_len2 _ _ _ I); exact (uinv_lt _ _ _ _ I Ht)|].
        rewrite Eb. cbn [obind]. rewrite xor_flip.
        assert (R : reached (setN (must_flip st) h (xorb b (opposed k kh))) (ord ++ [h])).
        { eapply (reach_next _ _ _ this b k kh).
          - apply (reached_ext (must_flip st)); [apply (u_reach _ _ _ I)|]. intros i Hi. rewrite nth_set.
            destruct (N.eqb_spec i h) as [->|D]; [contradiction|reflexivity].
          - exact Ht.
          - apply Hn. left; reflexivity.
          - rewrite nth_set. destruct (N.eqb_spec this h) as [->|D]; [contradiction|exact Eb].
          - exact Hk.
          - exact Nh.
          - rewrite nth_set, N.eqb_refl, (u_len2 _ _ _ I), (proj2 (N.ltb_lt h nf) Hh). reflexivity. }
        destruct (IH _ (ord ++ [h]) (push_inv _ _ _ _ _ I Hno Hh R)) as (st' & more & A & B & C & D);
          [apply in_or_app; left; exact Ht|intros; apply Hn; right; assumption|].
        exists st', (h :: more). rewrite <- app_assoc in B, C. cbn [app] in B, C.
        split; [exact A|]. split; [exact B|]. split.
        * intros x [<-|Hx]; [apply in_or_app; right; left; reflexivity|apply C, Hx].
        * rewrite D. cbn [frontier length]. rewrite app_length. cbn [length]. lia.
  Qed.

  Definition nobody : N -> Prop := fun _ => False.

  Lemma drain_ok t (Ht : table nf t) : forall fuel st ord,
    uinv nobody st ord -> (length (sfs s) - length ord + length (frontier st) <= fuel)%nat ->
    exists st' more, drain normal opposed fuel m t st = Some (Ok st') /\
      uinv nobody st' (ord ++ more) /\ frontier st' = [].
  Proof.
    induction fuel as [|fuel IH]; intros st ord I M.
    - cbn [drain]. pose proof (pop_spec (frontier st)) as E. destruct (pop (frontier st)) as [[x r]|].
      + rewrite E, app_length in M. cbn in M. lia.
      + exists st, []. rewrite app_nil_r. auto.
    - cbn [drain]. pose proof (pop_spec (frontier st)) as E. destruct (pop (frontier st)) as [[this rest]|].
      2:{ exists st, []. rewrite app_nil_r. auto. }
      assert (Hin : In this ord) by (apply (u_fr _ _ _ I); rewrite E; apply in_or_app; right; left; reflexivity).
      pose proof (uinv_lt _ _ _ _ I Hin) as Hlt.
      destruct (neighbours_ok t this Ht Hlt) as (ns & -> & Hns). cbn [obind].
      destruct (HN this Hlt) as [k Nk]. pose proof Nk as (f & p & q & r & E1 & E2 & E3).
      destruct (face_at _ _ E1) as (_ & p' & q' & r' & E2' & E4). rewrite E2 in E2'. injection E2' as <- <- <-.
      rewrite E4. cbn [obind]. rewrite E3. cbn [obind].
      assert (I' : uinv (fun g => g = this) (mku (checked st) (must_flip st) rest) ord).
      { destruct I as [U1 U2 U3 U4 U5 U6 U7 U8]. constructor; cbn [checked must_flip frontier]; auto.
        - intros i Hi. apply U6. rewrite E. apply in_or_app; auto.
        - intros g h Hg Hf Hx. apply U7; [exact Hg| |intros []]. rewrite E, in_app_iff. cbn. intuition congruence. }
      destruct (visit_ok this k Nk ns _ ord I' Hin) as (st1 & more & -> & I1 & C & D); [intros h Hh; apply Hns, Hh|].
      assert (I2 : uinv nobody st1 (ord ++ more)).
      { destruct I1 as [U1 U2 U3 U4 U5 U6 U7 U8]. constructor; auto. intros g h Hg Hf _ T.
        destruct (N.eq_dec g this) as [->|Dg]; [|exact (U7 g h Hg Hf Dg T)].
        destruct (N.eq_dec h this) as [->|Dh]; [exact Hg|]. apply C, Hns. auto. }
      destruct (IH st1 (ord ++ more) I2) as (st2 & more2 & A & B & G).
      { cbn [frontier] in D. rewrite D, app_length. pose proof (uinv_size _ _ _ I2) as Z. rewrite app_length in Z.
        rewrite E, app_length in M. cbn [length] in M. lia. }
      exists st2, (more ++ more2). rewrite app_assoc. auto.
  Qed.

  Lemma all_faces_ok t (Ht : table nf t) fuel : (length (sfs s) <= fuel)%nat -> forall n lowest st ord,
    uinv nobody st ord -> frontier st = [] -> lowest + N.of_nat n = nf -> (forall i, i < lowest -> In i ord) ->
    exists st' ord', all_faces normal opposed fuel m t n lowest st = Some (Ok st') /\
      uinv nobody st' ord' /\ (forall i, i < nf -> In i ord').
  Proof.
    intros Fu. induction n as [|n IH]; intros lowest st ord I Hf Hl Hi; cbn [all_faces].
    - exists st, ord. split; [reflexivity|]. split; [exact I|]. intros i Li. apply Hi. lia.
    - unfold bit. destruct (nthN_lt_Some (checked st) lowest) as [c Ec]; [rewrite (u_len1 _ _ _ I); lia|]. rewrite Ec.
      destruct c.
      + apply (IH _ _ ord I Hf); [lia|]. intros i Li. destruct (N.eq_dec i lowest) as [->|D]; [apply (u_chk _ _ _ I), Ec|apply Hi; lia].
      + destruct (uinv_unchecked _ _ _ _ I Ec) as [Hno Hlt]. pose proof (u_low _ _ _ I lowest Hno Hlt) as El.
        assert (SS : setN (must_flip st) lowest false = must_flip st).
        { apply list_eq_nthN. intros i. rewrite nth_set. destruct (N.eqb_spec i lowest) as [->|D]; [|reflexivity].
          rewrite (u_len2 _ _ _ I), (proj2 (N.ltb_lt lowest nf) Hlt). cbn. rewrite El. reflexivity. }
        assert (R : reached (setN (must_flip st) lowest false) (ord ++ [lowest])).
        { rewrite SS. apply reach_root; [apply (u_reach _ _ _ I)| |exact El]. intros g h Hg T.
          apply (u_done _ _ _ I g h Hg); [rewrite Hf; intros []|intros []|exact T]. }
        pose proof (push_inv _ _ _ _ _ I Hno Hlt R) as I'. rewrite SS in I'.
        destruct (drain_ok t Ht fuel _ _ I') as (st1 & more & -> & I1 & F1).
        { cbn [frontier]. rewrite Hf, !app_length. cbn [length]. pose proof (uinv_size _ _ _ I') as Z. rewrite app_length in Z. cbn in Z. lia. }
        apply (IH _ _ _ I1 F1); [lia|]. intros i Li. apply in_or_app. left. apply in_or_app.
        destruct (N.eq_dec i lowest) as [->|D]; [right; left; reflexivity|left; apply Hi; lia].
  Qed.

  Definition flipped (fl : list bool) : list face3 := map (fun '(b, f) => oriented b f) (combine fl (sfs s)).

  Lemma rebuild_ok fl m0 : lenN fl = nf -> abs_ok m0 (MSpec (svs s) []) ->
    exists m', for_range (length (sfs s)) 0 (rebuild_face m fl) m0 = Ok m' /\
      shows m' (MSpec (svs s) (flipped fl)) /\ faces_ok (MSpec (svs s) (flipped fl)).
  Proof.
    intros Lf A0.
    destruct (for_range_inv (fun j r => abs_ok r (MSpec (svs s) (firstn (N.to_nat j) (flipped fl))) /\
       faces_ok (MSpec (svs s) (firstn (N.to_nat j) (flipped fl)))) (rebuild_face m fl) (length (sfs s)) 0 m0) as (m' & E & A & Fo).
    - split; [exact A0|intros ? ? ? []].
    - intros j r Hj [A Fo]. destruct (nthN_lt_Some (sfs s) j) as [[[a b] c] Ef]; [unfold lenN; lia|].
      destruct (nthN_lt_Some fl j) as [x Ex]; [rewrite Lf; unfold lenN; lia|].
      assert (Eo : nth_error (flipped fl) (N.to_nat j) = Some (oriented x (a, b, c))).
      { unfold flipped. pose proof Ef as Ef0. pose proof Ex as Ex0. rewrite (@nthN_nth_error face3) in Ef0. rewrite (@nthN_nth_error bool) in Ex0. rewrite nth_error_map.
        assert (G : nth_error (combine fl (sfs s)) (N.to_nat j) = Some (x, (a, b, c))).
        { revert Ef0 Ex0. generalize (N.to_nat j) as k. generalize (sfs s). clear. induction fl as [|y fl IH]; intros [|g l] [|k] A B; cbn in *; try discriminate.
          - injection A as ->. injection B as ->. reflexivity. - apply IH; assumption. }
        rewrite G. reflexivity. }
      unfold rebuild_face. rewrite (proj1 (face_at _ _ Ef)). cbn [obind]. unfold bit. rewrite Ex. cbn [obind].
      destruct (face_in _ _ _ _ Ef) as (Ra & Rb & Rc & D1 & D2 & D3).
      replace (N.to_nat (j + 1)) with (S (N.to_nat j)) by lia. rewrite (firstn_snoc _ _ _ Eo).
      destruct (connect_ok r _ a (if x then c else b) (if x then b else c) A Fo) as (m1 & i & -> & A1 & F1);
        try (unfold in_range; cbn [svs]; unfold lenN in *; destruct x; lia); try (destruct x; congruence).
      exists m1. split; [reflexivity|]. cbn [svs sfs] in A1, F1. destruct x; cbn [oriented]; auto.
    - exists m'. replace (N.to_nat (0 + N.of_nat (length (sfs s)))) with (length (flipped fl)) in A, Fo.
      2:{ unfold flipped. rewrite map_length, combine_length. unfold lenN in Lf. lia. }
      rewrite firstn_all in A, Fo. split; [exact E|]. split; [apply abs_shows; assumption|exact Fo].
  Qed.

  Theorem unify_ok fuel : (length (sfs s) <= fuel)%nat -> exists m' fl ord,
    unify_faces normal opposed fuel m = Some (Ok m') /\ length fl = length (sfs s) /\
    shows m' (MSpec (svs s) (flipped fl)) /\ faces_ok (MSpec (svs s) (flipped fl)) /\
    NoDup ord /\ (forall i, In i ord <-> i < nf) /\ reached fl ord.
  Proof.
    intros Fu. unfold unify_faces. destruct vtf_ok as (t & -> & Ht). pose proof Hs as (_ & _ & -> & _). rewrite Nat2N.id.
    set (n := length (sfs s)) in *.
    destruct (all_faces_ok t Ht fuel Fu n 0 (mku (repeat false n) (repeat false n) []) []) as (st & ord & -> & I & A).
    - assert (R : forall i, i < nf -> nthN (repeat false n) i = Some false).
      { intros i Hi. rewrite nthN_nth_error. apply nth_error_repeat. unfold lenN in Hi. fold n in Hi. lia. }
      constructor; cbn [checked must_flip frontier].
      1-2: unfold lenN; rewrite repeat_length; reflexivity.
      + intros i. split; [|intros []]. intros E. rewrite nthN_nth_error in E. apply nth_error_In, repeat_spec in E. discriminate.
      + constructor. + intros i _ Hi. apply R, Hi. + intros i []. + intros g h []. + constructor.
    - reflexivity.
    - unfold lenN. fold n. lia.
    - intros i Hi. lia.
    - destruct (copy_ok m s Hs) as (m0 & -> & A0). cbn [obind].
      destruct (rebuild_ok (must_flip st) m0 (u_len2 _ _ _ I) A0) as (m' & E & B & C). fold n in E. rewrite E.
      exists m', (must_flip st), ord. split; [reflexivity|]. split; [pose proof (u_len2 _ _ _ I) as Z; unfold lenN in Z; lia|].
      split; [exact B|]. split; [exact C|]. split; [apply (u_nodup _ _ _ I)|]. split; [|apply (u_reach _ _ _ I)].
      intros i. split; [apply (uinv_lt _ _ _ _ I)|apply A].
  Qed.
End Unify.
