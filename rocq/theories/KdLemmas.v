(** Proofs about the KdTree model. *)
From Verif Require Import Base Num NumLemmas SortSpec SortLemmas PermTac KdModel GeomSpec.
From Coq Require Import Floats.SpecFloat Reals Lra Psatz.

Section Generic.
Context {NM : Num} {P : Type} (pos : P -> pt3 NM) (sort : sorter) (SO : sort_ok sort).
Notation tree := (kdtree P).

Fixpoint elems (t : tree) : list P :=
  match t with KNone => [] | KNode l v r _ => elems l ++ v :: elems r end.
Lemma kd_to_pc_elems t : forall acc, kd_to_pc t acc = acc ++ elems t.
Proof.
  induction t as [|l IHl v r IHr d]; intro acc; cbn [kd_to_pc elems].
  - now rewrite app_nil_r.
  - rewrite IHr, IHl. rewrite <- !app_assoc. reflexivity.
Qed.
Lemma kd_size_elems (t : tree) : kd_size t = length (elems t).
Proof.
  induction t as [|l IHl v r IHr d]; cbn [kd_size elems]; [reflexivity|].
  rewrite app_length. cbn [length]. lia.
Qed.
Fixpoint dims_ok (t : tree) : Prop :=
  match t with KNone => True | KNode l _ r d => (d = 0%N \/ d = 1%N) /\ dims_ok l /\ dims_ok r end.

Lemma split_at {A} (s : list A) k v : nth_error s k = Some v -> s = firstn k s ++ v :: skipn (S k) s.
Proof.
  revert k. induction s as [|x r IH]; intros [|k] H; try discriminate.
  - injection H as ->. reflexivity.
  - cbn in *. f_equal. apply IH. exact H.
Qed.
Lemma div2_lt n : (0 < n)%nat -> (Nat.div2 n < n)%nat.
Proof. intro. apply Nat.lt_div2. auto. Qed.

Lemma kd_new_perm fuel : forall dim pc, (length pc <= fuel)%nat ->
  Permutation pc (elems (kd_new pos sort fuel dim pc)).
Proof.
  induction fuel as [|f IH]; intros dim pc L.
  - destruct pc; [constructor|cbn in L; lia].
  - cbn [kd_new]. destruct pc as [|p [|q r]]; [constructor|cbn; auto|].
    set (s := sort P _ (p :: q :: r)).
    assert (Ps : Permutation (p :: q :: r) s) by apply (sort_perm _ SO).
    assert (Ls : length s = S (S (length r))) by (rewrite <- (Permutation_length Ps); reflexivity).
    assert (K : (Nat.div2 (length s) < length s)%nat) by (apply div2_lt; lia).
    set (k := Nat.div2 (length s)) in *. clearbody k.
    destruct (nth_error s k) as [v|] eqn:E.
    2:{ apply nth_error_None in E. lia. }
    rewrite Ps at 1. rewrite (split_at _ _ _ E) at 1. cbn [elems]. cbn [length] in L.
    apply Permutation_app; [|constructor]; apply IH.
    + rewrite firstn_length. lia.
    + rewrite skipn_length. lia.
Qed.
Lemma kd_new_dims fuel : forall dim pc, dims_ok (kd_new pos sort fuel dim pc).
Proof.
  induction fuel as [|f IH]; intros dim pc; cbn [kd_new]; [exact I|].
  assert (D : (dim mod 2)%N = 0%N \/ (dim mod 2)%N = 1%N).
  { pose proof (N.mod_upper_bound dim 2 ltac:(discriminate)) as M. set (k := (dim mod 2)%N) in *. clearbody k. lia. }
  destruct pc as [|p [|q r]]; cbn [dims_ok]; auto.
  destruct (nth_error _ _); cbn [dims_ok]; auto.
Qed.

(** in_sphere and in_box share one traversal. *)
Section Trav.
Context (test : P -> bool) (order : P -> N -> res comparison) (farL farR : P -> N -> bool).
Fixpoint trav (t : tree) (pc : list P) : list P :=
  match t with
  | KNone => pc
  | KNode l v r d =>
      let pc := if test v then pc ++ [v] else pc in
      if is_none l && is_none r then pc
      else
        let pc := match order v d with Ok Lt => trav l pc | Ok _ => trav r pc | _ => pc end in
        match order v d with
        | Ok Lt => if farR v d then trav r pc else pc
        | Ok _ => if farL v d then trav l pc else pc
        | _ => pc
        end
  end.
Definition adds (f : list P -> list P) (es : list P) : Prop :=
  forall pc, exists found rest, f pc = pc ++ found /\ Permutation es (found ++ rest) /\
    Forall (fun p => test p = true) found.
Definition adds_all (f : list P -> list P) (es : list P) : Prop :=
  forall pc, exists found, f pc = pc ++ found /\ Permutation found (filter test es).
Lemma adds_comp f g es1 es2 : adds f es1 -> adds g es2 -> adds (fun pc => g (f pc)) (es1 ++ es2).
Proof.
  intros Hf Hg pc. destruct (Hf pc) as (f1 & r1 & E1 & P1 & A1).
  destruct (Hg (pc ++ f1)) as (f2 & r2 & E2 & P2 & A2).
  exists (f1 ++ f2), (r1 ++ r2). rewrite E1, E2, app_assoc. split; [reflexivity|].
  split; [rewrite P1, P2; perm|]. rewrite Forall_app; auto.
Qed.
Lemma adds_all_comp f g es1 es2 : adds_all f es1 -> adds_all g es2 -> adds_all (fun pc => g (f pc)) (es1 ++ es2).
Proof.
  intros Hf Hg pc. destruct (Hf pc) as (f1 & E1 & P1).
  destruct (Hg (pc ++ f1)) as (f2 & E2 & P2).
  exists (f1 ++ f2). rewrite E1, E2, app_assoc. split; [reflexivity|].
  rewrite filter_app. rewrite P1, P2. reflexivity.
Qed.
Lemma adds_id es : adds (fun pc => pc) es.
Proof. intro pc. exists [], es. rewrite app_nil_r. auto. Qed.
Lemma adds_all_id es : Forall (fun p => test p = false) es -> adds_all (fun pc => pc) es.
Proof.
  intros H pc. exists []. rewrite app_nil_r. split; [reflexivity|].
  replace (filter test es) with (@nil P); [constructor|].
  induction H as [|x l Hx _ IH]; cbn; [reflexivity|]. now rewrite Hx.
Qed.
Lemma adds_val v : adds (fun pc => if test v then pc ++ [v] else pc) [v].
Proof.
  intro pc. destruct (test v) eqn:E; [exists [v], []|exists [], [v]]; rewrite ?app_nil_r; auto.
Qed.
Lemma adds_all_val v : adds_all (fun pc => if test v then pc ++ [v] else pc) [v].
Proof.
  intro pc. cbn [filter]. destruct (test v) eqn:E; [exists [v]|exists []]; rewrite ?app_nil_r; auto.
Qed.
Lemma adds_perm f es es' : Permutation es es' -> adds f es -> adds f es'.
Proof.
  intros H A pc. destruct (A pc) as (fo & r & E & Q & F). exists fo, r. rewrite <- H. auto.
Qed.
Lemma filter_perm (l m : list P) : Permutation l m -> Permutation (filter test l) (filter test m).
Proof.
  induction 1; cbn; [constructor| | |etransitivity; eassumption].
  - destruct (test x); auto.
  - destruct (test x), (test y); auto. constructor.
Qed.
Lemma adds_all_perm f es es' : Permutation es es' -> adds_all f es -> adds_all f es'.
Proof.
  intros H A pc. destruct (A pc) as (fo & E & Q). exists fo. split; [exact E|].
  rewrite Q. apply filter_perm, H.
Qed.
Lemma trav_adds t : adds (trav t) (elems t).
Proof.
  induction t as [|l IHl v r IHr d]; [apply (adds_id [])|].
  assert (Q1 : Permutation (([v] ++ elems l) ++ elems r) (elems l ++ v :: elems r)) by perm.
  assert (Q2 : Permutation (([v] ++ elems r) ++ elems l) (elems l ++ v :: elems r)) by perm.
  intro pc. cbn [trav elems].
  destruct (is_none l && is_none r) eqn:En.
  { destruct l, r; try discriminate. apply (adds_val v pc). }
  destruct (order v d) as [[]|e|].
  - destruct (farL v d).
    + exact (adds_perm _ _ _ Q2 (adds_comp _ _ _ _ (adds_comp _ _ _ _ (adds_val v) IHr) IHl) pc).
    + exact (adds_perm _ _ _ Q2 (adds_comp _ _ _ _ (adds_comp _ _ _ _ (adds_val v) IHr) (adds_id _)) pc).
  - destruct (farR v d).
    + exact (adds_perm _ _ _ Q1 (adds_comp _ _ _ _ (adds_comp _ _ _ _ (adds_val v) IHl) IHr) pc).
    + exact (adds_perm _ _ _ Q1 (adds_comp _ _ _ _ (adds_comp _ _ _ _ (adds_val v) IHl) (adds_id _)) pc).
  - destruct (farL v d).
    + exact (adds_perm _ _ _ Q2 (adds_comp _ _ _ _ (adds_comp _ _ _ _ (adds_val v) IHr) IHl) pc).
    + exact (adds_perm _ _ _ Q2 (adds_comp _ _ _ _ (adds_comp _ _ _ _ (adds_val v) IHr) (adds_id _)) pc).
  - exact (adds_perm _ _ _ Q1 (adds_comp _ _ _ _ (adds_comp _ _ _ _ (adds_val v) (adds_id _)) (adds_id _)) pc).
  - exact (adds_perm _ _ _ Q1 (adds_comp _ _ _ _ (adds_comp _ _ _ _ (adds_val v) (adds_id _)) (adds_id _)) pc).
Qed.
Fixpoint prune_ok (t : tree) : Prop :=
  match t with
  | KNone => True
  | KNode l v r d => prune_ok l /\ prune_ok r /\
      match order v d with
      | Ok Lt => farR v d = false -> Forall (fun p => test p = false) (elems r)
      | Ok _ => farL v d = false -> Forall (fun p => test p = false) (elems l)
      | _ => False
      end
  end.
Lemma trav_adds_all t : prune_ok t -> adds_all (trav t) (elems t).
Proof.
  induction t as [|l IHl v r IHr d]; [intros _; apply (adds_all_id []); constructor|].
  intros (Pl & Pr & Pv). specialize (IHl Pl). specialize (IHr Pr).
  assert (Q1 : Permutation (([v] ++ elems l) ++ elems r) (elems l ++ v :: elems r)) by perm.
  assert (Q2 : Permutation (([v] ++ elems r) ++ elems l) (elems l ++ v :: elems r)) by perm.
  intro pc. cbn [trav elems].
  destruct (is_none l && is_none r) eqn:En.
  { destruct l, r; try discriminate. apply (adds_all_val v pc). }
  destruct (order v d) as [[]|e|]; try contradiction.
  - destruct (farL v d).
    + exact (adds_all_perm _ _ _ Q2 (adds_all_comp _ _ _ _ (adds_all_comp _ _ _ _ (adds_all_val v) IHr) IHl) pc).
    + exact (adds_all_perm _ _ _ Q2 (adds_all_comp _ _ _ _ (adds_all_comp _ _ _ _ (adds_all_val v) IHr) (adds_all_id _ (Pv eq_refl))) pc).
  - destruct (farR v d).
    + exact (adds_all_perm _ _ _ Q1 (adds_all_comp _ _ _ _ (adds_all_comp _ _ _ _ (adds_all_val v) IHl) IHr) pc).
    + exact (adds_all_perm _ _ _ Q1 (adds_all_comp _ _ _ _ (adds_all_comp _ _ _ _ (adds_all_val v) IHl) (adds_all_id _ (Pv eq_refl))) pc).
  - destruct (farL v d).
    + exact (adds_all_perm _ _ _ Q2 (adds_all_comp _ _ _ _ (adds_all_comp _ _ _ _ (adds_all_val v) IHr) IHl) pc).
    + exact (adds_all_perm _ _ _ Q2 (adds_all_comp _ _ _ _ (adds_all_comp _ _ _ _ (adds_all_val v) IHr) (adds_all_id _ (Pv eq_refl))) pc).
Qed.
End Trav.

Definition sph_test (s : sphere NM) (p : P) : bool := nleb (dist_3d (sph_center s) (pos p)) (sph_radius s).
Definition box_test (b : box3d NM) (p : P) : bool :=
  nleb (nabs (nsub (px (box_center b)) (px (pos p)))) (nmul nhalf (box_sx b)) &&
  nleb (nabs (nsub (py (box_center b)) (py (pos p)))) (nmul nhalf (box_sy b)) &&
  nleb (nabs (nsub (pz (box_center b)) (pz (pos p)))) (nmul nhalf (box_sz b)).
Definition coordN (d : N) (p : pt3 NM) : T NM := match d with 0%N => px p | 1%N => py p | _ => pz p end.
Definition sph_coord (d : N) (s : sphere NM) : T NM := match d with 0%N => sph_x s | 1%N => sph_y s | _ => sph_z s end.
Definition box_size (d : N) (b : box3d NM) : T NM := match d with 0%N => box_sx b | 1%N => box_sy b | _ => box_sz b end.
Lemma in_sphere_trav s t : forall pc, kd_in_sphere pos s t pc =
  trav (sph_test s) (fun v d => dimension_compare (sph_center s) (pos v) d)
    (fun v d => nleb (nsub (sph_coord d s) (sph_radius s)) (coordN d (pos v)))
    (fun v d => ngeb (nadd (sph_coord d s) (sph_radius s)) (coordN d (pos v))) t pc.
Proof.
  induction t as [|l IHl v r IHr d]; intro pc; [reflexivity|].
  cbn [kd_in_sphere trav]. rewrite <- !IHl, <- !IHr. fold (sph_test s v).
  assert (E : (match d with 0%N => (sph_x s, px (pos v)) | 1%N => (sph_y s, py (pos v)) | _ => (sph_z s, pz (pos v)) end)
     = (sph_coord d s, coordN d (pos v))) by (destruct d as [|[]]; reflexivity).
  rewrite E. destruct (is_none l && is_none r); [reflexivity|].
  destruct (dimension_compare _ _ d) as [[]|e|]; rewrite ?IHl, ?IHr; reflexivity.
Qed.
Lemma in_box_trav b t : forall pc, kd_in_box pos b t pc =
  trav (box_test b) (fun v d => dimension_compare (box_center b) (pos v) d)
    (fun v d => nleb (nsub (coordN d (box_center b)) (nmul nhalf (box_size d b))) (coordN d (pos v)))
    (fun v d => ngeb (nadd (coordN d (box_center b)) (nmul nhalf (box_size d b))) (coordN d (pos v))) t pc.
Proof.
  induction t as [|l IHl v r IHr d]; intro pc; [reflexivity|].
  cbn [kd_in_box trav dimension_dist]. rewrite <- !IHl, <- !IHr. fold (box_test b v).
  assert (E : (match d with 0%N => (px (box_center b), px (pos v), box_sx b) | 1%N => (py (box_center b), py (pos v), box_sy b)
       | _ => (pz (box_center b), pz (pos v), box_sz b) end)
     = (coordN d (box_center b), coordN d (pos v), box_size d b)) by (destruct d as [|[]]; reflexivity).
  rewrite E. destruct (is_none l && is_none r); [reflexivity|].
  destruct (dimension_compare _ _ d) as [[]|e|]; rewrite ?IHl, ?IHr; reflexivity.
Qed.

(** ** knearest: how many and which points *)
Definition total_for (search : pt3 NM) (p : P) : Prop :=
  ncmp (px search) (px (pos p)) <> None /\ ncmp (py search) (py (pos p)) <> None.
Lemma last_opt_some (pc : list P) : pc <> [] -> exists q, last_opt pc = Some q /\ In q pc.
Proof.
  intro H. destruct pc as [|p r]; [congruence|]. eexists. split; [reflexivity|].
  destruct (exists_last H) as (l & x & E). rewrite E, last_last. apply in_or_app; right; left; reflexivity.
Qed.
Lemma sal_spec search n pc : exists rest,
  Permutation pc (kd_sort_and_limit pos sort search n pc ++ rest) /\
  length (kd_sort_and_limit pos sort search n pc) = Nat.min n (length pc).
Proof.
  unfold kd_sort_and_limit. destruct (Nat.ltb_spec n (length pc)) as [L|L].
  - set (s := sort P _ pc). assert (Ps : Permutation pc s) by apply (sort_perm _ SO).
    exists (skipn n s). rewrite firstn_skipn. split; [exact Ps|].
    rewrite firstn_length, <- (Permutation_length Ps). reflexivity.
  - exists []. rewrite app_nil_r. split; [reflexivity|]. lia.
Qed.
Lemma knn_spec search n t : (1 <= n)%nat -> dims_ok t -> Forall (total_for search) (elems t) ->
  forall pc, exists out rest, kd_knearest pos sort search n t pc = Ok out /\
    Permutation (pc ++ elems t) (out ++ rest) /\
    (t <> KNone -> length out = Nat.min n (length pc + length (elems t))) /\ (t = KNone -> out = pc).
Proof.
  intro N1. induction t as [|l IHl v r IHr d]; intros D F pc.
  - exists pc, []. repeat split; cbn; rewrite ?app_nil_r; auto. congruence.
  - destruct D as (Dd & Dl & Dr). cbn [elems] in F. rewrite Forall_app in F. destruct F as [Fl F].
    inversion F as [|? ? Fv Fr]; subst. specialize (IHl Dl Fl). specialize (IHr Dr Fr).
    cbn [kd_knearest elems].
    (* push *)
    assert (H1 : exists pc1 w, (if (length pc <? n)%nat then Ok (pc ++ [v])
             else match last_opt pc with
                  | None => Panic
                  | Some q => if nltb (sqr_dist_3d search (pos v)) (sqr_dist_3d search (pos q))
                              then Ok (pc ++ [v]) else Ok pc
                  end) = (Ok pc1 : res (list P)) /\ Permutation (pc ++ [v]) (pc1 ++ w) /\ pc1 <> [] /\
                  ((length pc < n)%nat -> length pc1 = S (length pc)) /\
                  ((n <= length pc)%nat -> (n <= length pc1)%nat)).
    { assert (PV : exists pc1 w, (Ok (pc ++ [v]) : res (list P)) = Ok pc1 /\ Permutation (pc ++ [v]) (pc1 ++ w) /\ pc1 <> [] /\
                  ((length pc < n)%nat -> length pc1 = S (length pc)) /\
                  ((n <= length pc)%nat -> (n <= length pc1)%nat)).
      { exists (pc ++ [v]), []. rewrite app_nil_r. repeat split; auto.
        - destruct pc; discriminate.
        - intros _. rewrite app_length; cbn; lia.
        - intros. rewrite app_length; cbn; lia. }
      destruct (Nat.ltb_spec (length pc) n) as [L|L]; [exact PV|].
      assert (NE : pc <> []) by (destruct pc; [cbn in L; lia|discriminate]).
      destruct (last_opt_some pc NE) as (q & -> & _).
      destruct (nltb _ _); [exact PV|]. exists pc, [v]. repeat split; auto. lia. }
    destruct H1 as (pc1 & w1 & -> & P1 & NE1 & L1 & G1). cbn [obind].
    assert (C : exists c : comparison, dimension_compare search (pos v) d = Ok c).
    { destruct Fv as [Fx Fy]. destruct Dd as [->| ->]; cbn [dimension_compare].
      - destruct (ncmp (px search) (px (pos v))); [eauto|congruence].
      - destruct (ncmp (py search) (py (pos v))); [eauto|congruence]. }
    destruct C as [c ->].
    (* the two sides, generically *)
    assert (G : forall a b, Permutation (elems a ++ elems b) (elems l ++ elems r) ->
        (forall pc, exists out rest, kd_knearest pos sort search n a pc = Ok out /\
           Permutation (pc ++ elems a) (out ++ rest) /\
           (a <> KNone -> length out = Nat.min n (length pc + length (elems a))) /\ (a = KNone -> out = pc)) ->
        (forall pc, exists out rest, kd_knearest pos sort search n b pc = Ok out /\
           Permutation (pc ++ elems b) (out ++ rest) /\
           (b <> KNone -> length out = Nat.min n (length pc + length (elems b))) /\ (b = KNone -> out = pc)) ->
        exists pc2, kd_knearest pos sort search n a pc1 = Ok pc2 /\
          forall far : P -> bool, exists out rest,
          match last_opt (kd_sort_and_limit pos sort search n pc2) with
          | None => Panic
          | Some q => obind (if (length (kd_sort_and_limit pos sort search n pc2) <? n)%nat || far q
                             then kd_knearest pos sort search n b (kd_sort_and_limit pos sort search n pc2)
                             else Ok (kd_sort_and_limit pos sort search n pc2))
                        (fun pc => Ok (kd_sort_and_limit pos sort search n pc))
          end = Ok out /\ Permutation (pc ++ elems l ++ v :: elems r) (out ++ rest) /\
          length out = Nat.min n (length pc + length (elems l ++ v :: elems r))).
    { intros a b AB Ha Hb. destruct (Ha pc1) as (pc2 & w2 & E2 & P2 & L2 & K2).
      exists pc2. split; [exact E2|]. intro far.
      assert (T1 : (length pc2 = length pc1 /\ elems a = [] ) \/ length pc2 = Nat.min n (length pc1 + length (elems a))).
      { destruct a; [left|right]; [rewrite K2 by reflexivity; auto|apply L2; discriminate]. }
      destruct (sal_spec search n pc2) as (w3 & P3 & L3).
      set (pc3 := kd_sort_and_limit pos sort search n pc2) in *. clearbody pc3.
      assert (pc1pos : (1 <= length pc1)%nat) by (destruct pc1; [congruence|cbn; lia]).
      assert (NE3 : pc3 <> []).
      { intros ->. cbn in L3. destruct T1 as [[T1 _]|T1]; lia. }
      destruct (last_opt_some pc3 NE3) as (q & -> & _).
      assert (EL : (length (elems l ++ v :: elems r) = S (length (elems a) + length (elems b)))%nat).
      { apply Permutation_length in AB. rewrite !app_length in AB. rewrite app_length. cbn [length]. lia. }
      assert (PP : Permutation (pc ++ elems l ++ v :: elems r) ((pc ++ [v]) ++ elems a ++ elems b)).
      { rewrite AB. perm. }
      destruct (Nat.ltb_spec (length pc3) n) as [L|L]; cbn [orb].
      - destruct (Hb pc3) as (pc4 & w4 & E4 & P4 & L4 & K4). rewrite E4. cbn [obind].
        destruct (sal_spec search n pc4) as (w5 & P5 & L5).
        set (pc5 := kd_sort_and_limit pos sort search n pc4) in *. clearbody pc5.
        exists pc5, (w5 ++ w4 ++ w3 ++ w2 ++ w1). split; [reflexivity|]. split.
        + rewrite PP, P1. 
          transitivity (((pc1 ++ elems a) ++ elems b) ++ w1); [perm|]. rewrite P2, P3.
          transitivity ((pc3 ++ elems b) ++ w3 ++ w2 ++ w1); [perm|]. rewrite P4, P5. perm.
        + rewrite L5, EL. destruct (Nat.lt_ge_cases (length pc) n) as [X|X].
          * specialize (L1 X). destruct b; [rewrite K4 by reflexivity|rewrite L4 by discriminate];
              cbn [elems length] in *; destruct T1 as [[T1 T2]|T1]; rewrite ?T2 in *; cbn [length] in *; lia.
          * specialize (G1 X). destruct b; [rewrite K4 by reflexivity|rewrite L4 by discriminate];
              cbn [elems length] in *; destruct T1 as [[T1 T2]|T1]; rewrite ?T2 in *; cbn [length] in *; lia.
      - assert (Q : exists pc4 w4, (if far q then kd_knearest pos sort search n b pc3 else Ok pc3) = Ok pc4 /\
             Permutation (pc3 ++ elems b) (pc4 ++ w4) /\ (n <= length pc4)%nat).
        { destruct (far q).
          - destruct (Hb pc3) as (pc4 & w4 & E4 & P4 & L4 & K4). exists pc4, w4. split; [exact E4|]. split; [exact P4|].
            destruct b; [rewrite K4 by reflexivity; lia|rewrite L4 by discriminate; lia].
          - exists pc3, (elems b). auto. }
        destruct Q as (pc4 & w4 & EQ & P4 & L4). unfold res in EQ |- *. rewrite EQ. cbn [obind].
        destruct (sal_spec search n pc4) as (w5 & P5 & L5).
        set (pc5 := kd_sort_and_limit pos sort search n pc4) in *. clearbody pc5.
        exists pc5, (w5 ++ w4 ++ w3 ++ w2 ++ w1). split; [reflexivity|]. split.
        + rewrite PP, P1. 
          transitivity (((pc1 ++ elems a) ++ elems b) ++ w1); [perm|]. rewrite P2, P3.
          transitivity ((pc3 ++ elems b) ++ w3 ++ w2 ++ w1); [perm|]. rewrite P4, P5. perm.
        + rewrite L5, EL. destruct (Nat.lt_ge_cases (length pc) n) as [X|X].
          * specialize (L1 X). cbn [elems length] in *; destruct T1 as [[T1 T2]|T1]; rewrite ?T2 in *; cbn [length] in *; lia.
          * lia. }
    set (cc := match d with 0%N => _ | 1%N => _ | _ => _ end). destruct cc as [cs cv].
    pose proof (G l r (Permutation_refl _) IHl IHr) as Glr.
    pose proof (G r l (Permutation_app_comm _ _) IHr IHl) as Grl. clear G.
    destruct Glr as (pl & El & Gl), Grl as (pr & Er & Gr).
    specialize (Gl (fun q => ngeb (nadd cs (dist_3d search (pos q))) cv)).
    specialize (Gr (fun q => nleb (nsub cs (dist_3d search (pos q))) cv)).
    destruct Gl as (o1 & w1' & X1 & Y1 & Z1), Gr as (o2 & w2' & X2 & Y2 & Z2).
    destruct c.
    + rewrite Er. cbn [obind]. exists o2, w2'. split; [exact X2|]. split; [exact Y2|]. split; [auto|discriminate].
    + rewrite El. cbn [obind]. exists o1, w1'. split; [exact X1|]. split; [exact Y1|]. split; [auto|discriminate].
    + rewrite Er. cbn [obind]. exists o2, w2'. split; [exact X2|]. split; [exact Y2|]. split; [auto|discriminate].
Qed.
End Generic.

(** ** Exact arithmetic *)
Ltac rcbn := cbn [T RN nadd nsub nmul ndiv nneg nabs nsqrt] in *.
Section Real.
Context {P : Type} (pos : P -> pt3 RN) (sort : sorter) (SO : sort_ok sort).
Local Open Scope R_scope.
Notation tree := (kdtree P).
Fixpoint kd_inv (t : tree) : Prop :=
  match t with
  | KNone => True
  | KNode l v r d => (d = 0%N \/ d = 1%N) /\ kd_inv l /\ kd_inv r /\
      Forall (fun p => coordN d (pos p) <= coordN d (pos v)) (elems l) /\
      Forall (fun p => coordN d (pos v) <= coordN d (pos p)) (elems r)
  end.
Lemma Rcmp_cases (a b : T RN) : (ncmp a b = Some Lt /\ a < b) \/ (ncmp a b = Some Eq /\ a = b) \/ (ncmp a b = Some Gt /\ a > b).
Proof. cbn. unfold Rcmp. destruct (total_order_T a b) as [[H|H]|H]; auto. Qed.
Lemma cmp_or_eq_le (a b : T RN) : cmp_or_eq a b <> Gt <-> a <= b.
Proof. unfold cmp_or_eq. destruct (Rcmp_cases a b) as [[-> H]|[[-> H]|[-> H]]]; split; intros; try lra; try congruence. Qed.
Lemma cmp_or_eq_opp (a b : T RN) : cmp_or_eq b a = CompOpp (cmp_or_eq a b).
Proof.
  unfold cmp_or_eq. destruct (Rcmp_cases a b) as [[-> H]|[[-> H]|[-> H]]], (Rcmp_cases b a) as [[-> H']|[[-> H']|[-> H']]];
    cbn; try reflexivity; lra.
Qed.
Lemma cmp_or_eq_ok {A} (f : A -> T RN) l : cmp_ok (fun a b => cmp_or_eq (f a) (f b)) l.
Proof.
  split; intros.
  - apply cmp_or_eq_opp.
  - rewrite cmp_or_eq_le in *. lra.
Qed.
Lemma kd_cmp_coord d (a b : P) : (d = 0 \/ d = 1)%N ->
  kd_cmp pos d a b = cmp_or_eq (coordN d (pos a)) (coordN d (pos b)).
Proof. intros [->| ->]; reflexivity. Qed.
Lemma sorted_split {A} (R : A -> A -> Prop) l v r : StronglySorted R (l ++ v :: r) ->
  Forall (fun p => R p v) l /\ Forall (fun p => R v p) r.
Proof.
  induction l as [|x l IH]; cbn; intro H; inversion H as [|? ? S F]; subst.
  - split; [constructor|exact F].
  - destruct (IH S) as [I1 I2]. split; [|exact I2]. constructor; [|exact I1].
    rewrite Forall_app in F. destruct F as [_ F]. inversion F; auto.
Qed.
Lemma Forall_perm {A} (Q : A -> Prop) l m : Permutation l m -> Forall Q l -> Forall Q m.
Proof. intros H F. rewrite Forall_forall in *. intros x Hx. apply F. apply (Permutation_in _ (Permutation_sym H) Hx). Qed.
Lemma sort_ext_sorted cmp f (l : list P) : (forall a b, cmp a b = cmp_or_eq (f a) (f b : T RN)) ->
  StronglySorted (fun a b => f a <= f b) (sort P cmp l).
Proof.
  intro E.
  assert (C : cmp_ok cmp l).
  { destruct (cmp_or_eq_ok f l) as [O Tr]. split; intros; rewrite ?E in *; eauto. }
  pose proof (sort_sorted _ SO P cmp l C) as S.
  induction S as [|a m S IH F]; constructor; [exact IH|].
  rewrite Forall_forall in *. intros b Hb. specialize (F b Hb). rewrite E in F. apply cmp_or_eq_le in F. exact F.
Qed.
Lemma kd_new_inv fuel : forall dim pc, (length pc <= fuel)%nat -> kd_inv (kd_new pos sort fuel dim pc).
Proof.
  induction fuel as [|f IH]; intros dim pc L; cbn [kd_new]; [exact I|].
  assert (D : (dim mod 2)%N = 0%N \/ (dim mod 2)%N = 1%N).
  { pose proof (N.mod_upper_bound dim 2 ltac:(discriminate)) as M. set (k := (dim mod 2)%N) in *. clearbody k. lia. }
  set (d := (dim mod 2)%N) in *. clearbody d.
  destruct pc as [|p [|q r]]; cbn [kd_inv elems]; [exact I|repeat split; auto|].
  set (s := sort P _ (p :: q :: r)).
  assert (Ps : Permutation (p :: q :: r) s) by apply (sort_perm _ SO).
  assert (Ls : length s = S (S (length r))) by (rewrite <- (Permutation_length Ps); reflexivity).
  assert (Ss : StronglySorted (fun a b => coordN d (pos a) <= coordN d (pos b)) s).
  { apply (sort_ext_sorted _ (fun a => coordN d (pos a))). intros. apply kd_cmp_coord, D. }
  clearbody s.
  assert (K : (Nat.div2 (length s) < length s)%nat) by (apply div2_lt; lia).
  set (k := Nat.div2 (length s)) in *. clearbody k.
  destruct (nth_error s k) as [v|] eqn:E; [|exact I].
  rewrite (split_at _ _ _ E) in Ss. apply sorted_split in Ss. destruct Ss as [Sl Sr].
  cbn [length] in L.
  assert (L1 : (length (firstn k s) <= f)%nat) by (rewrite firstn_length; lia).
  assert (L2 : (length (skipn (S k) s) <= f)%nat) by (rewrite skipn_length; lia).
  split; [exact D|]. split; [apply IH, L1|]. split; [apply IH, L2|].
  split; [apply (Forall_perm _ _ _ (kd_new_perm pos sort SO f (d + 1)%N _ L1) Sl)|
          apply (Forall_perm _ _ _ (kd_new_perm pos sort SO f (d + 1)%N _ L2) Sr)].
Qed.

Lemma nsq_R (a : T RN) : nsq a = a ^ 2.
Proof. unfold nsq. cbn. ring. Qed.
Lemma sqr_dist_R (p q : pt3 RN) : sqr_dist_3d p q = sqd3 p q.
Proof. unfold sqr_dist_3d, sqd3. rewrite !nsq_R. reflexivity. Qed.
Lemma dist_R (p q : pt3 RN) : dist_3d p q = sqrt (sqd3 p q).
Proof. unfold dist_3d. rewrite sqr_dist_R. reflexivity. Qed.
Lemma sqd3_nonneg (p q : pt3 RN) : 0 <= sqd3 p q.
Proof. unfold sqd3. pose proof (pow2_ge_0 (px p - px q)). pose proof (pow2_ge_0 (py p - py q)). pose proof (pow2_ge_0 (pz p - pz q)). lra. Qed.
Lemma coord_le_dist d (p q : pt3 RN) : Rabs (coordN d p - coordN d q) <= sqrt (sqd3 p q).
Proof.
  assert (H : (coordN d p - coordN d q)^2 <= sqd3 p q).
  { unfold sqd3. pose proof (pow2_ge_0 (px p - px q)). pose proof (pow2_ge_0 (py p - py q)). pose proof (pow2_ge_0 (pz p - pz q)).
    destruct d as [|[]]; cbn [coordN]; rcbn; lra. }
  rewrite <- sqrt_Rsqr_abs. apply sqrt_le_1_alt. unfold Rsqr. cbn in *. lra.
Qed.
Lemma comp_R d (a b : pt3 RN) : (d = 0 \/ d = 1)%N ->
  (dimension_compare a b d = Ok Lt /\ coordN d a < coordN d b) \/
  ((dimension_compare a b d = Ok Eq \/ dimension_compare a b d = Ok Gt) /\ coordN d b <= coordN d a).
Proof.
  intros [->| ->]; cbn [dimension_compare coordN].
  - destruct (Rcmp_cases (px a) (px b)) as [[-> H]|[[-> H]|[-> H]]]; [left|right|right]; split; auto; lra.
  - destruct (Rcmp_cases (py a) (py b)) as [[-> H]|[[-> H]|[-> H]]]; [left|right|right]; split; auto; lra.
Qed.

Lemma sphere_prune s t : kd_inv t ->
  prune_ok (sph_test pos s) (fun v d => dimension_compare (sph_center s) (pos v) d)
    (fun v d => nleb (nsub (sph_coord d s) (sph_radius s)) (coordN d (pos v)))
    (fun v d => ngeb (nadd (sph_coord d s) (sph_radius s)) (coordN d (pos v))) t.
Proof.
  induction t as [|l IHl v r IHr d]; cbn [kd_inv prune_ok]; [auto|].
  intros (D & Il & Ir & Fl & Fr). split; [auto|]. split; [auto|].
  assert (E : sph_coord d s = coordN d (sph_center s)) by (destruct D as [->| ->]; reflexivity).
  rewrite E.
  assert (X : (ngeb (nadd (coordN d (sph_center s)) (sph_radius s)) (coordN d (pos v)) = false ->
             Forall (fun p => sph_test pos s p = false) (elems r)) /\
             (nleb (nsub (coordN d (sph_center s)) (sph_radius s)) (coordN d (pos v)) = false ->
             Forall (fun p => sph_test pos s p = false) (elems l))).
  { split; intro H; rewrite Forall_forall in *; intros p Hp; unfold sph_test; rewrite dist_R;
      pose proof (coord_le_dist d (sph_center s) (pos p)) as Q.
    - revert H. destruct (R_geb_spec (nadd (coordN d (sph_center s)) (sph_radius s)) (coordN d (pos v))) as [|H]; [discriminate|intros _].
      destruct (R_leb_spec (sqrt (sqd3 (sph_center s) (pos p))) (sph_radius s)) as [Y|]; [exfalso|reflexivity].
      specialize (Fr p Hp). cbn in *. apply Rabs_le_between in Q || (unfold Rabs in Q; destruct (Rcase_abs _)); lra.
    - revert H. destruct (R_leb_spec (nsub (coordN d (sph_center s)) (sph_radius s)) (coordN d (pos v))) as [|H]; [discriminate|intros _].
      destruct (R_leb_spec (sqrt (sqd3 (sph_center s) (pos p))) (sph_radius s)) as [Y|]; [exfalso|reflexivity].
      specialize (Fl p Hp). cbn in *. apply Rabs_le_between in Q || (unfold Rabs in Q; destruct (Rcase_abs _)); lra. }
  destruct (comp_R d (sph_center s) (pos v) D) as [[-> _]|[[-> | ->] _]]; tauto.
Qed.
Lemma box_prune b t : kd_inv t ->
  prune_ok (box_test pos b) (fun v d => dimension_compare (box_center b) (pos v) d)
    (fun v d => nleb (nsub (coordN d (box_center b)) (nmul nhalf (box_size d b))) (coordN d (pos v)))
    (fun v d => ngeb (nadd (coordN d (box_center b)) (nmul nhalf (box_size d b))) (coordN d (pos v))) t.
Proof.
  induction t as [|l IHl v r IHr d]; cbn [kd_inv prune_ok]; [auto|].
  intros (D & Il & Ir & Fl & Fr). split; [auto|]. split; [auto|].
  assert (BT : forall p, box_test pos b p = true -> Rabs (coordN d (box_center b) - coordN d (pos p)) <= 1 / 2 * box_size d b).
  { intros p H. unfold box_test in H. rewrite !Bool.andb_true_iff in H. rewrite R_nhalf in H.
    rewrite !R_leb in H. destruct D as [->| ->]; cbn [coordN box_size]; cbn in H; tauto. }
  assert (X : (ngeb (nadd (coordN d (box_center b)) (nmul nhalf (box_size d b))) (coordN d (pos v)) = false ->
             Forall (fun p => box_test pos b p = false) (elems r)) /\
             (nleb (nsub (coordN d (box_center b)) (nmul nhalf (box_size d b))) (coordN d (pos v)) = false ->
             Forall (fun p => box_test pos b p = false) (elems l))).
  { rewrite R_nhalf. split; intro H; rewrite Forall_forall in *; intros p Hp;
      (destruct (box_test pos b p) eqn:Y; [exfalso|reflexivity]); specialize (BT p Y).
    - revert H. destruct (R_geb_spec (nadd (coordN d (box_center b)) (@nmul RN (1/2) (box_size d b))) (coordN d (pos v))) as [|H]; [discriminate|intros _].
      specialize (Fr p Hp). cbn in *. unfold Rabs in BT; destruct (Rcase_abs _); lra.
    - revert H. destruct (R_leb_spec (nsub (coordN d (box_center b)) (@nmul RN (1/2) (box_size d b))) (coordN d (pos v))) as [|H]; [discriminate|intros _].
      specialize (Fl p Hp). cbn in *. unfold Rabs in BT; destruct (Rcase_abs _); lra. }
  destruct (comp_R d (box_center b) (pos v) D) as [[-> _]|[[-> | ->] _]]; tauto.
Qed.

(** ** nearest *)
Definition sd (search : pt3 RN) (p : P) : R := sqd3 search (pos p).
Definition lastmin search (pc : list P) : Prop :=
  match last_opt pc with None => True | Some q => In q pc /\ forall p, In p pc -> sd search q <= sd search p end.
Lemma last_opt_snoc (l : list P) x : last_opt (l ++ [x]) = Some x.
Proof. unfold last_opt. destruct l as [|a l]; [reflexivity|]. cbn [app]. change (a :: l ++ [x]) with ((a :: l) ++ [x]). now rewrite last_last. Qed.
Lemma sal_min search (pc : list P) : pc <> [] -> lastmin search pc ->
  exists m, kd_sort_and_limit pos sort search 1 pc = [m] /\ In m pc /\ forall p, In p pc -> sd search m <= sd search p.
Proof.
  intros NE LM. unfold kd_sort_and_limit. destruct (Nat.ltb_spec 1 (length pc)) as [L|L].
  - set (s := sort P _ pc). assert (Ps : Permutation pc s) by apply (sort_perm _ SO).
    assert (Ss : StronglySorted (fun a b => sd search a <= sd search b) s).
    { apply (sort_ext_sorted _ (sd search)). intros. unfold sd. rewrite !sqr_dist_R. reflexivity. }
    clearbody s. destruct s as [|m r].
    + apply Permutation_length in Ps. cbn in Ps. lia.
    + exists m. cbn [firstn]. split; [reflexivity|].
      split; [apply (Permutation_in _ (Permutation_sym Ps)); left; reflexivity|].
      intros p Hp. apply (Permutation_in _ Ps) in Hp. inversion Ss as [|? ? _ F]; subst.
      destruct Hp as [<-|Hp]; [lra|]. rewrite Forall_forall in F. auto.
  - destruct pc as [|m [|? ?]]; [congruence| |cbn in L; lia].
    exists m. split; [reflexivity|]. split; [left; reflexivity|]. intros p [<-|[]]. lra.
Qed.
Lemma sqrt_sd_lt a b : 0 <= a -> sqrt a < sqrt b -> a < b.
Proof. intros A H. apply sqrt_lt_0_alt. exact H. Qed.
Lemma nearest_inv search t : kd_inv t -> t <> KNone -> forall pc, lastmin search pc ->
  exists m, kd_knearest pos sort search 1 t pc = Ok [m] /\ In m (pc ++ elems t) /\
    forall p, In p (pc ++ elems t) -> sd search m <= sd search p.
Proof.
  induction t as [|l IHl v r IHr d]; [congruence|]. intros (D & Il & Ir & Fl & Fr) _ pc LM.
  cbn [kd_knearest elems].
  assert (H1 : exists pc1, (if (length pc <? 1)%nat then Ok (pc ++ [v])
             else match last_opt pc with
                  | None => Panic
                  | Some q => if nltb (sqr_dist_3d search (pos v)) (sqr_dist_3d search (pos q))
                              then Ok (pc ++ [v]) else Ok pc
                  end) = (Ok pc1 : res (list P)) /\ pc1 <> [] /\ lastmin search pc1 /\
                  (forall p, In p pc1 -> In p (pc ++ [v])) /\
                  forall p, In p (pc ++ [v]) -> exists q, In q pc1 /\ sd search q <= sd search p).
  { assert (NEv : pc ++ [v] <> []) by (destruct pc; discriminate).
    destruct (Nat.ltb_spec (length pc) 1) as [L|L].
    - destruct pc; [|cbn in L; lia]. exists [v]. split; [reflexivity|]. split; [discriminate|].
      split; [split; [left; reflexivity|intros p [<-|[]]; apply Rle_refl]|]. split; [auto|].
      intros p Hp; exists p; split; [exact Hp|lra].
    - assert (NE : pc <> []) by (destruct pc; [cbn in L; lia|discriminate]).
      destruct (last_opt_some pc NE) as (q & Eq & _). unfold lastmin in LM. rewrite Eq in *. destruct LM as [Iq Mq].
      rewrite !sqr_dist_R. fold (sd search v) (sd search q).
      destruct (R_ltb_spec (sd search v) (sd search q)) as [H|H].
      + exists (pc ++ [v]). split; [reflexivity|]. split; [exact NEv|]. split.
        * unfold lastmin. rewrite last_opt_snoc. split; [apply in_or_app; right; left; reflexivity|].
          intros p Hp. apply in_app_or in Hp. destruct Hp as [Hp|[<-|[]]]; [specialize (Mq p Hp); lra|lra].
        * split; [auto|]. intros p Hp; exists p; split; [exact Hp|lra].
      + exists pc. split; [reflexivity|]. split; [exact NE|]. split.
        * unfold lastmin. rewrite Eq. auto.
        * split; [intros; apply in_or_app; auto|]. intros p Hp. apply in_app_or in Hp.
          destruct Hp as [Hp|[<-|[]]]; [exists p; split; [auto|lra]|exists q; split; [auto|lra]]. }
  destruct H1 as (pc1 & -> & NE1 & LM1 & Sub1 & Cov1). cbn [obind].
  assert (G : forall a b, (forall p, In p (elems a ++ elems b) <-> In p (elems l ++ elems r)) ->
      (a <> KNone -> forall pc, lastmin search pc -> exists m, kd_knearest pos sort search 1 a pc = Ok [m] /\ In m (pc ++ elems a) /\
         forall p, In p (pc ++ elems a) -> sd search m <= sd search p) ->
      (b <> KNone -> forall pc, lastmin search pc -> exists m, kd_knearest pos sort search 1 b pc = Ok [m] /\ In m (pc ++ elems b) /\
         forall p, In p (pc ++ elems b) -> sd search m <= sd search p) ->
      exists pc2, kd_knearest pos sort search 1 a pc1 = Ok pc2 /\
        exists m, kd_sort_and_limit pos sort search 1 pc2 = [m] /\
        forall far : bool, (far = false -> forall p, In p (elems b) -> sd search m <= sd search p) ->
        exists m', obind (if (length [m] <? 1)%nat || far then kd_knearest pos sort search 1 b [m] else Ok [m])
            (fun pc => Ok (kd_sort_and_limit pos sort search 1 pc)) = Ok [m'] /\
          In m' (pc ++ elems l ++ v :: elems r) /\
          forall p, In p (pc ++ elems l ++ v :: elems r) -> sd search m' <= sd search p).
  { intros a b AB Ha Hb.
    assert (H2 : exists pc2, kd_knearest pos sort search 1 a pc1 = Ok pc2 /\ pc2 <> [] /\ lastmin search pc2 /\
        (forall p, In p pc2 -> In p (pc ++ v :: elems a)) /\
        (forall p, In p (pc ++ v :: elems a) -> exists q, In q pc2 /\ sd search q <= sd search p)).
    { destruct a as [|al av ar ad].
      - exists pc1. split; [reflexivity|]. auto.
      - destruct (Ha ltac:(discriminate) pc1 LM1) as (m & E & Im & Mm). exists [m]. split; [exact E|]. split; [discriminate|].
        split; [split; [left; reflexivity|intros p [<-|[]]; apply Rle_refl]|]. split.
        + intros p [<-|[]]. apply in_app_or in Im. rewrite in_app_iff. cbn [In].
          destruct Im as [Im|Im]; [apply Sub1 in Im; apply in_app_or in Im; destruct Im as [Im|[<-|[]]]; auto|auto].
        + intros p Hp. exists m. split; [left; reflexivity|].
          rewrite in_app_iff in Hp. cbn [In] in Hp.
          assert (Q : In p (pc ++ [v]) \/ In p (elems (KNode al av ar ad))) by (clear - Hp; rewrite in_app_iff; cbn [In]; tauto).
          destruct Q as [Q|Q].
          * destruct (Cov1 p Q) as (q & Hq & Lq). specialize (Mm q). rewrite in_app_iff in Mm. specialize (Mm (or_introl Hq)). lra.
          * apply Mm. rewrite in_app_iff. auto. }
    destruct H2 as (pc2 & E2 & NE2 & LM2 & Sub2 & Cov2). exists pc2. split; [exact E2|].
    destruct (sal_min search pc2 NE2 LM2) as (m & Em & Im & Mm). exists m. split; [exact Em|].
    assert (Cm : forall p, In p (pc ++ v :: elems a) -> sd search m <= sd search p).
    { intros p Hp. destruct (Cov2 p Hp) as (q & Hq & Lq). specialize (Mm q Hq). lra. }
    assert (Inm : In m (pc ++ v :: elems a)) by auto.
    assert (AL : forall p, In p (pc ++ elems l ++ v :: elems r) <-> In p (pc ++ v :: elems a) \/ In p (elems b)).
    { clear - AB. intro p. specialize (AB p). rewrite !in_app_iff in *. cbn [In] in *. tauto. }
    intros far Hfar. cbn [length Nat.ltb Nat.leb orb]. destruct far.
    - destruct b as [|bl bv br bd].
      + cbn [kd_knearest obind]. exists m. split; [reflexivity|]. split; [apply AL; auto|].
        intros p Hp. apply AL in Hp. destruct Hp as [Hp|[]]. auto.
      + destruct (Hb ltac:(discriminate) [m]) as (m' & E' & Im' & Mm').
        { split; [left; reflexivity|intros p [<-|[]]; apply Rle_refl]. }
        rewrite E'. cbn [obind]. exists m'. split; [reflexivity|]. split.
        * apply AL. destruct Im' as [<-|Im']; auto.
        * intros p Hp. apply AL in Hp. destruct Hp as [Hp|Hp]; [|apply Mm'; right; exact Hp].
          specialize (Mm' m (or_introl eq_refl)). specialize (Cm p Hp). lra.
    - cbn [obind]. exists m. split; [reflexivity|]. split; [apply AL; auto|].
      intros p Hp. apply AL in Hp. destruct Hp as [Hp|Hp]; auto. }
  assert (EC : (match d with 0%N => (px search, px (pos v)) | 1%N => (py search, py (pos v)) | _ => (pz search, pz (pos v)) end)
     = (coordN d search, coordN d (pos v))) by (destruct d as [|[]]; reflexivity).
  rewrite EC.
  assert (Far : forall m p, sqrt (sd search m) < Rabs (coordN d search - coordN d (pos p)) -> sd search m <= sd search p).
  { intros m p H. pose proof (coord_le_dist d search (pos p)). apply Rlt_le, sqrt_lt_0_alt.
    unfold sd at 2. lra. }
  destruct (comp_R d search (pos v) D) as [[-> Hc]|[Hcase Hc]].
  - destruct (G l r ltac:(intro; reflexivity) (IHl Il) (IHr Ir)) as (pc2 & -> & m & Em & Gm). cbn [obind]. rewrite Em.
    cbn [last_opt last]. apply Gm. intros Hf p Hp.
    revert Hf. rewrite dist_R. fold (sd search m).
    destruct (R_geb_spec (nadd (coordN d search) (sqrt (sd search m))) (coordN d (pos v))) as [|H]; [discriminate|intros _].
    apply Far. rewrite Forall_forall in Fr. specialize (Fr p Hp). cbn in *.
    unfold Rabs. destruct (Rcase_abs _); lra.
  - destruct (G r l ltac:(intro; rewrite !in_app_iff; tauto) (IHr Ir) (IHl Il)) as (pc2 & E2 & m & Em & Gm).
    assert (X : exists m', obind (if (length [m] <? 1)%nat || nleb (nsub (coordN d search) (dist_3d search (pos m))) (coordN d (pos v))
            then kd_knearest pos sort search 1 l [m] else Ok [m])
            (fun pc => Ok (kd_sort_and_limit pos sort search 1 pc)) = Ok [m'] /\
          In m' (pc ++ elems l ++ v :: elems r) /\
          forall p, In p (pc ++ elems l ++ v :: elems r) -> sd search m' <= sd search p).
    { apply Gm. intros Hf p Hp.
      revert Hf. rewrite dist_R. fold (sd search m).
      destruct (R_leb_spec (nsub (coordN d search) (sqrt (sd search m))) (coordN d (pos v))) as [|H]; [discriminate|intros _].
      apply Far. rewrite Forall_forall in Fl. specialize (Fl p Hp). cbn in *.
      unfold Rabs. destruct (Rcase_abs _); lra. }
    destruct Hcase as [-> | ->]; rewrite E2; cbn [obind]; rewrite Em; cbn [last_opt last]; exact X.
Qed.
End Real.
