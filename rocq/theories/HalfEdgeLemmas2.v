From Verif Require Import Base BaseLemmas MeshModel HalfEdgeModel HalfEdgeSpec HalfEdgeLemmas.
From Coq Require Import FinFun ZifyBool ZifyNat ZifyN.
Ltac Zify.zify_post_hook ::= Z.div_mod_to_equations.
Local Open Scope N_scope.

Section L.
  Context {P : Type}.

  Definition option_eq_dec {A} (dec : forall x y : A, {x = y} + {x <> y}) (a b : option A) : {a = b} + {a <> b}.
  Proof. decide equality. Defined.

  (** Everything known about the half edges of a mesh. *)
  Record he_of (m : mesh P) (s : smesh P) : Prop := {
    ho_mesh : smesh_mesh s = m;
    ho_tails : tails (smesh_he s) = used m;
    ho_vse : vse (smesh_he s) = app_all [] (idx (used m) 0);
    ho_mod : edge_mod (smesh_he s);
    ho_len : lenN (tails (smesh_he s)) = 3 * num_faces m;
    ho_twin : forall e hd, e < lenN (tails (smesh_he s)) -> headv (smesh_he s) e = Some hd ->
       he_twin (smesh_he s) e = cand_of (smesh_he s) e (fst (he_edges_originating (smesh_he s) hd [])) None }.

  Lemma smesh_new_ok (m : mesh P) : fits m -> exists s, smesh_new m = Ok s /\ he_of m s.
  Proof.
    intros H. destruct (he_new_spec m H) as (h & E & A & B & C & D & F).
    exists (SMesh m h). split; [unfold smesh_new; rewrite E; reflexivity|]. constructor; auto.
  Qed.

  Lemma smesh_he_of (m : mesh P) s : fits m -> smesh_new m = Ok s -> he_of m s.
  Proof. intros H E. destruct (smesh_new_ok m H) as (s' & E' & Hh). congruence. Qed.

  Section With.
    Variables (m : mesh P) (s : smesh P).
    Hypothesis Hh : he_of m s.

    Lemma ne_len : num_edges s = lenN (tails (smesh_he s)).
    Proof. unfold num_edges. rewrite (ho_mesh _ _ Hh), (ho_len _ _ Hh). lia. Qed.

    Lemma tail_nth e : edge_tail s e = nthN (tails (smesh_he s)) e.
    Proof.
      unfold edge_tail, he_tail, he_edge_ok. destruct (N.ltb_spec e (lenN (tails (smesh_he s)))); [reflexivity|].
      symmetry. now apply nthN_None_ge.
    Qed.

    Lemma tail_lt e a : edge_tail s e = Some a -> e < num_edges s.
    Proof. rewrite tail_nth, ne_len. apply nthN_Some_lt. Qed.

    Lemma head_headv e : edge_head s e = headv (smesh_he s) e.
    Proof.
      unfold edge_head, headv. destruct (he_next (smesh_he s) e) as [n|] eqn:E; [|reflexivity].
      change (he_tail (smesh_he s) n) with (edge_tail s n). apply tail_nth.
    Qed.

    Lemma tail_some e : e < num_edges s -> exists a, edge_tail s e = Some a.
    Proof. rewrite tail_nth, ne_len. apply nthN_lt_Some. Qed.

    Lemma head_some e : e < num_edges s -> exists a, edge_head s e = Some a.
    Proof.
      intros He. rewrite ne_len in He. destruct (next_prev _ _ (ho_mod _ _ Hh) He) as (n & A & B & _).
      unfold edge_head. rewrite A. apply tail_some. now rewrite ne_len.
    Qed.

    Lemma head_lt e a : edge_head s e = Some a -> e < num_edges s.
    Proof.
      unfold edge_head, he_next, he_edge_ok. rewrite ne_len.
      destruct (N.ltb_spec e (lenN (tails (smesh_he s)))); [auto|discriminate].
    Qed.

    (** C05 *)
    Lemma topo :
      num_edges s = 3 * num_faces m /\
      (forall e, e < num_edges s -> exists n p f,
          edge_next s e = Some n /\ edge_prev s e = Some p /\ n < num_edges s /\ p < num_edges s /\
          edge_prev s n = Some e /\ edge_next s p = Some e /\ edge_next s n = Some p /\ n <> e /\ p <> e /\
          edge_face s e = Some f /\ edge_face s n = Some f /\ edge_face s p = Some f /\ f < num_faces m) /\
      (forall e, num_edges s <= e ->
          edge_next s e = None /\ edge_prev s e = None /\ edge_face s e = None /\
          edge_tail s e = None /\ edge_head s e = None /\ edge_twin s e = None) /\
      (forall f, f < num_faces m -> exists a b c,
          edges_of_face s f = Some (a, b, c) /\ edge_next s a = Some b /\ edge_next s b = Some c /\
          edge_next s c = Some a /\ forall e, edge_face s e = Some f <-> (e = a \/ e = b \/ e = c)) /\
      (forall f, num_faces m <= f -> edges_of_face s f = None).
    Proof.
      pose proof (ho_len _ _ Hh) as Hl. pose proof (ho_mod _ _ Hh) as Hm. pose proof ne_len as Hn.
      assert (Hfc : forall e, e < num_edges s -> edge_face s e = Some (e / 3)).
      { intros e He. unfold edge_face, he_face, he_edge_ok. destruct (N.ltb_spec e (lenN (tails (smesh_he s)))); [reflexivity|lia]. }
      split; [lia|]. split; [|split; [|split]].
      - intros e He. rewrite Hn in He.
        destruct (next_prev _ _ Hm He) as (n & A & B & C & D).
        destruct (prev_next _ _ Hm He) as (p & A' & B' & C' & D').
        destruct (next3 _ _ Hm He) as (a & b & E1 & E2 & E3).
        exists n, p, (e / 3). unfold edge_next, edge_prev. rewrite Hn.
        assert (a = n) by congruence. subst a.
        assert (b = p).
        { destruct (next_prev _ b Hm) as (x & X1 & X2 & X3 & X4). { eapply next_lt; eassumption. }
          rewrite E3 in X1. injection X1 as <-. congruence. }
        subst b. rewrite !Hfc by lia. rewrite D, D'.
        assert (n <> e). { intros ->. unfold he_next, he_edge_ok in A. destruct (e <? lenN (tails (smesh_he s))); [|discriminate].
          destruct (N.eqb_spec (e mod 3) 2); injection A; lia. }
        assert (p <> e). { intros ->. congruence. }
        repeat match goal with |- _ /\ _ => split end; try assumption; try reflexivity; try lia.
      - intros e He. unfold edge_next, edge_prev, edge_face, edge_tail, edge_head, edge_twin, he_next, he_prev, he_face, he_tail, he_twin, he_edge_ok.
        destruct (N.ltb_spec e (lenN (tails (smesh_he s)))); [lia|]. repeat split.
      - intros f Hf. unfold edges_of_face. rewrite (ho_mesh _ _ Hh).
        destruct (N.leb_spec (num_faces m) f); [lia|].
        exists (f * 3 + 0), (f * 3 + 1), (f * 3 + 2). split; [reflexivity|].
        unfold edge_next, he_next, he_edge_ok. rewrite Hl.
        destruct (N.ltb_spec (f * 3 + 0) (3 * num_faces m)); [|lia].
        destruct (N.ltb_spec (f * 3 + 1) (3 * num_faces m)); [|lia].
        destruct (N.ltb_spec (f * 3 + 2) (3 * num_faces m)); [|lia].
        destruct (N.eqb_spec ((f * 3 + 0) mod 3) 2); [lia|].
        destruct (N.eqb_spec ((f * 3 + 1) mod 3) 2); [lia|].
        destruct (N.eqb_spec ((f * 3 + 2) mod 3) 2); [|lia].
        split; [f_equal; lia|]. split; [f_equal; lia|]. split; [f_equal; lia|].
        intros e'. unfold edge_face, he_face, he_edge_ok. rewrite Hl.
        destruct (N.ltb_spec e' (3 * num_faces m)).
        + split; [intros E; injection E; lia|intros E; f_equal; lia].
        + split; [discriminate|lia].
      - intros f Hf. unfold edges_of_face. rewrite (ho_mesh _ _ Hh).
        destruct (N.leb_spec (num_faces m) f); [reflexivity|lia].
    Qed.

    (** C06 *)
    Lemma used_nth f a b c : fits m -> f < num_faces m -> face_vertex_ids m f = Ok (Some (a, b, c)) ->
      edge_tail s (f * 3 + 0) = Some a /\ edge_tail s (f * 3 + 1) = Some b /\ edge_tail s (f * 3 + 2) = Some c.
    Proof.
      intros Hfit Hf E. destruct (fvi_lt m f Hfit Hf) as (a' & b' & c' & E' & Hs).
      rewrite E in E'. injection E' as <- <- <-.
      rewrite !tail_nth, (ho_tails _ _ Hh), !nthN_nth_error. unfold used.
      assert (Hk : forall k x, (k < 3)%nat -> nth_error [a; b; c] k = Some x ->
                nth_error (firstn (3 * (length (topology m) / 3)) (topology m)) (3 * N.to_nat f + k) = Some x).
      { intros k x Hk Hx. unfold num_faces, lenN in Hf.
        rewrite <- Hs in Hx.
        assert (F : forall (l : list N) i j, (i < j)%nat -> nth_error (firstn j l) i = nth_error l i).
        { clear. intros l i j; revert l i; induction j as [|j IH]; intros l i Hi; [lia|].
          destruct l as [|x l]; [reflexivity|]. destruct i; [reflexivity|]. cbn. apply IH; lia. }
        assert (G : forall (l : list N) i j, nth_error (skipn j l) i = nth_error l (j + i)).
        { clear. intros l i j; revert l; induction j as [|j IH]; intros l; [reflexivity|].
          destruct l as [|x l]; [destruct i; reflexivity|]. cbn. apply IH. }
        rewrite F in Hx by exact Hk. rewrite G in Hx. rewrite F; [exact Hx|]. lia. }
      replace (N.to_nat (f * 3 + 0)) with (3 * N.to_nat f + 0)%nat by lia.
      replace (N.to_nat (f * 3 + 1)) with (3 * N.to_nat f + 1)%nat by lia.
      replace (N.to_nat (f * 3 + 2)) with (3 * N.to_nat f + 2)%nat by lia.
      repeat split; apply Hk; try lia; reflexivity.
    Qed.

    Lemma face_edges f a b c : fits m -> f < num_faces m -> face_vertex_ids m f = Ok (Some (a, b, c)) ->
      exists e1 e2 e3, edges_of_face s f = Some (e1, e2, e3) /\
        edge_tail s e1 = Some a /\ edge_head s e1 = Some b /\
        edge_tail s e2 = Some b /\ edge_head s e2 = Some c /\
        edge_tail s e3 = Some c /\ edge_head s e3 = Some a.
    Proof.
      intros Hfit Hf E. destruct (used_nth f a b c Hfit Hf E) as (A & B & C).
      destruct topo as (_ & _ & _ & T & _). destruct (T f Hf) as (e1 & e2 & e3 & E1 & N1 & N2 & N3 & _).
      exists e1, e2, e3. split; [exact E1|]. unfold edges_of_face in E1. rewrite (ho_mesh _ _ Hh) in E1.
      destruct (N.leb_spec (num_faces m) f); [lia|]. injection E1 as <- <- <-.
      unfold edge_head, edge_next in *. rewrite N1, N2, N3.
      repeat (split; [assumption|]). assumption.
    Qed.

    (** C07 *)
    Definition starts (v e : N) : bool := match edge_tail s e with Some w => w =? v | None => false end.

    Lemma map_fst_filter {A B} (g : B -> bool) (h : A -> bool) (L : list (A * B)) :
      (forall a b, In (a, b) L -> g b = h a) ->
      map fst (filter (fun '(a, b) => g b) L) = filter h (map fst L).
    Proof.
      induction L as [|[a b] L IH]; intros H; [reflexivity|]. cbn [filter map fst].
      rewrite <- (H a b (or_introl eq_refl)). destruct (g b); cbn [map fst]; rewrite IH; auto; intros; apply H; now right.
    Qed.

    Lemma idx_In l : forall k e t, In (e, t) (idx l k) -> k <= e /\ nthN l (e - k) = Some t.
    Proof.
      induction l as [|x l IH]; intros k e t H; [destruct H|]. rewrite idx_cons in H. destruct H as [H|H].
      - injection H as <- <-. split; [lia|]. now rewrite N.sub_diag.
      - destruct (IH _ _ _ H) as [A B]. split; [lia|]. cbn [nthN]. destruct (N.eqb_spec (e - k) 0); [lia|].
        now replace (e - k - 1) with (e - (k + 1)) by lia.
    Qed.

    Lemma idx_In_conv l e t : nthN l e = Some t -> In (e, t) (idx l 0).
    Proof.
      intros H. enough (G : forall k, In (k + e, t) (idx l k)) by (apply (G 0)).
      revert e H. induction l as [|x l IH]; intros e H k; [discriminate|]. rewrite idx_cons. cbn [nthN] in H.
      destruct (N.eqb_spec e 0) as [He|Hne].
      - injection H as ->. left. f_equal; lia.
      - right. replace (k + e) with ((k + 1) + (e - 1)) by lia. now apply IH.
    Qed.

    Lemma idx_fst l k : map fst (idx l k) = map (fun i => k + N.of_nat i) (seq 0 (length l)).
    Proof.
      revert k; induction l as [|x l IH]; intros k; [reflexivity|]. rewrite idx_cons. cbn [map fst length seq].
      f_equal; [lia|]. rewrite IH, <- seq_shift, map_map. apply map_ext; intros; lia.
    Qed.

    Lemma edge_ids_used : edge_ids s = map fst (idx (used m) 0).
    Proof.
      rewrite idx_fst. unfold edge_ids. rewrite ne_len, (ho_tails _ _ Hh). unfold lenN. rewrite Nat2N.id.
      apply map_ext; intros; lia.
    Qed.

    Lemma covered_iff v : existsb (fun '(_, t) => v <=? t) (idx (used m) 0) = true <-> covered s v.
    Proof.
      rewrite existsb_exists. unfold covered. split.
      - intros ([e t] & Hin & Hle). exists e, t. rewrite tail_nth, (ho_tails _ _ Hh).
        destruct (idx_In _ _ _ _ Hin) as [_ A]. rewrite N.sub_0_r in A. split; [exact A|lia].
      - intros (e & w & A & B). exists (e, w). rewrite tail_nth, (ho_tails _ _ Hh) in A. split; [now apply idx_In_conv|lia].
    Qed.

    Lemma originating v res :
      (covered s v -> edges_originating_from_vertex s v res = (res ++ filter (starts v) (edge_ids s), Ok tt)) /\
      (~ covered s v -> edges_originating_from_vertex s v res = (res, Err IncorrectVertexID)).
    Proof.
      unfold edges_originating_from_vertex, he_edges_originating.
      rewrite (ho_vse _ _ Hh), app_all_nth. pose proof (covered_iff v) as Hc.
      destruct (existsb (fun '(_, t) => v <=? t) (idx (used m) 0)).
      - split; [|intros H; exfalso; apply H, Hc; reflexivity]. intros _. do 2 f_equal.
        rewrite edge_ids_used. apply map_fst_filter. intros e t Hin.
        destruct (idx_In _ _ _ _ Hin) as [_ A]. rewrite N.sub_0_r in A.
        unfold starts. rewrite tail_nth, (ho_tails _ _ Hh), A. reflexivity.
      - split; [intros H; apply Hc in H; discriminate|reflexivity].
    Qed.

    Lemma In_edge_ids e : In e (edge_ids s) <-> e < num_edges s.
    Proof.
      unfold edge_ids. rewrite in_map_iff. split.
      - intros (i & <- & H). apply in_seq in H. lia.
      - intros H. exists (N.to_nat e). split; [lia|]. apply in_seq. lia.
    Qed.

    Lemma NoDup_edge_ids : NoDup (edge_ids s).
    Proof.
      unfold edge_ids. apply FinFun.Injective_map_NoDup; [|apply seq_NoDup]. intros x y H; lia.
    Qed.

    Lemma In_starts v e : In e (filter (starts v) (edge_ids s)) <-> edge_tail s e = Some v.
    Proof.
      rewrite filter_In, In_edge_ids. unfold starts. split.
      - intros [_ H]. destruct (edge_tail s e); [|discriminate]. f_equal; lia.
      - intros H. split; [eapply tail_lt; eassumption|]. rewrite H. apply N.eqb_refl.
    Qed.

    (** prev / next as total functions on valid ids *)
    Lemma fold_push_opt (f : N -> option N) l res g :
      (forall e, In e l -> f e = Some (g e)) ->
      fold_left (fun r e => push_opt r (f e)) l res = res ++ map g l.
    Proof.
      revert res; induction l as [|e l IH]; intros res H; cbn [fold_left map]; [now rewrite app_nil_r|].
      rewrite (H e (or_introl eq_refl)). cbn [push_opt]. rewrite IH by (intros; apply H; now right).
      now rewrite <- app_assoc.
    Qed.

    Definition prevf (e : N) : N := match edge_prev s e with Some p => p | None => 0 end.

    Lemma prevf_ok e : e < num_edges s -> edge_prev s e = Some (prevf e) /\ edge_next s (prevf e) = Some e /\ prevf e < num_edges s.
    Proof.
      intros He. destruct topo as (_ & T & _). destruct (T e He) as (n & p & f & A & B & C & D & E & F & _).
      unfold prevf. rewrite B. auto.
    Qed.

    Lemma head_prevf e v : e < num_edges s -> (edge_head s (prevf e) = Some v <-> edge_tail s e = Some v).
    Proof.
      intros He. destruct (prevf_ok e He) as (A & B & C). unfold edge_head, edge_next in *. rewrite B. reflexivity.
    Qed.

    Lemma ends_prevf v e : edge_head s e = Some v -> exists o, edge_tail s o = Some v /\ prevf o = e.
    Proof.
      intros H. pose proof (head_lt _ _ H) as He. destruct topo as (_ & T & _).
      destruct (T e He) as (n & p & f & A & B & C & D & E & F & _).
      exists n. unfold prevf. rewrite E. split; [|reflexivity]. unfold edge_head, edge_next in *. rewrite A in H. exact H.
    Qed.

    Lemma prevf_inj e e' : e < num_edges s -> e' < num_edges s -> prevf e = prevf e' -> e = e'.
    Proof.
      intros He He' H. destruct (prevf_ok e He) as (A & B & C). destruct (prevf_ok e' He') as (A' & B' & C'). congruence.
    Qed.

    Lemma NoDup_map_inj {A B} (f : A -> B) l : NoDup l -> (forall x y, In x l -> In y l -> f x = f y -> x = y) -> NoDup (map f l).
    Proof.
      induction 1 as [|x l Hx Hl IH]; intros Hi; cbn [map]; constructor.
      - rewrite in_map_iff. intros (y & E & Hy). apply Hx. rewrite <- (Hi y x); auto; [now right|now left].
      - apply IH. intros; apply Hi; auto; now right.
    Qed.

    Lemma orig_lt v e : In e (filter (starts v) (edge_ids s)) -> e < num_edges s.
    Proof. rewrite filter_In, In_edge_ids. tauto. Qed.

    Lemma orig_eq v : covered s v -> he_edges_originating (smesh_he s) v [] = (filter (starts v) (edge_ids s), Ok tt).
    Proof. intros H. exact (proj1 (originating v []) H). Qed.

    Lemma orig_err v : ~ covered s v -> he_edges_originating (smesh_he s) v [] = ([], Err IncorrectVertexID).
    Proof. intros H. exact (proj2 (originating v []) H). Qed.

    Lemma ending v cache res :
      (covered s v -> exists l, edges_ending_at_vertex s v cache res = ((filter (starts v) (edge_ids s), res ++ l), Ok tt) /\
          NoDup l /\ forall e, In e l <-> edge_head s e = Some v) /\
      (~ covered s v -> edges_ending_at_vertex s v cache res = (([], res), Err IncorrectVertexID)).
    Proof.
      unfold edges_ending_at_vertex, he_edges_ending. split; intros Hc.
      - rewrite (orig_eq v Hc). eexists; split; [|split].
        + rewrite (fold_push_opt _ _ _ prevf); [reflexivity|]. intros e He. apply orig_lt in He. apply (prevf_ok e He).
        + apply NoDup_map_inj; [apply NoDup_filter, NoDup_edge_ids|].
          intros x y Hx Hy. apply prevf_inj; eapply orig_lt; eassumption.
        + intros e. rewrite in_map_iff. split.
          * intros (o & <- & Ho). apply head_prevf; [eapply orig_lt; eassumption|]. now apply In_starts.
          * intros H. destruct (ends_prevf v e H) as (o & A & B). exists o. split; [exact B|now apply In_starts].
      - rewrite (orig_err v Hc). reflexivity.
    Qed.

    Lemma count_NoDup (l : list N) e : NoDup l -> count_occ N.eq_dec l e = if in_dec N.eq_dec e l then 1%nat else 0%nat.
    Proof.
      intros H. destruct (in_dec N.eq_dec e l) as [Hi|Hi].
      - apply NoDup_count_occ' with (decA := N.eq_dec) in Hi; assumption.
      - now apply count_occ_not_In.
    Qed.

    Lemma fold_all l res : (forall e, In e l -> e < num_edges s) ->
      fold_left (fun r e => push_opt (r ++ [e]) (he_prev (smesh_he s) e)) l res = res ++ flat_map (fun e => [e; prevf e]) l.
    Proof.
      revert res; induction l as [|e l IH]; intros res H; cbn [fold_left flat_map]; [now rewrite app_nil_r|].
      destruct (prevf_ok e (H e (or_introl eq_refl))) as (A & _). unfold edge_prev in A. rewrite A. cbn [push_opt].
      rewrite IH by (intros; apply H; now right). rewrite <- !app_assoc. reflexivity.
    Qed.

    Lemma count_flat l e : count_occ N.eq_dec (flat_map (fun e => [e; prevf e]) l) e =
      (count_occ N.eq_dec l e + count_occ N.eq_dec (map prevf l) e)%nat.
    Proof.
      induction l as [|x l IH]; [reflexivity|]. cbn [flat_map map app].
      cbn [count_occ]. destruct (N.eq_dec x e), (N.eq_dec (prevf x) e); lia.
    Qed.

    Lemma all_edges v cache res :
      (covered s v -> exists l, edges_of_vertex s v cache res = ((filter (starts v) (edge_ids s), res ++ l), Ok tt) /\
          forall e, count_occ N.eq_dec l e =
             (is_v (edge_tail s e) v + is_v (edge_head s e) v)%nat) /\
      (~ covered s v -> edges_of_vertex s v cache res = (([], res), Err IncorrectVertexID)).
    Proof.
      unfold edges_of_vertex, he_edges_all. split; intros Hc.
      - rewrite (orig_eq v Hc). eexists; split.
        + rewrite fold_all; [reflexivity|apply orig_lt].
        + intros e. rewrite count_flat.
          rewrite (count_NoDup (filter _ _)) by (apply NoDup_filter, NoDup_edge_ids).
          rewrite count_NoDup.
          2:{ apply NoDup_map_inj; [apply NoDup_filter, NoDup_edge_ids|].
              intros x y Hx Hy. apply prevf_inj; eapply orig_lt; eassumption. }
          assert (Hisv : forall o, is_v o v = if option_eq_dec N.eq_dec o (Some v) then 1%nat else 0%nat).
          { intros [w|]; cbn [is_v]; [|destruct (option_eq_dec N.eq_dec None (Some v)); [discriminate|reflexivity]].
            destruct (N.eqb_spec w v), (option_eq_dec N.eq_dec (Some w) (Some v)); try reflexivity; congruence. }
          rewrite !Hisv. f_equal.
          * destruct (in_dec N.eq_dec e _) as [Hi|Hi], (option_eq_dec N.eq_dec _ _) as [Ht|Ht]; try reflexivity; exfalso.
            -- apply Ht. now apply In_starts.
            -- apply Hi. now apply In_starts.
          * destruct (in_dec N.eq_dec e _) as [Hi|Hi], (option_eq_dec N.eq_dec _ _) as [Ht|Ht]; try reflexivity; exfalso.
            -- apply Ht. apply in_map_iff in Hi as (o & <- & Ho). apply head_prevf; [eapply orig_lt; eassumption|]. now apply In_starts.
            -- apply Hi. destruct (ends_prevf v e Ht) as (o & A & B). apply in_map_iff. exists o. split; [exact B|now apply In_starts].
      - rewrite (orig_err v Hc). reflexivity.
    Qed.

    Lemma count_map_div (l : list N) f : count_occ N.eq_dec (map (fun e => e / 3) l) f = length (filter (fun e => e / 3 =? f) l).
    Proof.
      induction l as [|x l IH]; [reflexivity|]. cbn [map filter count_occ].
      destruct (N.eq_dec (x / 3) f) as [E|E], (N.eqb_spec (x / 3) f); try contradiction; cbn [length]; lia.
    Qed.

    Lemma filter_comm {A} (f g : A -> bool) l : filter f (filter g l) = filter g (filter f l).
    Proof.
      induction l as [|x l IH]; [reflexivity|]. cbn. destruct (f x) eqn:F, (g x) eqn:G; cbn; rewrite ?F, ?G, IH; reflexivity.
    Qed.

    Lemma filter_div f : f < num_faces m ->
      filter (fun e => e / 3 =? f) (edge_ids s) = [f * 3 + 0; f * 3 + 1; f * 3 + 2].
    Proof.
      intros Hf. unfold edge_ids. rewrite ne_len, (ho_len _ _ Hh).
      replace (N.to_nat (3 * num_faces m)) with ((3 * N.to_nat f) + (3 + (N.to_nat (3 * num_faces m) - 3 * N.to_nat f - 3)))%nat by lia.
      rewrite seq_app, seq_app, !map_app, !filter_app.
      assert (F : forall k n, (forall e, (k <= e < k + n)%nat -> (N.of_nat e) / 3 <> f) ->
                   filter (fun e => e / 3 =? f) (map N.of_nat (seq k n)) = []).
      { intros k n; revert k; induction n as [|n IH]; intros k H; [reflexivity|]. cbn [seq map filter].
        destruct (N.eqb_spec (N.of_nat k / 3) f) as [E|E]; [exfalso; eapply H; [|exact E]; lia|].
        apply IH. intros e He; apply H; lia. }
      rewrite (F 0%nat), (F _ (N.to_nat (3 * num_faces m) - 3 * N.to_nat f - 3)%nat); [|intros e He; lia|intros e He; lia].
      rewrite app_nil_r. cbn [app seq map filter plus].
      destruct (N.eqb_spec (N.of_nat (3 * N.to_nat f) / 3) f); [|lia].
      destruct (N.eqb_spec (N.of_nat (S (3 * N.to_nat f)) / 3) f); [|lia].
      destruct (N.eqb_spec (N.of_nat (S (S (3 * N.to_nat f))) / 3) f); [|lia].
      f_equal; [lia|f_equal; [lia|f_equal; lia]].
    Qed.

    Lemma faces_of v cache res : fits m ->
      (covered s v -> exists l, he_faces (smesh_he s) v cache res = ((filter (starts v) (edge_ids s), res ++ l), Ok tt) /\
          (forall f a b c, f < num_faces m -> face_vertex_ids m f = Ok (Some (a, b, c)) ->
             count_occ N.eq_dec l f = count_occ N.eq_dec [a; b; c] v) /\
          (forall f, In f l -> f < num_faces m)) /\
      (~ covered s v -> he_faces (smesh_he s) v cache res = (([], res), Err IncorrectVertexID)).
    Proof.
      intros Hfit. unfold he_faces. split; intros Hc.
      - rewrite (orig_eq v Hc). eexists; split; [|split].
        + rewrite (fold_push_opt _ _ _ (fun e => e / 3)); [reflexivity|].
          intros e He. apply orig_lt in He. rewrite ne_len in He. unfold he_face, he_edge_ok.
          destruct (N.ltb_spec e (lenN (tails (smesh_he s)))); [reflexivity|lia].
        + intros f a b c Hf E. rewrite count_map_div, filter_comm, filter_div by exact Hf.
          destruct (used_nth f a b c Hfit Hf E) as (A & B & C).
          cbn [filter count_occ]. unfold starts. rewrite A, B, C.
          destruct (N.eqb_spec a v), (N.eqb_spec b v), (N.eqb_spec c v), (N.eq_dec a v), (N.eq_dec b v), (N.eq_dec c v);
            try contradiction; reflexivity.
        + intros f Hf. apply in_map_iff in Hf as (e & <- & He). apply orig_lt in He.
          rewrite ne_len, (ho_len _ _ Hh) in He. lia.
      - rewrite (orig_err v Hc). reflexivity.
    Qed.

    (** C09 *)
    Lemma cand_spec e cache init :
      match cand_of (smesh_he s) e cache init with
      | Some c => init = Some c \/ exists o, In o cache /\ edge_next s o = Some c /\ edge_tail s c = edge_tail s e /\ edge_tail s e <> None
      | None => init = None /\ forall o c, In o cache -> edge_next s o = Some c -> edge_tail s c <> None -> edge_tail s c <> edge_tail s e
      end.
    Proof.
      unfold cand_of, edge_next.
      revert init; induction cache as [|o cache IH]; intros init; cbn [fold_left].
      - destruct init; [now left|]. split; [reflexivity|]. intros o c [].
      - match goal with |- context [fold_left ?f cache ?x] => set (acc := x); specialize (IH acc);
          destruct (fold_left f cache acc) as [c|] end.
        + destruct IH as [IH|(o' & H1 & H2)].
          * unfold acc in IH. destruct (he_next (smesh_he s) o) as [cand|] eqn:En; [|now left].
            rewrite <- !tail_nth in IH.
            destruct (edge_tail s cand) as [x|] eqn:Ex; [|now left].
            destruct (edge_tail s e) as [y|] eqn:Ey; [|now left].
            destruct (N.eqb_spec x y); [|now left]. injection IH as <-. right. exists o.
            split; [now left|]. split; [exact En|]. split; [congruence|discriminate].
          * right. exists o'. split; [now right|exact H2].
        + destruct IH as [IH1 IH2]. unfold acc in IH1.
          destruct (he_next (smesh_he s) o) as [cand|] eqn:En.
          * rewrite <- !tail_nth in IH1. destruct (edge_tail s cand) as [x|] eqn:Ex.
            -- destruct (edge_tail s e) as [y|] eqn:Ey.
               ++ revert IH1; destruct (N.eqb_spec x y) as [Hxy|Hxy]; intros IH1; [discriminate IH1|]. split; [exact IH1|].
                  intros o' c [<-|Hin] Hn Hs; [|now apply (IH2 o' c)]. rewrite En in Hn. injection Hn as <-. congruence.
               ++ split; [exact IH1|]. intros o' c [<-|Hin] Hn Hs; [|now apply (IH2 o' c)]. congruence.
            -- split; [exact IH1|]. intros o' c [<-|Hin] Hn Hs; [|now apply (IH2 o' c)]. rewrite En in Hn. injection Hn as <-. congruence.
          * split; [exact IH1|]. intros o' c [<-|Hin] Hn Hs; [congruence|now apply (IH2 o' c)].
    Qed.

    Lemma twin_some e t : edge_twin s e = Some t ->
      exists o, opposite s e o /\ edge_next s o = Some t /\ edge_tail s t = edge_tail s e /\ edge_face s t = edge_face s o.
    Proof.
      intros E. assert (He : e < num_edges s).
      { unfold edge_twin, he_twin, he_edge_ok in E. rewrite ne_len.
        destruct (N.ltb_spec e (lenN (tails (smesh_he s)))); [assumption|discriminate]. }
      destruct (head_some e He) as [hd Hhd]. destruct (tail_some e He) as [tl Htl].
      pose proof He as He'. rewrite ne_len in He'.
      unfold edge_twin in E. rewrite (ho_twin _ _ Hh e hd He') in E by (rewrite <- head_headv; exact Hhd).
      pose proof (cand_spec e (fst (he_edges_originating (smesh_he s) hd [])) None) as C. rewrite E in C.
      destruct C as [C|(o & H1 & H2 & H3 & H4)]; [discriminate|].
      assert (Ho : edge_tail s o = Some hd).
      { assert (Hc : covered s hd).
        { destruct topo as (_ & T & _). destruct (T e He) as (n & p & f & A & B & _).
          exists n, hd. split; [|lia]. unfold edge_head, edge_next in *. rewrite A in Hhd. exact Hhd. }
        rewrite (orig_eq hd Hc) in H1. now apply In_starts. }
      exists o. split; [|split; [exact H2|split; [exact H3|]]].
      - exists tl, hd. do 3 (split; [assumption|]). unfold edge_head. unfold edge_next in H2. rewrite H2.
        change (edge_tail s t = Some tl). congruence.
      - pose proof (tail_lt _ _ Ho) as Hol. destruct topo as (_ & T & _).
        destruct (T o Hol) as (n & p & f & A & B & C' & D & E1 & F & G & G1 & G2 & G3 & G4 & _). congruence.
    Qed.

    Lemma twin_none e o : edge_twin s e = None -> ~ opposite s e o.
    Proof.
      intros E (a & b & A & B & C & D). pose proof (tail_lt _ _ A) as He. pose proof He as He'. rewrite ne_len in He'.
      unfold edge_twin in E. rewrite (ho_twin _ _ Hh e b He') in E by (rewrite <- head_headv; exact B).
      pose proof (cand_spec e (fst (he_edges_originating (smesh_he s) b [])) None) as Cs. rewrite E in Cs.
      destruct Cs as [_ Cs].
      assert (Hc : covered s b) by (exists o, b; split; [exact C|lia]).
      rewrite (orig_eq b Hc) in Cs. unfold edge_head in D. destruct (he_next (smesh_he s) o) as [n|] eqn:En; [|discriminate].
      apply (Cs o n); [now apply In_starts|exact En| |]; change (he_tail (smesh_he s) n) with (edge_tail s n) in D; congruence.
    Qed.

    Lemma twin_not_opposite e t : edge_twin s e = Some t -> edge_tail s e <> edge_head s e -> ~ opposite s e t.
    Proof.
      intros E Hne (a & b & A & B & C & D). destruct (twin_some e t E) as (o & _ & _ & H & _). congruence.
    Qed.
  End With.
End L.

(** Final forms, quantified over meshes. *)
Lemma C05_l : forall (P : Type) (m : mesh P), fits m -> exists s, smesh_new m = Ok s /\
  num_edges s = 3 * num_faces m /\
  (forall e, e < num_edges s -> exists n p f,
      edge_next s e = Some n /\ edge_prev s e = Some p /\ n < num_edges s /\ p < num_edges s /\
      edge_prev s n = Some e /\ edge_next s p = Some e /\ edge_next s n = Some p /\ n <> e /\ p <> e /\
      edge_face s e = Some f /\ edge_face s n = Some f /\ edge_face s p = Some f /\ f < num_faces m) /\
  (forall e, num_edges s <= e ->
      edge_next s e = None /\ edge_prev s e = None /\ edge_face s e = None /\
      edge_tail s e = None /\ edge_head s e = None /\ edge_twin s e = None) /\
  (forall f, f < num_faces m -> exists a b c,
      edges_of_face s f = Some (a, b, c) /\ edge_next s a = Some b /\ edge_next s b = Some c /\
      edge_next s c = Some a /\ forall e, edge_face s e = Some f <-> (e = a \/ e = b \/ e = c)) /\
  (forall f, num_faces m <= f -> edges_of_face s f = None).
Proof.
  intros P m Hf. destruct (smesh_new_ok m Hf) as (s & E & Hh). exists s; split; [exact E|]. apply topo; exact Hh.
Qed.
