From Verif Require Import Base BaseLemmas MeshModel HalfEdgeModel HalfEdgeSpec.
From Coq Require Import ZifyBool ZifyNat ZifyN.
Ltac Zify.zify_post_hook ::= Z.div_mod_to_equations.
Local Open Scope N_scope.

Section L.
  Context {P : Type}.

  (** ** safe_append_at *)
  Lemma nthN_repeat {A} (x : A) n i : nthN (repeat x n) i = if i <? N.of_nat n then Some x else None.
  Proof.
    rewrite nthN_nth_error. destruct (N.ltb_spec i (N.of_nat n)).
    - rewrite nth_error_repeat by lia. reflexivity.
    - apply nth_error_None. rewrite repeat_length. lia.
  Qed.

  Lemma safe_append_nth vec i val j :
    nthN (safe_append_at vec i val) j =
      if j =? i then Some (match nthN vec i with Some l => l | None => [] end ++ [val])
      else if j <? lenN vec then nthN vec j
      else if j <? i then Some [] else None.
  Proof.
    unfold safe_append_at.
    set (vec' := if lenN vec <=? i then vec ++ repeat [] (N.to_nat (i + 1 - lenN vec)) else vec).
    assert (Hv : forall k, nthN vec' k = if k <? lenN vec then nthN vec k else if k <=? i then Some [] else None).
    { intros k; unfold vec'. destruct (N.leb_spec (lenN vec) i) as [H|H].
      - rewrite nthN_app. destruct (N.ltb_spec k (lenN vec)); [reflexivity|].
        rewrite nthN_repeat. destruct (N.ltb_spec (k - lenN vec) (N.of_nat (N.to_nat (i + 1 - lenN vec)))), (N.leb_spec k i); try lia; reflexivity.
      - destruct (N.ltb_spec k (lenN vec)); [reflexivity|].
        rewrite (proj2 (nthN_None_ge vec k)) by assumption. destruct (N.leb_spec k i); [lia|reflexivity]. }
    assert (Hi : nthN vec' i = Some (match nthN vec i with Some l => l | None => [] end)).
    { rewrite Hv. destruct (N.ltb_spec i (lenN vec)) as [H|H].
      - destruct (nthN_lt_Some vec i H) as [x ->]. reflexivity.
      - rewrite (proj2 (nthN_None_ge vec i)) by assumption. rewrite N.leb_refl. reflexivity. }
    rewrite Hi, nthN_setN. pose proof (nthN_Some_lt _ _ _ Hi) as Hlt.
    destruct (N.eqb_spec i j) as [->|Hij].
    - rewrite N.eqb_refl. destruct (N.ltb_spec j (lenN vec')); [reflexivity|lia].
    - destruct (N.eqb_spec j i); [congruence|]. rewrite Hv.
      destruct (N.ltb_spec j (lenN vec)); [reflexivity|].
      destruct (N.leb_spec j i), (N.ltb_spec j i); try lia; reflexivity.
  Qed.

  Definition app_all (vec : list (list N)) (L : list (N * N)) : list (list N) :=
    fold_left (fun v '(e, t) => safe_append_at v t e) L vec.

  Lemma app_all_nth L : forall i,
    nthN (app_all [] L) i =
      if existsb (fun '(e, t) => i <=? t) L then Some (map fst (filter (fun '(e, t) => t =? i) L)) else None.
  Proof.
    induction L as [|[e t] L IH] using rev_ind; intros i; [reflexivity|].
    unfold app_all in *. rewrite fold_left_app. cbn [fold_left]. rewrite safe_append_nth.
    rewrite existsb_app, filter_app, map_app. cbn [existsb filter].
    assert (Hlen : forall k, (k <? lenN (fold_left (fun v '(e, t) => safe_append_at v t e) L [])) = existsb (fun '(e, t) => k <=? t) L).
    { intros k. specialize (IH k). destruct (existsb (fun '(e, t) => k <=? t) L).
      - apply nthN_Some_lt in IH. now apply N.ltb_lt.
      - apply nthN_None_ge in IH. now apply N.ltb_ge. }
    rewrite Hlen, !IH. rewrite orb_false_r.
    destruct (N.eqb_spec i t) as [->|Hne].
    - rewrite N.eqb_refl, N.leb_refl, orb_true_r. cbn [map fst]. f_equal.
      destruct (existsb (fun '(_, t0) => t <=? t0) L) eqn:Ex; [reflexivity|].
      assert (F : filter (fun '(_, t0) => t0 =? t) L = []).
      { clear -Ex. induction L as [|[e' t'] L IH]; [reflexivity|]. cbn in *.
        apply orb_false_iff in Ex as [A B]. rewrite (IH B). destruct (N.eqb_spec t' t); [subst; lia|reflexivity]. }
      now rewrite F.
    - destruct (N.eqb_spec t i); [congruence|]. cbn [map]. rewrite app_nil_r.
      destruct (existsb (fun '(_, t0) => i <=? t0) L) eqn:Ex; cbn [orb]; [reflexivity|].
      assert (F : filter (fun '(_, t0) => t0 =? i) L = []).
      { clear -Ex. induction L as [|[e' t'] L IH]; [reflexivity|]. cbn in *.
        apply orb_false_iff in Ex as [A B]. rewrite (IH B). destruct (N.eqb_spec t' i); [subst; lia|reflexivity]. }
      rewrite F. destruct (N.ltb_spec i t), (N.leb_spec i t); try lia; reflexivity.
  Qed.

  (** ** pass 1 *)
  Definition idx (l : list N) (k : N) : list (N * N) :=
    combine (map (fun i => k + N.of_nat i) (seq 0 (length l))) l.

  Lemma idx_cons x l k : idx (x :: l) k = (k, x) :: idx l (k + 1).
  Proof.
    unfold idx. cbn [length seq map combine]. f_equal; [f_equal; lia|].
    rewrite <- seq_shift, map_map. f_equal. apply map_ext; intros; lia.
  Qed.

  Lemma idx_app l1 l2 k : idx (l1 ++ l2) k = idx l1 k ++ idx l2 (k + lenN l1).
  Proof.
    revert k; induction l1 as [|x l1 IH]; intros k; cbn [app].
    - unfold lenN; cbn. now rewrite N.add_0_r.
    - rewrite !idx_cons. cbn [app]. rewrite IH. do 2 f_equal. unfold lenN; cbn [length]. f_equal. lia.
  Qed.

  Definition used (m : mesh P) : list N := firstn (3 * (length (topology m) / 3)) (topology m).

  Lemma fvi_lt (m : mesh P) f : fits m -> f < num_faces m ->
    exists a b c, face_vertex_ids m f = Ok (Some (a, b, c)) /\
      firstn 3 (skipn (3 * N.to_nat f) (topology m)) = [a; b; c].
  Proof.
    intros Hfit Hf. unfold fits, lenN, num_faces in *. unfold face_vertex_ids.
    assert (W : forall x, x < 2 ^ 64 -> w64 x = x) by (intros x Hx; unfold w64; apply N.mod_small; exact Hx).
    unfold lenN in *.
    rewrite (W (3 * f)) by lia. rewrite !W by lia.
    destruct (N.leb_spec (N.of_nat (length (topology m))) (3 * f + 2)) as [H|H]; [lia|].
    rewrite !nthN_nth_error.
    replace (N.to_nat (3 * f + 0)) with (3 * N.to_nat f)%nat by lia.
    replace (N.to_nat (3 * f + 1)) with (3 * N.to_nat f + 1)%nat by lia.
    replace (N.to_nat (3 * f + 2)) with (3 * N.to_nat f + 2)%nat by lia.
    assert (Hn : forall k, nth_error (topology m) (3 * N.to_nat f + k) = nth_error (skipn (3 * N.to_nat f) (topology m)) k).
    { intros k. rewrite <- (firstn_skipn (3 * N.to_nat f) (topology m)) at 1.
      rewrite nth_error_app2; rewrite firstn_length; [f_equal; lia|lia]. }
    pose proof (Hn 0%nat) as H0; rewrite Nat.add_0_r in H0. rewrite H0, !Hn. clear H0.
    assert (Hlen : (3 <= length (skipn (3 * N.to_nat f) (topology m)))%nat) by (rewrite skipn_length; lia).
    destruct (skipn (3 * N.to_nat f) (topology m)) as [|a [|b [|c r]]]; cbn [length] in Hlen; try lia.
    exists a, b, c. split; reflexivity.
  Qed.

  Lemma pass1_spec m n i st : fits m -> i + N.of_nat n = num_faces m ->
    fst st = firstn (3 * N.to_nat i) (topology m) -> snd st = app_all [] (idx (fst st) 0) ->
    he_pass1 m n i st = Ok (used m, app_all [] (idx (used m) 0)).
  Proof.
    intros Hfit. revert i st; induction n as [|n IH]; intros i [t v] Hi Ht Hv; cbn [he_pass1 fst snd] in *.
    - assert (E : t = used m).
      { rewrite Ht. unfold used. f_equal. unfold num_faces, lenN in Hi. lia. }
      rewrite Hv, E. reflexivity.
    - destruct (fvi_lt m i Hfit) as (a & b & c & E & Hs); [lia|]. rewrite E. cbn [obind].
      apply IH; [lia| |]; cbn [fst snd].
      + rewrite Ht, <- !app_assoc. cbn [app]. rewrite <- Hs.
        replace (3 * N.to_nat (i + 1))%nat with (3 * N.to_nat i + 3)%nat by lia.
        rewrite <- (firstn_skipn (3 * N.to_nat i) (topology m)) at 3.
        rewrite firstn_app, firstn_length_le.
        2:{ unfold num_faces, lenN in Hi. lia. }
        replace (3 * N.to_nat i + 3 - 3 * N.to_nat i)%nat with 3%nat by lia.
        f_equal. symmetry. apply firstn_all2. rewrite firstn_length. lia.
      + assert (Hl : lenN t = 3 * i).
        { rewrite Ht. unfold lenN. rewrite firstn_length_le; [lia|]. unfold num_faces, lenN in Hi. lia. }
        rewrite !idx_app, Hv. unfold app_all. rewrite !fold_left_app.
        cbn [idx length seq map combine fold_left]. rewrite !lenN_app, Hl. unfold lenN; cbn [length].
        f_equal; [f_equal; [f_equal|]|]; lia.
  Qed.

  (** ** next / prev *)
  Lemma used_len m : lenN (used m) = 3 * num_faces m.
  Proof. unfold used, lenN, num_faces, lenN. rewrite firstn_length_le; [lia|]. pose proof (Nat.div_mod (length (topology m)) 3). lia. Qed.

  Definition edge_mod (h : halfedge) : Prop := lenN (tails h) mod 3 = 0.

  Lemma next_lt h e n : edge_mod h -> he_next h e = Some n -> n < lenN (tails h).
  Proof.
    unfold edge_mod, he_next, he_edge_ok. intros Hm. destruct (N.ltb_spec e (lenN (tails h))); [|discriminate].
    destruct (N.eqb_spec (e mod 3) 2); intros E; injection E as <-; lia.
  Qed.

  Lemma next_prev h e : edge_mod h -> e < lenN (tails h) ->
    exists n, he_next h e = Some n /\ n < lenN (tails h) /\ he_prev h n = Some e /\ n / 3 = e / 3.
  Proof.
    unfold edge_mod, he_next, he_prev, he_edge_ok. intros Hm He.
    destruct (N.ltb_spec e (lenN (tails h))); [|lia].
    destruct (N.eqb_spec (e mod 3) 2); eexists; (split; [reflexivity|]).
    - destruct (N.ltb_spec (e - 2) (lenN (tails h))); [|lia]. split; [lia|].
      destruct (N.eqb_spec ((e - 2) mod 3) 0); [|lia]. split; [f_equal; lia|lia].
    - destruct (N.ltb_spec (e + 1) (lenN (tails h))); [|lia]. split; [lia|].
      destruct (N.eqb_spec ((e + 1) mod 3) 0); [lia|]. split; [f_equal; lia|lia].
  Qed.

  Lemma prev_next h e : edge_mod h -> e < lenN (tails h) ->
    exists p, he_prev h e = Some p /\ p < lenN (tails h) /\ he_next h p = Some e /\ p / 3 = e / 3.
  Proof.
    unfold edge_mod, he_next, he_prev, he_edge_ok. intros Hm He.
    destruct (N.ltb_spec e (lenN (tails h))); [|lia].
    destruct (N.eqb_spec (e mod 3) 0); eexists; (split; [reflexivity|]).
    - destruct (N.ltb_spec (e + 2) (lenN (tails h))); [|lia]. split; [lia|].
      destruct (N.eqb_spec ((e + 2) mod 3) 2); [|lia]. split; [f_equal; lia|lia].
    - destruct (N.ltb_spec (e - 1) (lenN (tails h))); [|lia]. split; [lia|].
      destruct (N.eqb_spec ((e - 1) mod 3) 2); [lia|]. split; [f_equal; lia|lia].
  Qed.

  Lemma next3 h e : edge_mod h -> e < lenN (tails h) ->
    exists a b, he_next h e = Some a /\ he_next h a = Some b /\ he_next h b = Some e.
  Proof.
    unfold edge_mod, he_next, he_edge_ok. intros Hm He.
    destruct (N.ltb_spec e (lenN (tails h))); [|lia].
    assert (C : e mod 3 = 0 \/ e mod 3 = 1 \/ e mod 3 = 2) by lia.
    destruct C as [C|[C|C]].
    - exists (e + 1), (e + 2). rewrite C. cbn [N.eqb]. split; [reflexivity|].
      destruct (N.ltb_spec (e + 1) (lenN (tails h))); [|lia].
      destruct (N.eqb_spec ((e + 1) mod 3) 2); [lia|]. split; [f_equal; lia|].
      destruct (N.ltb_spec (e + 2) (lenN (tails h))); [|lia].
      destruct (N.eqb_spec ((e + 2) mod 3) 2); [|lia]. f_equal; lia.
    - exists (e + 1), (e - 1). rewrite C. split; [reflexivity|].
      destruct (N.ltb_spec (e + 1) (lenN (tails h))); [|lia].
      destruct (N.eqb_spec ((e + 1) mod 3) 2); [|lia]. split; [f_equal; lia|].
      destruct (N.ltb_spec (e - 1) (lenN (tails h))); [|lia].
      destruct (N.eqb_spec ((e - 1) mod 3) 2); [lia|]. f_equal; lia.
    - exists (e - 2), (e - 1). rewrite C. split; [reflexivity|].
      destruct (N.ltb_spec (e - 2) (lenN (tails h))); [|lia].
      destruct (N.eqb_spec ((e - 2) mod 3) 2); [lia|]. split; [f_equal; lia|].
      destruct (N.ltb_spec (e - 1) (lenN (tails h))); [|lia].
      destruct (N.eqb_spec ((e - 1) mod 3) 2); [lia|]. f_equal; lia.
  Qed.

  (** ** pass 2 *)
  (** The value stored for edge i: the last candidate. *)
  Definition cand_of (h : halfedge) (i : N) (cache : list N) (init : option N) : option N :=
    fold_left (fun acc o =>
      match he_next h o with
      | Some cand => match nthN (tails h) cand, nthN (tails h) i with
                     | Some x, Some y => if x =? y then Some cand else acc
                     | _, _ => acc end
      | None => acc end) cache init.

  Lemma scan_spec h i cache : edge_mod h -> i < lenN (tails h) ->
    forall tw, lenN tw = lenN (tails h) ->
    exists tw', he_twin_scan h i cache tw = Ok tw' /\ lenN tw' = lenN tw /\
      (forall j, j <> i -> nthN tw' j = nthN tw j) /\
      (forall x, nthN tw i = Some x -> nthN tw' i = Some (cand_of h i cache x)).
  Proof.
    intros Hm Hi. induction cache as [|o rest IH]; intros tw Hl; cbn [he_twin_scan].
    - exists tw; auto.
    - destruct (he_next h o) as [cand|] eqn:En.
      + pose proof (next_lt _ _ _ Hm En) as Hc.
        destruct (nthN_lt_Some (tails h) cand Hc) as [tc Htc]. destruct (nthN_lt_Some (tails h) i Hi) as [ti Hti].
        rewrite Htc, Hti. destruct (N.eqb_spec tc ti) as [Eq|Ne].
        * destruct (N.ltb_spec i (lenN tw)); [|lia].
          destruct (IH (setN tw i (Some cand))) as (tw' & A & B & C & D); [rewrite setN_lenN; exact Hl|].
          exists tw'; split; [exact A|]. rewrite setN_lenN in B. split; [exact B|]. split.
          -- intros j Hj. rewrite C by exact Hj. rewrite nthN_setN. destruct (N.eqb_spec i j); [congruence|reflexivity].
          -- intros x Hx. rewrite (D (Some cand)). 2:{ rewrite nthN_setN, N.eqb_refl. destruct (N.ltb_spec i (lenN tw)); [reflexivity|lia]. }
             unfold cand_of; cbn [fold_left]. rewrite En, Htc, Hti. destruct (N.eqb_spec tc ti); [reflexivity|contradiction].
        * destruct (IH tw Hl) as (tw' & A & B & C & D). exists tw'; split; [exact A|]. split; [exact B|]. split; [exact C|].
          intros x Hx. rewrite (D x Hx). unfold cand_of; cbn [fold_left]. rewrite En, Htc, Hti.
          destruct (N.eqb_spec tc ti); [contradiction|reflexivity].
      + destruct (IH tw Hl) as (tw' & A & B & C & D). exists tw'; split; [exact A|]. split; [exact B|]. split; [exact C|].
        intros x Hx. rewrite (D x Hx). unfold cand_of; cbn [fold_left]. rewrite En. reflexivity.
  Qed.

  Definition headv (h : halfedge) (e : N) : option N := match he_next h e with Some n => nthN (tails h) n | None => None end.

  Lemma pass2_spec h n : edge_mod h -> forall i tw, i + N.of_nat n = lenN (tails h) -> lenN tw = lenN (tails h) ->
    (forall j, i <= j -> j < lenN (tails h) -> nthN tw j = Some None) ->
    exists tw', he_pass2 h n i tw = Ok tw' /\ lenN tw' = lenN tw /\
      (forall j, j < i -> nthN tw' j = nthN tw j) /\
      (forall j hd, i <= j -> j < lenN (tails h) -> headv h j = Some hd ->
          nthN tw' j = Some (cand_of h j (fst (he_edges_originating h hd [])) None)).
  Proof.
    intros Hm. induction n as [|n IH]; intros i tw Hi Hl Hnone; cbn [he_pass2].
    - exists tw; repeat split; auto; intros; lia.
    - assert (Hilt : i < lenN (tails h)) by lia.
      destruct (next_prev h i Hm Hilt) as (nx & En & Hnx & _). rewrite En.
      destruct (nthN_lt_Some (tails h) nx Hnx) as [hd Hhd]. rewrite Hhd.
      destruct (scan_spec h i (fst (he_edges_originating h hd [])) Hm Hilt tw Hl) as (tw1 & A & B & C & D).
      rewrite A. cbn [obind].
      destruct (IH (i + 1) tw1) as (tw2 & A2 & B2 & C2 & D2); [lia|lia| |].
      { intros j H1 H2. rewrite C by lia. apply Hnone; lia. }
      exists tw2; split; [exact A2|]. split; [lia|]. split.
      + intros j Hj. rewrite C2 by lia. apply C; lia.
      + intros j hd' H1 H2 Hh. destruct (N.eq_dec j i) as [->|Hne].
        * rewrite C2 by lia. unfold headv in Hh. rewrite En, Hhd in Hh. injection Hh as <-.
          apply D. apply Hnone; lia.
        * apply D2; [lia|exact H2|exact Hh].
  Qed.

  (** ** Result of new *)
  Lemma he_new_spec (m : mesh P) : fits m -> exists h, he_new m = Ok h /\
    tails h = used m /\ vse h = app_all [] (idx (used m) 0) /\
    edge_mod h /\ lenN (tails h) = 3 * num_faces m /\
    (forall e hd, e < lenN (tails h) -> headv h e = Some hd ->
       he_twin h e = cand_of h e (fst (he_edges_originating h hd [])) None).
  Proof.
    intros Hfit. unfold he_new.
    rewrite (pass1_spec m (N.to_nat (num_faces m)) 0 ([], [])); [|exact Hfit|lia|reflexivity|reflexivity].
    cbn [obind].
    set (tw0 := repeat None (N.to_nat (3 * num_faces m))).
    set (h0 := HalfEdge (used m) tw0 (app_all [] (idx (used m) 0))).
    assert (Hm : edge_mod h0). { unfold edge_mod; cbn [tails h0]. rewrite used_len. lia. }
    destruct (pass2_spec h0 (length (used m)) Hm 0 tw0) as (tw' & A & B & _ & D).
    - cbn [tails h0]. unfold lenN. lia.
    - cbn [tails h0]. rewrite used_len. unfold tw0, lenN. rewrite repeat_length. lia.
    - intros j _ Hj. unfold tw0. rewrite nthN_repeat. cbn [tails h0] in Hj. rewrite used_len in Hj.
      destruct (N.ltb_spec j (N.of_nat (N.to_nat (3 * num_faces m)))); [reflexivity|lia].
    - rewrite A. cbn [obind]. eexists; split; [reflexivity|]. cbn [tails vse].
      do 2 (split; [reflexivity|]). split; [exact Hm|]. split; [apply used_len|].
      intros e hd He Hh. unfold he_twin, he_edge_ok. cbn [tails twins].
      cbn [tails] in He. destruct (N.ltb_spec e (lenN (used m))); [|lia].
      rewrite (D e hd); [reflexivity|lia|exact He|exact Hh].
  Qed.
End L.
