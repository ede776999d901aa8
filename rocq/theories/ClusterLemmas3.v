From Verif Require Import Base BaseLemmas Num NumLemmas BBoxModel VecModel MatrixModel MeshModel MeshSpec MeshLemmas MeshAlgoModel MeshAlgoSpec MeshAlgoLemmas ClusterModel ClusterSpec.
From Coq Require Import Reals Lra Lia ZifyBool ZifyNat ZifyN.
Local Open Scope N_scope.

Lemma key_eqb_iff a b : key_eqb a b = true <-> a = b.
Proof.
  destruct a as [[a1 a2] a3], b as [[b1 b2] b3]. unfold key_eqb. cbn [fst snd]. rewrite !andb_true_iff, !N.eqb_eq.
  split; [intros [[-> ->] ->]; reflexivity|intros [= -> -> ->]; auto].
Qed.

Lemma add_face_ok {P} (m : mesh P) (s : mspec P) p q r : abs_ok m s -> faces_ok s ->
  let s' := MSpec (svs s ++ [p; q; r]) (sfs s ++ [(lenN (svs s), lenN (svs s) + 1, lenN (svs s) + 2)]) in
  abs_ok (fst (add_face m p q r)) s' /\ faces_ok s' /\
  corners s' (lenN (svs s), lenN (svs s) + 1, lenN (svs s) + 2) = Some (p, q, r) /\
  forall f t, corners s f = Some t -> corners s' f = Some t.
Proof.
  intros [E1 E2] F s'. split; [|split; [|split]].
  - unfold add_face, add_vertex. cbn [fst pc topology]. split; cbn [pc topology svs sfs s'].
    + rewrite E1, <- !app_assoc. reflexivity.
    + rewrite E2, flat_app, !lenN_app, E1, <- !app_assoc. unfold s'. cbn [flat flat_map app].
      apply f_equal2; [reflexivity|]. change (lenN [p]) with 1. change (lenN [q]) with 1. change (lenN [r]) with 1.
      repeat (apply f_equal2; [lia|]). reflexivity.
  - intros a b c H. unfold s' in *. cbn [sfs svs] in *. unfold in_range. cbn [svs]. rewrite app_length. cbn [length].
    apply in_app_or in H as [H|[H|[]]].
    + destruct (F a b c H) as (A & B & C & D). unfold in_range in *. repeat split; try lia; apply D.
    + injection H as <- <- <-. unfold lenN. repeat split; lia.
  - unfold s', corners. cbn [svs]. unfold lenN.
    rewrite !nth_error_app2 by lia.
    replace (N.to_nat (N.of_nat (length (svs s))) - length (svs s))%nat with 0%nat by lia.
    replace (N.to_nat (N.of_nat (length (svs s)) + 1) - length (svs s))%nat with 1%nat by lia.
    replace (N.to_nat (N.of_nat (length (svs s)) + 2) - length (svs s))%nat with 2%nat by lia. reflexivity.
  - intros [[a b] c] t. unfold corners, s'. cbn [svs].
    assert (A : forall i x, nth_error (svs s) i = Some x -> nth_error (svs s ++ [p; q; r]) i = Some x).
    { intros i x H. rewrite nth_error_app1; [exact H|]. apply nth_error_Some. congruence. }
    destruct (nth_error (svs s) (N.to_nat a)) eqn:Ea; [|discriminate].
    destruct (nth_error (svs s) (N.to_nat b)) eqn:Eb; [|discriminate].
    destruct (nth_error (svs s) (N.to_nat c)) eqn:Ec; [|discriminate].
    rewrite (A _ _ Ea), (A _ _ Eb), (A _ _ Ec). auto.
Qed.

Lemma Forall2_filter {A B} (R : A -> B -> Prop) (f : A -> bool) (g : B -> bool) l l' :
  Forall2 R l l' -> (forall x y, R x y -> f x = g y) -> Forall2 R (filter f l) (filter g l').
Proof.
  intros H E. induction H as [|x y l l' H1 H2 IH]; [constructor|]. cbn [filter]. rewrite (E x y H1).
  destruct (g y); [constructor; assumption|assumption].
Qed.
Lemma Forall2_trans3 {A B C} (R1 : A -> B -> Prop) (R2 : B -> C -> Prop) l1 : forall l2 l3,
  Forall2 R1 l1 l2 -> Forall2 R2 l2 l3 -> Forall2 (fun a c => exists b, R1 a b /\ R2 b c) l1 l3.
Proof.
  induction l1 as [|a l1 IH]; intros l2 l3 H1 H2; inversion H1; subst; inversion H2; subst; constructor; eauto.
Qed.
Lemma Forall2_weak {A B} (R1 R2 : A -> B -> Prop) l1 l2 : (forall a b, R1 a b -> R2 a b) -> Forall2 R1 l1 l2 -> Forall2 R2 l1 l2.
Proof. intros W H. induction H; constructor; auto. Qed.

Section V.
  Context {NM : Num} (cast : N -> T NM -> N) (same : pt3 NM -> pt3 NM -> bool).
  Context (mn : pt3 NM) (size : T NM).
  Notation key := (grid_cell cast mn size).
  Lemma cluster_of_key p : cluster_of cast mn size p = key p.
  Proof. reflexivity. Qed.

  Definition picked (vs : list (pt3 NM)) (p : pt3 NM) : pt3 NM :=
    match find (fun z => key_eqb (key z) (key p)) (rev vs) with Some q => q | None => p end.
  Lemma picked_last vs p : In p vs -> last_like key vs p (picked vs p).
  Proof.
    unfold picked. revert p. induction vs as [|x vs IH] using rev_ind; intros p I; [destruct I|].
    rewrite rev_unit. cbn [find]. destruct (key_eqb (key x) (key p)) eqn:E.
    - apply key_eqb_iff in E. exists vs, []. split; [reflexivity|]. split; [exact E|]. intros z [].
    - assert (D : key x <> key p) by (intros H; apply key_eqb_iff in H; congruence).
      apply in_app_or in I as [I|[->|[]]]; [|contradiction D; reflexivity].
      destruct (IH p I) as (l & r & Q & K & N). exists l, (r ++ [x]). split; [|split; [exact K|]].
      + rewrite Q at 1. rewrite <- app_assoc. reflexivity.
      + intros z Z. apply in_app_or in Z as [Z|[<-|[]]]; [apply N, Z|exact D].
  Qed.

  Definition cinv (vs : list (pt3 NM)) (i : N) (st : list ((N * N * N) * N) * list (N * N * N)) : Prop :=
    snd st = map key (firstn (N.to_nat i) vs) /\
    forall p, In p (firstn (N.to_nat i) vs) -> exists j, cluster_get (fst st) (key p) = Some j /\
      nth_error vs (N.to_nat j) = Some (picked (firstn (N.to_nat i) vs) p).
  Lemma cluster_all_ok (m : mesh (pt3 NM)) vs : num_vertices m = N.of_nat (length vs) ->
    (forall v, vertex m v = nth_error vs (N.to_nat v)) ->
    exists st, cluster_all cast m mn size = Ok st /\ cinv vs (N.of_nat (length vs)) st.
  Proof.
    intros Hn Hv. unfold cluster_all. rewrite Hn, Nat2N.id.
    destruct (for_range_inv (cinv vs) (fun i s =>
      match vertex m i with None => Panic | Some p => let k := cluster_of cast mn size p in Ok ((k, i) :: fst s, snd s ++ [k]) end)
      (length vs) 0 ([], [])) as (st & E & I).
    - split; [reflexivity|]. intros p [].
    - intros j st [B1 B2] [I1 I2]. rewrite Hv.
      destruct (nth_error vs (N.to_nat j)) as [p|] eqn:Ej; [|apply nth_error_None in Ej; lia].
      eexists. split; [reflexivity|]. cbn [fst snd]. replace (N.to_nat (j + 1)) with (S (N.to_nat j)) by lia.
      unfold cinv. cbn [fst snd]. replace (N.to_nat (j + 1)) with (S (N.to_nat j)) by lia.
      rewrite (firstn_snoc _ _ _ Ej). split; [rewrite map_app, I1; reflexivity|].
      intros q Q. cbn [cluster_get]. rewrite cluster_of_key. unfold picked. rewrite rev_unit. cbn [find].
      destruct (key_eqb (key p) (key q)) eqn:K.
      + exists j. split; [reflexivity|exact Ej].
      + apply in_app_or in Q as [Q|[->|[]]].
        * exact (I2 q Q).
        * exfalso. rewrite (proj2 (key_eqb_iff _ _) eq_refl) in K. discriminate.
    - exists st. split; [exact E|]. replace (0 + N.of_nat (length vs)) with (N.of_nat (length vs)) in I by lia. exact I.
  Qed.
  Lemma new_vertex_ok (m : mesh (pt3 NM)) vs st v p : (forall v, vertex m v = nth_error vs (N.to_nat v)) ->
    cinv vs (N.of_nat (length vs)) st -> nth_error vs (N.to_nat v) = Some p -> new_vertex m st v = Ok (picked vs p).
  Proof.
    intros Hv [I1 I2] E. rewrite Nat2N.id, firstn_all in *. unfold new_vertex.
    rewrite I1, nthN_nth_error, nth_error_map, E. cbn [option_map].
    destruct (I2 p (nth_error_In _ _ E)) as (j & -> & Q). rewrite Hv, Q. reflexivity.
  Qed.

  Context (dbg : bool) (m : mesh (pt3 NM)) (s : mspec (pt3 NM)).
  Context (Q : equality same) (Hs : shows m s) (F : faces_ok s) (L : 3 * N.of_nat (length (sfs s)) < 2 ^ 64).
  Definition pick_id (v : N) : pt3 NM := match nth_error (svs s) (N.to_nat v) with Some p => picked (svs s) p | None => mn end.
  Definition pick_face (f : face3) : pt3 NM * pt3 NM * pt3 NM := let '(a, b, c) := f in (pick_id a, pick_id b, pick_id c).
  Definition kept (t : pt3 NM * pt3 NM * pt3 NM) : bool := let '(p, q, r) := t in negb (same p q || same p r || same q r).

  Lemma rebuild_ok st : cinv (svs s) (N.of_nat (length (svs s))) st ->
    exists m1 s1, for_range (N.to_nat (num_faces m)) 0 (fun i result =>
      obind (face_vertex_ids m i) (fun o => match o with None => Panic | Some (a, b, c) =>
      obind (new_vertex m st a) (fun p => obind (new_vertex m st b) (fun q => obind (new_vertex m st c) (fun r =>
      Ok (fst (add_face result p q r))))) end)) mesh_empty = Ok m1 /\
      abs_ok m1 s1 /\ faces_ok s1 /\ Forall2 (fun f g => corners s1 g = Some (pick_face f)) (sfs s) (sfs s1).
  Proof.
    intros CI. destruct (for_range_inv (fun i m1 => exists s1, abs_ok m1 s1 /\ faces_ok s1 /\
        Forall2 (fun f g => corners s1 g = Some (pick_face f)) (firstn (N.to_nat i) (sfs s)) (sfs s1))
      (fun i result =>
      obind (face_vertex_ids m i) (fun o => match o with None => Panic | Some (a, b, c) =>
      obind (new_vertex m st a) (fun p => obind (new_vertex m st b) (fun q => obind (new_vertex m st c) (fun r =>
      Ok (fst (add_face result p q r))))) end)) (length (sfs s)) 0 mesh_empty) as (m1 & E & s1 & A & B & C).
    - exists (MSpec [] []). destruct (@empty_ok (pt3 NM)) as [E1 E2]. split; [exact E1|]. split; [exact E2|]. constructor.
    - intros j m1 [J1 J2] (s1 & A & B & C).
      destruct (nth_error (sfs s) (N.to_nat j)) as [f|] eqn:Ej; [|apply nth_error_None in Ej; lia].
      destruct (shows_face m s j f Hs L Ej) as (Ef & t & Et & _). rewrite Ef. cbn [obind].
      destruct f as [[a b] c]. unfold corners in Et.
      destruct (nth_error (svs s) (N.to_nat a)) as [pa|] eqn:Ea; [|discriminate].
      destruct (nth_error (svs s) (N.to_nat b)) as [pb|] eqn:Eb; [|discriminate].
      destruct (nth_error (svs s) (N.to_nat c)) as [p_c|] eqn:Ec; [|discriminate].
      destruct Hs as (_ & Hv & _).
      rewrite (new_vertex_ok m (svs s) st a pa Hv CI Ea), (new_vertex_ok m (svs s) st b pb Hv CI Eb), (new_vertex_ok m (svs s) st c p_c Hv CI Ec).
      cbn [obind]. eexists. split; [reflexivity|].
      destruct (add_face_ok m1 s1 (picked (svs s) pa) (picked (svs s) pb) (picked (svs s) p_c) A B) as (A' & B' & C' & D').
      eexists. split; [exact A'|]. split; [exact B'|]. cbn [sfs].
      replace (N.to_nat (j + 1)) with (S (N.to_nat j)) by lia. rewrite (firstn_snoc _ _ _ Ej).
      apply Forall2_app.
      + eapply Forall2_weak; [|exact C]. intros f g H. apply D', H.
      + constructor; [|constructor]. rewrite C'. unfold pick_face, pick_id. rewrite Ea, Eb, Ec. reflexivity.
    - destruct Hs as (_ & _ & Hn & _). rewrite Hn, Nat2N.id. exists m1, s1. split; [exact E|]. split; [exact A|]. split; [exact B|].
      replace (0 + N.of_nat (length (sfs s))) with (N.of_nat (length (sfs s))) in C by lia. rewrite Nat2N.id, firstn_all in C. exact C.
  Qed.

  Lemma cluster_vertices_ok bb sx sy sz : bb3_from_iterator dbg (pc m) = Ok bb -> min3 bb = mn ->
    bb3_size_x bb = Ok sx -> bb3_size_y bb = Ok sy -> bb3_size_z bb = Ok sz ->
    2 <= cast 64 (sx / size)%num -> 2 <= cast 64 (sy / size)%num -> 2 <= cast 64 (sz / size)%num ->
    exists m' s', cluster_vertices cast same dbg m size = Ok m' /\ shows m' s' /\ faces_ok s' /\ no_two_same same (svs s') /\
      (forall p, In p (svs s') -> exists f x y z, In f (sfs s) /\ pick_face f = (x, y, z) /\ In p [x; y; z]) /\
      Forall2 (fun f g => exists p q r p' q' r', pick_face f = (p, q, r) /\ corners s' g = Some (p', q', r') /\
                 same p p' = true /\ same q q' = true /\ same r r' = true)
        (filter (fun f => kept (pick_face f)) (sfs s)) (sfs s').
  Proof.
    intros Eb Em Ex Ey Ez Cx Cy Cz. unfold cluster_vertices, pts3_bb_maybe. rewrite Eb. cbn [obind]. rewrite Ex, Ey, Ez. cbn [obind].
    destruct (N.ltb_spec (cast 64 (sx / size)%num) 2); [lia|]. destruct (N.ltb_spec (cast 64 (sy / size)%num) 2); [lia|].
    destruct (N.ltb_spec (cast 64 (sz / size)%num) 2); [lia|]. cbn [orb]. rewrite Em.
    destruct (cluster_all_ok m (svs s)) as (st & -> & CI); [apply Hs|apply Hs|]. cbn [obind].
    destruct (rebuild_ok st CI) as (m1 & s1 & -> & A & B & C). cbn [obind].
    pose proof (Forall2_len _ _ _ C) as LE.
    destruct (heal_ok same Q m1 s1) as (m' & s' & K1 & K2 & K3 & K4 & K5 & K6); [apply abs_shows; assumption|rewrite <- LE; exact L|].
    exists m', s'. split; [exact K1|]. split; [exact K2|]. split; [exact K3|]. split; [exact K4|]. split.
    - intros p Hp. destruct (K5 p Hp) as (g & G1 & x & y & z & G2 & G3).
      assert (G : exists f, In f (sfs s) /\ corners s1 g = Some (pick_face f)).
      { clear - C G1. induction C as [|f g' l l' C1 C2 IH]; [destruct G1|]. destruct G1 as [->|G1].
        - exists f. split; [left; reflexivity|exact C1].
        - destruct (IH G1) as (f' & X & Y). exists f'. split; [right; exact X|exact Y]. }
      destruct G as (f & I & G). exists f, x, y, z. rewrite G2 in G. injection G as G. auto.
    - assert (CF : Forall2 (fun f g => corners s1 g = Some (pick_face f))
                 (filter (fun f => kept (pick_face f)) (sfs s)) (filter (fun f => negb (collapsed same s1 f)) (sfs s1))).
      { apply (Forall2_filter _ _ _ _ _ C). intros f g FG. unfold collapsed. rewrite FG. destruct (pick_face f) as [[p q] r]. reflexivity. }
      eapply Forall2_weak; [|exact (Forall2_trans3 _ _ _ _ _ CF K6)].
      intros f g (h & X & p & q & r & p' & q' & r' & Y1 & Y2 & Y3). rewrite X in Y1. injection Y1 as Y1.
      exists p, q, r, p', q', r'. auto.
  Qed.
  Lemma pick_last v p : nth_error (svs s) (N.to_nat v) = Some p -> last_like key (svs s) p (pick_id v).
  Proof. intros E. unfold pick_id. rewrite E. apply picked_last, (nth_error_In _ _ E). Qed.
End V.

(** ** Reals: how far a vertex moves. *)
From Verif Require Import BBoxLemmas GeomSpec CompressLemmas ClusterLemmas2.
Lemma as_R (q : R) : (0 <= q < IZR (2 ^ 64))%R -> (IZR (Z.of_N (real_as 64 q)) <= q < IZR (Z.of_N (real_as 64 q)) + 1)%R.
Proof.
  intros [Q1 Q2]. unfold real_as. destruct (base_Int_part q) as [B1 B2].
  assert (Z1 : (-1 < Int_part q)%Z) by (apply lt_IZR; lra).
  assert (Z2 : (Int_part q < 2 ^ 64)%Z) by (apply lt_IZR; lra).
  replace (N.min (2 ^ 64 - 1) (Z.to_N (Int_part q))) with (Z.to_N (Int_part q)) by lia.
  rewrite Z2N.id by lia. lra.
Qed.
Lemma near_R (lo size u v : R) : (0 < size)%R -> (lo <= u < lo + IZR (2 ^ 64) * size)%R -> (lo <= v < lo + IZR (2 ^ 64) * size)%R ->
  real_as 64 ((u - lo) / size)%R = real_as 64 ((v - lo) / size)%R -> (Rabs (u - v) < size)%R.
Proof.
  intros S [U1 U2] [V1 V2] E.
  assert (A : forall w, (lo <= w < lo + IZR (2 ^ 64) * size)%R -> (0 <= (w - lo) / size < IZR (2 ^ 64))%R).
  { intros w [W1 W2]. split; [apply Rmult_le_pos; [lra|left; apply Rinv_0_lt_compat; lra]|]. apply (Rmult_lt_reg_r size); [exact S|].
    unfold Rdiv. rewrite Rmult_assoc, Rinv_l, Rmult_1_r by lra. lra. }
  pose proof (as_R _ (A u (conj U1 U2))) as [P1 P2]. pose proof (as_R _ (A v (conj V1 V2))) as [R1 R2]. rewrite E in P1, P2.
  set (k := IZR (Z.of_N (real_as 64 ((v - lo) / size)%R))) in *.
  assert (M : forall w : R, (w = (w - lo) / size * size + lo)%R) by (intros w; field; lra).
  rewrite (M u), (M v). replace ((u - lo) / size * size + lo - ((v - lo) / size * size + lo))%R with (((u - lo) / size - (v - lo) / size) * size)%R by ring.
  rewrite Rabs_mult, (Rabs_pos_eq size) by lra. 
  assert (D : (Rabs ((u - lo) / size - (v - lo) / size) < 1)%R) by (apply Rabs_def1; lra).
  apply (Rmult_lt_compat_r size _ _ S) in D. rewrite Rmult_1_l in D. exact D.
Qed.

Lemma last_near (dbg : bool) (vs : list (pt3 RN)) (b : bb3 RN) (size : R) (p q : pt3 RN) :
  (Z.of_nat (length vs) < 2 ^ 31)%Z -> bb3_from_iterator dbg vs = Ok b -> (0 < size)%R ->
  (forall ax : pt3 RN -> R, axis3 (NM:=RN) ax -> (ax (max3 b) - ax (min3 b) < IZR (2 ^ 64) * size)%R) ->
  In p vs -> last_like (grid_cell real_as (min3 b) size) vs p q ->
  forall ax : pt3 RN -> R, axis3 (NM:=RN) ax -> (Rabs (ax q - ax p) < size)%R.
Proof.
  intros L B S W P (l & r & E & K & _) ax A.
  assert (F : Forall (fun p : pt3 RN => forall ax, axis3 ax -> (fun _ : T RN => True) (ax p)) vs) by (apply Forall_forall; auto).
  pose proof (from3_bounds RN_laws dbg vs b L F B) as G.
  assert (I : In q vs) by (rewrite E; apply in_elt).
  assert (G' : forall t, In t vs -> (ax (min3 b) <= ax t < ax (min3 b) + IZR (2 ^ 64) * size)%R).
  { intros t T. destruct (G ax A) as (_ & _ & G3). destruct (G3 t T) as [G1 G2]. apply R_leb in G1, G2. specialize (W ax A). cbn [Num.T RN] in *. lra. }
  apply (near_R (ax (min3 b)) size (ax q) (ax p) S (G' q I) (G' p P)).
  unfold grid_cell in K. injection K as K1 K2 K3. destruct A as [->|[->| ->]]; assumption.
Qed.
Lemma nth_error_ext_list {A} : forall l l' : list A, (forall i, nth_error l i = nth_error l' i) -> l = l'.
Proof.
  induction l as [|x l IH]; intros [|y l'] H.
  - reflexivity.
  - discriminate (H 0%nat).
  - discriminate (H 0%nat).
  - pose proof (H 0%nat) as E. injection E as ->. f_equal. apply IH. intros i. exact (H (S i)).
Qed.
