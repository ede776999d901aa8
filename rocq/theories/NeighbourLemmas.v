From Verif Require Import Base BaseLemmas MeshModel HalfEdgeModel HalfEdgeSpec HalfEdgeLemmas HalfEdgeLemmas2 MeshAlgoModel UnifyLemmas.
From Verif Require Import NeighbourModel NeighbourSpec.
From Coq Require Import Sorted ZifyBool ZifyNat ZifyN.
Local Open Scope N_scope.

Lemma dedup_sorted l : forall last, StronglySorted N.le l -> (forall y, last = Some y -> Forall (N.le y) l) ->
  StronglySorted N.lt (dedup_from last l) /\ (forall y, last = Some y -> Forall (N.lt y) (dedup_from last l)).
Proof.
  induction l as [|x l IH]; intros last S B; cbn [dedup_from]; [split; [constructor|intros; constructor]|].
  apply StronglySorted_inv in S as [S F].
  destruct (IH (Some x) S) as [I1 I2]; [intros y E; injection E as <-; exact F|].
  specialize (I2 x eq_refl).
  assert (G : forall y, last = Some y -> y <> x -> Forall (N.lt y) (x :: dedup_from (Some x) l)).
  { intros y E D. specialize (B y E). apply Forall_inv in B. constructor; [lia|].
    eapply Forall_impl; [|exact I2]. intros z Hz. cbv beta in *. lia. }
  assert (Sx : StronglySorted N.lt (x :: dedup_from (Some x) l)) by (constructor; assumption).
  destruct last as [z|]; [|split; [exact Sx|discriminate]].
  destruct (N.eqb_spec x z) as [->|D].
  - split; [exact I1|]. intros y E. injection E as <-. exact I2.
  - split; [exact Sx|]. intros y E. apply G; [exact E|]. congruence.
Qed.
Lemma sort_in_sorted x l : StronglySorted N.le l -> StronglySorted N.le (sort_in x l).
Proof.
  induction l as [|y l IH]; intros S; cbn [sort_in]; [repeat constructor|].
  destruct (N.leb_spec x y) as [L|L].
  - constructor; [exact S|]. constructor; [exact L|]. apply StronglySorted_inv in S as [_ F].
    eapply Forall_impl; [|exact F]. intros z Hz. cbv beta in *. lia.
  - apply StronglySorted_inv in S as [S F]. constructor; [apply IH, S|].
    apply Forall_forall. intros z Hz. apply sort_in_In in Hz as [->|Hz]; [lia|].
    rewrite Forall_forall in F. apply F, Hz.
Qed.
Lemma usize_sort_sorted l : StronglySorted N.le (usize_sort l).
Proof. induction l as [|x l IH]; [constructor|]. cbn [usize_sort fold_right]. apply sort_in_sorted, IH. Qed.
Lemma sort_dedup l : StronglySorted N.lt (dedup_from None (usize_sort l)) /\
  forall y, In y (dedup_from None (usize_sort l)) <-> In y l.
Proof.
  split; [apply (dedup_sorted (usize_sort l) None); [apply usize_sort_sorted|discriminate]|].
  intros y. rewrite dedup_In by discriminate. apply usize_sort_In.
Qed.

Section L.
  Context {P : Type} (m : mesh P) (s : smesh P) (Hf : fits m) (E : smesh_new m = Ok s).
  Let Hh : he_of m s := smesh_he_of m s Hf E.

  Lemma push_faces_ok es : (forall e, In e es -> e < num_edges s) -> forall r,
    push_faces s es r = (fold_left (fun r e => push_opt r (he_face (smesh_he s) e)) es r, Ok tt).
  Proof.
    induction es as [|e es IH]; intros H r; [reflexivity|]. cbn [push_faces fold_left].
    assert (Q : e < num_edges s) by (apply H; left; reflexivity).
    rewrite (ne_len m s Hh) in Q. unfold edge_face. unfold he_face at 1 3. unfold he_edge_ok.
    destruct (N.ltb_spec e (lenN (tails (smesh_he s)))); [|lia]. cbn [push_opt]. apply IH.
    intros e' He'. apply H. right. exact He'.
  Qed.
  Lemma faces_of_vertex_he v cache r : faces_of_vertex s v cache r = he_faces (smesh_he s) v cache r.
  Proof.
    unfold faces_of_vertex, he_faces, edges_originating_from_vertex.
    destruct (nthN (vse (smesh_he s)) v) as [es|] eqn:Ev.
    - assert (Hc : covered s v \/ ~ covered s v).
      { rewrite <- (covered_iff m s Hh v).
        destruct (existsb (fun '(_, t) => v <=? t) (idx (used m) 0)); [left; reflexivity|right; discriminate]. }
      destruct Hc as [Hc|Hc].
      + rewrite (orig_eq m s Hh v Hc).
        rewrite push_faces_ok; [reflexivity|]. intros e He. apply (orig_lt s v e He).
      + rewrite (orig_err m s Hh v Hc). reflexivity.
    - unfold he_edges_originating. rewrite Ev. reflexivity.
  Qed.

  Lemma fvi f : f < num_faces m -> exists a b c, face_vertex_ids m f = Ok (Some (a, b, c)).
  Proof. intros H. destruct (fvi_lt m f Hf H) as (a & b & c & Q & _). eauto. Qed.

  Lemma corner_covered f v : f < num_faces m -> corner m f v -> covered s v.
  Proof.
    intros Lf (a & b & c & Q & I). destruct (used_nth m s Hh f a b c Hf Lf Q) as (A & B & C).
    cbn in I. destruct I as [<-|[<-|[<-|[]]]]; [exists (f * 3 + 0), a|exists (f * 3 + 1), b|exists (f * 3 + 2), c]; (split; [assumption|lia]).
  Qed.
  Lemma faces_of_vertex_spec v cache r : covered s v ->
    exists c l, faces_of_vertex s v cache r = ((c, r ++ l), Ok tt) /\
      (forall g, In g l <-> g < num_faces m /\ corner m g v).
  Proof.
    intros Hc. destruct (faces_of m s Hh v cache r Hf) as [A _]. destruct (A Hc) as (l & Q & C & D).
    rewrite faces_of_vertex_he, Q. eexists; exists l. split; [reflexivity|]. intros g. split.
    - intros I. pose proof (D g I) as Lg. split; [exact Lg|]. destruct (fvi g Lg) as (a & b & c & R).
      exists a, b, c. split; [exact R|]. apply (count_occ_In N.eq_dec). rewrite <- (C g a b c Lg R).
      apply count_occ_In, I.
    - intros (Lg & a & b & c & R & I). apply (count_occ_In N.eq_dec). rewrite (C g a b c Lg R). apply count_occ_In, I.
  Qed.
  Lemma vertex_faces_spec vs : (forall v, In v vs -> covered s v) -> forall cache r,
    exists c l, vertex_faces s vs cache r = ((c, r ++ l), Ok tt) /\
      (forall g, In g l <-> g < num_faces m /\ exists v, In v vs /\ corner m g v).
  Proof.
    induction vs as [|v vs IH]; intros H cache r; cbn [vertex_faces].
    - exists cache, []. rewrite app_nil_r. split; [reflexivity|]. intros g. split; [intros []|intros (_ & v & [] & _)].
    - destruct (faces_of_vertex_spec v cache r) as (c & l & Q & I); [apply H; left; reflexivity|]. rewrite Q.
      destruct (IH (fun v I => H v (or_intror I)) c (r ++ l)) as (c' & l' & Q' & I').
      exists c', (l ++ l'). rewrite Q', app_assoc. split; [reflexivity|].
      intros g. rewrite in_app_iff, I, I'. split.
      + intros [[A B]|(A & w & B & C)]; (split; [exact A|]); [exists v|exists w]; cbn; auto.
      + intros (A & w & [->|B] & C); [left|right]; eauto.
  Qed.
  Lemma vertex_neighbours f cache r : f < num_faces m ->
    exists c l, face_vertex_neighbours s f cache r = ((c, l), Ok tt) /\ StronglySorted N.lt l /\
      forall g, In g l <-> In g r \/ (g < num_faces m /\ exists v, corner m f v /\ corner m g v).
  Proof.
    intros Lf. unfold face_vertex_neighbours. rewrite (ho_mesh m s Hh). destruct (fvi f Lf) as (a & b & c & Q). rewrite Q.
    destruct (vertex_faces_spec [a; b; c]) with (cache := @nil N) (r := r) as (ca & l & V & I).
    { intros v I. apply (corner_covered f v Lf). exists a, b, c. auto. }
    rewrite V. destruct (sort_dedup (r ++ l)) as [S1 S2]. exists ca, (dedup_from None (usize_sort (r ++ l))).
    split; [reflexivity|]. split; [exact S1|]. intros g. rewrite S2, in_app_iff, I.
    assert (W : forall v, In v [a; b; c] <-> corner m f v).
    { intros v. split; [intros J; exists a, b, c; auto|]. intros (a' & b' & c' & R & J). congruence. }
    split; (intros [A|(A & v & B & C)]; [left; exact A|right; split; [exact A|]; exists v; rewrite W in *; auto]).
  Qed.
  Lemma vertex_neighbours_err f cache r : num_faces m <= f -> 3 * f + 2 < 2 ^ 64 ->
    face_vertex_neighbours s f cache r = (([], r), Err IncorrectFaceID).
  Proof.
    intros Lf B. unfold face_vertex_neighbours, face_vertex_ids. rewrite (ho_mesh m s Hh).
    unfold w64. rewrite !(N.mod_small (3 * f)) by lia. rewrite (N.mod_small (3 * f + 2)) by lia.
    unfold num_faces in Lf. destruct (N.leb_spec (lenN (topology m)) (3 * f + 2)) as [Q|Q]; [reflexivity|].
    exfalso. pose proof (N.div_mod (lenN (topology m)) 3 ltac:(lia)). pose proof (N.mod_lt (lenN (topology m)) 3 ltac:(lia)). lia.
  Qed.

  (** Opposite edges in terms of the faces. *)
  Lemma edge_passes e g v w : edge_face s e = Some g -> edge_tail s e = Some v -> edge_head s e = Some w ->
    g < num_faces m /\ passes m g v w.
  Proof.
    intros F T W. pose proof (tail_lt m s Hh e v T) as Le.
    destruct (topo m s Hh) as (_ & _ & _ & T4 & T5).
    assert (Lg : g < num_faces m).
    { destruct (topo m s Hh) as (_ & T2 & _). destruct (T2 e Le) as (n & p & g' & _ & _ & _ & _ & _ & _ & _ & _ & _ & A & _ & _ & B). congruence. }
    split; [exact Lg|]. destruct (fvi g Lg) as (a & b & c & Q). exists a, b, c. split; [exact Q|].
    destruct (face_edges m s Hh g a b c Hf Lg Q) as (e1 & e2 & e3 & R & A1 & A2 & B1 & B2 & C1 & C2).
    destruct (T4 g Lg) as (x & y & z & R' & _ & _ & _ & U). rewrite R in R'. injection R' as <- <- <-.
    apply U in F. cbn. destruct F as [->|[->| ->]]; [left|right; left|right; right; left]; congruence.
  Qed.
  Lemma passes_edge g v w : g < num_faces m -> passes m g v w ->
    exists e, edge_face s e = Some g /\ edge_tail s e = Some v /\ edge_head s e = Some w.
  Proof.
    intros Lg (a & b & c & Q & I).
    destruct (face_edges m s Hh g a b c Hf Lg Q) as (e1 & e2 & e3 & R & A1 & A2 & B1 & B2 & C1 & C2).
    destruct (topo m s Hh) as (_ & _ & _ & T4 & _).
    destruct (T4 g Lg) as (x & y & z & R' & _ & _ & _ & U). rewrite R in R'. injection R' as <- <- <-.
    cbn in I. destruct I as [I|[I|[I|[]]]]; injection I as <- <-; [exists e1|exists e2|exists e3]; (split; [apply U; auto|auto]).
  Qed.
  Lemma twin_across e v w r : edge_tail s e = Some v -> edge_head s e = Some w ->
    exists o, add_twin_face s e r = r ++ present [o] /\ across m v w o.
  Proof.
    intros T W. unfold add_twin_face. destruct (edge_twin s e) as [t|] eqn:Et.
    - destruct (twin_some m s Hh e t Et) as (o & (a & b & A & B & C & D) & _ & _ & F).
      assert (a = v) by congruence. assert (b = w) by congruence. subst a b.
      destruct (edge_face s o) as [g|] eqn:Eo.
      + exists (Some g). rewrite F. cbn. split; [reflexivity|]. apply (edge_passes o); assumption.
      + exfalso. pose proof (tail_lt m s Hh o w C) as Lo. destruct (topo m s Hh) as (_ & T2 & _).
        destruct (T2 o Lo) as (n & p & g' & _ & _ & _ & _ & _ & _ & _ & _ & _ & Q & _). congruence.
    - exists None. cbn. rewrite app_nil_r. split; [reflexivity|]. intros g Lg Pg.
      destruct (passes_edge g w v Lg Pg) as (o & _ & A & B). apply (twin_none m s Hh e o Et).
      exists v, w. auto.
  Qed.
  Lemma edge_neighbours f a b c r : f < num_faces m -> face_vertex_ids m f = Ok (Some (a, b, c)) ->
    exists o1 o2 o3, face_edge_neighbours s f r = (r ++ present [o1; o2; o3], Ok tt) /\
      across m a b o1 /\ across m b c o2 /\ across m c a o3.
  Proof.
    intros Lf Q. destruct (face_edges m s Hh f a b c Hf Lf Q) as (e1 & e2 & e3 & R & A1 & A2 & B1 & B2 & C1 & C2).
    unfold face_edge_neighbours. rewrite R.
    destruct (twin_across e1 a b r A1 A2) as (o1 & -> & X1).
    destruct (twin_across e2 b c (r ++ present [o1]) B1 B2) as (o2 & -> & X2).
    destruct (twin_across e3 c a ((r ++ present [o1]) ++ present [o2]) C1 C2) as (o3 & -> & X3).
    exists o1, o2, o3. split; [|auto]. unfold present. cbn [flat_map]. now rewrite !app_nil_r, <- !app_assoc.
  Qed.
  Lemma edge_neighbours_err f r : num_faces m <= f -> face_edge_neighbours s f r = (r, Err IncorrectFaceID).
  Proof.
    intros Lf. unfold face_edge_neighbours. destruct (topo m s Hh) as (_ & _ & _ & _ & T). rewrite (T f Lf). reflexivity.
  Qed.
  Lemma edge_neighbours_manifold f r : f < num_faces m ->
    (forall v w g g', passes m f v w -> g < num_faces m -> g' < num_faces m -> passes m g w v -> passes m g' w v -> g = g') ->
    exists l, face_edge_neighbours s f r = (r ++ l, Ok tt) /\
      forall g, In g l <-> g < num_faces m /\ exists v w, passes m f v w /\ passes m g w v.
  Proof.
    intros Lf U. destruct (fvi f Lf) as (a & b & c & Q).
    destruct (edge_neighbours f a b c r Lf Q) as (o1 & o2 & o3 & -> & X1 & X2 & X3).
    eexists. split; [reflexivity|]. intros g.
    assert (Pf : forall v w, In (v, w) [(a, b); (b, c); (c, a)] -> passes m f v w) by (intros v w I; exists a, b, c; auto).
    assert (G : forall v w o, across m v w o -> passes m f v w ->
      forall g, (o = Some g -> g < num_faces m /\ passes m g w v) /\ (g < num_faces m -> passes m g w v -> o = Some g)).
    { intros v w o X Pw h. split; [intros ->; exact X|]. intros Lh Ph. destruct o as [k|].
      - destruct X as [X1' X2']. f_equal. apply (U v w k h); assumption.
      - exfalso. apply (X h Lh Ph). }
    assert (I : In g (present [o1; o2; o3]) <-> o1 = Some g \/ o2 = Some g \/ o3 = Some g).
    { unfold present. cbn [flat_map]. rewrite app_nil_r, !in_app_iff.
      assert (J : forall o : option N, In g match o with Some k => [k] | None => [] end <-> o = Some g).
      { intros [k|]; cbn; split; [intros [->|[]]; reflexivity|intros [= ->]; auto|intros []|discriminate]. }
      rewrite !J. reflexivity. }
    rewrite I.
    pose proof (Pf a b (or_introl eq_refl)) as P1. pose proof (Pf b c (or_intror (or_introl eq_refl))) as P2.
    pose proof (Pf c a (or_intror (or_intror (or_introl eq_refl)))) as P3.
    split.
    - intros [H|[H|H]]; [destruct (proj1 (G _ _ _ X1 P1 g) H)|destruct (proj1 (G _ _ _ X2 P2 g) H)|destruct (proj1 (G _ _ _ X3 P3 g) H)]; eauto.
    - intros (Lg & v & w & (a' & b' & c' & R & J) & K). rewrite Q in R. injection R as <- <- <-.
      cbn in J. destruct J as [J|[J|[J|[]]]]; injection J as <- <-;
        [left; apply (G _ _ _ X1 P1 g)|right; left; apply (G _ _ _ X2 P2 g)|right; right; apply (G _ _ _ X3 P3 g)]; assumption.
  Qed.
End L.

(** The half edges depend on the faces only. *)
Lemma he_pass1_topo {P} (m m' : mesh P) : topology m = topology m' ->
  forall n i st, he_pass1 m n i st = he_pass1 m' n i st.
Proof.
  intros T n. induction n as [|n IH]; intros i st; [reflexivity|]. cbn [he_pass1].
  assert (Q : face_vertex_ids m i = face_vertex_ids m' i) by (unfold face_vertex_ids; rewrite T; reflexivity).
  rewrite Q. destruct (face_vertex_ids m' i) as [[[[a b] c]|]| |]; cbn [obind]; try reflexivity; [|apply IH].
  destruct st as [t v]. apply IH.
Qed.
Lemma he_new_topo {P} (m m' : mesh P) : topology m = topology m' -> he_new m = he_new m'.
Proof.
  intros T. unfold he_new.
  assert (Q : num_faces m = num_faces m') by (unfold num_faces; rewrite T; reflexivity).
  rewrite Q, (he_pass1_topo m m' T). reflexivity.
Qed.
Lemma edit_mesh {P} (s : smesh P) o : topology (smesh_mesh (smesh_edit s o)) = topology (smesh_mesh s).
Proof. destruct o as [p|v p]; cbn [smesh_edit smesh_mesh]; [reflexivity|]. unfold change_vertex. destruct (v <? _); reflexivity. Qed.
Lemma edits {P} (ops : list (vop P)) : forall (m : mesh P) s, smesh_new m = Ok s ->
  smesh_new (smesh_mesh (fold_left smesh_edit ops s)) = Ok (fold_left smesh_edit ops s).
Proof.
  induction ops as [|o ops IH]; intros m s E; cbn [fold_left].
  - unfold smesh_new in *. destruct (he_new m) as [h| |] eqn:Eh; try discriminate E. injection E as <-. cbn [smesh_mesh].
    rewrite Eh. reflexivity.
  - apply (IH (smesh_mesh (smesh_edit s o))). unfold smesh_new in *.
    destruct (he_new m) as [h| |] eqn:Eh; try discriminate E. injection E as <-.
    rewrite <- (he_new_topo m) by (symmetry; apply (edit_mesh (SMesh m h))). rewrite Eh. cbn [obind].
    destruct o; reflexivity.
Qed.
