(** Bodies made of colliders: C137, C138 *)
From Verif Require Import Base Num NumLemmas BBoxModel BBoxLemmas GeomSpec ShapeModel ShapeSpec ShapeProps AabbModel AabbSpec AabbProps CollideModel CollideSpec CollideLemmas.
From Coq Require Import Floats.SpecFloat Reals Lra.

(** Two bodies collide iff some part of one and some part of the other are reported to collide, in any arithmetic. *)
Theorem C137_pairs : forall (NM : Num) (a b : body NM), answered a b -> exists r, body_collides a b = Ok r /\ (r = true <-> touching a b).
Proof. intros NM a b. apply body_spec. Qed.
Print Assumptions C137_pairs.
(** In exact arithmetic there always is an answer, it does not depend on the order of the bodies, and "no" means that no part
    of one meets a part of the other. *)
Theorem C137_exact : forall a b : body RN, proper_body a -> proper_body b -> exists r,
  body_collides a b = Ok r /\ body_collides b a = Ok r /\ (r = false -> forall c d, In c (parts a) -> In d (parts b) -> ~ meet c d).
Proof.
  intros a b A B. destruct (body_spec a b (proper_answered a b A B)) as (r & E & S). destruct (body_spec b a (proper_answered b a B A)) as (r' & E' & S').
  apply proper_parts in A, B. rewrite Forall_forall in A, B. assert (Q : r = r').
  { assert (I : touching a b <-> touching b a).
    { split; intros (c & d & C & D & X); exists d, c.
      - destruct (C51_colliders c d (A c C) (B d D)) as (q & E1 & E2 & _). rewrite E1 in X. injection X as ->. auto.
      - destruct (C51_colliders c d (B c C) (A d D)) as (q & E1 & E2 & _). rewrite E1 in X. injection X as ->. auto. }
    destruct r, r'; try reflexivity; [assert (true = true) as T by reflexivity; apply S, I, S' in T; discriminate T|assert (true = true) as T by reflexivity; apply S', I, S in T; discriminate T]. }
  subst r'. exists r. split; [exact E|]. split; [exact E'|]. intros -> c d C D M. destruct (C51_colliders c d (A c C) (B d D)) as ([] & E1 & _ & N); [|exact (N eq_refl M)].
  assert (T : false = true) by (apply S; exists c, d; auto). discriminate T.
Qed.
Print Assumptions C137_exact.
(** A body that declares additional colliders but visits none never collides, whatever its bounding box. *)
Theorem C137_empty_body : forall (NM : Num) (a b : body NM), body_additional a = true -> body_colliders a = [] -> body_collides a b = Ok false /\ body_collides b a = Ok false.
Proof.
  intros NM a b A N. assert (H : parts a = []) by (unfold parts; rewrite A; exact N). split.
  - destruct (body_spec a b) as (r & -> & S); [intros c d C; rewrite H in C; destruct C|]. destruct r; [|reflexivity]. destruct (proj1 S eq_refl) as (c & d & C & _). rewrite H in C. destruct C.
  - destruct (body_spec b a) as (r & -> & S); [intros c d _ D; rewrite H in D; destruct D|]. destruct r; [|reflexivity]. destruct (proj1 S eq_refl) as (c & d & _ & D & _). rewrite H in D. destruct D.
Qed.
Print Assumptions C137_empty_body.
Definition c137_tri : tri F64 := mktri (fp3 5 5 5) (fp3 6 5 7) (fp3 5 6 7).
Definition c137_body : body F64 := mkbody (mkbb3 (fp3 0 0 0) (fp3 7 7 7)) true [CAABB (mkbb3 (fp3 0 0 0) (fp3 1 1 1)); CFace c137_tri].
Example C137_case : answered c137_body (mkbody (mkbb3 (fp3 5 5 5) (fp3 6 6 8)) false []) /\ body_collides c137_body (mkbody (mkbb3 (fp3 5 5 5) (fp3 6 6 8)) false []) = Ok true /\
  body_collides c137_body (mkbody (mkbb3 (fp3 3 3 3) (fp3 4 4 4)) false []) = Ok false /\
  proper_body (mkbody (mkbb3 (rp3 0 0 0) (rp3 1 1 1)) true [CFace (mktri (rp3 0 0 0) (rp3 1 0 0) (rp3 0 1 0))]).
Proof.
  split; [|split; [vmeq|split; [vmeq|split; [intros ? [->|[->| ->]]; cbn; lra|repeat constructor]]]].
  intros c d C D. cbn in C, D. destruct D as [<-|[]]. destruct C as [<-|[<-|[]]]; [exists false; vmeq|exists true; vmeq].
Qed.

(** A list of bodies is searched completely; a tree gives the bodies that collide and whose boxes overlap the box of the
    query. *)
Theorem C138_list : forall (NM : Num) (l : list (body NM)) other, (forall x, In x l -> answered x other) ->
  exists r, list_any_collides l other = Ok r /\ (r = true <-> exists x, In x l /\ touching x other).
Proof.
  intros NM l other A. destruct (any_res_spec (fun c => body_collides c other) l) as (r & E & S).
  { intros x X. destruct (body_spec x other (A x X)) as (r & E & _). eauto. }
  exists r. split; [exact E|]. rewrite S. split; intros (x & X & H); exists x; (split; [exact X|]); destruct (body_spec x other (A x X)) as (q & E' & S').
  - rewrite E' in H. injection H as ->. apply S', eq_refl.
  - rewrite E'. f_equal. apply S', H.
Qed.
Print Assumptions C138_list.
Theorem C138_tree : forall (l : list (body RN)) maxdepth bucket other, Forall proper_body l -> proper_body other ->
  exists r, tree_any_collides (aabb3_new body_box l maxdepth bucket) other = Ok r /\
    (r = true <-> exists x, In x l /\ touching x other /\ meet3 (body_box x) (body_box other)).
Proof.
  intros l maxdepth bucket other L O. assert (V : Forall (fun x => valid3 (body_box x)) l) by (eapply Forall_impl; [|exact L]; intros x X; apply X).
  destruct (C26_colliding_3d _ body_box l maxdepth bucket (body_box other) V (proj1 O)) as (_ & (vis & E & S) & _).
  unfold tree_any_collides. rewrite E. cbn [obind]. rewrite Forall_forall in L.
  destruct (first_body_spec other vis false) as (r & E' & S').
  { intros x X. apply proper_answered; [apply L, S, X|exact O]. }
  exists r. split; [exact E'|]. rewrite S'. split.
  - intros [X|(x & X & T)]; [discriminate|]. apply S in X. exists x. tauto.
  - intros (x & X & T & M). right. exists x. split; [apply S; auto|exact T].
Qed.
Print Assumptions C138_tree.
(** So a tree agrees with the list as long as colliding bodies have overlapping boxes; then the tree's shape does not matter. *)
Theorem C138_agree : forall (l : list (body RN)) maxdepth bucket other, Forall proper_body l -> proper_body other ->
  (forall x, In x l -> touching x other -> meet3 (body_box x) (body_box other)) ->
  tree_any_collides (aabb3_new body_box l maxdepth bucket) other = list_any_collides l other.
Proof.
  intros l maxdepth bucket other L O H. destruct (C138_tree l maxdepth bucket other L O) as (r & -> & S). rewrite Forall_forall in L.
  destruct (C138_list RN l other) as (q & -> & Q); [intros x X; apply proper_answered; auto|]. f_equal.
  destruct r, q; try reflexivity.
  - destruct (proj1 S eq_refl) as (x & X & T & _). symmetry. apply Q. eauto.
  - destruct (proj1 Q eq_refl) as (x & X & T). apply S. exists x. split; [exact X|]. split; [exact T|]. apply H; assumption.
Qed.
Print Assumptions C138_agree.
(** For queries with a box alone the tree and the list always agree. *)
Theorem C138_bounding : forall (l : list (body RN)) maxdepth bucket bb, Forall (fun x => valid3 (body_box x)) l -> valid3 bb ->
  exists r, list_any_collides_bounding l bb = Ok r /\ aabb3_any_collides_with_bounding body_box (aabb3_new body_box l maxdepth bucket) bb = Ok r /\
    (r = true <-> exists x, In x l /\ meet3 (body_box x) bb).
Proof.
  intros l maxdepth bucket bb L V. destruct (C26_colliding_3d _ body_box l maxdepth bucket bb L V) as (_ & _ & (r & E & S)). rewrite Forall_forall in L.
  assert (K : forall x, In x l -> exists h, bb3_collides_with bb (body_box x) = Ok h /\ (h = true <-> meet3 (body_box x) bb)).
  { intros x X. destruct (collides3_R bb (body_box x) V (L x X)) as (h & H & I). exists h. split; [exact H|]. rewrite I. unfold meet3. split; intros (p & P & Q); exists p; auto. }
  destruct (any_res_spec (fun c => bb3_collides_with bb (body_box c)) l) as (q & E' & Q); [intros x X; destruct (K x X) as (h & H & _); eauto|].
  assert (J : q = true <-> exists x, In x l /\ meet3 (body_box x) bb).
  { rewrite Q. split; intros (x & X & H); exists x; (split; [exact X|]); destruct (K x X) as (h & H' & I); [rewrite H' in H; injection H as ->; apply I, eq_refl|rewrite H'; f_equal; apply I, H]. }
  exists r. split; [|split; [exact E|exact S]]. unfold list_any_collides_bounding. rewrite E'. f_equal. destruct q, r; try reflexivity; [symmetry; apply S, J, eq_refl|apply J, S, eq_refl].
Qed.
Print Assumptions C138_bounding.
(** Refuted: the tree and the list of the same colliders answer alike.  The bounding box of an unaligned box does not cover
    its corners, so the tree misses a triangle at such a corner. *)
Definition c138_side : T F64 := S754_finite false 6369051672525773 (-53).
Definition c138_box : collider F64 := CBox (mkubox (fp3 0 0 0) (mk3 c138_side c138_side (fz 0)) (fp3 0 0 1) (fz 20) (fz 20) (fz 20)).
Definition c138_tri : collider F64 := CFace (mktri (fp3 11 0 0) (fp3 12 1 1) (fp3 11 1 2)).
Theorem C138_tree_misses_refuted : exists x other : body F64, collider_body false c138_box = Ok x /\ collider_body false c138_tri = Ok other /\
  list_any_collides [x] other = Ok true /\ tree_any_collides (aabb3_new body_box [x] 5 1) other = Ok false.
Proof.
  exists (mkbody (mkbb3 (fp3 (-10) (-10) (-10)) (fp3 10 10 10)) true [c138_box]), (mkbody (mkbb3 (fp3 11 0 0) (fp3 12 1 2)) true [c138_tri]).
  split; [vmeq|]. split; [vmeq|]. split; vmeq.
Qed.
Print Assumptions C138_tree_misses_refuted.
Example C138_case : list_any_collides [c137_body; mkbody (mkbb3 (fp3 20 20 20) (fp3 21 21 21)) false []] (mkbody (mkbb3 (fp3 5 5 5) (fp3 6 6 8)) false []) = Ok true /\
  tree_any_collides (aabb3_new body_box [c137_body; mkbody (mkbb3 (fp3 20 20 20) (fp3 21 21 21)) false []] 3 1) (mkbody (mkbb3 (fp3 5 5 5) (fp3 6 6 8)) false []) = Ok true.
Proof. split; vmeq. Qed.
