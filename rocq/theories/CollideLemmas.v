(** Proofs about bodies. *)
From Verif Require Import Base Num NumLemmas BBoxModel GeomSpec ShapeModel ShapeSpec ShapeProps AabbModel AabbSpec AabbProps CollideModel CollideSpec.

Lemma first_hit_spec {NM} (test : collider NM -> res bool) : forall cs result, (forall c, In c cs -> exists r, test c = Ok r) ->
  exists r, first_hit test result cs = Ok r /\ (r = true <-> result = true \/ exists c, In c cs /\ test c = Ok true).
Proof.
  induction cs as [|c cs IH]; intros result A; cbn [first_hit].
  - exists result. split; [reflexivity|]. split; [auto|]. intros [H|(c & [] & _)]. exact H.
  - destruct result.
    + destruct (IH true) as (r & E & S); [intros d D; apply A; right; exact D|]. exists r. split; [exact E|]. rewrite S. split; intros; left; reflexivity.
    + destruct (A c (or_introl eq_refl)) as [h H]. rewrite H. cbn [obind]. destruct (IH h) as (r & E & S); [intros d D; apply A; right; exact D|]. exists r. split; [exact E|]. rewrite S. split.
      * intros [->|(d & D & X)]; right; [exists c; split; [left; reflexivity|exact H]|exists d; split; [right; exact D|exact X]].
      * intros [X|(d & [<-|D] & X)]; [discriminate|left; congruence|right; exists d; auto].
Qed.
Lemma body_collider_spec {NM} (a : body NM) d : (forall c, In c (parts a) -> exists r, collider_collides c d = Ok r) ->
  exists r, body_collides_collider a d = Ok r /\ (r = true <-> exists c, In c (parts a) /\ collider_collides c d = Ok true).
Proof.
  intros A. unfold body_collides_collider. unfold parts in *. destruct (body_additional a).
  - destruct (first_hit_spec (fun c => collider_collides c d) _ false A) as (r & E & S). exists r. split; [exact E|]. rewrite S. split; [intros [X|X]; [discriminate|exact X]|auto].
  - destruct (A _ (or_introl eq_refl)) as [r R]. exists r. split; [exact R|]. split; [intros ->; exists (CAABB (body_box a)); split; [left; reflexivity|exact R]|].
    intros (c & [<-|[]] & X). congruence.
Qed.
Lemma body_spec {NM} (a b : body NM) : answered a b -> exists r, body_collides a b = Ok r /\ (r = true <-> touching a b).
Proof.
  intros A. assert (A' : forall d, In d (parts b) -> exists r, body_collides_collider a d = Ok r /\ (r = true <-> exists c, In c (parts a) /\ collider_collides c d = Ok true)).
  { intros d D. apply body_collider_spec. intros c C. apply A; assumption. }
  unfold body_collides, touching. unfold parts in A' at 1. unfold parts at 2. destruct (body_additional b).
  - destruct (first_hit_spec (fun c => body_collides_collider a c) (body_colliders b) false) as (r & E & S); [intros d D; destruct (A' d D) as (r & E & _); eauto|].
    exists r. split; [exact E|]. rewrite S. split.
    + intros [X|(d & D & X)]; [discriminate|]. destruct (A' d D) as (r' & E' & S'). rewrite E' in X. injection X as ->. destruct (proj1 S' eq_refl) as (c & C & Y). eauto.
    + intros (c & d & C & D & Y). right. exists d. split; [exact D|]. destruct (A' d D) as (r' & E' & S'). rewrite E'. f_equal. apply S'. eauto.
  - destruct (A' _ (or_introl eq_refl)) as (r & E & S). exists r. split; [exact E|]. rewrite S. split; [intros (c & C & Y); exists c, (CAABB (body_box b)); cbn; auto|].
    intros (c & d & C & [<-|[]] & Y). eauto.
Qed.
Lemma any_res_spec {A} (test : A -> res bool) : forall l, (forall x, In x l -> exists r, test x = Ok r) ->
  exists r, any_res test l = Ok r /\ (r = true <-> exists x, In x l /\ test x = Ok true).
Proof.
  induction l as [|x l IH]; intros H; cbn [any_res].
  - exists false. split; [reflexivity|]. split; [discriminate|]. intros (x & [] & _).
  - destruct (H x (or_introl eq_refl)) as [h E]. rewrite E. cbn [obind]. destruct h.
    + exists true. split; [reflexivity|]. split; [|reflexivity]. intros _. exists x. split; [left; reflexivity|exact E].
    + destruct IH as (r & E' & S); [intros y Y; apply H; right; exact Y|]. exists r. split; [exact E'|]. rewrite S. split; [intros (y & Y & Z); exists y; split; [right; exact Y|exact Z]|].
      intros (y & [<-|Y] & Z); [congruence|eauto].
Qed.
Lemma first_body_spec {NM} (other : body NM) : forall l result, (forall x, In x l -> answered x other) ->
  exists r, first_body other result l = Ok r /\ (r = true <-> result = true \/ exists x, In x l /\ touching x other).
Proof.
  induction l as [|c cs IH]; intros result A; cbn [first_body].
  - exists result. split; [reflexivity|]. split; [auto|]. intros [H|(c & [] & _)]. exact H.
  - destruct result.
    + destruct (IH true) as (r & E & S); [intros d D; apply A; right; exact D|]. exists r. split; [exact E|]. rewrite S. split; intros; left; reflexivity.
    + destruct (body_spec c other (A c (or_introl eq_refl))) as (h & H & HT). rewrite H. cbn [obind]. destruct (IH h) as (r & E & S); [intros d D; apply A; right; exact D|]. exists r. split; [exact E|]. rewrite S. split.
      * intros [X|(d & D & X)]; right; [exists c; split; [left; reflexivity|apply HT, X]|exists d; split; [right; exact D|exact X]].
      * intros [X|(d & [<-|D] & X)]; [discriminate|left; apply HT, X|right; exists d; auto].
Qed.
Lemma proper_parts (a : body RN) : proper_body a -> Forall proper (parts a).
Proof. intros [V P]. unfold parts. destruct (body_additional a); [exact P|]. constructor; [exact V|constructor]. Qed.
Lemma proper_answered (a b : body RN) : proper_body a -> proper_body b -> answered a b.
Proof.
  intros A B c d C D. apply proper_parts in A, B. rewrite Forall_forall in A, B. destruct (C51_colliders c d (A c C) (B d D)) as (r & E & _). eauto.
Qed.
