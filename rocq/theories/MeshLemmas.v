From Verif Require Import Base BaseLemmas MeshModel MeshSpec IndexVecLemmas.
Local Open Scope N_scope.
From Coq Require Import ZifyBool ZifyNat ZifyN.
Ltac Zify.zify_post_hook ::= Z.div_mod_to_equations.

Section L.
  Context {P : Type}.

  Definition flat (fs : list face3) : list N := flat_map (fun '(a, b, c) => [a; b; c]) fs.

  Lemma flat_length fs : length (flat fs) = (3 * length fs)%nat.
  Proof. induction fs as [|[[a b] c] fs IH]; [reflexivity|]. cbn [flat flat_map length app] in *. unfold flat in IH. rewrite IH; lia. Qed.

  Lemma flat_app fs gs : flat (fs ++ gs) = flat fs ++ flat gs.
  Proof. unfold flat; apply flat_map_app. Qed.

  Lemma flat_nth fs i a b c : nth_error fs i = Some (a, b, c) ->
    nth_error (flat fs) (3 * i) = Some a /\ nth_error (flat fs) (3 * i + 1) = Some b /\ nth_error (flat fs) (3 * i + 2) = Some c.
  Proof.
    revert i; induction fs as [|[[a' b'] c'] fs IH]; intros [|i] H; try discriminate.
    - cbn in H; injection H as -> -> ->. cbn. auto.
    - cbn [nth_error] in H. destruct (IH i H) as (A & B & C).
      replace (3 * S i)%nat with (S (S (S (3 * i)))) by lia. cbn [flat flat_map app nth_error plus]. auto.
  Qed.

  Definition abs_ok (m : mesh P) (s : mspec P) : Prop := pc m = svs s /\ topology m = flat (sfs s).

  Lemma abs_num_faces m s : abs_ok m s -> num_faces m = N.of_nat (length (sfs s)).
  Proof. intros [_ E]. unfold num_faces, lenN. rewrite E, flat_length. lia. Qed.

  Lemma abs_face_ids m s f : abs_ok m s -> 3 * f + 2 < 2 ^ 64 ->
    face_vertex_ids m f = Ok (nth_error (sfs s) (N.to_nat f)).
  Proof.
    intros [_ E] Hf. unfold face_vertex_ids.
    assert (W : forall x, x < 2 ^ 64 -> w64 x = x) by (intros x Hx; unfold w64; apply N.mod_small; exact Hx).
    rewrite (W (3 * f)) by lia. rewrite !W by lia. rewrite E. unfold lenN. rewrite flat_length.
    destruct (N.leb_spec (N.of_nat (3 * length (sfs s))) (3 * f + 2)) as [H|H].
    - rewrite (proj2 (nth_error_None (sfs s) (N.to_nat f))) by lia. reflexivity.
    - destruct (nth_error (sfs s) (N.to_nat f)) as [[[a b] c]|] eqn:En.
      + destruct (flat_nth _ _ _ _ _ En) as (A & B & C). rewrite !nthN_nth_error.
        replace (N.to_nat (3 * f + 0)) with (3 * N.to_nat f)%nat by lia.
        replace (N.to_nat (3 * f + 1)) with (3 * N.to_nat f + 1)%nat by lia.
        replace (N.to_nat (3 * f + 2)) with (3 * N.to_nat f + 2)%nat by lia.
        rewrite A, B, C. reflexivity.
      + apply nth_error_None in En. lia.
  Qed.

  Lemma abs_shows m s : abs_ok m s -> faces_ok s -> shows m s.
  Proof.
    intros Ha Hf. pose proof Ha as [E1 E2]. unfold shows.
    assert (Hv : forall v, vertex m v = nth_error (svs s) (N.to_nat v)).
    { intros v; unfold vertex; rewrite E1; apply nthN_nth_error. }
    split; [unfold num_vertices, lenN; now rewrite E1|].
    split; [exact Hv|]. split; [now apply abs_num_faces|].
    split; [intros f Hb; now apply abs_face_ids|].
    intros f a b c Hb Hn. destruct (Hf a b c (nth_error_In _ _ Hn)) as (Ra & Rb & Rc & _).
    unfold in_range in *.
    assert (G : forall v, v < N.of_nat (length (svs s)) -> exists p, nth_error (svs s) (N.to_nat v) = Some p).
    { intros v Hvv. destruct (nth_error (svs s) (N.to_nat v)) eqn:Ev; [eauto|]. apply nth_error_None in Ev. lia. }
    destruct (G a Ra) as [p Hp]. destruct (G b Rb) as [q Hq]. destruct (G c Rc) as [r Hr].
    exists p, q, r. do 3 (split; [assumption|]).
    unfold face_vertices. rewrite (abs_face_ids m s f Ha Hb), Hn. cbn [obind]. rewrite !Hv, Hp, Hq, Hr. reflexivity.
  Qed.

  Lemma step_sim m s o : abs_ok m s -> faces_ok s ->
    exists s', mspec_step s o s' (snd (mesh_step m o)) /\ abs_ok (fst (mesh_step m o)) s' /\ faces_ok s'.
  Proof.
    intros [E1 E2] Hf. destruct o as [p|p q r|a b c|v p]; cbn [mesh_step].
    - unfold add_vertex. cbn [fst snd pc topology]. eexists; split; [|split].
      + replace (lenN (pc m ++ [p]) - 1) with (N.of_nat (length (svs s))) by (rewrite lenN_app, E1; unfold lenN; cbn; lia).
        apply SAddVertex.
      + split; cbn [svs sfs pc topology]; congruence.
      + intros a b c Hin. cbn in Hin. destruct (Hf a b c Hin) as (A & B & C & D). unfold in_range in *; cbn.
        rewrite app_length; cbn; repeat split; try lia; apply D.
    - unfold add_face, add_vertex. cbn [fst snd pc topology]. eexists; split; [|split].
      + match goal with |- mspec_step _ _ _ (MFId ?x) => replace x with (N.of_nat (length (sfs s))) end.
        2:{ rewrite !lenN_app, E2. unfold lenN. rewrite flat_length. cbn [length]. lia. }
        apply SAddFace.
      + split; cbn [svs sfs pc topology]; [rewrite E1, <- !app_assoc; reflexivity|].
        rewrite flat_app, E2, <- !app_assoc. cbn [flat flat_map app]. f_equal.
        rewrite !lenN_app, E1; unfold lenN; cbn [length]. repeat (f_equal; try lia).
      + intros a b c Hin. cbn [sfs] in Hin. unfold in_range; cbn [svs]. rewrite app_length; cbn [length].
        apply in_app_or in Hin as [Hin|Hin].
        * destruct (Hf a b c Hin) as (A & B & C & D). unfold in_range in *. repeat split; try lia; apply D.
        * destruct Hin as [Hin|[]]. injection Hin as <- <- <-. lia.
    - unfold try_add_connection. rewrite !E1. unfold lenN.
      destruct (N.leb_spec (N.of_nat (length (svs s))) a) as [Ha|Ha]; cbn [orb fst snd].
      { exists s; split; [apply SConnectOutOfRange; unfold in_range; lia|]. split; [split; assumption|exact Hf]. }
      destruct (N.leb_spec (N.of_nat (length (svs s))) b) as [Hb|Hb]; cbn [orb fst snd].
      { exists s; split; [apply SConnectOutOfRange; unfold in_range; lia|]. split; [split; assumption|exact Hf]. }
      destruct (N.leb_spec (N.of_nat (length (svs s))) c) as [Hc|Hc]; cbn [orb fst snd].
      { exists s; split; [apply SConnectOutOfRange; unfold in_range; lia|]. split; [split; assumption|exact Hf]. }
      assert (R : in_range s a /\ in_range s b /\ in_range s c) by (unfold in_range; auto).
      destruct (N.eqb_spec a b) as [H1|H1]; cbn [orb fst snd].
      { exists s; split; [apply SConnectNotUnique; auto|]. split; [split; assumption|exact Hf]. }
      destruct (N.eqb_spec a c) as [H2|H2]; cbn [orb fst snd].
      { exists s; split; [apply SConnectNotUnique; auto|]. split; [split; assumption|exact Hf]. }
      destruct (N.eqb_spec b c) as [H3|H3]; cbn [orb fst snd].
      { exists s; split; [apply SConnectNotUnique; auto|]. split; [split; assumption|exact Hf]. }
      eexists; split; [|split].
      + match goal with |- mspec_step _ _ _ (MFId ?x) => replace x with (N.of_nat (length (sfs s))) end.
        2:{ cbn [topology]. rewrite E2, !app_length, flat_length. cbn [length]. lia. }
        apply SConnect; auto.
      + split; cbn [svs sfs pc topology]; [reflexivity|].
        rewrite flat_app, E2, <- !app_assoc. reflexivity.
      + intros a' b' c' Hin. cbn [sfs] in Hin. unfold in_range in *; cbn [svs].
        apply in_app_or in Hin as [Hin|Hin].
        * apply (Hf a' b' c' Hin).
        * destruct Hin as [Hin|[]]. injection Hin as <- <- <-. tauto.
    - unfold change_vertex. rewrite !E1. destruct (N.ltb_spec v (lenN (svs s))) as [Hv|Hv]; cbn [fst snd].
      + destruct (nth_error (svs s) (N.to_nat v)) as [x|] eqn:Ex.
        2:{ apply nth_error_None in Ex. unfold lenN in Hv. lia. }
        destruct (nth_error_split _ _ Ex) as (l & r & E & El).
        eexists; split; [|split].
        * eapply SChange; [exact E|lia].
        * split; cbn [svs sfs pc topology]; [|exact E2].
          rewrite setN_split by exact Hv. rewrite E, <- El, firstn_app, firstn_all, Nat.sub_diag. cbn [firstn].
          rewrite app_nil_r, skipn_app, skipn_all2 by lia.
          replace (S (length l) - length l)%nat with 1%nat by lia. reflexivity.
        * intros a b c Hin. cbn [sfs] in Hin. destruct (Hf a b c Hin) as (A & B & C & D).
          unfold in_range in *; cbn [svs]. rewrite E in *. rewrite app_length in *. cbn [length] in *. tauto.
      + exists s; split; [apply SChangeOutOfRange; unfold in_range, lenN in *; lia|]. split; [split; assumption|exact Hf].
  Qed.

  Lemma run_sim ops : forall m s, abs_ok m s -> faces_ok s ->
    exists s', mspec_run s ops s' (snd (mesh_run m ops)) /\ abs_ok (fst (mesh_run m ops)) s' /\ faces_ok s'.
  Proof.
    induction ops as [|o ops IH]; intros m s Ha Hf; cbn [mesh_run].
    - exists s; split; [constructor|auto].
    - destruct (step_sim m s o Ha Hf) as (s1 & Hs & Ha1 & Hf1).
      destruct (mesh_step m o) as [m1 b]; cbn [fst snd] in *.
      destruct (IH m1 s1 Ha1 Hf1) as (s2 & Hr & Ha2 & Hf2).
      destruct (mesh_run m1 ops) as [m2 bs]; cbn [fst snd] in *.
      exists s2; split; [econstructor; eassumption|auto].
  Qed.

  Lemma mesh_refines ops :
    exists s, mspec_run (MSpec [] []) ops s (snd (mesh_run (@mesh_empty P) ops)) /\
              shows (fst (mesh_run (@mesh_empty P) ops)) s /\ faces_ok s.
  Proof.
    destruct (run_sim ops mesh_empty (MSpec [] [])) as (s & A & B & C).
    - split; reflexivity.
    - intros a b c [].
    - exists s; split; [exact A|split; [now apply abs_shows|exact C]].
  Qed.

  (** Stability of ids. *)
  Lemma spec_step_grows (s : mspec P) o s' b : mspec_step s o s' b ->
    (length (svs s) <= length (svs s'))%nat /\ exists l, sfs s' = sfs s ++ l.
  Proof.
    destruct 1; cbn [svs sfs]; rewrite ?app_length; split; try lia;
      try (eexists; reflexivity); try (exists []; now rewrite app_nil_r).
    rewrite H, app_length; cbn [length]; lia.
  Qed.

  Lemma spec_run_grows (s : mspec P) ops s' bs : mspec_run s ops s' bs ->
    (length (svs s) <= length (svs s'))%nat /\ exists l, sfs s' = sfs s ++ l.
  Proof.
    induction 1 as [|s o s1 b ops s2 bs Hs Hr IH].
    - split; [lia|exists []; now rewrite app_nil_r].
    - destruct (spec_step_grows _ _ _ _ Hs) as (A & l1 & B). destruct IH as (C & l2 & D).
      split; [lia|]. exists (l1 ++ l2). now rewrite D, B, app_assoc.
  Qed.

  Lemma mesh_run_app m ops1 ops2 :
    mesh_run (P:=P) m (ops1 ++ ops2) =
    (fst (mesh_run (fst (mesh_run m ops1)) ops2), snd (mesh_run m ops1) ++ snd (mesh_run (fst (mesh_run m ops1)) ops2)).
  Proof.
    revert m; induction ops1 as [|o r IH]; intros m; cbn [app mesh_run].
    - cbn [fst snd app]; destruct (mesh_run m ops2); reflexivity.
    - destruct (mesh_step m o) as [m1 b]. rewrite IH. destruct (mesh_run m1 r) as [m2 bs]. reflexivity.
  Qed.

  Lemma mesh_ids_stable ops1 ops2 :
    let m1 := fst (mesh_run (@mesh_empty P) ops1) in
    let m2 := fst (mesh_run (@mesh_empty P) (ops1 ++ ops2)) in
    (forall v, vertex m1 v <> None -> vertex m2 v <> None) /\
    (forall f, 3 * f + 2 < 2 ^ 64 -> f < num_faces m1 -> face_vertex_ids m2 f = face_vertex_ids m1 f) /\
    num_vertices m1 <= num_vertices m2 /\ num_faces m1 <= num_faces m2.
  Proof.
    intros m1 m2.
    destruct (run_sim ops1 mesh_empty (MSpec [] [])) as (s1 & A & B & C); [split; reflexivity|intros a b c []|].
    fold m1 in B.
    destruct (run_sim ops2 m1 s1 B C) as (s2 & A2 & B2 & C2).
    assert (E : m2 = fst (mesh_run m1 ops2)) by (unfold m2; rewrite mesh_run_app; reflexivity).
    rewrite <- E in B2. destruct (spec_run_grows _ _ _ _ A2) as (G & l & Hl).
    pose proof (abs_shows _ _ B C) as (S1 & S2 & S3 & S4 & _).
    pose proof (abs_shows _ _ B2 C2) as (T1 & T2 & T3 & T4 & _).
    split; [|split; [|split]].
    - intros v. rewrite S2, T2, !nth_error_Some. lia.
    - intros f Hf Hlt. rewrite S4, T4, Hl by exact Hf. rewrite S3 in Hlt. rewrite nth_error_app1 by lia. reflexivity.
    - rewrite S1, T1. lia.
    - rewrite S3, T3, Hl, app_length. lia.
  Qed.

  (** Errors and frame, for arbitrary meshes. *)
  Lemma connect_outcome (m : mesh P) a b c :
    let r := try_add_connection m a b c in
    let out := num_vertices m <= a \/ num_vertices m <= b \/ num_vertices m <= c in
    let dup := a = b \/ a = c \/ b = c in
    (snd r = Err IncorrectVertexID <-> out) /\
    (snd r = Err FaceIDsNotUnique <-> ~ out /\ dup) /\
    ((exists f, snd r = Ok f) <-> ~ out /\ ~ dup) /\
    (snd r <> Panic) /\
    ((forall f, snd r <> Ok f) -> fst r = m).
  Proof.
    unfold try_add_connection, num_vertices; cbn zeta.
    destruct (N.leb_spec (lenN (pc m)) a) as [Ha|Ha]; cbn [orb fst snd].
    { repeat split; intros; try lia; try congruence; try tauto; try discriminate; try (destruct H; discriminate). }
    destruct (N.leb_spec (lenN (pc m)) b) as [Hb|Hb]; cbn [orb fst snd].
    { repeat split; intros; try lia; try congruence; try tauto; try discriminate; try (destruct H; discriminate). }
    destruct (N.leb_spec (lenN (pc m)) c) as [Hc|Hc]; cbn [orb fst snd].
    { repeat split; intros; try lia; try congruence; try tauto; try discriminate; try (destruct H; discriminate). }
    destruct (N.eqb_spec a b) as [H1|H1]; cbn [orb fst snd].
    { repeat split; intros; try lia; try congruence; try tauto; try discriminate; try (destruct H; discriminate). }
    destruct (N.eqb_spec a c) as [H2|H2]; cbn [orb fst snd].
    { repeat split; intros; try lia; try congruence; try tauto; try discriminate; try (destruct H; discriminate). }
    destruct (N.eqb_spec b c) as [H3|H3]; cbn [orb fst snd].
    { repeat split; intros; try lia; try congruence; try tauto; try discriminate; try (destruct H; discriminate). }
    repeat split; intros; try lia; try congruence; try tauto; try discriminate; eauto.
    exfalso; eapply H; reflexivity.
  Qed.

  Lemma change_outcome (m : mesh P) v p :
    (snd (change_vertex m v p) = Err IncorrectVertexID <-> num_vertices m <= v) /\
    (snd (change_vertex m v p) = Ok tt <-> v < num_vertices m) /\
    (num_vertices m <= v -> fst (change_vertex m v p) = m).
  Proof.
    unfold change_vertex, num_vertices. destruct (N.ltb_spec v (lenN (pc m))); cbn [fst snd];
      repeat split; intros; try lia; try congruence; try discriminate; auto.
  Qed.

  Lemma alias_face (m : mesh P) a b c d r : topology m = a :: b :: c :: d :: r ->
    face_vertex_ids m 12297829382473034411 = Ok (Some (b, c, d)).
  Proof.
    intros E. unfold face_vertex_ids.
    replace (w64 (w64 (3 * 12297829382473034411) + 0)) with 1 by (vm_compute; reflexivity).
    replace (w64 (w64 (3 * 12297829382473034411) + 1)) with 2 by (vm_compute; reflexivity).
    replace (w64 (w64 (3 * 12297829382473034411) + 2)) with 3 by (vm_compute; reflexivity).
    rewrite E. destruct (N.leb_spec (lenN (a :: b :: c :: d :: r)) 3) as [H|H]; [|reflexivity].
    unfold lenN in H; cbn [length] in H; lia.
  Qed.
End L.
