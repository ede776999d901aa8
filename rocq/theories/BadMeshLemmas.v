From Verif Require Import Base BaseLemmas Num VecModel MeshModel MeshSpec MeshLemmas MeshAlgoModel MeshAlgoSpec MeshAlgoLemmas ShapeModel NormalModel NormalLemmas StlModel PlyModel PartsModel PartsSpec PartsLemmas BadMeshSpec.
From Verif Require PartsProps.
Local Open Scope N_scope.
From Coq Require Import ZifyBool ZifyNat ZifyN.
Ltac Zify.zify_post_hook ::= Z.div_mod_to_equations.

Section L.
Context {P : Type} (ps : list P) (ids : list N) (FIT : ids_fit ids).
Notation m := (mesh_from (ps, ids)).
Notation s := (MSpec ps (triples ids)).

Lemma bound : 3 * N.of_nat (length (triples ids)) < 2 ^ 64.
Proof. unfold ids_fit in FIT. rewrite <- triples_len. lia. Qed.
Lemma n_faces : num_faces m = N.of_nat (length (triples ids)).
Proof. apply triples_len. Qed.
Lemma face_at j f : nth_error (triples ids) (N.to_nat j) = Some f -> face_vertex_ids m j = Ok (Some f) /\
  face_vertices m j = Ok (let '(a, b, c) := f in three ps a b c).
Proof.
  intros E. pose proof bound as B. assert (L : (N.to_nat j < length (triples ids))%nat) by (apply nth_error_Some; congruence).
  destruct (PartsProps.C187_mesh P ps ids) as (_ & _ & _ & _ & F1 & F2). rewrite F1, F2 by lia. rewrite E. destruct f as [[a b] c]. split; reflexivity.
Qed.
Lemma three_in a b c : three ps a b c <> None <-> in_range s a /\ in_range s b /\ in_range s c.
Proof.
  unfold in_range. cbn [svs]. unfold three. split.
  - intros H. destruct (nth_error ps (N.to_nat a)) eqn:A; [|congruence]. destruct (nth_error ps (N.to_nat b)) eqn:B; [|congruence]. destruct (nth_error ps (N.to_nat c)) eqn:C; [|congruence].
    repeat split; [assert (X := proj1 (nth_error_Some ps (N.to_nat a)))|assert (X := proj1 (nth_error_Some ps (N.to_nat b)))|assert (X := proj1 (nth_error_Some ps (N.to_nat c)))]; specialize (X ltac:(congruence)); lia.
  - intros (A & B & C). destruct (nth_error ps (N.to_nat a)) eqn:EA; [|apply nth_error_None in EA; lia].
    destruct (nth_error ps (N.to_nat b)) eqn:EB; [|apply nth_error_None in EB; lia]. destruct (nth_error ps (N.to_nat c)) eqn:EC; [discriminate|apply nth_error_None in EC; lia].
Qed.
Lemma ok_iff : faces_ok s <-> ~ lacking ps ids /\ ~ repeating ids.
Proof.
  split.
  - intros F. split; intros (a & b & c & I & H); destruct (F a b c I) as (A & B & C & D1 & D2 & D3).
    + apply (proj2 (three_in a b c)) in H; [exact H|auto].
    + tauto.
  - intros (L & R) a b c I. cbn [sfs] in I.
    assert (T : three ps a b c <> None) by (intros H; apply L; exists a, b, c; auto). apply three_in in T. destruct T as (A & B & C).
    repeat (split; [assumption|]). split; [|split]; intros E; apply R; exists a, b, c; auto.
Qed.
Lemma shows_from : ~ lacking ps ids -> shows m s.
Proof.
  intros L. destruct (PartsProps.C187_mesh P ps ids) as (_ & F1 & F2 & F3 & F4 & F5). split; [exact F1|]. split; [exact F2|]. split; [exact F3|]. split; [exact F4|].
  intros f a b c Hf E. cbn [svs sfs] in *. specialize (F5 f Hf). unfold face3 in *. rewrite E in F5.
  assert (T : three ps a b c <> None) by (intros H; apply L; exists a, b, c; split; [apply nth_error_In in E; exact E|exact H]).
  unfold three in *. destruct (nth_error ps (N.to_nat a)) as [p|]; [|congruence]. destruct (nth_error ps (N.to_nat b)) as [q|]; [|congruence]. destruct (nth_error ps (N.to_nat c)) as [r|]; [|congruence].
  exists p, q, r. repeat (split; [reflexivity|]). exact F5.
Qed.
Lemma lacking_at : lacking ps ids -> exists j, (0 <= j < 0 + N.of_nat (N.to_nat (num_faces m)))%N /\ face_vertices m j = Ok None.
Proof.
  intros (a & b & c & I & T). destruct (In_nth_error _ _ I) as [j Hj]. exists (N.of_nat j). assert (j < length (triples ids))%nat by (apply nth_error_Some; congruence).
  rewrite n_faces. split; [lia|]. rewrite <- (Nat2N.id j) in Hj. destruct (face_at _ _ Hj) as (_ & ->). now rewrite T.
Qed.
Lemma fv_no_err {Q} (m : mesh Q) j e : face_vertices m j <> Err e.
Proof.
  unfold face_vertices, face_vertex_ids. destruct (_ <=? _); cbn [obind]; [discriminate|].
  destruct (nthN _ _); [|discriminate]. destruct (nthN _ _); [|discriminate]. destruct (nthN _ _); [|discriminate].
  cbn [obind]. destruct (vertex m _); [|discriminate]. destruct (vertex m _); [|discriminate]. destruct (vertex m _); discriminate.
Qed.
Lemma fvi_no_err {Q} (m : mesh Q) j e : face_vertex_ids m j <> Err e.
Proof. unfold face_vertex_ids. destruct (_ <=? _); [discriminate|]. destruct (nthN _ _); [|discriminate]. destruct (nthN _ _); [|discriminate]. destruct (nthN _ _); discriminate. Qed.

Lemma heal_lacking same : lacking ps ids -> heal_mesh same m = Panic.
Proof.
  intros H. unfold heal_mesh. rewrite for_range_panic; [reflexivity| |].
  - intros j d e. destruct (face_vertices m j) as [o|e'|] eqn:E; [|exfalso; exact (fv_no_err _ _ _ E)|discriminate]. cbn [obind]. destruct o as [[[p q] r]|]; discriminate.
  - destruct (lacking_at H) as (j & J & E). exists j. split; [exact J|]. intros d. rewrite E. reflexivity.
Qed.

(** ** subdivision *)
Lemma edge_entry_get {V} (mid : V -> V -> V) e mo a b va vb id e' mo' : edge_entry mid e mo a b va vb = (id, (e', mo')) ->
  edge_get e' (N.min a b, N.max a b) = Some id /\ (forall k v, edge_get e k = Some v -> edge_get e' k = Some v).
Proof.
  unfold edge_entry. destruct (edge_get e _) as [i|] eqn:E.
  - intros H. injection H as <- <- <-. split; [exact E|auto].
  - intros H. cbn in H. injection H as <- <- <-. cbn [edge_get fst snd]. rewrite !N.eqb_refl. cbn [andb]. split; [reflexivity|].
    intros [k1 k2] v K. cbn [fst snd]. destruct (N.eqb_spec (N.min a b) k1) as [<-|]; [|exact K]. destruct (N.eqb_spec (N.max a b) k2) as [<-|]; [|exact K]. congruence.
Qed.
Lemma edge_entry_known {V} (mid : V -> V -> V) e mo a b va vb i : edge_get e (N.min a b, N.max a b) = Some i -> edge_entry mid e mo a b va vb = (i, (e, mo)).
Proof. intros H. unfold edge_entry. rewrite H. reflexivity. Qed.
Lemma connect_distinct {V} (mo mo' : mesh V) a b c : connect mo a b c = Ok mo' -> a <> b /\ a <> c /\ b <> c.
Proof.
  unfold connect, try_add_connection. destruct (_ || _ || _); [discriminate|].
  destruct (N.eqb_spec a b), (N.eqb_spec a c), (N.eqb_spec b c); cbn; try discriminate. auto.
Qed.
Lemma linear_face_ok (mid : P -> P -> P) i st st' : linear_face mid m i st = Ok st' -> exists a b c, face_vertex_ids m i = Ok (Some (a, b, c)) /\
  face_vertices m i <> Ok None /\ a <> b /\ a <> c /\ b <> c.
Proof.
  unfold linear_face. destruct (face_vertex_ids m i) as [[[[a b] c]|]|e|]; try discriminate. cbn [obind].
  destruct (face_vertices m i) as [[[[v1 v2] v3]|]|e|]; try discriminate. cbn [obind]. destruct st as [e mo].
  destruct (edge_entry mid e mo a b v1 v2) as [ia [e1 mo1]] eqn:E1. destruct (edge_entry mid e1 mo1 b c v2 v3) as [ib [e2 mo2]] eqn:E2.
  destruct (edge_entry mid e2 mo2 c a v3 v1) as [ic [e3 mo3]] eqn:E3.
  destruct (connect mo3 a ia ic) as [mo4|er|] eqn:C1; try discriminate. cbn [obind]. destruct (connect mo4 ia b ib) as [mo5|er|] eqn:C2; try discriminate. cbn [obind].
  destruct (connect mo5 ia ib ic) as [mo6|er|] eqn:C3; try discriminate. cbn [obind]. intros _.
  apply connect_distinct in C1, C2, C3. exists a, b, c. split; [reflexivity|]. split; [discriminate|].
  destruct (edge_entry_get _ _ _ _ _ _ _ _ _ _ E1) as (G1 & K1). destruct (edge_entry_get _ _ _ _ _ _ _ _ _ _ E2) as (G2 & K2).
  split; [|split]; intros X; subst.
  - rewrite edge_entry_known with (i := ib) in E3; [|rewrite N.min_comm, N.max_comm; exact G2]. assert (ib = ic) by congruence. tauto.
  - rewrite edge_entry_known with (i := ia) in E2; [|rewrite N.min_comm, N.max_comm; exact G1]. assert (ia = ib) by congruence. tauto.
  - rewrite edge_entry_known with (i := ia) in E3; [|rewrite N.min_comm, N.max_comm; apply K2; exact G1]. assert (ia = ic) by congruence. tauto.
Qed.
Lemma for_range_ok {S} (f : N -> S -> res S) n : forall i st st', for_range n i f st = Ok st' -> forall j, i <= j < i + N.of_nat n -> exists a b, f j a = Ok b.
Proof.
  induction n as [|n IH]; intros i st st' H j J; [lia|]. cbn [for_range] in H. destruct (f i st) as [a|e|] eqn:E; cbn [obind] in H; try discriminate.
  destruct (N.eq_dec i j) as [<-|D]; [eauto|]. eapply IH; [exact H|lia].
Qed.
Lemma subdivide_valid (mid : P -> P -> P) m' : subdivide_linear mid m = Ok m' -> faces_ok s.
Proof.
  intros H. unfold subdivide_linear in H. destruct (copy_vertices m) as [mo|e|]; cbn [obind] in H; try discriminate.
  destruct (for_range _ _ _ _) as [st|e|] eqn:E in H; cbn [obind] in H; try discriminate. apply ok_iff.
  assert (G : forall a b c, In (a, b, c) (triples ids) -> three ps a b c <> None /\ a <> b /\ a <> c /\ b <> c).
  { intros a b c I. destruct (In_nth_error _ _ I) as [j Hj]. assert (Lj : (j < length (triples ids))%nat) by (apply nth_error_Some; congruence).
    rewrite <- (Nat2N.id j) in Hj. destruct (face_at _ _ Hj) as (F1 & F2). pose proof n_faces as NF.
    destruct (for_range_ok _ _ _ _ _ E (N.of_nat j)) as (x & y & Exy); [rewrite NF; lia|].
    destruct (linear_face_ok _ _ _ _ Exy) as (a' & b' & c' & G1 & G2 & G3). rewrite F1 in G1. injection G1 as <- <- <-. rewrite F2 in G2. split; [congruence|exact G3]. }
  split; intros (a & b & c & I & X); destruct (G a b c I) as (G1 & G2 & G3 & G4); tauto.
Qed.

(** ** unification *)
Lemma vtf_insert_len v i t t' : vtf_insert v i t = Ok t' -> lenN t' = lenN t.
Proof. unfold vtf_insert. destruct (nthN t v); intros H; [injection H as <-; apply setN_lenN|discriminate]. Qed.
Lemma vtf_insert_err v i t e : vtf_insert v i t <> Err e.
Proof. unfold vtf_insert. destruct (nthN t v); discriminate. Qed.
Lemma vtf_insert_out v i t : lenN t <= v -> vtf_insert v i t = Panic.
Proof. intros H. unfold vtf_insert. rewrite nthN_nth_error, (proj2 (nth_error_None t (N.to_nat v))) by (unfold lenN in H; lia). reflexivity. Qed.
Lemma for_range_panic_inv {S} (I : S -> Prop) (f : N -> S -> res S) n : forall i st, I st -> (forall j a b, I a -> f j a = Ok b -> I b) -> (forall j a e, f j a <> Err e) ->
  (exists j, i <= j < i + N.of_nat n /\ forall a, I a -> f j a = Panic) -> for_range n i f st = Panic.
Proof.
  induction n as [|n IH]; intros i st Ist K NE (j & J & Q); [lia|]. cbn [for_range]. destruct (N.eq_dec i j) as [-> |D]; [rewrite Q by exact Ist; reflexivity|].
  destruct (f i st) as [b|e|] eqn:E; [|exfalso; exact (NE _ _ _ E)|reflexivity]. cbn [obind]. apply IH; [exact (K _ _ _ Ist E)|exact K|exact NE|]. exists j. split; [lia|exact Q].
Qed.
Lemma vertex_to_face_lacking : lacking ps ids -> vertex_to_face m = Panic.
Proof.
  intros (a & b & c & I & T). unfold vertex_to_face. apply for_range_panic_inv with (I := fun t => lenN t = N.of_nat (length ps)).
  - unfold lenN, num_vertices. rewrite repeat_length. cbn [mesh_from pc fst]. unfold lenN. lia.
  - intros j t t' L E. destruct (face_vertex_ids m j) as [[[[x y] z]|]|e|]; cbn [obind] in E; try discriminate.
    destruct (vtf_insert x j t) as [t1|e|] eqn:E1; cbn [obind] in E; try discriminate. destruct (vtf_insert y j t1) as [t2|e|] eqn:E2; cbn [obind] in E; try discriminate.
    apply vtf_insert_len in E, E1, E2. congruence.
  - intros j t e. destruct (face_vertex_ids m j) as [[[[x y] z]|]|e'|] eqn:Ef; cbn [obind]; try discriminate; [|exfalso; exact (fvi_no_err _ _ _ Ef)].
    destruct (vtf_insert x j t) as [t1|e'|] eqn:E1; cbn [obind]; try discriminate; [|exfalso; exact (vtf_insert_err _ _ _ _ E1)].
    destruct (vtf_insert y j t1) as [t2|e'|] eqn:E2; cbn [obind]; try discriminate; [|exfalso; exact (vtf_insert_err _ _ _ _ E2)]. apply vtf_insert_err.
  - destruct (In_nth_error _ _ I) as [j Hj]. assert (Lj : (j < length (triples ids))%nat) by (apply nth_error_Some; congruence). exists (N.of_nat j).
    pose proof n_faces as NF. rewrite NF. split; [lia|]. intros t L. rewrite <- (Nat2N.id j) in Hj. destruct (face_at _ _ Hj) as (-> & _). cbn [obind].
    assert (O : N.of_nat (length ps) <= a \/ N.of_nat (length ps) <= b \/ N.of_nat (length ps) <= c).
    { destruct (N.le_gt_cases (N.of_nat (length ps)) a); [auto|]. destruct (N.le_gt_cases (N.of_nat (length ps)) b); [auto|]. destruct (N.le_gt_cases (N.of_nat (length ps)) c); [auto|].
      exfalso. apply (proj2 (three_in a b c)) in T; [exact T|]. unfold in_range; cbn [svs]. auto. }
    destruct (vtf_insert a (N.of_nat j) t) as [t1|e|] eqn:E1; cbn [obind]; [|exfalso; exact (vtf_insert_err _ _ _ _ E1)|reflexivity].
    pose proof (vtf_insert_len _ _ _ _ E1) as L1.
    destruct (vtf_insert b (N.of_nat j) t1) as [t2|e|] eqn:E2; cbn [obind]; [|exfalso; exact (vtf_insert_err _ _ _ _ E2)|reflexivity].
    pose proof (vtf_insert_len _ _ _ _ E2) as L2. destruct O as [O|[O|O]].
    + rewrite vtf_insert_out in E1 by lia. discriminate.
    + rewrite vtf_insert_out in E2 by lia. discriminate.
    + apply vtf_insert_out. lia.
Qed.
Lemma unify_lacking {Nrm} (normal : P -> P -> P -> res Nrm) opp fuel : lacking ps ids -> unify_faces normal opp fuel m = Some Panic.
Proof. intros H. unfold unify_faces. rewrite vertex_to_face_lacking by exact H. reflexivity. Qed.
Lemma rebuild_distinct flips i r r' a b c : face_vertex_ids m i = Ok (Some (a, b, c)) -> rebuild_face m flips i r = Ok r' -> a <> b /\ a <> c /\ b <> c.
Proof.
  intros E. unfold rebuild_face. rewrite E. cbn [obind]. destruct (bit flips i) as [fl|e|]; cbn [obind]; try discriminate.
  unfold try_add_connection. destruct (_ || _ || _); [discriminate|]. destruct fl; destruct (N.eqb_spec a b), (N.eqb_spec a c), (N.eqb_spec b c), (N.eqb_spec c b); cbn; try discriminate; try congruence; auto.
Qed.
Lemma unify_valid {Nrm} (normal : P -> P -> P -> res Nrm) opp fuel m' : unify_faces normal opp fuel m = Some (Ok m') -> faces_ok s.
Proof.
  intros H. apply ok_iff. split; [intros L; rewrite unify_lacking in H by exact L; discriminate|].
  unfold unify_faces in H. destruct (vertex_to_face m) as [vf|e|]; try discriminate.
  destruct (all_faces _ _ _ _ _ _ _ _) as [[st|e|]|]; try discriminate. injection H as H.
  destruct (copy_vertices m) as [mo|e|]; cbn [obind] in H; try discriminate. intros (a & b & c & I & X).
  destruct (In_nth_error _ _ I) as [j Hj]. assert (Lj : (j < length (triples ids))%nat) by (apply nth_error_Some; congruence).
  rewrite <- (Nat2N.id j) in Hj. destruct (face_at _ _ Hj) as (F1 & _). pose proof n_faces as NF.
  destruct (for_range_ok _ _ _ _ _ H (N.of_nat j)) as (x & y & Exy); [rewrite NF; lia|].
  destruct (rebuild_distinct _ _ _ _ _ _ _ F1 Exy) as (D1 & D2 & D3). tauto.
Qed.
End L.

Section Doubles.
Context (ps : list (pt3 F64)) (ids : list N) (FIT : ids_fit ids).
Notation m := (mesh_from (ps, ids)).
Lemma normals_lacking : lacking ps ids -> normals_of_mesh m = Panic.
Proof.
  intros H. unfold normals_of_mesh. rewrite for_range_panic; [reflexivity| |].
  - intros j ns e. unfold normals_face. destruct (face_vertex_ids m j) as [[[[a b] c]|]|e'|] eqn:Ef; cbn [obind]; try discriminate; [|exfalso; exact (fvi_no_err _ _ _ Ef)].
    destruct (face_vertices m j) as [[[[p q] r]|]|e'|] eqn:Ev; cbn [obind]; try discriminate; [|exfalso; exact (fv_no_err _ _ _ Ev)].
    destruct (norm3_or_z _) as [n|e'|] eqn:E; [|exfalso; exact (norm3_or_z_no_err _ _ E)|discriminate]. cbn [obind].
    unfold add_at. destruct (nthN ns a); [|discriminate]. cbn [obind]. destruct (nthN _ b); [|discriminate]. cbn [obind]. destruct (nthN _ c); discriminate.
  - destruct (lacking_at ps ids FIT H) as (j & J & E). exists j. split; [exact J|]. intros ns. unfold normals_face. rewrite E.
    destruct (face_vertex_ids m j) as [[[[a b] c]|]|e'|] eqn:Ef; cbn [obind]; try reflexivity. exfalso; exact (fvi_no_err _ _ _ Ef).
Qed.
Lemma stl_lacking ft : lacking ps ids -> save_stl_ascii ft m = Panic.
Proof.
  intros H. unfold save_stl_ascii. rewrite for_range_panic; [reflexivity| |].
  - intros j out e. destruct (face_vertices m j) as [[[[p q] r]|]|e'|]; cbn [unwrap_opt obind]; try discriminate.
    destruct (mesh_face_normal m j); cbn [unwrap_res obind]; discriminate.
  - destruct (lacking_at ps ids FIT H) as (j & J & E). exists j. split; [exact J|]. intros ns. rewrite E. reflexivity.
Qed.
End Doubles.

Lemma collect_range_some {A} (f : N -> outcome PlyError (list A)) n : forall i, (forall j, i <= j < i + N.of_nat n -> exists x, f j = Ok x) -> exists l, collect_range n i f = Ok l.
Proof.
  induction n as [|n IH]; intros i H; cbn [collect_range]; [eexists; reflexivity|]. destruct (H i) as (x & ->); [lia|]. cbn [obind].
  destruct (IH (i + 1)) as (l & ->); [intros j J; apply H; lia|]. cbn [obind]. eexists. reflexivity.
Qed.
Lemma ply_saved ft pr (ps : list (pt3 F64)) ids : ids_fit ids -> (exists calls, save_ply_ascii ft (mesh_from (ps, ids)) None = Ok calls) /\ (exists calls, save_ply_binary pr (mesh_from (ps, ids)) None = Ok calls).
Proof.
  intros FIT. pose proof (n_faces ps ids) as NF.
  assert (V : forall j, 0 <= j < 0 + N.of_nat (N.to_nat (num_vertices (mesh_from (ps, ids)))) -> exists p, get_vertex (mesh_from (ps, ids)) j = Ok p).
  { intros j J. unfold get_vertex, vertex, num_vertices in *. cbn [mesh_from pc fst] in *. rewrite nthN_nth_error. destruct (nth_error ps (N.to_nat j)) eqn:E; [eauto|]. apply nth_error_None in E. unfold lenN in J. lia. }
  assert (F : forall j, 0 <= j < 0 + N.of_nat (N.to_nat (num_faces (mesh_from (ps, ids)))) -> exists f, get_face (mesh_from (ps, ids)) j = Ok f).
  { intros j J. rewrite NF in J. destruct (nth_error (triples ids) (N.to_nat j)) as [f|] eqn:E; [|apply nth_error_None in E; unfold face3 in *; lia].
    destruct (face_at ps ids FIT _ _ E) as (X & _). unfold get_face. rewrite X. eauto. }
  split; [unfold save_ply_ascii|unfold save_ply_binary]; cbn [colors_fit negb].
  all: match goal with |- context [obind (collect_range ?n 0 ?f) _] => destruct (collect_range_some f n 0) as (vs & EV) end;
    [intros j J; destruct (V j J) as (p & ->); cbn [obind get_color]; eauto|]; rewrite EV; cbn [obind].
  all: match goal with |- context [obind (collect_range ?n 0 ?f) _] => destruct (collect_range_some f n 0) as (fs & EF) end;
    [intros j J; destruct (F j J) as ([[a b] c] & ->); cbn [obind]; eauto|]; rewrite EF; cbn [obind]; eauto.
Qed.
Lemma lacking_dec {P} (ps : list P) ids : lacking ps ids \/ ~ lacking ps ids.
Proof.
  unfold lacking. induction (triples ids) as [|[[a b] c] l IH]; [right; intros (a & b & c & [] & _)|].
  destruct (three ps a b c) as [t|] eqn:T.
  - destruct IH as [(x & y & z & I & H)|N]; [left; exists x, y, z; split; [right; exact I|exact H]|right].
    intros (x & y & z & [E|I] & H); [injection E as <- <- <-; congruence|apply N; exists x, y, z; auto].
  - left. exists a, b, c. split; [left; reflexivity|exact T].
Qed.
