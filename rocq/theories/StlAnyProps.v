(** The facets of arbitrary .stl files in the three loaders (C197). *)
From Verif Require Import Base BaseLemmas Num NumLemmas VecModel GeomSpec FloatSpec MatrixLemmas MeshModel MeshSpec MeshLemmas MeshAlgoModel MeshAlgoSpec MeshAlgoLemmas IoModel IoSpec IoLemmas ByteModel ByteSpec ByteLemmas StlModel StlSpec StlLemmas StlFlatLemmas StlProps.
From Coq Require Import Floats.SpecFloat.
Open Scope nat_scope.

Definition facets_of (items : list (data_reserve stl_face)) : list stl_face := flat_map (fun x => match x with Data f => [f] | Reserve _ => [] end) items.
Lemma fold_facets same items : forall s, fold_left (unique_step same) items s = fold_left (unique_step same) (map Data (facets_of items)) s.
Proof. induction items as [|[n|f] items IH]; intros s; [reflexivity|exact (IH s)|]. cbn [facets_of flat_map app map fold_left]. apply IH. Qed.
Lemma points_facets items : flat_map (fun x => match x with Data f => [sf_a f; sf_b f; sf_c f] | Reserve _ => [] end) items = flat_map triangle_points (facets_of items).
Proof. induction items as [|[n|f] items IH]; [reflexivity|exact IH|]. cbn [facets_of flat_map app triangle_points]. rewrite IH. reflexivity. Qed.
Lemma normals_facets items : flat_map (fun x => match x with Data f => [sf_n f] | Reserve _ => [] end) items = map sf_n (facets_of items).
Proof. induction items as [|[n|f] items IH]; [reflexivity|exact IH|]. cbn [facets_of flat_map app map]. rewrite IH. reflexivity. Qed.
Lemma kept_normals (g : stl_face -> bool) (h : pt3 F64 * pt3 F64 * pt3 F64 -> bool) ts : (forall t, g t = h (triple t)) ->
  map sf_n (filter g ts) = map snd (filter (fun tn => h (fst tn)) (combine (map triple ts) (map sf_n ts))).
Proof. intros G. induction ts as [|t ts IH]; [reflexivity|]. cbn [map combine filter fst]. rewrite G. destruct (h (triple t)); cbn [map snd]; rewrite IH; reflexivity. Qed.

Lemma unique_exact : forall ft k fmt file ps ns r same, load_stl_triplets ft k fmt file = Some (ps, ns, r) -> decides same ps ->
  exists ts m' ns' s', flat_map points ts = ps /\ length ts = length ns /\
    load_stl_mesh_unique ft same k fmt file mesh_empty [] = Some (m', ns', r) /\
    abs_ok m' s' /\ shows m' s' /\ faces_ok s' /\ svs s' = first_occurrences same ps /\
    Forall2 (face_at s') (sfs s') (filter (fun t => negb (flat_face same t)) ts) /\
    ns' = map snd (filter (fun tn => negb (flat_face same (fst tn))) (combine ts ns)).
Proof.
  intros ft k fmt file ps ns r same H D. unfold load_stl_triplets in H. unfold load_stl_mesh_unique. destruct (stl_items ft k fmt file) as [[items r']|]; [|discriminate H].
  rewrite points_facets, normals_facets in H. rewrite fold_facets. set (ts := facets_of items) in *. assert (flat_map triangle_points ts = ps /\ map sf_n ts = ns /\ r' = r) as (<- & <- & ->) by (injection H; auto). clear H.
  rewrite (fold_peq same _ D); [|intros z []|apply incl_refl].
  pose proof (built_all peq peq_equality [] ts [] _ (built_start peq [])) as BB. cbn [app] in BB.
  destruct (fold_left (unique_step peq) (map Data ts) (mesh_empty, [], [])) as [[m' mp] ns']. destruct BB as (_ & FR & V & NM & fs & TO & FF & FD). cbn [app] in NM.
  exists (map triple ts), m', ns', (MSpec (pc m') fs). split; [apply map_points|]. split; [rewrite !map_length; reflexivity|]. split; [reflexivity|].
  assert (PP : filter (proper peq) ts = filter (fun t => negb (flat_face same (triple t))) ts) by (rewrite <- (proper_peq same _ D) by apply incl_refl; reflexivity).
  assert (CO : Forall2 (face_at (MSpec (pc m') fs)) fs (filter (fun t => negb (flat_face same t)) (map triple ts))).
  { rewrite filter_map. rewrite PP in FF. clear -FF. set (gs := filter _ ts) in *. assert (G : forall q fs0, Forall2 (face_of peq (pc m')) q fs0 -> Forall2 (face_at (MSpec (pc m') fs)) fs0 (map triple q)).
    { induction q as [|t q IH]; intros fs0 H; inversion H as [|? f ? ? H1 H2]; subst; constructor; [|apply IH, H2]. destruct f as [[a b] c]. destruct H1 as (p & q1 & r & A & B & C & PA & PB & PC). rewrite peq_true in *. cbn in *. subst. unfold face_at, corners. cbn [svs]. rewrite <- !nthN_nth_error, A, B, C. reflexivity. }
    apply G, FF. }
  assert (OK : faces_ok (MSpec (pc m') fs)).
  { intros a b c I. cbn [sfs] in I. rewrite Forall_forall in FD. pose proof (FD _ I) as DD. cbn in DD. apply In_nth_error in I as (i & I). assert (C : exists t, face_at (MSpec (pc m') fs) (a, b, c) t).
    { clear -CO I. revert i I. induction CO as [|f t l l' H1 H2 IH]; intros [|i] I; try discriminate; [injection I as ->; exists t; exact H1|apply (IH i I)]. }
    destruct C as (t & C). unfold face_at, corners in C. cbn [svs] in C.
    destruct (nth_error (pc m') (N.to_nat a)) eqn:EA; [|discriminate]. destruct (nth_error (pc m') (N.to_nat b)) eqn:EB; [|discriminate]. destruct (nth_error (pc m') (N.to_nat c)) eqn:EC; [|discriminate].
    assert (QQ : forall v x, nth_error (pc m') (N.to_nat v) = Some x -> in_range (MSpec (pc m') fs) v) by (intros v x E; unfold in_range; cbn [svs]; assert (N.to_nat v < length (pc m')) by (apply nth_error_Some; congruence); lia).
    split; [eapply QQ, EA|]. split; [eapply QQ, EB|]. split; [eapply QQ, EC|exact DD]. }
  assert (AB : abs_ok m' (MSpec (pc m') fs)) by (split; [reflexivity|exact TO]). split; [exact AB|].
  split; [apply abs_shows; [exact AB|exact OK]|]. split; [exact OK|]. split.
  { cbn [svs]. rewrite V, grow_firsts by apply peq_equality. symmetry. apply (firsts_peq same _ D), incl_refl. }
  split; [exact CO|]. rewrite NM, PP. apply (kept_normals _ (fun t => negb (flat_face same t))). reflexivity.
Qed.
(** Whatever is in the file and however loading ends: the mesh without duplicates has exactly the facets of the
    file with three different corners, in order, each with its own normal, and each position once, in the order of
    first appearance. *)
Theorem C197_unique : forall ft k fmt file ps ns r same, load_stl_triplets ft k fmt file = Some (ps, ns, r) -> decides same ps ->
  exists ts m' ns' s', flat_map points ts = ps /\ length ts = length ns /\
    load_stl_mesh_unique ft same k fmt file mesh_empty [] = Some (m', ns', r) /\
    shows m' s' /\ faces_ok s' /\ svs s' = first_occurrences same ps /\
    Forall2 (face_at s') (sfs s') (filter (fun t => negb (flat_face same t)) ts) /\
    ns' = map snd (filter (fun tn => negb (flat_face same (fst tn))) (combine ts ns)).
Proof.
  intros ft k fmt file ps ns r same H D. destruct (unique_exact ft k fmt file ps ns r same H D) as (ts & m' & ns' & s' & A & B & C & _ & G). exists ts, m', ns', s'. auto.
Qed.
Print Assumptions C197_unique.

(** The three loaders end the same way on every file. *)
Theorem C197_agree : forall ft k fmt file same ps ns r, load_stl_triplets ft k fmt file = Some (ps, ns, r) ->
  exists m m' ns', load_stl_mesh_duped ft k fmt file mesh_empty [] = Some (m, ns, r) /\ load_stl_mesh_unique ft same k fmt file mesh_empty [] = Some (m', ns', r).
Proof.
  intros ft k fmt file same ps ns r H. destruct (C66_duped ft k fmt file ps ns r H) as (m & ts & E & _). exists m. unfold load_stl_triplets in H. unfold load_stl_mesh_unique.
  destruct (stl_items ft k fmt file) as [[items r']|]; [|discriminate H]. injection H as _ _ ->. destruct (fold_left (unique_step same) items (mesh_empty, [], [])) as [[m' mp] ns']. exists m', ns'. split; [exact E|reflexivity].
Qed.
Print Assumptions C197_agree.

(** Users expect no position twice; a file with a coordinate that is not a number defeats it: a facet with all
    corners alike becomes a face with three vertices. *)
Definition nan_file : bytes := case_header 1 ++ map Ascii.ascii_of_N (repeat 0%N 12 ++ concat (repeat ([0; 0; 192; 127] ++ repeat 0%N 8)%N 3) ++ [0; 0]%N).
Theorem C197_nan_refuted : exists file p m ns, load_stl_mesh_unique demo eq_point 100 StlAuto file mesh_empty [] = Some (m, ns, Ok tt) /\
  m = Mesh [p; p; p] [0; 1; 2]%N.
Proof.
  exists nan_file, (@mk3 F64 S754_nan n0 n0). eexists _, [fp3 0 0 0]. split; [|reflexivity]. vmeq.
Qed.
Print Assumptions C197_nan_refuted.

(** A binary file of two facets, the first with two equal corners. *)
Definition two_facets : bytes :=
  case_header 2 ++ map Ascii.ascii_of_N
  (repeat 0%N 12 ++ repeat 0%N 24 ++ ([0; 0; 128; 63]%N ++ repeat 0%N 8) ++ [0; 0]%N ++
   ([0; 0; 128; 63]%N ++ repeat 0%N 8) ++ repeat 0%N 12 ++ ([0; 0; 128; 63]%N ++ repeat 0%N 8) ++ (repeat 0%N 4 ++ [0; 0; 128; 63]%N ++ repeat 0%N 4) ++ [0; 0]%N).
Example C197_case :
  decides eq_point [fp3 0 0 0; fp3 0 0 0; fp3 1 0 0; fp3 0 0 0; fp3 1 0 0; fp3 0 1 0] /\
  load_stl_triplets demo 100 StlAuto two_facets = Some ([fp3 0 0 0; fp3 0 0 0; fp3 1 0 0; fp3 0 0 0; fp3 1 0 0; fp3 0 1 0], [fp3 0 0 0; fp3 1 0 0], Ok tt) /\
  load_stl_mesh_unique demo eq_point 100 StlAuto two_facets mesh_empty [] = Some (Mesh [fp3 0 0 0; fp3 1 0 0; fp3 0 1 0] [0; 1; 2]%N, [fp3 1 0 0], Ok tt).
Proof.
  split; [|split; vmeq]. apply C64_same.
  do 6 (apply Forall_cons; [split; [|split]; (split; [|split]); vm_compute; try discriminate; auto|]). apply Forall_nil.
Qed.

(** ** C198: healing *)
Lemma separate_corners {P} (s : mspec P) : forall (ts : list (P * P * P)) pre, svs s = pre ++ flat_map points ts ->
  Forall2 (face_at s) (separate_faces (lenN pre) (length ts)) ts.
Proof.
  induction ts as [|((a, b), c) ts IH]; intros pre H; [constructor|]. cbn [length separate_faces]. constructor.
  - unfold face_at, corners. rewrite H. cbn [flat_map points].
    assert (N1 : forall i : nat, N.to_nat (lenN pre + N.of_nat i) = length pre + i) by (unfold lenN; lia).
    assert (G : forall i x, nth_error ([a; b; c] ++ flat_map points ts) i = Some x -> nth_error (pre ++ [a; b; c] ++ flat_map points ts) (length pre + i) = Some x).
    { intros i x E. rewrite nth_error_app2 by lia. replace (length pre + i - length pre) with i by lia. exact E. }
    replace (N.to_nat (lenN pre)) with (length pre + 0) by (unfold lenN; lia). replace (N.to_nat (lenN pre + 1)) with (length pre + 1) by (unfold lenN; lia). replace (N.to_nat (lenN pre + 2)) with (length pre + 2) by (unfold lenN; lia).
    rewrite (G 0 a eq_refl), (G 1 b eq_refl), (G 2 c eq_refl). reflexivity.
  - replace (lenN pre + 3)%N with (lenN (pre ++ [a; b; c])) by (unfold lenN; rewrite app_length; cbn [length]; lia).
    apply IH. rewrite H, <- app_assoc. reflexivity.
Qed.
Lemma corners_all {P} (s : mspec P) fs ts : Forall2 (face_at s) fs ts ->
  flat_map (fun f => match corners s f with Some (p, q, r) => [p; q; r] | None => [] end) fs = flat_map points ts.
Proof. induction 1 as [|f ((a, b), c) fs ts A F IH]; [reflexivity|]. unfold face_at in A. cbn [flat_map]. rewrite A, IH. reflexivity. Qed.
Lemma corners_kept {P} same (s s' : mspec P) fs ts : Forall2 (face_at s) fs ts -> forall gs,
  Forall2 (fun f g => same_corners same s f s' g) (filter (fun f => negb (collapsed same s f)) fs) gs ->
  Forall2 (fun g t => exists t', corners s' g = Some t' /\ let '(a, b, c) := t in let '(a', b', c') := t' in same a a' = true /\ same b b' = true /\ same c c' = true)
    gs (filter (fun t => negb (flat_face same t)) ts).
Proof.
  induction 1 as [|f ((a, b), c) fs ts A F IH]; intros gs H; [inversion H; constructor|]. unfold face_at in A. cbn [filter] in *. unfold collapsed at 1 in H. rewrite A in H. unfold flat_face at 1.
  destruct (same a b || same a c || same b c); cbn [negb] in *; [apply IH, H|]. inversion H as [|? g ? gs' K1 K2]; subst. constructor; [|apply IH, K2].
  destruct K1 as (p & q & w & p' & q' & w' & E1 & E2 & E3). rewrite A in E1. injection E1 as <- <- <-. exists (p', q', w'). split; [exact E2|exact E3].
Qed.
Lemma same_faces {P} (same : P -> P -> bool) (Q : equality same) (s s' : mspec P) ts : svs s = svs s' -> no_two_same same (svs s) ->
  forall fs gs, Forall2 (face_at s) fs ts -> Forall2 (face_at s') gs ts -> fs = gs.
Proof.
  intros E ND. assert (U : forall u v x, nth_error (svs s) (N.to_nat u) = Some x -> nth_error (svs s) (N.to_nat v) = Some x -> u = v).
  { intros u v x A B. destruct (N.eq_dec u v) as [->|D]; [reflexivity|exfalso]. assert (K : same x x = false) by (eapply ND; [exact A|exact B|lia]). rewrite (eq_refl_b _ Q) in K. discriminate K. }
  induction ts as [|t ts IH]; intros fs gs F G; inversion F as [|f ? fs' ? F1 F2]; inversion G as [|g ? gs' ? G1 G2]; subst; [reflexivity|]. f_equal; [|apply IH; assumption].
  unfold face_at in *. destruct f as ((a, b), c), g as ((a', b'), c'). cbn [corners] in *. rewrite <- E in G1.
  destruct (nth_error (svs s) (N.to_nat a)) eqn:A; [|discriminate]. destruct (nth_error (svs s) (N.to_nat b)) eqn:B; [|discriminate]. destruct (nth_error (svs s) (N.to_nat c)) eqn:C; [|discriminate].
  destruct (nth_error (svs s) (N.to_nat a')) eqn:A'; [|discriminate]. destruct (nth_error (svs s) (N.to_nat b')) eqn:B'; [|discriminate]. destruct (nth_error (svs s) (N.to_nat c')) eqn:C'; [|discriminate].
  rewrite <- G1 in F1. injection F1 as -> -> ->. rewrite (U _ _ _ A A'), (U _ _ _ B B'), (U _ _ _ C C'). reflexivity.
Qed.
Lemma Forall2_upgrade {A B} (R R' : A -> B -> Prop) l l' : Forall2 R l l' -> (forall x y, In y l' -> R x y -> R' x y) -> Forall2 R' l l'.
Proof. induction 1 as [|x y l l' H F IH]; intros K; constructor; [apply K; [left; reflexivity|exact H]|]. apply IH. intros u v I. apply K. right. exact I. Qed.

(** Healing the mesh loaded with a vertex per corner gives exactly the mesh loaded with shared vertices: the same
    vertices with the same ids and the same faces in the same order, whatever the file. *)
Theorem C198_healed : forall ft k fmt file ps ns r same, load_stl_triplets ft k fmt file = Some (ps, ns, r) ->
  equality same -> decides same ps -> (3 * N.of_nat (length ns) < 2 ^ 64)%N ->
  exists m mu ns', load_stl_mesh_duped ft k fmt file mesh_empty [] = Some (m, ns, r) /\
    load_stl_mesh_unique ft same k fmt file mesh_empty [] = Some (mu, ns', r) /\ heal_mesh same m = Ok mu.
Proof.
  intros ft k fmt file ps ns r same H Q D L.
  destruct (unique_exact ft k fmt file ps ns r same H D) as (ts & mu & ns' & su & P1 & LN & EU & AU & _ & _ & VU & FU & _).
  destruct (C66_duped ft k fmt file ps ns r H) as (m & ts' & ED & P2 & SD).
  assert (ts' = ts).
  { clear -P1 P2. rewrite <- P2 in P1. clear P2. revert ts' P1. induction ts as [|((a, b), c) ts IH]; intros [|((a', b'), c') ts'] E; try discriminate; [reflexivity|]. cbn [flat_map points app] in E. injection E as -> -> -> E. f_equal. apply IH, E. }
  subst ts'. exists m, mu, ns'. split; [exact ED|]. split; [exact EU|].
  set (s := MSpec ps (separate_faces 0 (length ts))) in *.
  assert (FS : Forall2 (face_at s) (sfs s) ts) by (apply (separate_corners s ts []); cbn [svs s app]; symmetry; exact P1).
  assert (LS : length (sfs s) = length ts) by (apply (Forall2_len _ _ _ FS)).
  destruct (heal_exact same Q m s SD) as (m' & s' & EH & _ & _ & ND & _ & KE & AB & FO); [rewrite LS, LN; exact L|].
  assert (AC : all_corners s = ps) by (unfold all_corners; rewrite (corners_all s _ _ FS); exact P1). rewrite AC in FO.
  assert (FH : Forall2 (face_at s') (sfs s') (filter (fun t => negb (flat_face same t)) ts)).
  { apply (Forall2_upgrade _ _ _ _ (corners_kept same s s' _ _ FS _ KE)). intros g ((a, b), c) I (((a', b'), c') & E & E1 & E2 & E3). apply filter_In in I as (I & _).
    assert (IP : forall x, In x [a; b; c] -> In x ps) by (intros x X; rewrite <- P1; apply in_flat_map; exists (a, b, c); split; [exact I|exact X]).
    assert (IV : forall v x, nth_error (svs s') v = Some x -> In x ps) by (intros v x X; apply nth_error_In in X; rewrite FO in X; apply (firsts_incl _ _ _ X)).
    unfold face_at. destruct g as ((u, v), w). cbn [corners] in *.
    destruct (nth_error (svs s') (N.to_nat u)) eqn:A; [|discriminate]. destruct (nth_error (svs s') (N.to_nat v)) eqn:B; [|discriminate]. destruct (nth_error (svs s') (N.to_nat w)) eqn:C; [|discriminate].
    injection E as -> -> ->. apply D in E1, E2, E3; [subst; reflexivity| | | | | |]; first [eapply IV; eassumption|apply IP; cbn; auto]. }
  assert (VS : svs s' = svs su) by (rewrite FO, VU; reflexivity).
  assert (FE : sfs s' = sfs su) by (eapply (same_faces same Q s' su); eassumption).
  rewrite EH. f_equal. destruct AB as (A1 & A2), AU as (B1 & B2). destruct m' as [pc1 t1], mu as [pc2 t2]. cbn [pc topology] in *. congruence.
Qed.
Print Assumptions C198_healed.
(** With a comparison that decides equality everywhere, on the file of two facets above. *)
Example C198_case : equality peq /\ (forall l, decides peq l) /\
  load_stl_mesh_duped demo 100 StlAuto two_facets mesh_empty [] = Some (Mesh [fp3 0 0 0; fp3 0 0 0; fp3 1 0 0; fp3 0 0 0; fp3 1 0 0; fp3 0 1 0] [0; 1; 2; 3; 4; 5]%N, [fp3 0 0 0; fp3 1 0 0], Ok tt) /\
  heal_mesh peq (Mesh [fp3 0 0 0; fp3 0 0 0; fp3 1 0 0; fp3 0 0 0; fp3 1 0 0; fp3 0 1 0] [0; 1; 2; 3; 4; 5]%N) = Ok (Mesh [fp3 0 0 0; fp3 1 0 0; fp3 0 1 0] [0; 1; 2]%N).
Proof.
  split; [exact peq_equality|]. split; [intros l x y _ _; apply peq_true|]. split; vmeq.
Qed.
