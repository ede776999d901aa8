(** Properties of the .stl format. *)
From Verif Require Import Base BaseLemmas Num NumLemmas VecModel GeomSpec FloatSpec MatrixLemmas MeshModel MeshSpec MeshLemmas MeshAlgoModel MeshAlgoSpec MeshAlgoLemmas IoModel IoSpec IoLemmas ByteModel ByteSpec ByteLemmas StlModel StlSpec StlLemmas StlFlatLemmas.
Open Scope nat_scope.

Ltac concrete_line := let I := fresh in intros I; cbn in I; repeat (destruct I as [I|I]; [discriminate I|]); exact I.
(** ** loading what was saved *)
Definition triple (t : stl_face) : pt3 F64 * pt3 F64 * pt3 F64 := (sf_a t, sf_b t, sf_c t).
Definition back (ft : FText) (t : stl_face) : stl_face := mkface (sf_a t) (sf_b t) (sf_c t) (normal_back ft (sf_n t)).
Lemma saved_items ft ts k fmt : ft_ok ft -> Forall (fun t => printable3 (sf_a t) /\ printable3 (sf_b t) /\ printable3 (sf_c t)) ts -> fmt <> StlBinary -> length ts + 1 < k ->
  stl_items ft k fmt (unlines (str "solid STL generated by rust-3d" :: flat_map (fun t => facet_lines ft (sf_a t) (sf_b t) (sf_c t) (sf_n t)) ts ++ [str "endsolid STL generated by rust-3d"]))
  = Some (map (fun t => Data (back ft t)) ts, Ok tt).
Proof.
  intros K F FM L. set (body := flat_map _ ts ++ _).
  change (unlines (str "solid STL generated by rust-3d" :: body)) with (str "solid" ++ str " STL generated by rust-3d" ++ nl :: unlines body).
  assert (I : forall r, stl_is_ascii fmt (str "solid" ++ r) = Ok (true, r)) by (intros r; destruct fmt; [reflexivity|destruct (FM eq_refl)|reflexivity]).
  unfold stl_items. rewrite I. cbn [simple]. rewrite (raw_line_app (str " STL generated by rust-3d") (unlines body)) by concrete_line. rewrite ascii_header. rewrite <- (app_nil_r (unlines body)), raw_unlines.
  - cbn [raw_lines]. rewrite app_nil_r. unfold body. rewrite map_app. cbn [map].
    replace k with (length ts + S (k - length ts - 1)) by lia.
    etransitivity; [|etransitivity; [apply (ascii_facets ft ts K F (S (k - length ts - 1)) 1%N [str "endsolid STL generated by rust-3d" ++ [nl]] [])|rewrite ascii_step; reflexivity]].
    f_equal. f_equal. f_equal. clear. induction ts as [|t ts IH]; [reflexivity|]. cbn [flat_map]. etransitivity; [apply map_app|]. f_equal. exact IH.
  - unfold body. apply Forall_app. split; [|constructor; [concrete_line|constructor]]. apply Forall_flat_map, Forall_forall. intros t _. apply facet_lines_ok, K.
Qed.
Lemma saved_length ft ts : length ts + 1 <= length (unlines (str "solid STL generated by rust-3d" :: flat_map (fun t => facet_lines ft (sf_a t) (sf_b t) (sf_c t) (sf_n t)) ts ++ [str "endsolid STL generated by rust-3d"])).
Proof.
  assert (G : forall rest, length ts + length (unlines rest) <= length (unlines (flat_map (fun t => facet_lines ft (sf_a t) (sf_b t) (sf_c t) (sf_n t)) ts ++ rest))).
  { intros rest. induction ts as [|t ts IH]; [apply le_n|]. cbn [flat_map length]. rewrite <- app_assoc. set (r := flat_map _ ts ++ rest) in *. unfold facet_lines. cbn [app]. unfold unlines at 2. cbn [flat_map]. fold (unlines r). rewrite !app_length. cbn [length]. lia. }
  specialize (G [str "endsolid STL generated by rust-3d"]). change (length (unlines [str "endsolid STL generated by rust-3d"])) with 34 in G.
  unfold unlines at 1. cbn [flat_map]. rewrite app_length. fold (unlines (flat_map (fun t => facet_lines ft (sf_a t) (sf_b t) (sf_c t) (sf_n t)) ts ++ [str "endsolid STL generated by rust-3d"])). lia.
Qed.
Lemma saved_printable s fs ts : Forall printable3 (svs s) -> Forall2 (saved s) fs ts -> Forall (fun t => printable3 (sf_a t) /\ printable3 (sf_b t) /\ printable3 (sf_c t)) ts.
Proof.
  intros P. induction 1 as [|f t fs ts (C & _) F2 IH]; constructor; [|exact IH]. rewrite Forall_forall in P. destruct f as [[a b] c]. unfold corners in C.
  destruct (nth_error (svs s) (N.to_nat a)) eqn:A; [|discriminate]. destruct (nth_error (svs s) (N.to_nat b)) eqn:B; [|discriminate]. destruct (nth_error (svs s) (N.to_nat c)) eqn:D; [|discriminate].
  injection C as <- <- <-. repeat split; apply P; eapply nth_error_In; eassumption.
Qed.
Lemma saved_faces s fs ts : Forall2 (saved s) fs ts -> Forall2 (face_at s) fs (map triple ts).
Proof. induction 1 as [|f t fs ts (C & _) F2 IH]; constructor; [exact C|exact IH]. Qed.
Lemma saved_normals ft s fs ts : ft_ok ft -> Forall2 (saved s) fs ts -> normals_of (map triple ts) (map (fun t => sf_n (back ft t)) ts) corners_normal printable3.
Proof. intros K. unfold normals_of. induction 1 as [|f t fs ts (_ & C) F2 IH]; constructor; [|exact IH]. cbn. intros v V P. rewrite C in V. apply Ok_inj in V. subst v. apply normal_back_id; assumption. Qed.

(** A mesh can be saved exactly if the normal of every face can be computed; otherwise saving panics. *)
Theorem C64_saves ft m s : shows m s -> (3 * N.of_nat (length (sfs s)) < 2 ^ 64)%N ->
  ((exists file, save_stl_ascii ft m = Ok file) /\ forall f a b c, In f (sfs s) -> face_at s f (a, b, c) -> has_direction (normal_vector a b c)) \/
  (save_stl_ascii ft m = Panic /\ exists f a b c, In f (sfs s) /\ face_at s f (a, b, c) /\ ~ has_direction (normal_vector a b c)).
Proof.
  intros S B. destruct (save_cases ft m s S B) as [(ts & H & F)|(H & F)]; [left; split; [eauto|]|right; split; [exact H|]].
  - intros f a b c I C. clear -F I C. induction F as [|g t fs ts (C' & N) F IH]; [destruct I|]. destruct I as [->|I]; [|apply IH, I]. rewrite C in C'. injection C' as -> -> ->. apply corners_normal_iff. eauto.
  - apply Exists_exists in F as (f & I & a & b & c & C & N). exists f, a, b, c. split; [exact I|]. split; [exact C|]. intros D. apply corners_normal_iff in D as (n & D). exact (N n D).
Qed.
Print Assumptions C64_saves.

Lemma map_points ts : flat_map points (map triple ts) = flat_map triangle_points ts.
Proof. induction ts as [|t ts IH]; [reflexivity|]. cbn [map flat_map]. rewrite IH. reflexivity. Qed.
Theorem C64_triplets ft m s file k fmt : ft_ok ft -> shows m s -> (3 * N.of_nat (length (sfs s)) < 2 ^ 64)%N -> Forall printable3 (svs s) ->
  save_stl_ascii ft m = Ok file -> fmt <> StlBinary -> length file < k ->
  exists ts ns, Forall2 (face_at s) (sfs s) ts /\ load_stl_triplets ft k fmt file = Some (flat_map points ts, ns, Ok tt) /\ normals_of ts ns corners_normal printable3.
Proof.
  intros K S B P H FM L. destruct (save_cases ft m s S B) as [(ts & H' & F)|(H' & _)]; [|congruence]. rewrite H' in H. apply Ok_inj in H. subst file. pose proof (saved_length ft ts) as SL.
  exists (map triple ts), (map (fun t => sf_n (back ft t)) ts). split; [apply saved_faces, F|]. split; [|eapply saved_normals; eassumption]. unfold load_stl_triplets.
  rewrite saved_items; [|assumption|eapply saved_printable; eassumption|assumption|eapply Nat.le_lt_trans; eassumption]. rewrite map_points. f_equal. f_equal. f_equal; clear; (induction ts as [|t ts IH]; [reflexivity|]); cbn [map flat_map]; rewrite IH; reflexivity.
Qed.
Print Assumptions C64_triplets.

Lemma duped_all ts : forall m fs ns, topology m = flat fs -> fold_left duped_step (map Data ts) (m, ns) =
  (Mesh (pc m ++ flat_map triangle_points ts) (flat (fs ++ separate_faces (lenN (pc m)) (length ts))), ns ++ map sf_n ts).
Proof.
  induction ts as [|t ts IH]; intros m fs ns E.
  - cbn [map fold_left flat_map separate_faces length]. rewrite !app_nil_r, <- E. destruct m; reflexivity.
  - cbn [map fold_left duped_step fst snd]. rewrite (IH _ (fs ++ [(lenN (pc m), lenN (pc m) + 1, lenN (pc m) + 2)%N])).
    + unfold add_face, add_vertex. cbn [fst pc]. rewrite <- !app_assoc. cbn [app]. cbn [flat_map triangle_points app length separate_faces]. replace (lenN (pc m ++ [sf_a t; sf_b t; sf_c t]))%N with (lenN (pc m) + 3)%N by (rewrite lenN_app; reflexivity). reflexivity.
    + unfold add_face, add_vertex. cbn [fst topology pc]. rewrite flat_app, E, <- !app_assoc. cbn [flat flat_map app]. rewrite !lenN_app. change (lenN [sf_a t]) with 1%N. change (lenN [sf_b t]) with 1%N. change (lenN [sf_c t]) with 1%N. change (lenN [sf_b t; sf_c t]) with 2%N. change (lenN [sf_a t; sf_b t]) with 2%N. change (lenN [sf_a t; sf_b t; sf_c t]) with 3%N.
      f_equal. generalize (lenN (pc m)). intros n. replace (n + 1 - 1)%N with n by lia. replace (n + 2 - 1)%N with (n + 1)%N by lia. replace (n + 3 - 1)%N with (n + 2)%N by lia. reflexivity.
Qed.
Lemma separate_in k : forall n a b c, In (a, b, c) (separate_faces n k) -> (n <= a /\ b = a + 1 /\ c = a + 2 /\ c < n + 3 * N.of_nat k)%N.
Proof.
  induction k as [|k IH]; intros n a b c H; [destruct H|]. destruct H as [H|H]; [injection H as <- <- <-; lia|]. apply IH in H. lia.
Qed.
Lemma points_length (ts : list stl_face) : length (flat_map triangle_points ts) = 3 * length ts.
Proof. induction ts as [|t ts IH]; [reflexivity|]. cbn [flat_map]. rewrite app_length, IH. cbn [triangle_points length]. lia. Qed.
Theorem C64_duped ft m s file k fmt : ft_ok ft -> shows m s -> (3 * N.of_nat (length (sfs s)) < 2 ^ 64)%N -> Forall printable3 (svs s) ->
  save_stl_ascii ft m = Ok file -> fmt <> StlBinary -> length file < k ->
  exists ts ns m', Forall2 (face_at s) (sfs s) ts /\ load_stl_mesh_duped ft k fmt file mesh_empty [] = Some (m', ns, Ok tt) /\
    shows m' (MSpec (flat_map points ts) (separate_faces 0 (length ts))) /\ normals_of ts ns corners_normal printable3.
Proof.
  intros K S B P H FM L. destruct (save_cases ft m s S B) as [(ts & H' & F)|(H' & _)]; [|congruence]. rewrite H' in H. apply Ok_inj in H. subst file. pose proof (saved_length ft ts) as SL.
  set (m' := Mesh (flat_map triangle_points ts) (flat (separate_faces 0 (length ts)))).
  exists (map triple ts), (map (fun t => sf_n (back ft t)) ts), m'. split; [apply saved_faces, F|]. split; [|split; [|eapply saved_normals; eassumption]].
  - unfold load_stl_mesh_duped. rewrite saved_items; [|assumption|eapply saved_printable; eassumption|assumption|eapply Nat.le_lt_trans; eassumption].
    rewrite <- (map_map (back ft) Data), (duped_all _ _ []) by reflexivity. cbn [pc mesh_empty app]. rewrite map_map, map_length. unfold m'. do 4 f_equal. clear. induction ts as [|t ts IH]; [reflexivity|]. cbn [map flat_map]. rewrite IH. reflexivity.
  - rewrite map_points, map_length. apply abs_shows; [split; reflexivity|]. intros a b c I. apply separate_in in I. unfold in_range. cbn [svs]. rewrite points_length. lia.
Qed.
Print Assumptions C64_duped.

Lemma filter_map {A B} (f : A -> B) g l : filter g (map f l) = map f (filter (fun x => g (f x)) l).
Proof. induction l as [|x l IH]; [reflexivity|]. cbn [map filter]. rewrite IH. destruct (g (f x)); reflexivity. Qed.
Lemma unique_filtered ft m s file k fmt : ft_ok ft -> shows m s -> (3 * N.of_nat (length (sfs s)) < 2 ^ 64)%N -> Forall printable3 (svs s) ->
  save_stl_ascii ft m = Ok file -> fmt <> StlBinary -> length file < k ->
  exists ts, Forall2 (face_at s) (sfs s) ts /\ forall same, decides same (flat_map points ts) ->
  exists ns m' s', load_stl_mesh_unique ft same k fmt file mesh_empty [] = Some (m', ns, Ok tt) /\
    shows m' s' /\ faces_ok s' /\ svs s' = first_occurrences same (flat_map points ts) /\
    Forall2 (face_at s') (sfs s') (filter (fun t => negb (flat_face same t)) ts) /\
    normals_of (filter (fun t => negb (flat_face same t)) ts) ns corners_normal printable3.
Proof.
  intros K S B P H FM L. destruct (save_cases ft m s S B) as [(ts & H' & F)|(H' & _)]; [|congruence]. rewrite H' in H. apply Ok_inj in H. subst file. pose proof (saved_length ft ts) as SL.
  exists (map triple ts). split; [apply saved_faces, F|]. intros same D. rewrite map_points in *. unfold load_stl_mesh_unique.
  rewrite saved_items; [|assumption|eapply saved_printable; eassumption|assumption|eapply Nat.le_lt_trans; eassumption].
  assert (TP : flat_map triangle_points (map (back ft) ts) = flat_map triangle_points ts) by (clear; induction ts as [|t ts IH]; [reflexivity|]; cbn [map flat_map]; rewrite IH; reflexivity).
  rewrite <- (map_map (back ft) Data), (fold_peq same _ D); [|intros z []|rewrite TP; apply incl_refl].
  pose proof (built_all peq peq_equality [] (map (back ft) ts) [] _ (built_start peq [])) as BB. cbn [app] in BB.
  destruct (fold_left (unique_step peq) (map Data (map (back ft) ts)) (mesh_empty, [], [])) as [[m' mp] ns]. destruct BB as (_ & FR & V & NM & fs & TO & FF & FD). cbn [app] in NM.
  exists ns, m', (MSpec (pc m') fs). split; [reflexivity|].
  assert (PP : filter (proper peq) (map (back ft) ts) = map (back ft) (filter (fun t => negb (flat_face same (triple t))) ts)).
  { rewrite filter_map. f_equal. change (fun t : stl_face => proper peq (back ft t)) with (proper peq). rewrite <- (proper_peq same _ D) by apply incl_refl. reflexivity. }
  assert (CO : Forall2 (face_at (MSpec (pc m') fs)) fs (filter (fun t => negb (flat_face same t)) (map triple ts))).
  { rewrite filter_map. rewrite PP in FF. clear -FF. set (gs := filter _ ts) in *. assert (G : forall q fs0, Forall2 (face_of peq (pc m')) (map (back ft) q) fs0 -> Forall2 (face_at (MSpec (pc m') fs)) fs0 (map triple q)).
    { induction q as [|t q IH]; intros fs0 H; inversion H as [|? f ? ? H1 H2]; subst; constructor; [|apply IH, H2]. destruct f as [[a b] c]. destruct H1 as (p & q1 & r & A & B & C & PA & PB & PC). rewrite peq_true in *. cbn in *. subst. unfold face_at, corners. cbn [svs]. rewrite <- !nthN_nth_error, A, B, C. reflexivity. }
    apply G, FF. }
  assert (OK : faces_ok (MSpec (pc m') fs)).
  { intros a b c I. cbn [sfs] in I. rewrite Forall_forall in FD. pose proof (FD _ I) as DD. cbn in DD. apply In_nth_error in I as (i & I). assert (C : exists t, face_at (MSpec (pc m') fs) (a, b, c) t).
    { clear -CO I. revert i I. induction CO as [|f t l l' H1 H2 IH]; intros [|i] I; try discriminate; [injection I as ->; exists t; exact H1|apply (IH i I)]. }
    destruct C as (t & C). unfold face_at, corners in C. cbn [svs] in C.
    destruct (nth_error (pc m') (N.to_nat a)) eqn:EA; [|discriminate]. destruct (nth_error (pc m') (N.to_nat b)) eqn:EB; [|discriminate]. destruct (nth_error (pc m') (N.to_nat c)) eqn:EC; [|discriminate].
    assert (QQ : forall v x, nth_error (pc m') (N.to_nat v) = Some x -> in_range (MSpec (pc m') fs) v) by (intros v x E; unfold in_range; cbn [svs]; assert (N.to_nat v < length (pc m')) by (apply nth_error_Some; congruence); lia).
    split; [eapply QQ, EA|]. split; [eapply QQ, EB|]. split; [eapply QQ, EC|exact DD]. }
  split; [apply abs_shows; [split; [reflexivity|exact TO]|exact OK]|]. split; [exact OK|]. split.
  { cbn [svs]. rewrite V, TP, grow_firsts by apply peq_equality. symmetry. apply (firsts_peq same _ D), incl_refl. }
  split; [exact CO|]. rewrite NM, PP, map_map, filter_map.
  assert (G : forall q, (forall t, In t q -> In t ts) -> normals_of (map triple q) (map (fun t => sf_n (back ft t)) q) corners_normal printable3).
  { assert (SV : forall t, In t ts -> corners_normal (sf_a t) (sf_b t) (sf_c t) = Ok (sf_n t)) by (clear -F; induction F as [|f t l l' (_ & H1) H2 IH]; [intros t' []|intros t' [<-|I]; auto]).
    unfold normals_of. induction q as [|t q IH]; intros I; constructor; [|apply IH; intros; apply I; right; assumption]. cbn. intros v Hv Pv. rewrite (SV t (I t (or_introl eq_refl))) in Hv. apply Ok_inj in Hv. subst v. apply normal_back_id; assumption. }
  apply G. intros t I. apply filter_In in I. apply I.
Qed.
(** All faces come back, with the vertices at the same position merged. *)
Theorem C64_unique ft m s file k fmt : ft_ok ft -> shows m s -> (3 * N.of_nat (length (sfs s)) < 2 ^ 64)%N -> Forall printable3 (svs s) ->
  save_stl_ascii ft m = Ok file -> fmt <> StlBinary -> length file < k ->
  exists ts, Forall2 (face_at s) (sfs s) ts /\ forall same, decides same (flat_map points ts) ->
  exists ns m' s', load_stl_mesh_unique ft same k fmt file mesh_empty [] = Some (m', ns, Ok tt) /\
    shows m' s' /\ faces_ok s' /\ svs s' = first_occurrences same (flat_map points ts) /\ Forall2 (face_at s') (sfs s') ts /\ normals_of ts ns corners_normal printable3.
Proof.
  intros K S B P H FM L. destruct (unique_filtered ft m s file k fmt K S B P H FM L) as (ts & F & U). exists ts. split; [exact F|]. intros same D. specialize (U same D).
  assert (E : filter (fun t => negb (flat_face same t)) ts = ts).
  { assert (ND : forall t, In t ts -> flat_face same t = false).
    { intros t I. destruct (flat_face same t) eqn:FF; [|reflexivity]. exfalso. destruct t as [[a b] c]. assert (IN : forall x, In x [a; b; c] -> In x (flat_map points ts)) by (intros x X; apply in_flat_map; exists (a, b, c); split; assumption).
      assert (DG : degenerate (a, b, c)).
      { cbn in FF. apply orb_true_iff in FF as [FF|FF]; [apply orb_true_iff in FF as [FF|FF]; [left|right; left]|right; right]; apply D in FF; try exact FF; apply IN; cbn; auto. }
      destruct (C64_saves ft m s S B) as [(_ & G)|(G & _)]; [|congruence]. apply (degenerate_flat a b c DG).
      assert (Q : exists g, In g (sfs s) /\ face_at s g (a, b, c)).
      { clear -F I. induction F as [|g u gs l Y F IH]; [destruct I|]. destruct I as [->|I]; [exists g; split; [left; reflexivity|exact Y]|]. destruct (IH I) as (h & I1 & I2). exists h. split; [right; exact I1|exact I2]. }
      destruct Q as (g & I1 & I2). exact (G g a b c I1 I2). }
    clear -ND. induction ts as [|t ts IH]; [reflexivity|]. cbn [filter]. rewrite (ND t) by (left; reflexivity). cbn [negb]. f_equal. apply IH. intros x X. apply ND. right. exact X. }
  rewrite E in U. exact U.
Qed.
Print Assumptions C64_unique.
(** Users may expect every mesh to be saved: a face with two corners at the same position makes saving panic, whatever
    the other coordinates are, and so can a face with three positions on a line. *)
Theorem C64_flat_refuted ft m s f t : shows m s -> (3 * N.of_nat (length (sfs s)) < 2 ^ 64)%N -> In f (sfs s) -> face_at s f t -> degenerate t -> save_stl_ascii ft m = Panic.
Proof.
  intros S B I F D. destruct (C64_saves ft m s S B) as [(_ & G)|(G & _)]; [|exact G]. destruct t as [[a b] c]. exfalso. exact (degenerate_flat a b c D (G f a b c I F)).
Qed.
Print Assumptions C64_flat_refuted.
Example C64_flat_case : shows (Mesh [fp3 0 0 0; fp3 1 2 3; fp3 2 4 6] [0; 1; 2]%N) (MSpec [fp3 0 0 0; fp3 1 2 3; fp3 2 4 6] [(0, 1, 2)%N]) /\
  save_stl_ascii demo (Mesh [fp3 0 0 0; fp3 1 2 3; fp3 2 4 6] [0; 1; 2]%N) = Panic /\ save_stl_ascii demo (Mesh [fp3 0 0 0; fp3 1 2 3; fp3 0 0 0] [0; 1; 2]%N) = Panic /\
  save_stl_ascii demo (Mesh [fp3 0 0 0; mk3 (n0 : T F64) (lit 1 (-270)) n0; mk3 (n0 : T F64) n0 (lit 1 (-270))] [0; 1; 2]%N) = Panic.
Proof.
  split; [|split; [vmeq|split; vmeq]]. apply abs_shows; [split; reflexivity|]. intros a b c [H|[]]; injection H as <- <- <-; repeat split; discriminate.
Qed.
(** The derived comparison of points decides equality of finite positions without negative zeros. *)
Definition eq_point (p q : pt3 F64) : bool := neqb (px p) (px q) && neqb (py p) (py q) && neqb (pz p) (pz q).
Theorem C64_same l : Forall printable3 l -> decides eq_point l.
Proof.
  intros F x y X Y. rewrite Forall_forall in F. destruct (F x X) as (X1 & X2 & X3). destruct (F y Y) as (Y1 & Y2 & Y3). unfold eq_point. rewrite !andb_true_iff, !neqb_printable by assumption.
  destruct x, y; cbn; split; [intros ((-> & ->) & ->); reflexivity|intros [= -> -> ->]; auto].
Qed.
Print Assumptions C64_same.

(** ** files that end early *)
Lemma items_of_ascii ft k fmt l0 s : fmt <> StlBinary -> is_line l0 -> stl_items ft k fmt (str "solid" ++ l0 ++ nl :: s) = load_loop (stl_ascii_next ft) k (mksa (raw_lines s) false true 1) [].
Proof.
  intros FM L. assert (I : forall r, stl_is_ascii fmt (str "solid" ++ r) = Ok (true, r)) by (intros r; destruct fmt; [reflexivity|destruct (FM eq_refl)|reflexivity]).
  unfold stl_items. rewrite I. cbn [simple]. rewrite (raw_line_app l0 s L), ascii_header. reflexivity.
Qed.
Lemma ascii_data ft : forall k s acc acc' r, Forall (fun x => exists f, x = Data f) acc -> load_loop (stl_ascii_next ft) k s acc = Some (acc', r) -> Forall (fun x => exists f, x = Data f) acc'.
Proof.
  induction k as [|k IH]; intros s acc acc' r F H; [discriminate|]. cbn [load_loop] in H. destruct (stl_ascii_next ft s) as [[[a|e|]|] s'] eqn:E; try (injection H as <- _; exact F).
  apply IH in H; [exact H|]. apply Forall_app. split; [exact F|]. constructor; [|constructor]. clear -E. unfold stl_ascii_next in E. destruct (sa_done s); [discriminate|]. cbv zeta in E.
  destruct (read_stl_facet ft _ _) as [[[f ls] i]|w|]; [injection E as <- _; exists f; reflexivity| |discriminate]. destruct (info_error w); discriminate.
Qed.
Lemma data_firstn n items : Forall (fun x : data_reserve stl_face => exists f, x = Data f) items ->
  flat_map (fun x => match x with Data f => [sf_a f; sf_b f; sf_c f] | Reserve _ => [] end) (firstn n items) = firstn (3 * n) (flat_map (fun x => match x with Data f => [sf_a f; sf_b f; sf_c f] | Reserve _ => [] end) items) /\
  flat_map (fun x => match x with Data f => [sf_n f] | Reserve _ => [] end) (firstn n items) = firstn n (flat_map (fun x => match x with Data f => [sf_n f] | Reserve _ => [] end) items).
Proof.
  intros F. revert n. induction F as [|x items (f & ->) F IH]; intros [|n]; try (split; reflexivity). destruct (IH n) as [A B]. replace (3 * S n) with (S (S (S (3 * n)))) by lia. cbn [firstn flat_map app]. rewrite A, B. split; reflexivity.
Qed.
Theorem C65_truncated ft k fmt l0 ls rest ps ns : fmt <> StlBinary -> is_line l0 -> Forall is_line ls ->
  load_stl_triplets ft k fmt (str "solid" ++ l0 ++ nl :: unlines ls ++ rest) = Some (ps, ns, Ok tt) ->
  load_stl_triplets ft k fmt (str "solid" ++ l0 ++ nl :: unlines ls) = Some (firstn (3 * (length ls / 7)) ps, firstn (length ls / 7) ns, Ok tt).
Proof.
  intros FM L F. unfold load_stl_triplets. rewrite !items_of_ascii by assumption. rewrite (raw_unlines ls rest F). set (A := map (fun l => l ++ [nl]) ls ++ raw_lines rest).
  assert (B : raw_lines (unlines ls) = firstn (length ls) A).
  { rewrite <- (app_nil_r (unlines ls)). etransitivity; [apply (raw_unlines ls [] F)|]. cbn [raw_lines]. rewrite app_nil_r. unfold A.
    assert (G : forall (l l' : list bytes) n, length l = n -> l = firstn n (l ++ l')) by (intros l l' n <-; rewrite firstn_app, firstn_all, Nat.sub_diag; cbn [firstn]; rewrite app_nil_r; reflexivity).
    apply G, map_length. }
  rewrite B. destruct (load_loop (stl_ascii_next ft) k (mksa A false true 1) []) as [[items r]|] eqn:E; [|discriminate]. intros H. assert (r = Ok tt) as -> by congruence. pose proof (ascii_data ft k _ [] items (Ok tt) (Forall_nil _) E) as D.
  pose proof (cut_run ft k 1 A (length ls) [] items E) as C. unfold bytes in *. rewrite C. cbn [app]. destruct (data_firstn (length ls / 7) items D) as [P Q]. rewrite P, Q. injection H as <- <-. reflexivity.
Qed.
Print Assumptions C65_truncated.

(** ** binary files *)
Lemma bytes_eqb_eq : forall a b, bytes_eqb a b = true -> a = b.
Proof. induction a as [|x a IH]; intros [|y b] H; try discriminate; [reflexivity|]. cbn [bytes_eqb] in H. apply andb_true_iff in H as (X & H). apply Ascii.eqb_eq in X. subst y. f_equal. apply IH, H. Qed.
Definition not_text (fmt : StlFormat) (h : bytes) : Prop := fmt = StlBinary \/ (fmt = StlAuto /\ firstn 5 h <> str "solid").
Lemma binary_start ft k fmt h cnt n s : length h = 80 -> not_text fmt h -> length cnt = 4 -> encodes Little cnt n ->
  stl_items ft (S k) fmt (h ++ cnt ++ s) = if (max_triangles <? n)%N then Some ([], Err (WNone InvalidFaceCount)) else load_loop stl_binary_next k (mksb s false true n 0) [Reserve n].
Proof.
  intros LH NT LC EN. unfold stl_items, stl_is_ascii. assert (h = firstn 5 h ++ skipn 5 h) as HH by (symmetry; apply firstn_skipn). assert (L5 : length (firstn 5 h) = 5) by (rewrite firstn_length; lia).
  rewrite HH at 1. rewrite <- app_assoc, (take_app 5 (firstn 5 h) _ L5). cbn [simple].
  replace (match fmt with StlAscii => true | StlBinary => false | StlAuto => bytes_eqb (firstn 5 h) (str "solid") end) with false.
  - cbn [load_loop]. unfold stl_binary_next at 1. cbn [sb_done sb_header negb sb_read]. rewrite (take_app 75 (skipn 5 h)) by (rewrite skipn_length; lia).
    replace (read_unsigned Little 4 (cnt ++ s)) with (Some (n, s)); [destruct (max_triangles <? n)%N; reflexivity|]. symmetry. unfold read_unsigned. rewrite read_uint_app by exact LC. do 2 f_equal. apply (encodes_unique Little cnt); [|exact EN]. apply uint_encodes.
  - destruct NT as [->|(-> & NE)]; [reflexivity|]. destruct (bytes_eqb (firstn 5 h) (str "solid")) eqn:E; [|reflexivity]. apply bytes_eqb_eq in E. contradiction.
Qed.
Theorem C66_complete ft k fmt h cnt n recs rest : length h = 80 -> not_text fmt h -> length cnt = 4 -> encodes Little cnt n -> (n <= 1000000000)%N ->
  Forall (fun r => length r = 50) recs -> lenN recs = n -> length recs + 1 < k ->
  load_stl_triplets ft k fmt (h ++ cnt ++ concat recs ++ rest) = Some (flat_map record_points recs, map (fun r => record_point r 0) recs, Ok tt).
Proof.
  intros LH NT LC EN B F LR K. destruct k as [|k]; [lia|]. unfold load_stl_triplets. rewrite (binary_start ft k fmt h cnt n) by assumption.
  destruct (max_triangles <? n)%N eqn:M; [apply N.ltb_lt in M; unfold max_triangles in M; lia|]. replace k with (length recs + S (k - length recs - 1)) by lia.
  rewrite binary_records by (exact F || lia). rewrite binary_step. destruct (0 + lenN recs <? n)%N eqn:Z; [apply N.ltb_lt in Z; lia|]. cbn [app flat_map].
  f_equal. f_equal. f_equal; clear; (induction recs as [|r recs IH]; [reflexivity|]); cbn [map flat_map]; rewrite IH; reflexivity.
Qed.
Print Assumptions C66_complete.
Theorem C66_missing ft k fmt h cnt n recs rest : length h = 80 -> not_text fmt h -> length cnt = 4 -> encodes Little cnt n -> (n <= 1000000000)%N ->
  Forall (fun r => length r = 50) recs -> (lenN recs < n)%N -> length rest < 50 -> length recs + 1 < k ->
  load_stl_triplets ft k fmt (h ++ cnt ++ concat recs ++ rest) = Some (flat_map record_points recs, map (fun r => record_point r 0) recs, Err (WNone StlAccessFile)).
Proof.
  intros LH NT LC EN B F LR RR K. destruct k as [|k]; [lia|]. unfold load_stl_triplets. rewrite (binary_start ft k fmt h cnt n) by assumption.
  destruct (max_triangles <? n)%N eqn:M; [apply N.ltb_lt in M; unfold max_triangles in M; lia|]. replace k with (length recs + S (k - length recs - 1)) by lia.
  rewrite binary_records by (exact F || lia). rewrite binary_step. destruct (0 + lenN recs <? n)%N eqn:Z; [|apply N.ltb_ge in Z; lia]. rewrite short_triangle by exact RR. cbn [app flat_map].
  f_equal. f_equal. f_equal; clear; (induction recs as [|r recs IH]; [reflexivity|]); cbn [map flat_map]; rewrite IH; reflexivity.
Qed.
Print Assumptions C66_missing.
Theorem C66_count ft k fmt h cnt n rest : length h = 80 -> not_text fmt h -> length cnt = 4 -> encodes Little cnt n -> (1000000000 < n)%N -> 0 < k ->
  load_stl_triplets ft k fmt (h ++ cnt ++ rest) = Some ([], [], Err (WNone InvalidFaceCount)).
Proof.
  intros LH NT LC EN B K. destruct k as [|k]; [lia|]. unfold load_stl_triplets. rewrite (binary_start ft k fmt h cnt n) by assumption.
  destruct (max_triangles <? n)%N eqn:M; [reflexivity|apply N.ltb_ge in M; unfold max_triangles in M; lia].
Qed.
Print Assumptions C66_count.
Theorem C66_short_header ft k fmt file : length file < 84 -> not_text fmt file -> 0 < k -> load_stl_triplets ft k fmt file = Some ([], [], Err (WNone StlAccessFile)).
Proof.
  intros L NT K. destruct k as [|k]; [lia|]. unfold load_stl_triplets, stl_items, stl_is_ascii. destruct (take_bytes 5 file) as [[b r]|] eqn:T; [|reflexivity].
  unfold take_bytes in T. destruct (length file <? 5) eqn:L5; [discriminate|]. assert (b = firstn 5 file /\ r = skipn 5 file) as (-> & ->) by (split; congruence). clear T. cbn [simple].
  assert (TL : load_loop stl_binary_next (S k) (mksb (skipn 5 file) false false 0 0) [] = Some ([], Err (WNone StlAccessFile))).
  { cbn [load_loop]. unfold stl_binary_next at 1. cbn [sb_done sb_header negb sb_read]. destruct (take_bytes 75 (skipn 5 file)) as [[b r]|] eqn:T; [|reflexivity]. unfold take_bytes in T. destruct (length (skipn 5 file) <? 75); [discriminate|]. assert (r = skipn 75 (skipn 5 file)) as -> by congruence. clear T.
    unfold read_unsigned, read_uint. rewrite (take_short 4); [reflexivity|]. rewrite !skipn_length. lia. }
  destruct NT as [->|(-> & NE)]; [rewrite TL; reflexivity|]. destruct (bytes_eqb (firstn 5 file) (str "solid")) eqn:E; [apply bytes_eqb_eq in E; contradiction|]. rewrite TL. reflexivity.
Qed.
Print Assumptions C66_short_header.
(** The mesh loaders add the triangles of the same items. *)
Theorem C66_duped ft k fmt file ps ns r : load_stl_triplets ft k fmt file = Some (ps, ns, r) ->
  exists m ts, load_stl_mesh_duped ft k fmt file mesh_empty [] = Some (m, ns, r) /\ flat_map points ts = ps /\ shows m (MSpec ps (separate_faces 0 (length ts))).
Proof.
  unfold load_stl_triplets, load_stl_mesh_duped. destruct (stl_items ft k fmt file) as [[items r']|]; [|discriminate]. intros [= <- <- <-].
  assert (G : exists ts, fold_left duped_step items (mesh_empty, []) = fold_left duped_step (map Data ts) (mesh_empty, []) /\ flat_map (fun x => match x with Data f => [sf_a f; sf_b f; sf_c f] | Reserve _ => [] end) items = flat_map triangle_points ts /\ flat_map (fun x => match x with Data f => [sf_n f] | Reserve _ => [] end) items = map sf_n ts).
  { generalize (@mesh_empty (pt3 F64), @nil (pt3 F64)). induction items as [|[n|f] items IH]; intros s.
    - exists []. repeat split.
    - destruct (IH s) as (ts & A & B & C). exists ts. repeat split; assumption.
    - destruct (IH (duped_step s (Data f))) as (ts & A & B & C). exists (f :: ts). cbn [flat_map map fold_left]. rewrite A, B, C. repeat split. }
  destruct G as (ts & A & B & C). rewrite A, B, C, (duped_all _ _ []) by reflexivity. cbn [pc mesh_empty app].
  eexists _, (map triple ts). split; [reflexivity|]. split; [apply map_points|]. rewrite map_length. apply abs_shows; [split; reflexivity|]. intros a b c I. apply separate_in in I. unfold in_range. cbn [svs]. rewrite points_length. lia.
Qed.
Print Assumptions C66_duped.

(** ** cases *)
Definition case_mesh : mesh (pt3 F64) := Mesh [fp3 0 0 0; fp3 2 0 0; fp3 0 3 0; fp3 0 0 4; fp3 2 0 0] [0; 1; 2; 0; 2; 3; 4; 0; 3]%N.
Definition case_text : bytes := unlines [str "solid STL generated by rust-3d";
  str "facet normal 0 0 1"; str "    outer loop"; str "        vertex 0 0 0"; str "        vertex 2 0 0"; str "        vertex 0 3 0"; str "    endloop"; str "endfacet";
  str "facet normal 1 0 0"; str "    outer loop"; str "        vertex 0 0 0"; str "        vertex 0 3 0"; str "        vertex 0 0 4"; str "    endloop"; str "endfacet";
  str "facet normal 0 1 0"; str "    outer loop"; str "        vertex 2 0 0"; str "        vertex 0 0 0"; str "        vertex 0 0 4"; str "    endloop"; str "endfacet";
  str "endsolid STL generated by rust-3d"].
Example C64_case : shows case_mesh (MSpec [fp3 0 0 0; fp3 2 0 0; fp3 0 3 0; fp3 0 0 4; fp3 2 0 0] [(0, 1, 2); (0, 2, 3); (4, 0, 3)]%N) /\
  save_stl_ascii demo case_mesh = Ok case_text /\
  load_stl_mesh_duped demo 1000 StlAuto case_text mesh_empty [] =
    Some (Mesh [fp3 0 0 0; fp3 2 0 0; fp3 0 3 0; fp3 0 0 0; fp3 0 3 0; fp3 0 0 4; fp3 2 0 0; fp3 0 0 0; fp3 0 0 4] [0; 1; 2; 3; 4; 5; 6; 7; 8]%N, [fp3 0 0 1; fp3 1 0 0; fp3 0 1 0], Ok tt) /\
  load_stl_mesh_unique demo eq_point 1000 StlAscii case_text mesh_empty [] =
    Some (Mesh [fp3 0 0 0; fp3 2 0 0; fp3 0 3 0; fp3 0 0 4] [0; 1; 2; 0; 2; 3; 1; 0; 3]%N, [fp3 0 0 1; fp3 1 0 0; fp3 0 1 0], Ok tt).
Proof.
  split; [|split; [vmeq|split; vmeq]]. apply abs_shows; [split; reflexivity|]. intros a b c [H|[H|[H|[]]]]; injection H as <- <- <-; repeat split; discriminate.
Qed.
(** Two of three facets are lost without an error when the last nine lines of the text are missing. *)
Example C65_case : load_stl_triplets demo 1000 StlAuto (concat (firstn 14 (raw_lines case_text))) = Some ([fp3 0 0 0; fp3 2 0 0; fp3 0 3 0], [fp3 0 0 1], Ok tt).
Proof. vmeq. Qed.
Definition case_record : bytes := map ascii_of_N ([0; 0; 0; 0; 0; 0; 0; 0; 0; 0; 128; 63] ++ [0; 0; 0; 0; 0; 0; 0; 0; 0; 0; 0; 0] ++ [0; 0; 0; 64; 0; 0; 0; 0; 0; 0; 0; 0] ++ [0; 0; 0; 0; 0; 0; 64; 64; 0; 0; 0; 0] ++ [0; 0])%N.
Definition case_header (n : N) : bytes := repeat space 80 ++ [ascii_of_N n; zero; zero; zero].
Example C66_case : record_point case_record 0 = fp3 0 0 1 /\ record_points case_record = [fp3 0 0 0; fp3 2 0 0; fp3 0 3 0] /\
  load_stl_triplets demo 1000 StlAuto (case_header 2 ++ case_record ++ case_record) = Some (record_points case_record ++ record_points case_record, [fp3 0 0 1; fp3 0 0 1], Ok tt) /\
  load_stl_triplets demo 1000 StlAuto (case_header 2 ++ case_record ++ firstn 49 case_record) = Some (record_points case_record, [fp3 0 0 1], Err (WNone StlAccessFile)).
Proof. split; [vmeq|split; [vmeq|split; vmeq]]. Qed.
