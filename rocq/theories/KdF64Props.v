(** Theorems about the KdTree on finite doubles (C167, C168). *)
From Verif Require Import Base Num NumLemmas BBoxModel SortSpec SortLemmas KdModel GeomSpec FloatSpec FloatLemmas FloatBridge RootLemmas DistSpec DistLemmas DistLemmas2 DistLemmas3 KdLemmas KdF64Lemmas KdProps.
From Coq Require Import Floats.SpecFloat Reals Lra Psatz.
From Flocq Require Import Core.

(** ** C167 *)
(** No stored point has a smaller computed distance than the one returned. *)
Theorem C167_nearest : forall (P : Type) (pos : P -> pt3 F64) sort, sort_ok sort ->
  forall pc t search, kd_build pos sort pc = Ok t -> finite3 search -> Forall (fun p => finite3 (pos p)) pc ->
  exists m, kd_nearest pos sort search t = Ok (Some m) /\ In m pc /\
    forall p, In p pc -> fle (dist_3d search (pos m)) (dist_3d search (pos p)).
Proof.
  intros P pos sort SO pc t search B FS FP. destruct (build_ok pos sort SO pc t B) as [Q E].
  assert (I : kd_inv64 pos t) by (subst t; apply kd_new_inv64; auto).
  assert (NE : t <> KNone).
  { intros ->. cbn [elems] in Q. apply Permutation_sym, Permutation_nil in Q. subst pc. discriminate. }
  assert (FT : Forall (fun p => finite3 (pos p)) (elems t)) by (apply (Forall_perm _ _ _ Q FP)).
  destruct (nearest_inv64 pos sort SO search FS t I FT NE [] (Forall_nil _) Logic.I) as (m & Em & Im & _ & Dm).
  cbn [app] in Im. exists m. split; [unfold kd_nearest, kd_knearest_api; cbn [Nat.ltb Nat.leb]; rewrite Em; reflexivity|].
  split; [apply (Permutation_in _ (Permutation_sym Q)), Im|]. rewrite Forall_forall in FT.
  intros p Hp. apply (Permutation_in _ Q) in Hp. apply fle_key; [apply dist_nn; auto..|apply Dm, Hp].
Qed.
Print Assumptions C167_nearest.
(** Measured exactly, the point returned is nearest up to a relative error of 2^-49. *)
Theorem C167_nearest_true : forall (P : Type) (pos : P -> pt3 F64) sort, sort_ok sort ->
  forall pc t search, kd_build pos sort pc = Ok t -> finite3 search -> Forall (fun p => finite3 (pos p)) pc ->
  Forall (fun p => moderate (true_dist3 search (pos p))) pc ->
  exists m, kd_nearest pos sort search t = Ok (Some m) /\ In m pc /\
    forall p, In p pc -> (true_dist3 search (pos m) <= true_dist3 search (pos p) * (1 + powerRZ 2 (-49)))%R.
Proof.
  intros P pos sort SO pc t search B FS FP MP. destruct (C167_nearest P pos sort SO pc t search B FS FP) as (m & E & Im & D).
  exists m. split; [exact E|]. split; [exact Im|]. intros p Hp. specialize (D p Hp). rewrite Forall_forall in *.
  destruct (accurate3 search (pos m) FS (FP m Im) (MP m Im)) as [F1 C1]. destruct (accurate3 search (pos p) FS (FP p Hp) (MP p Hp)) as [F2 C2].
  apply fle_key in D; [|apply dist_nn; auto..]. rewrite !key_fin in D by (apply finite_f; assumption).
  apply Rabs_le_inv in C1, C2. rewrite <- four_ur in C1, C2.
  replace (powerRZ 2 (-49)) with (16 * ur)%R.
  2:{ replace (16 * ur)%R with (4 * (4 * ur))%R by ring. rewrite four_ur, !bp_powerRZ.
      replace (-49)%Z with ((-51 + 1) + 1)%Z by reflexivity. rewrite !bp_double. ring. }
  pose proof ur_small as [U1 U2].
  assert (N1 : (0 <= true_dist3 search (pos m))%R) by apply sqrt_pos. assert (N2 : (0 <= true_dist3 search (pos p))%R) by apply sqrt_pos.
  set (a := true_dist3 search (pos m)) in *. set (b := true_dist3 search (pos p)) in *.
  assert (H : (a * (1 - 4 * ur) <= b * (1 + 4 * ur))%R) by lra.
  apply Rmult_le_reg_r with (1 - 4 * ur)%R; [lra|]. eapply Rle_trans; [exact H|]. rewrite Rmult_assoc. apply Rmult_le_compat_l; [exact N2|]. nra.
Qed.
Print Assumptions C167_nearest_true.
(** The exactly nearest point need not be returned. *)
Theorem C167_exact_refuted : exists (pc : list (nat * pt3 F64)) t search m p,
  kd_build snd isort pc = Ok t /\ finite3 search /\ Forall (fun p => finite3 (snd p)) pc /\
  kd_nearest snd isort search t = Ok (Some m) /\ In p pc /\ (true_dist3 search (snd p) < true_dist3 search (snd m))%R.
Proof.
  set (p := (0%nat, @mk3 F64 (lit 1 (-61)) n0 n0)). set (m := (1%nat, @mk3 F64 (lit 1 (-60)) n0 n0)).
  exists [p; m]. eexists. exists (fp3 (-1) 0 0), m, p. split; [reflexivity|].
  split; [intros ax [->|[->| ->]]; split; vm_compute; reflexivity||exact I|].
  split; [repeat (apply Forall_cons; [intros ax [->|[->| ->]]; split; vm_compute; reflexivity||exact I|]); apply Forall_nil|].
  split; [unfold p, m; vmeq|]. split; [left; reflexivity|].
  unfold true_dist3, sqd3, real3, p, m. cbn [snd px py pz fp3].
  assert (E1 : fval (@lit F64 1 (-61)) = bp (-61)).
  { replace (@lit F64 1 (-61)) with (S754_finite false 4503599627370496 (-113)) by (vm_compute; reflexivity). cbn [fval]. rewrite bp_powerRZ.
    replace (-61)%Z with (52 + -113)%Z by reflexivity. rewrite bpow_plus. change (bp 52) with 4503599627370496%R. ring. }
  assert (E2 : fval (@lit F64 1 (-60)) = bp (-60)).
  { replace (@lit F64 1 (-60)) with (S754_finite false 4503599627370496 (-112)) by (vm_compute; reflexivity). cbn [fval]. rewrite bp_powerRZ.
    replace (-60)%Z with (52 + -112)%Z by reflexivity. rewrite bpow_plus. change (bp 52) with 4503599627370496%R. ring. }
  rewrite E1, E2. assert (E3 : fval (fz (-1)) = (-1)%R).
  { replace (fz (-1)) with (S754_finite true 4503599627370496 (-52)) by (vm_compute; reflexivity). cbn [fval]. rewrite bp_powerRZ.
    change (bp (-52)) with (/ 4503599627370496)%R. lra. }
  rewrite E3. set (a := fval (fz 0)). set (b := fval n0). assert (A : a = 0%R) by reflexivity. assert (B : b = 0%R) by reflexivity. rewrite A, B.
  pose proof (bp_pos (-61)). pose proof (bp_double (-61)) as D. change (-61 + 1)%Z with (-60)%Z in D. rewrite D.
  apply sqrt_lt_1_alt. split; [nra|]. nra.
Qed.
Print Assumptions C167_exact_refuted.
Example C167_case :
  match kd_nearest snd isort (fp3 4 4 0) (tree_of [lp 0 3 1 0; lp 1 9 9 0; lp 2 0 0 0; lp 3 5 5 1; lp 4 5 6 0]) with
  | Ok (Some p) => fst p | _ => 99%nat end = 3%nat /\
  finite3 (fp3 4 4 0) /\ Forall (fun p : nat * pt3 F64 => finite3 (snd p)) [lp 0 3 1 0; lp 1 9 9 0; lp 2 0 0 0; lp 3 5 5 1; lp 4 5 6 0].
Proof.
  split; [vm_compute; reflexivity|]. split; [intros ax [->|[->| ->]]; split; vm_compute; reflexivity||exact I|].
  repeat (apply Forall_cons; [intros ax [->|[->| ->]]; split; vm_compute; reflexivity||exact I|]). apply Forall_nil.
Qed.

(** ** C168 *)
(** Every stored point is found unless its computed distance is at least the radius. *)
Theorem C168_in_sphere : forall (P : Type) (pos : P -> pt3 F64) sort, sort_ok sort ->
  forall pc t c r before, kd_build pos sort pc = Ok t -> finite3 c -> Forall (fun p => finite3 (pos p)) pc ->
  is_double r -> fle (lit 1 (-511)) r ->
  exists found rest, kd_in_sphere pos (mksphere c r) t before = before ++ found /\ Permutation pc (found ++ rest) /\
    Forall (fun p => fle (dist_3d c (pos p)) r) found /\ Forall (fun p => fle r (dist_3d c (pos p))) rest.
Proof.
  intros P pos sort SO pc t c r before B FC FP DR LR. destruct (build_ok pos sort SO pc t B) as [Q E].
  assert (I : kd_inv64 pos t) by (subst t; apply kd_new_inv64; auto).
  assert (FT : Forall (fun p => finite3 (pos p)) (elems t)) by (apply (Forall_perm _ _ _ Q FP)).
  assert (NL : nn (@lit F64 1 (-511)) /\ key (@lit F64 1 (-511)) = bp (-511)).
  { replace (@lit F64 1 (-511)) with (S754_finite false 4503599627370496 (-563) : T F64) by (vm_compute; reflexivity).
    assert (V : fval (S754_finite false 4503599627370496 (-563)) = bp (-511)).
    { cbn [fval]. rewrite bp_powerRZ. replace (-511)%Z with (52 + -563)%Z by reflexivity. rewrite bpow_plus. change (bp 52) with 4503599627370496%R. ring. }
    split; [split; [reflexivity|left; split; [exact Logic.I|rewrite V; apply Rlt_le, bp_pos]]|exact V]. }
  destruct NL as [NL KL].
  assert (NR : nn r).
  { split; [exact DR|]. destruct (f_finite_dec r) as [F|F].
    - left. split; [exact F|]. apply fle_val in LR; [|apply NL|exact DR| |exact F].
      + rewrite <- key_fin, KL in LR by (destruct NL as [_ [[X _]|X]]; [exact X|discriminate X]). pose proof (bp_pos (-511)). lra.
      + destruct NL as [_ [[X _]|X]]; [exact X|discriminate X].
    - right. destruct r as [|[]| |]; try (exfalso; apply F; exact Logic.I); try reflexivity; vm_compute in LR; discriminate. }
  apply fle_key in LR; [|assumption..]. rewrite KL in LR.
  set (Qp := fun p => fle r (dist_3d c (pos p))).
  assert (TQ : forall p, finite3 (pos p) -> sph_test pos (mksphere c r) p = false -> Qp p).
  { intros p Fp H. unfold sph_test in H. cbn [sph_center sph_radius] in H. apply fle_key; [exact NR|apply dist_nn; auto|].
    apply Rnot_lt_le. intros L. assert (X : fle (dist_3d c (pos p)) r) by (apply fle_key; [apply dist_nn; auto|exact NR|lra]).
    change (nleb (dist_3d c (pos p)) r = true) in X. rewrite X in H. discriminate. }
  assert (FAR : forall d p, finite3 (pos p) -> f_finite r -> (fval r <= Rabs (fval (coordN d c) - fc pos d p))%R -> Qp p).
  { intros d p Fp FR L. apply fle_key; [exact NR|apply dist_nn; auto|]. apply (far_dist _ d); auto.
    - apply (key_nn _ NR).
    - intros e Le. eapply Rle_trans; [apply sqrt_sq_ge; [apply key_fmt, NR|exact LR]|]. apply rnd_le, sqrt_le_1_alt, rnd_le.
      pose proof (proj1 (key_nn _ NR)). nra.
    - apply (key_nn _ NR).
    - apply rk_far; assumption. }
  set (Q2 := fun p => finite3 (pos p) -> Qp p).
  assert (PM : prune_most Q2 (fun v d => dimension_compare (sph_center (mksphere c r)) (pos v) d)
    (fun v d => nleb (nsub (sph_coord d (mksphere c r)) (sph_radius (mksphere c r))) (coordN d (pos v)))
    (fun v d => ngeb (nadd (sph_coord d (mksphere c r)) (sph_radius (mksphere c r))) (coordN d (pos v))) t).
  { apply (prune_from pos Q2 _ _ _ c); auto.
    - intros v d p D Fv Fp H L _. replace (sph_coord d (mksphere c r)) with (coordN d c) in H by (destruct D as [->| ->]; reflexivity).
      cbn [sph_radius] in H. destruct (coord_fin d _ FC) as [C1 C2], (coord_fin d _ Fv) as [V1 V2].
      destruct (far_right _ _ _ C1 C2 NR V1 V2 H) as [FR LL]. apply (FAR d); auto. rewrite Rabs_minus_sym. eapply Rle_trans; [|apply Rle_abs]. unfold fc in *. lra.
    - intros v d p D Fv Fp H L _. replace (sph_coord d (mksphere c r)) with (coordN d c) in H by (destruct D as [->| ->]; reflexivity).
      cbn [sph_radius] in H. destruct (coord_fin d _ FC) as [C1 C2], (coord_fin d _ Fv) as [V1 V2].
      destruct (far_left _ _ _ C1 C2 NR V1 V2 H) as [FR LL]. apply (FAR d); auto. eapply Rle_trans; [|apply Rle_abs]. unfold fc in *. lra. }
  destruct (trav_most _ Q2 (fun p H F => TQ p F H) _ _ _ t PM before) as (found & rest & Ef & Pf & A1 & A2).
  exists found, rest. rewrite in_sphere_trav. split; [exact Ef|]. assert (PP : Permutation pc (found ++ rest)) by (rewrite Q; exact Pf).
  split; [exact PP|]. split; [exact A1|]. assert (FF := Forall_perm _ _ _ PP FP). rewrite Forall_app in FF. destruct FF as [_ FF].
  rewrite Forall_forall in *. intros p Hp. apply A2; auto.
Qed.
Print Assumptions C168_in_sphere.
(** Measured exactly: what is found lies in the sphere, what is left out lies outside, up to a relative error of 2^-51. *)
Theorem C168_in_sphere_true : forall (P : Type) (pos : P -> pt3 F64) sort, sort_ok sort ->
  forall pc t c r before, kd_build pos sort pc = Ok t -> finite3 c -> Forall (fun p => finite3 (pos p)) pc ->
  Forall (fun p => moderate (true_dist3 c (pos p))) pc -> is_double r -> finite r -> fle (lit 1 (-511)) r ->
  exists found rest, kd_in_sphere pos (mksphere c r) t before = before ++ found /\ Permutation pc (found ++ rest) /\
    Forall (fun p => (true_dist3 c (pos p) * (1 - powerRZ 2 (-51)) <= fval r)%R) found /\
    Forall (fun p => (fval r <= true_dist3 c (pos p) * (1 + powerRZ 2 (-51)))%R) rest.
Proof.
  intros P pos sort SO pc t c r before B FC FP MP DR FR LR.
  destruct (C168_in_sphere P pos sort SO pc t c r before B FC FP DR LR) as (found & rest & E & PP & A1 & A2).
  exists found, rest. split; [exact E|]. split; [exact PP|].
  assert (C : forall p, In p pc -> finite (dist_3d c (pos p)) /\ is_double (dist_3d c (pos p)) /\
     (Rabs (fval (dist_3d c (pos p)) - true_dist3 c (pos p)) <= true_dist3 c (pos p) * powerRZ 2 (-51))%R).
  { rewrite Forall_forall in *. intros p Hp. destruct (accurate3 c (pos p) FC (FP p Hp) (MP p Hp)). repeat split; auto. apply (dist_nn c (pos p)); auto. }
  rewrite Forall_forall in A1, A2. rewrite !Forall_forall. apply finite_f in FR.
  split; intros p Hp.
  - destruct (C p) as (F & D & L); [apply (Permutation_in _ (Permutation_sym PP)), in_or_app; auto|]. apply finite_f in F.
    specialize (A1 p Hp). apply fle_val in A1; auto. apply Rabs_le_inv in L. lra.
  - destruct (C p) as (F & D & L); [apply (Permutation_in _ (Permutation_sym PP)), in_or_app; auto|]. apply finite_f in F.
    specialize (A2 p Hp). apply fle_val in A2; auto. apply Rabs_le_inv in L. lra.
Qed.
Print Assumptions C168_in_sphere_true.
(** Every stored point is found unless on some axis it is at least half the size away from the center. *)
Theorem C168_in_box : forall (P : Type) (pos : P -> pt3 F64) sort, sort_ok sort ->
  forall pc t c sx sy sz before, kd_build pos sort pc = Ok t -> finite3 c -> Forall (fun p => finite3 (pos p)) pc ->
  is_double sx -> is_double sy -> is_double sz -> flt n0 sx -> flt n0 sy -> flt n0 sz ->
  exists found rest, kd_in_box pos (mkbox3d c sx sy sz) t before = before ++ found /\ Permutation pc (found ++ rest) /\
    Forall (fun p => fle (nabs (px c - px (pos p)))%num (nhalf * sx)%num /\
                     fle (nabs (py c - py (pos p)))%num (nhalf * sy)%num /\
                     fle (nabs (pz c - pz (pos p)))%num (nhalf * sz)%num) found /\
    Forall (fun p => fle (nhalf * sx)%num (nabs (px c - px (pos p)))%num \/
                     fle (nhalf * sy)%num (nabs (py c - py (pos p)))%num \/
                     fle (nhalf * sz)%num (nabs (pz c - pz (pos p)))%num) rest.
Proof.
  intros P pos sort SO pc t c sx sy sz before B FC FP DX DY DZ PX PY PZ. destruct (build_ok pos sort SO pc t B) as [Q E].
  assert (I : kd_inv64 pos t) by (subst t; apply kd_new_inv64; auto).
  assert (FT : Forall (fun p => finite3 (pos p)) (elems t)) by (apply (Forall_perm _ _ _ Q FP)).
  assert (NH : forall s, is_double s -> flt n0 s -> nn (nmul nhalf s)).
  { intros s DS PS. assert (DH : is_double (nhalf : T F64)) by (vm_compute; reflexivity). assert (FH : f_finite (nhalf : T F64)) by (vm_compute; exact Logic.I).
    assert (VH : (0 <= fval nhalf)%R) by (replace (nhalf : T F64) with (S754_finite false 4503599627370496 (-53) : T F64) by (vm_compute; reflexivity); cbn [fval];
      rewrite bp_powerRZ; pose proof (bp_pos (-53)); lra).
    destruct (f_finite_dec s) as [F|F].
    - assert (V : (0 < fval s)%R) by (apply flt_val in PS; auto).
      apply (rounds_nn (fval nhalf * fval s)); [apply double_mul; assumption|nra|apply mul_val; assumption].
    - destruct s as [|[]| |]; try (exfalso; apply F; exact Logic.I); try (vm_compute in PS; discriminate).
      split; [vm_compute; reflexivity|right; vm_compute; reflexivity]. }
  set (b := mkbox3d c sx sy sz).
  assert (NHb : forall d, nn (nmul nhalf (box_size d b))) by (intros [|[]]; cbn [box_size b box_sx box_sy box_sz]; apply NH; assumption).
  assert (K : forall d p, finite3 (pos p) -> nn (nabs (nsub (coordN d c) (coordN d (pos p)))) /\
     key (nabs (nsub (coordN d c) (coordN d (pos p)))) = rk (Rabs (fval (coordN d c) - fc pos d p))).
  { intros d p Fp. destruct (coord_fin d _ FC) as [C1 C2], (coord_fin d _ Fp) as [V1 V2]. destruct (sub_key _ _ C1 V1 C2 V2) as (DD & NN & EE).
    split; [apply sq_key; assumption|exact EE]. }
  set (Q1 := fun p d => fle (nmul nhalf (box_size d b)) (nabs (nsub (coordN d c) (coordN d (pos p))))).
  set (Qp := fun p => Q1 p 0%N \/ Q1 p 1%N \/ Q1 p 2%N).
  assert (T1 : forall p d, finite3 (pos p) -> nleb (nabs (nsub (coordN d c) (coordN d (pos p)))) (nmul nhalf (box_size d b)) = false -> Q1 p d).
  { intros p d Fp H. destruct (K d p Fp) as [N1 _]. apply fle_key; [apply NHb|exact N1|]. apply Rnot_lt_le. intros L.
    assert (X : fle (nabs (nsub (coordN d c) (coordN d (pos p)))) (nmul nhalf (box_size d b))) by (apply fle_key; [exact N1|apply NHb|lra]).
    change (nleb (nabs (nsub (coordN d c) (coordN d (pos p)))) (nmul nhalf (box_size d b)) = true) in X. rewrite X in H. discriminate. }
  set (Q2 := fun p => finite3 (pos p) -> Qp p).
  assert (TQ : forall p, box_test pos b p = false -> Q2 p).
  { intros p H Fp. unfold box_test in H. apply Bool.andb_false_iff in H. destruct H as [H|H]; [apply Bool.andb_false_iff in H; destruct H as [H|H]|].
    - left. apply T1; assumption.
    - right; left. apply T1; assumption.
    - right; right. apply T1; assumption. }
  assert (FAR : forall d p, (d = 0 \/ d = 1)%N -> finite3 (pos p) -> f_finite (nmul nhalf (box_size d b)) ->
     (fval (nmul nhalf (box_size d b)) <= Rabs (fval (coordN d c) - fc pos d p))%R -> Qp p).
  { intros d p D Fp FR L. assert (X : Q1 p d).
    { destruct (K d p Fp) as [N1 E1]. apply fle_key; [apply NHb|exact N1|]. rewrite E1. apply rk_far; [apply NHb|assumption..]. }
    destruct D as [->| ->]; [left|right; left]; exact X. }
  assert (PM : prune_most Q2 (fun v d => dimension_compare (box_center b) (pos v) d)
    (fun v d => nleb (nsub (coordN d (box_center b)) (nmul nhalf (box_size d b))) (coordN d (pos v)))
    (fun v d => ngeb (nadd (coordN d (box_center b)) (nmul nhalf (box_size d b))) (coordN d (pos v))) t).
  { apply (prune_from pos Q2 _ _ _ c); auto.
    - intros v d p D Fv Fp H L _. cbn [box_center b] in H. destruct (coord_fin d _ FC) as [C1 C2], (coord_fin d _ Fv) as [V1 V2].
      destruct (far_right _ _ _ C1 C2 (NHb d) V1 V2 H) as [FR LL]. apply (FAR d); auto. rewrite Rabs_minus_sym. eapply Rle_trans; [|apply Rle_abs]. unfold fc in *. lra.
    - intros v d p D Fv Fp H L _. cbn [box_center b] in H. destruct (coord_fin d _ FC) as [C1 C2], (coord_fin d _ Fv) as [V1 V2].
      destruct (far_left _ _ _ C1 C2 (NHb d) V1 V2 H) as [FR LL]. apply (FAR d); auto. eapply Rle_trans; [|apply Rle_abs]. unfold fc in *. lra. }
  destruct (trav_most _ Q2 TQ _ _ _ t PM before) as (found & rest & Ef & Pf & A1 & A2).
  exists found, rest. rewrite in_box_trav. split; [exact Ef|]. assert (PP : Permutation pc (found ++ rest)) by (rewrite Q; exact Pf).
  split; [exact PP|]. assert (FF := Forall_perm _ _ _ PP FP). rewrite Forall_app in FF. destruct FF as [_ FF].
  rewrite Forall_forall in A1, A2, FF. rewrite !Forall_forall. split; [|intros p Hp; apply A2; auto].
  intros p Hp. specialize (A1 p Hp). unfold box_test in A1. rewrite !Bool.andb_true_iff in A1. destruct A1 as [[H1 H2] H3]. split; [exact H1|]. split; [exact H2|exact H3].
Qed.
Print Assumptions C168_in_box.
(** Below 2^-511 even points with a computed distance smaller than the radius may be left out. *)
Theorem C168_tiny_refuted : exists (pc : list (nat * pt3 F64)) t c r, kd_build snd isort pc = Ok t /\ flt n0 r /\
  (forall p, In p pc -> flt (dist_3d c (snd p)) r) /\ map fst pc = [0; 1; 2]%nat /\
  map fst (kd_in_sphere snd (mksphere c r) t []) = [1; 0]%nat.
Proof.
  set (p := @mk3 F64 (lit 1 (-539)) n0 n0).
  exists [(0%nat, p); (1%nat, p); (2%nat, p)]. eexists. exists (fp3 0 0 0), (lit 1 (-540)).
  split; [reflexivity|]. split; [vmeq|]. split; [intros q [<-|[<-|[<-|[]]]]; vm_compute; reflexivity|]. split; vm_compute; reflexivity.
Qed.
Print Assumptions C168_tiny_refuted.
(** The points 0 and 2 lie on the border of the sphere, 0 on an edge of the box. *)
Example C168_case : let pc := [lp 0 3 4 0; lp 1 9 0 0; lp 2 0 0 (-5); lp 3 1 1 5] in
  finite3 (fp3 0 0 0) /\ Forall (fun p : nat * pt3 F64 => finite3 (snd p)) pc /\ fle (lit 1 (-511)) (fz 5) /\
  map fst (kd_in_sphere snd (mksphere (fp3 0 0 0) (fz 5)) (tree_of pc) []) = [0; 2]%nat /\
  map fst (kd_in_box snd (mkbox3d (fp3 0 0 0) (fz 6) (fz 8) (fz 9)) (tree_of pc) []) = [0]%nat.
Proof.
  cbv zeta. split; [intros ax [->|[->| ->]]; split; vm_compute; reflexivity||exact I|].
  split; [repeat (apply Forall_cons; [intros ax [->|[->| ->]]; split; vm_compute; reflexivity||exact I|]); apply Forall_nil|].
  split; [vmeq|]. split; vm_compute; reflexivity.
Qed.
