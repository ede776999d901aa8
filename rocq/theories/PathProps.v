(** Lengths of paths and polygons, exactly (C176) and in doubles (C177). *)
From Verif Require Import Base BaseLemmas Num NumLemmas BBoxModel GeomSpec VecModel VecLemmas FloatSpec FloatBridge RootLemmas DistSpec DistLemmas DistLemmas2 DistLemmas3 DistProps CloudModel CloudSpec CloudLemmas CloudProps PathModel PathSpec PathLemmas.
From Coq Require Import Floats.SpecFloat Reals Lra Lia Psatz.
From Flocq Require Import Core.
Local Open Scope R_scope.

Lemma poly3_cyc ps : poly3_length ps = path rdist3 (closed ps). Proof. apply (C53_length_3d ps). Qed.
Lemma poly2_cyc ps : poly2_length ps = path rdist2 (closed ps). Proof. apply (C53_length_2d ps). Qed.

(** ** C176: the perimeter depends neither on the vertex a polygon starts at nor on its sense *)
Theorem C176_start_and_sense : forall ps qs : list (pt3 RN),
  poly3_length (ps ++ qs) = poly3_length (qs ++ ps) /\ poly3_length (rev ps) = poly3_length ps /\ pc3_length (rev ps) = pc3_length ps.
Proof.
  intros ps qs. rewrite !poly3_cyc, !pc3_length_R. split; [apply cyc_rot|]. split; [apply cyc_rev, rdist3_sym|apply path_rev, rdist3_sym].
Qed.
Print Assumptions C176_start_and_sense.
Theorem C176_start_and_sense_2d : forall ps qs : list (pt2 RN),
  poly2_length (ps ++ qs) = poly2_length (qs ++ ps) /\ poly2_length (rev ps) = poly2_length ps /\ pc2_length (rev ps) = pc2_length ps.
Proof.
  intros ps qs. rewrite !poly2_cyc, !pc2_length_R. split; [apply cyc_rot|]. split; [apply cyc_rev, rdist2_sym|apply path_rev, rdist2_sym].
Qed.
Print Assumptions C176_start_and_sense_2d.
(** ** One more point, anywhere, makes nothing shorter *)
Theorem C176_insert : forall (ps qs : list (pt3 RN)) p,
  (pc3_length (ps ++ qs) <= pc3_length (ps ++ p :: qs)) /\ (poly3_length (ps ++ qs) <= poly3_length (ps ++ p :: qs)).
Proof.
  intros ps qs p. rewrite !poly3_cyc, !pc3_length_R. split; [apply path_insert|apply cyc_insert]; auto using rdist3_sym, rdist3_self, tri3.
Qed.
Print Assumptions C176_insert.
Theorem C176_insert_2d : forall (ps qs : list (pt2 RN)) p,
  (pc2_length (ps ++ qs) <= pc2_length (ps ++ p :: qs)) /\ (poly2_length (ps ++ qs) <= poly2_length (ps ++ p :: qs)).
Proof.
  intros ps qs p. rewrite !poly2_cyc, !pc2_length_R. split; [apply path_insert|apply cyc_insert]; auto using rdist2_sym, rdist2_self, tri2.
Qed.
Print Assumptions C176_insert_2d.
(** ** Moving keeps lengths, scaling multiplies them, if the points have an extent in every direction *)
Lemma scale_root f x : 0 < f -> sqrt (f ^ 2 * x) = f * sqrt x.
Proof. intros F. rewrite sqrt_mult_alt by nra. f_equal. replace (f ^ 2) with (f * f) by ring. apply sqrt_square. lra. Qed.
Theorem C176_move_and_scale : forall dbg (ps : list (pt3 RN)) (x y z f : R), 0 < f ->
  poly3_length (pc3_move_by ps x y z) = poly3_length ps /\ pc3_length (pc3_move_by ps x y z) = pc3_length ps /\
  forall qs, pc3_scale dbg ps f = Ok qs -> exists g : R, g = match bb3_from_iterator dbg ps with Ok _ => f | _ => 1 end /\
    poly3_length qs = g * poly3_length ps /\ pc3_length qs = g * pc3_length ps.
Proof.
  intros dbg ps x y z f F. rewrite !poly3_cyc, !pc3_length_R. unfold pc3_move_by. rewrite closed_map.
  assert (M : forall a b : pt3 RN, rdist3 (@pt3_move_by RN a x y z) (@pt3_move_by RN b x y z) = 1 * rdist3 a b).
  { intros a b. rewrite Rmult_1_l. unfold rdist3, sqd3, pt3_move_by. cbn [px py pz]. f_equal. toR; cbn [T RN nadd nsub nmul]; ring. }
  rewrite !(path_map rdist3 _ 1 M), !Rmult_1_l. split; [reflexivity|]. split; [reflexivity|]. intros qs. unfold pc3_scale.
  destruct (bb3_from_iterator dbg ps) as [b|e|]; intros [= <-].
  - exists f. split; [reflexivity|]. rewrite poly3_cyc, pc3_length_R, closed_map.
    assert (S : forall p q, rdist3 (increase_distance3 (bb3_center b) f p) (increase_distance3 (bb3_center b) f q) = f * rdist3 p q).
    { intros p q. unfold rdist3. rewrite <- (scale_root f) by exact F. unfold sqd3, increase_distance3. cbn [px py pz]. f_equal. toR; cbn [T RN nadd nsub nmul]; ring. }
    rewrite !(path_map rdist3 _ f S). auto.
  - exists 1. split; [reflexivity|]. rewrite poly3_cyc, pc3_length_R, !Rmult_1_l. auto.
Qed.
Print Assumptions C176_move_and_scale.
Theorem C176_move_and_scale_2d : forall dbg (ps : list (pt2 RN)) (x y f : R), 0 < f ->
  poly2_length (pc2_move_by ps x y) = poly2_length ps /\ pc2_length (pc2_move_by ps x y) = pc2_length ps /\
  forall qs, pc2_scale dbg ps f = Ok qs -> exists g : R, g = match bb2_from_iterator dbg ps with Ok _ => f | _ => 1 end /\
    poly2_length qs = g * poly2_length ps /\ pc2_length qs = g * pc2_length ps.
Proof.
  intros dbg ps x y f F. rewrite !poly2_cyc, !pc2_length_R. unfold pc2_move_by. rewrite closed_map.
  assert (M : forall a b : pt2 RN, rdist2 (@pt2_move_by RN a x y) (@pt2_move_by RN b x y) = 1 * rdist2 a b).
  { intros a b. rewrite Rmult_1_l. unfold rdist2, sqd2, pt2_move_by. cbn [x2 y2]. f_equal. toR; cbn [T RN nadd nsub nmul]; ring. }
  rewrite !(path_map rdist2 _ 1 M), !Rmult_1_l. split; [reflexivity|]. split; [reflexivity|]. intros qs. unfold pc2_scale.
  destruct (bb2_from_iterator dbg ps) as [b|e|]; intros [= <-].
  - exists f. split; [reflexivity|]. rewrite poly2_cyc, pc2_length_R, closed_map.
    assert (S : forall p q, rdist2 (increase_distance2 (bb2_center b) f p) (increase_distance2 (bb2_center b) f q) = f * rdist2 p q).
    { intros p q. unfold rdist2. rewrite <- (scale_root f) by exact F. unfold sqd2, increase_distance2. cbn [x2 y2]. f_equal. toR; cbn [T RN nadd nsub nmul]; ring. }
    rewrite !(path_map rdist2 _ f S). auto.
  - exists 1. split; [reflexivity|]. rewrite poly2_cyc, pc2_length_R, !Rmult_1_l. auto.
Qed.
Print Assumptions C176_move_and_scale_2d.
Example C176_case : poly2_length [fp2 0 0; fp2 3 0; fp2 3 4] = fz 12 /\ poly2_length [fp2 3 4; fp2 0 0; fp2 3 0] = fz 12 /\
  poly2_length [fp2 3 4; fp2 3 0; fp2 0 0] = fz 12 /\ poly2_length [fp2 0 0; fp2 3 0; fp2 3 4; fp2 0 4] = fz 14 /\
  pc2_scale false [fp2 0 0; fp2 3 0; fp2 3 4] (fz 2) = Ok [@mk2 F64 (@lit F64 (-3) (-1)) (fz (-2)); @mk2 F64 (@lit F64 9 (-1)) (fz (-2)); @mk2 F64 (@lit F64 9 (-1)) (fz 6)] /\ pc2_scale false [fp2 0 0; fp2 3 0] (fz 2) = Ok [fp2 0 0; fp2 3 0].
Proof. repeat split; vmeq. Qed.

(** ** C177: lengths in doubles *)
Lemma nn_zero : nn (n0 : T F64). Proof. split; [reflexivity|left]. split; [exact I|]. cbn. lra. Qed.
Lemma key_zero : key (n0 : T F64) = 0. Proof. reflexivity. Qed.
Lemma band_close x D : nn x -> close_to x D -> band 0 (key x) D.
Proof. intros N [F A]. apply finite_f in F. rewrite key_fin by exact F. apply band_0. rewrite four_ur. exact A. Qed.
Lemma within_band k x D : 0 <= D <= bp 551 -> INR k <= 2 ^ 40 -> nn x -> band k (key x) D -> within (N.of_nat k + 4) x D.
Proof.
  intros DB K N B. pose proof ur_small as U. assert (KU : INR k * ur <= / 1000).
  { assert (UU : ur <= / 1000 * / 2 ^ 40) by (unfold ur; change (bp (-52)) with (/ 4503599627370496); lra).
    assert (2 ^ 40 * ur <= / 1000) by lra. assert (INR k * ur <= 2 ^ 40 * ur) by (apply Rmult_le_compat_r; lra). lra. }
  pose proof (band_wide k _ _ (proj1 DB) KU B) as W.
  assert (F : f_finite x).
  { destruct N as [DX [[FX _]| ->]]; [exact FX|]. exfalso. cbn [key] in W. apply Rabs_le_inv in W. rewrite plus_INR in W. change (INR 4) with (1 + 1 + 1 + 1) in W.
    assert (W2 : D * ((INR k + (1 + 1 + 1 + 1)) * (2 * ur)) <= D * 1) by (apply Rmult_le_compat_l; lra).
    assert (T : top = bp 473 * bp 551) by (rewrite <- bpow_plus; reflexivity). assert (T2 : bp 2 <= bp 473) by (apply bpow_le; lia). change (bp 2) with 4 in T2.
    assert (T3 : 4 * bp 551 <= bp 473 * bp 551) by (apply Rmult_le_compat_r; [apply Rlt_le, bp_pos|exact T2]). pose proof (bp_pos 551). rewrite T in W. lra. }
  split; [apply finite_f, F|]. rewrite <- (key_fin x F). eapply Rle_trans; [exact W|]. rewrite Rmult_assoc. apply Rmult_le_compat_l; [lra|].
  rewrite bp_powerRZ. unfold ur. rewrite INR_IZR_INZ. replace (Z.of_N (N.of_nat k + 4)) with (Z.of_nat (k + 4)) by lia. lra.
Qed.
Lemma true_sym3 a b : true_dist3 a b = true_dist3 b a. Proof. apply rdist3_sym. Qed.
Lemma true_sym2 a b : true_dist2 a b = true_dist2 b a. Proof. apply rdist2_sym. Qed.
Lemma dist_nn3 a b : finite3 a -> finite3 b -> nn (dist_3d b a).
Proof. intros A B. destruct (sqr_key3 b a B A) as [N _]. apply (sqrt_key _ N). Qed.
Lemma dist_nn2 a b : finite2 a -> finite2 b -> nn (dist_2d b a).
Proof. intros A B. destruct (sqr_key2 b a B A) as [N _]. apply (sqrt_key _ N). Qed.
Definition ok3 (a b : pt3 F64) : Prop := finite3 a /\ finite3 b /\ moderate (true_dist3 a b).
Definition ok2 (a b : pt2 F64) : Prop := finite2 a /\ finite2 b /\ moderate (true_dist2 a b).
Lemma moderate_le D : moderate D -> D <= bp 511.
Proof. intros [-> |[_ H]]; [apply Rlt_le, bp_pos|]. rewrite bp_powerRZ in H. exact H. Qed.
Lemma step3 a b : ok3 a b -> nn (dist_3d b a) /\ band 0 (key (dist_3d b a)) (true_dist3 a b) /\ 0 <= true_dist3 a b <= bp 511.
Proof.
  intros (A & B & M). pose proof (dist_nn3 a b A B) as N. split; [exact N|]. split; [|split; [apply sqrt_pos|apply moderate_le, M]].
  apply band_close; [exact N|]. rewrite true_sym3 in M |- *. apply accurate3; assumption.
Qed.
Lemma step2 a b : ok2 a b -> nn (dist_2d b a) /\ band 0 (key (dist_2d b a)) (true_dist2 a b) /\ 0 <= true_dist2 a b <= bp 511.
Proof.
  intros (A & B & M). pose proof (dist_nn2 a b A B) as N. split; [exact N|]. split; [|split; [apply sqrt_pos|apply moderate_le, M]].
  apply band_close; [exact N|]. rewrite true_sym2 in M |- *. apply accurate2; assumption.
Qed.
Lemma steps_in {P} (l : list P) a b : In (a, b) (steps l) -> In a l /\ In b l.
Proof. intros H. split; [apply (in_combine_l _ _ _ _ H)|]. apply in_combine_r in H. destruct l; [exact H|right; exact H]. Qed.
Lemma loop_within {P} fd td (ok : P -> P -> Prop) p ps : (forall a b, ok a b -> nn (fd b a) /\ band 0 (key (fd b a)) (td a b) /\ 0 <= td a b <= bp 511) ->
  (Z.of_nat (length ps) <= 2 ^ 40)%Z -> (forall a b, In (a, b) (steps (p :: ps)) -> ok a b) ->
  within (lenN ps + 4) (length_from fd p ps n0) (path td (p :: ps)).
Proof.
  intros OK L S. assert (IL : INR (length ps) <= 2 ^ 40).
  { rewrite INR_IZR_INZ. replace (2 ^ 40) with (IZR (2 ^ 40)) by (rewrite <- pow_IZR || (cbn; lra); cbn; lra). apply IZR_le, L. }
  assert (B0 : band 0 (key (n0 : T F64)) 0) by (rewrite key_zero; unfold band; lra).
  destruct (loop_band fd td ok OK ps p 0 n0 0) as (N & B & R); [exact IL|exact nn_zero|cbn; lra|exact B0|exact S|].
  rewrite Rplus_0_l in *. cbn [Nat.add] in *. unfold lenN. apply within_band; try assumption. split; [lra|]. eapply Rle_trans; [apply R|].
  assert (T : bp 551 = 1099511627776 * bp 511) by (change 551%Z with (40 + 511)%Z; rewrite bpow_plus; reflexivity). rewrite T. apply Rmult_le_compat_r; [apply Rlt_le, bp_pos|]. lra.
Qed.
Theorem C177_path : forall ps : list (pt3 F64), Forall finite3 ps -> (Z.of_nat (length ps) <= 2 ^ 40)%Z ->
  (forall a b, In (a, b) (steps ps) -> moderate (true_dist3 a b)) -> within (lenN ps + 3) (pc3_length ps) (path true_dist3 ps).
Proof.
  intros [|p ps] F L M.
  - split; [exact I|]. cbn. rewrite Rmult_0_l, Rmult_0_l, Rminus_0_r, Rabs_R0. lra.
  - replace (lenN (p :: ps) + 3)%N with (lenN ps + 4)%N by (unfold lenN; cbn [length]; lia). apply (loop_within _ _ ok3); [exact step3|cbn [length] in L; lia|].
    intros a b S. rewrite Forall_forall in F. destruct (steps_in _ _ _ S). repeat split; auto; apply F; assumption.
Qed.
Print Assumptions C177_path.
Theorem C177_path_2d : forall ps : list (pt2 F64), Forall finite2 ps -> (Z.of_nat (length ps) <= 2 ^ 40)%Z ->
  (forall a b, In (a, b) (steps ps) -> moderate (true_dist2 a b)) -> within (lenN ps + 3) (pc2_length ps) (path true_dist2 ps).
Proof.
  intros [|p ps] F L M.
  - split; [exact I|]. cbn. rewrite Rmult_0_l, Rmult_0_l, Rminus_0_r, Rabs_R0. lra.
  - replace (lenN (p :: ps) + 3)%N with (lenN ps + 4)%N by (unfold lenN; cbn [length]; lia). apply (loop_within _ _ ok2); [exact step2|cbn [length] in L; lia|].
    intros a b S. rewrite Forall_forall in F. destruct (steps_in _ _ _ S). repeat split; auto; apply F; assumption.
Qed.
Print Assumptions C177_path_2d.
(** In doubles, too, the length of a polygon is that of the closed path. *)
Lemma poly3_closed (ps : list (pt3 F64)) : ps <> [] -> poly3_length ps = pc3_length (closed ps).
Proof.
  destruct ps as [|p r]; [contradiction|]. intros _. unfold closed. cbn [firstn app]. unfold poly3_length, pc3_length. rewrite loop_app, last_cons.
  f_equal. apply C166_symmetric.
Qed.
Lemma poly2_closed (ps : list (pt2 F64)) : ps <> [] -> poly2_length ps = pc2_length (closed ps).
Proof.
  destruct ps as [|p r]; [contradiction|]. intros _. unfold closed. cbn [firstn app]. unfold poly2_length, pc2_length. rewrite loop_app, last_cons.
  f_equal. apply C166_symmetric_2d.
Qed.
Theorem C177_polygon : forall ps : list (pt3 F64), Forall finite3 ps -> (Z.of_nat (length ps) < 2 ^ 40)%Z ->
  (forall a b, In (a, b) (steps (closed ps)) -> moderate (true_dist3 a b)) -> within (lenN ps + 4) (poly3_length ps) (path true_dist3 (closed ps)).
Proof.
  intros ps F L M. destruct ps as [|p r] eqn:E; [split; [exact I|]; cbn; rewrite !Rmult_0_l, Rminus_0_r, Rabs_R0; lra|]. rewrite <- E in *. rewrite poly3_closed by (rewrite E; discriminate).
  assert (LC : length (closed ps) = S (length ps)) by (unfold closed; rewrite app_length, E; cbn; lia).
  replace (lenN ps + 4)%N with (lenN (closed ps) + 3)%N by (unfold lenN; rewrite LC; lia). apply C177_path; [|rewrite LC; lia|exact M].
  unfold closed. apply Forall_app. split; [exact F|]. rewrite E in *. cbn [firstn]. constructor; [exact (Forall_inv F)|constructor].
Qed.
Print Assumptions C177_polygon.
Theorem C177_polygon_2d : forall ps : list (pt2 F64), Forall finite2 ps -> (Z.of_nat (length ps) < 2 ^ 40)%Z ->
  (forall a b, In (a, b) (steps (closed ps)) -> moderate (true_dist2 a b)) -> within (lenN ps + 4) (poly2_length ps) (path true_dist2 (closed ps)).
Proof.
  intros ps F L M. destruct ps as [|p r] eqn:E; [split; [exact I|]; cbn; rewrite !Rmult_0_l, Rminus_0_r, Rabs_R0; lra|]. rewrite <- E in *. rewrite poly2_closed by (rewrite E; discriminate).
  assert (LC : length (closed ps) = S (length ps)) by (unfold closed; rewrite app_length, E; cbn; lia).
  replace (lenN ps + 4)%N with (lenN (closed ps) + 3)%N by (unfold lenN; rewrite LC; lia). apply C177_path_2d; [|rewrite LC; lia|exact M].
  unfold closed. apply Forall_app. split; [exact F|]. rewrite E in *. cbn [firstn]. constructor; [exact (Forall_inv F)|constructor].
Qed.
Print Assumptions C177_polygon_2d.
(** ** Whatever the finite points are: not negative, a number, and one more point at the end makes no path shorter *)
Theorem C177_grows : forall (ps : list (pt3 F64)) p, Forall finite3 (ps ++ [p]) -> fle n0 (pc3_length ps) /\ fle (pc3_length ps) (pc3_length (ps ++ [p])).
Proof.
  intros ps p F. destruct ps as [|q r]; [split; reflexivity|]. cbn [app] in *. unfold pc3_length. rewrite loop_app. apply Forall_cons_iff in F. destruct F as [FQ FR]. apply Forall_app in FR. destruct FR as [FR FP].
  assert (N : nn (length_from dist_3d q r n0)) by (apply (loop_nn dist_3d finite3 dist_nn3); [exact nn_zero|constructor; assumption]).
  split.
  - apply fle_key; [exact nn_zero|exact N|]. rewrite key_zero. apply key_nn, N.
  - apply add_grows; [exact N|]. apply dist_nn3; [|exact (Forall_inv FP)]. pose proof (Forall_cons _ FQ FR) as FF. rewrite Forall_forall in FF. apply FF.
    destruct (exists_last (l := q :: r)) as (l & x & E); [discriminate|]. rewrite <- (last_cons r q p), E, last_last. apply in_or_app. right. left. reflexivity.
Qed.
Print Assumptions C177_grows.
Theorem C177_grows_2d : forall (ps : list (pt2 F64)) p, Forall finite2 (ps ++ [p]) -> fle n0 (pc2_length ps) /\ fle (pc2_length ps) (pc2_length (ps ++ [p])).
Proof.
  intros ps p F. destruct ps as [|q r]; [split; reflexivity|]. cbn [app] in *. unfold pc2_length. rewrite loop_app. apply Forall_cons_iff in F. destruct F as [FQ FR]. apply Forall_app in FR. destruct FR as [FR FP].
  assert (N : nn (length_from dist_2d q r n0)) by (apply (loop_nn dist_2d finite2 dist_nn2); [exact nn_zero|constructor; assumption]).
  split.
  - apply fle_key; [exact nn_zero|exact N|]. rewrite key_zero. apply key_nn, N.
  - apply add_grows; [exact N|]. apply dist_nn2; [|exact (Forall_inv FP)]. pose proof (Forall_cons _ FQ FR) as FF. rewrite Forall_forall in FF. apply FF.
    destruct (exists_last (l := q :: r)) as (l & x & E); [discriminate|]. rewrite <- (last_cons r q p), E, last_last. apply in_or_app. right. left. reflexivity.
Qed.
Print Assumptions C177_grows_2d.
(** ** In doubles the perimeter depends on the first vertex, and one more vertex can make it shorter *)
Theorem C177_start_refuted : exists ps qs : list (pt2 F64), Forall finite2 (ps ++ qs) /\ flt (poly2_length (qs ++ ps)) (poly2_length (ps ++ qs)).
Proof.
  exists [fp2 2 3], [fp2 0 0; fp2 1 2]. split; [|vmeq]. cbn [app]. repeat (apply Forall_cons; [intros ax [->| ->]; split; vm_compute; first [reflexivity|exact I]|]). apply Forall_nil.
Qed.
Print Assumptions C177_start_refuted.
Theorem C177_vertex_refuted : exists (ps : list (pt2 F64)) p, Forall finite2 (ps ++ [p]) /\ flt (poly2_length (fst (poly_add_vertex ps p))) (poly2_length ps).
Proof.
  exists [fp2 0 2; fp2 1 3; fp2 2 0], (fp2 1 1). split; [|vmeq]. cbn [app]. repeat (apply Forall_cons; [intros ax [->| ->]; split; vm_compute; first [reflexivity|exact I]|]). apply Forall_nil.
Qed.
Print Assumptions C177_vertex_refuted.
Example C177_case : Forall finite2 [fp2 0 0; fp2 3 0; fp2 3 4] /\ (forall a b, In (a, b) (steps (closed [fp2 0 0; fp2 3 0; fp2 3 4])) -> moderate (true_dist2 a b)) /\
  within 7 (poly2_length [fp2 0 0; fp2 3 0; fp2 3 4]) 12 /\ fle (pc2_length [fp2 0 0; fp2 3 0]) (pc2_length [fp2 0 0; fp2 3 0; fp2 3 4]).
Proof.
  assert (V : forall z, (0 <= z <= 4)%Z -> fval (fz z) = IZR z).
  { intros z Z. assert (z = 0 \/ z = 1 \/ z = 2 \/ z = 3 \/ z = 4)%Z as [->|[->|[->|[->| ->]]]] by lia; [reflexivity|..].
    - change (fz 1) with (S754_finite false 4503599627370496 (-52) : T F64). cbn [fval]. rewrite bp_powerRZ. change (bp (-52)) with (/ 4503599627370496). lra.
    - change (fz 2) with (S754_finite false 4503599627370496 (-51) : T F64). cbn [fval]. rewrite bp_powerRZ. change (bp (-51)) with (/ 2251799813685248). lra.
    - change (fz 3) with (S754_finite false 6755399441055744 (-51) : T F64). cbn [fval]. rewrite bp_powerRZ. change (bp (-51)) with (/ 2251799813685248). lra.
    - change (fz 4) with (S754_finite false 4503599627370496 (-50) : T F64). cbn [fval]. rewrite bp_powerRZ. change (bp (-50)) with (/ 1125899906842624). lra. }
  assert (D : forall a b c d r, (0 <= a <= 4)%Z -> (0 <= b <= 4)%Z -> (0 <= c <= 4)%Z -> (0 <= d <= 4)%Z -> 0 <= r -> (IZR a - IZR c) ^ 2 + (IZR b - IZR d) ^ 2 = r * r -> true_dist2 (fp2 a b) (fp2 c d) = r).
  { intros a b c d r A B C D R E. unfold true_dist2, sqd2, real2, fp2. cbn [x2 y2]. rewrite !V by assumption. rewrite <- (sqrt_square r R), <- E. f_equal. }
  assert (F : Forall finite2 [fp2 0 0; fp2 3 0; fp2 3 4]) by (repeat (apply Forall_cons; [intros ax [->| ->]; split; vm_compute; first [reflexivity|exact I]|]); apply Forall_nil).
  assert (D1 : true_dist2 (fp2 0 0) (fp2 3 0) = 3) by (apply D; try lia; lra).
  assert (D2 : true_dist2 (fp2 3 0) (fp2 3 4) = 4) by (apply D; try lia; lra).
  assert (D3 : true_dist2 (fp2 3 4) (fp2 0 0) = 5) by (apply D; try lia; lra).
  assert (M : forall a b, In (a, b) (steps (closed [fp2 0 0; fp2 3 0; fp2 3 4])) -> moderate (true_dist2 a b)).
  { assert (K : forall r, 1 <= r <= 8 -> moderate r).
    { intros r R. right. rewrite !bp_powerRZ. assert (bp (-480) <= bp 0) by (apply bpow_le; lia). assert (bp 3 <= bp 511) by (apply bpow_le; lia). change (bp 0) with 1 in *. change (bp 3) with 8 in *. lra. }
    intros a b I. cbn in I. destruct I as [[= <- <-]|[[= <- <-]|[[= <- <-]|[]]]]; rewrite ?D1, ?D2, ?D3; apply K; lra. }
  split; [exact F|]. split; [exact M|]. split.
  - assert (L : (Z.of_nat (length [fp2 0 0; fp2 3 0; fp2 3 4]) < 2 ^ 40)%Z) by reflexivity. pose proof (C177_polygon_2d _ F L M) as W.
    unfold closed in W. cbn [app firstn path] in W. rewrite D1, D2, D3 in W. replace (3 + (4 + (5 + 0))) with 12 in W by ring. exact W.
  - vmeq.
Qed.
