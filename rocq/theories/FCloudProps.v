(** The single precision point cloud: C133 - C136 *)
From Verif Require Import Base BaseLemmas Num NumLemmas BBoxModel BBoxLemmas GeomSpec FloatSpec FloatBridge MatrixModel ByteModel ByteSpec ByteLemmas CompressLemmas FCloudModel FCloudSpec FCloudLemmas.
From Coq Require Import Floats.SpecFloat Reals Lra Lia ZifyBool ZifyNat ZifyN.
From Flocq Require Import Core.
Notation finite := FloatSpec.finite.

(** Any program of pushes and sets behaves as on a list of points, except that single precision is kept of every
    coordinate. *)
Theorem C133_history : forall dbg ops, Forall op_in_range ops ->
  match fc_run dbg fc_new ops with
  | Ok d => exists ps qs, plain_run [] ops = Some ps /\ Forall2 kept3 ps qs /\ reads dbg d qs /\ lenN (fc_into d) = (3 * lenN ps)%N
  | Panic => plain_run [] ops = None
  | Err _ => False
  end.
Proof.
  intros dbg ops F. pose proof (run_flat dbg ops [] F) as R. change (flat (map nar3 [])) with fc_new in R. destruct (fc_run dbg fc_new ops) as [d|e|]; [|destruct R|exact R].
  destruct R as (ps & P & ->). exists ps, (map keep3 ps). split; [exact P|]. split; [|split].
  - clear P. induction ps as [|p ps IH]; constructor; [apply keep3_kept|exact IH].
  - pose proof (reads_any dbg (flat (map nar3 ps))) as Q. pose proof (triples_flat (map nar3 ps) [] ltac:(cbn; lia)) as E. rewrite app_nil_r in E. rewrite E, map_map in Q. exact Q.
  - unfold fc_into. rewrite flat_len, lenN_map. reflexivity.
Qed.
Print Assumptions C133_history.
(** Values that single precision can hold survive: copying a cloud point by point gives the same data. *)
Theorem C133_copy : forall dbg d qs, Forall is_f32 d -> (lenN d mod 3 = 0)%N -> reads dbg d qs -> (lenN d < 2 ^ 63)%N -> 
  fc_run dbg fc_new (map FPush qs) = Ok d.
Proof.
  intros dbg d qs F M R L. pose proof (reads_fun dbg d _ _ L (reads_any dbg d) R) as <-. clear R.
  destruct (flat_triples d) as [E L3].
  assert (Z : rest3 d = []).
  { pose proof (f_equal lenN E) as Q. rewrite lenN_app, flat_len in Q. rewrite Q in M. rewrite N.add_comm, N.mul_comm, N.mod_add in M by lia. rewrite N.mod_small in M by (unfold lenN; lia). destruct (rest3 d); [reflexivity|discriminate M]. }
  rewrite Z, app_nil_r in E. rewrite E at 2. pose proof (triples_f32 d F) as T3. clear - T3. generalize (fc_triples d) T3. clear d T3. intros ts T3.
  assert (G : forall acc, fc_run dbg (flat acc) (map FPush (map widen3 ts)) = Ok (flat (acc ++ ts))).
  { induction ts as [|t ts IH]; intros acc; [rewrite app_nil_r; reflexivity|]. inversion T3 as [|? ? (A & B & C) T]; subst. cbn [map fc_run]. rewrite push_flat.
    assert (NW : nar3 (widen3 t) = t) by (unfold nar3, widen3; cbn [px py pz]; rewrite (narrow_widen _ A), (narrow_widen _ B), (narrow_widen _ C); destruct t; reflexivity). rewrite NW.
    rewrite IH by exact T. rewrite <- app_assoc. reflexivity. }
  apply (G []).
Qed.
Print Assumptions C133_copy.
(** Refuted: an index that is out of range for the cloud is not always answered by None: `3 * index` wraps around in a
    release build, so that a "point" made of the coordinates of two neighbouring points is returned. *)
Theorem C133_index_wraps_refuted : exists d i, reads false d [fp3 1 2 3; fp3 4 5 6] /\ (fc_len d <= i < 2 ^ 64)%N /\
  fc_get false d i = Ok (Some (fp3 3 4 5)) /\ fc_get true d i = Panic.
Proof.
  exists (map (fun z => narrow (fz z)) [1; 2; 3; 4; 5; 6]%Z), 6148914691236517206%N. split; [|split; [split; [vm_compute; discriminate|reflexivity]|split; vmeq]].
  pose proof (reads_any false (map (fun z => narrow (fz z)) [1; 2; 3; 4; 5; 6]%Z)) as R. cbv zeta in R.
  replace (map widen3 (fc_triples (map (fun z => narrow (fz z)) [1; 2; 3; 4; 5; 6]%Z))) with [fp3 1 2 3; fp3 4 5 6] in R by vmeq. exact R.
Qed.
Print Assumptions C133_index_wraps_refuted.
Example C133_case : Forall op_in_range [FPush (fp3 1 2 3); FPush (fp3 16777217 0 0); FSet 0 (fp3 7 8 9)] /\
  plain_run [] [FPush (fp3 1 2 3); FPush (fp3 16777217 0 0); FSet 0 (fp3 7 8 9)] = Some [fp3 7 8 9; fp3 16777217 0 0] /\
  obind (fc_run true fc_new [FPush (fp3 1 2 3); FPush (fp3 16777217 0 0); FSet 0 (fp3 7 8 9)]) (fun d => obind (fc_get true d 0) (fun a => obind (fc_get true d 1) (fun b => obind (fc_get true d 2) (fun c => Ok (a, b, c)))))
    = Ok (Some (fp3 7 8 9), Some (fp3 16777216 0 0), None) /\
  fc_run true fc_new [FPush (fp3 1 2 3); FSet 1 (fp3 7 8 9)] = Panic /\ plain_run [] [FPush (fp3 1 2 3); FSet 1 (fp3 7 8 9)] = None.
Proof.
  split; [repeat constructor; reflexivity|]. split; [vmeq|]. split; [vmeq|]. split; vmeq.
Qed.

(** The box of three or more points is tight and holds what is read from the cloud; it is missing iff the points that
    are read agree in a coordinate. *)
Theorem C134_box : forall dbg d qs, Forall is_f32 d -> Forall number d -> (lenN d < 2 ^ 63)%N -> reads dbg d qs -> (3 <= lenN qs)%N ->
  tight_box qs (fc_bounding_box_maybe d).
Proof.
  intros dbg d qs F NU L R G. pose proof (box_spec d F NU) as B. cbv zeta in B. rewrite (reads_fun dbg d _ _ L (reads_any dbg d) R) in B.
  destruct (N.leb_spec (lenN qs) 2); [lia|exact B].
Qed.
Print Assumptions C134_box.
(** Refuted: two points that differ in every direction have a box, in a cloud of doubles but not here. *)
Theorem C134_two_points_refuted : exists d b, reads false d [fp3 0 0 0; fp3 1 1 1] /\ fc_bounding_box_maybe d = None /\
  @pts3_bb_maybe F64 false [fp3 0 0 0; fp3 1 1 1] = Ok (Some b).
Proof.
  exists (map (fun z => narrow (fz z)) [0; 0; 0; 1; 1; 1]%Z), (mkbb3 (fp3 0 0 0) (fp3 1 1 1)). split; [|split; vmeq].
  pose proof (reads_any false (map (fun z => narrow (fz z)) [0; 0; 0; 1; 1; 1]%Z)) as R. cbv zeta in R.
  replace (map widen3 (fc_triples (map (fun z => narrow (fz z)) [0; 0; 0; 1; 1; 1]%Z))) with [fp3 0 0 0; fp3 1 1 1] in R by vmeq. exact R.
Qed.
Print Assumptions C134_two_points_refuted.
(** Refuted: the box of the cloud contains the pushed points (it contains what single precision keeps of them). *)
Theorem C134_contains_pushed_refuted : exists ps p d b, fc_run false fc_new (map FPush ps) = Ok d /\ In p ps /\ fc_bounding_box_maybe d = Some b /\ flt (px (max3 b)) (px p).
Proof.
  exists [fp3 0 0 0; fp3 16777217 1 1; fp3 1 2 2], (fp3 16777217 1 1), (map (fun z => narrow (fz z)) [0; 0; 0; 16777216; 1; 1; 1; 2; 2]%Z), (mkbb3 (fp3 0 0 0) (fp3 16777216 2 2)).
  split; [vmeq|]. split; [right; left; reflexivity|]. split; vmeq.
Qed.
Print Assumptions C134_contains_pushed_refuted.
Example C134_case : let d := map (fun z => narrow (fz z)) [0; 5; 1; 4; 2; 3; 1; 9; 0]%Z in Forall is_f32 d /\ Forall number d /\ (3 <= lenN [fp3 0 5 1; fp3 4 2 3; fp3 1 9 0])%N /\ reads false d [fp3 0 5 1; fp3 4 2 3; fp3 1 9 0] /\ fc_bounding_box_maybe d = Some (mkbb3 (fp3 0 2 0) (fp3 4 9 3)).
Proof.
  intros d. split; [apply Forall_map, Forall_forall; intros; apply narrow_f32|]. split; [repeat constructor; discriminate|]. split; [discriminate|]. split; [|vmeq].
  pose proof (reads_any false d) as R. replace (map widen3 (fc_triples d)) with [fp3 0 5 1; fp3 4 2 3; fp3 1 9 0] in R by vmeq. exact R.
Qed.

(** Moving: every coordinate is moved by the shift, first the shift and then the sum rounded to single precision; the number of
    points stays. *)
Theorem C135_move : forall dbg d x y z qs, Forall is_f32 d -> (lenN d < 2 ^ 63)%N -> reads dbg d qs ->
  Forall is_f32 (fc_move_by d x y z) /\
  exists qs', reads dbg (fc_move_by d x y z) qs' /\ Forall2 (fun p p' : pt3 F64 => moved32 (px p) x (px p') /\ moved32 (py p) y (py p') /\ moved32 (pz p) z (pz p')) qs qs'.
Proof.
  intros dbg d x y z qs F L R. split; [apply move_f32, F|]. exists (map widen3 (fc_triples (fc_move_by d x y z))). split; [apply reads_any|].
  rewrite <- (reads_fun dbg d _ _ L (reads_any dbg d) R), move_triples. pose proof (triples_f32 d F) as T3. induction (fc_triples d) as [|t ts IH]; constructor.
  - inversion T3 as [|? ? (A & B & C) _]; subst. repeat split; apply add32_moved; assumption.
  - apply IH. inversion T3; assumption.
Qed.
Print Assumptions C135_move.
Lemma moved32_order : forall (v w s v' w' : T F64), is_double v -> is_double w -> is_double v' -> is_double w' -> finite v -> finite w -> (forall s', kept s s' -> finite s') ->
  moved32 v s v' -> moved32 w s w' -> fle v w -> fle v' w'.
Proof.
  intros v w s v' w' Dv Dw Dv' Dw' Fv Fw Fs (s1 & K1 & M1) (s2 & K2 & M2) LE.
  assert (E : fval s1 = fval s2).
  { pose proof (Fs s1 K1) as N1. pose proof (Fs s2 K2) as N2. destruct K1 as (_ & A1 & B1), K2 as (_ & A2 & B2). assert (D : finite s \/ ~ finite s) by (destruct s; cbn; auto). destruct D as [D|D]; [|rewrite B1, B2 by exact D; reflexivity].
    destruct (A1 D) as [R1 _], (A2 D) as [R2 _]. pose proof (powerRZ_lt 2 128 ltac:(lra)) as PT.
    destruct R1 as [(_ & _ & ->)|[(_ & ->)|(_ & ->)]]; try destruct N1. destruct R2 as [(_ & _ & ->)|[(_ & ->)|(_ & ->)]]; try destruct N2. reflexivity. }
  specialize (M1 Fv (Fs s1 K1)). specialize (M2 Fw (Fs s2 K2)). rewrite <- E in M2. apply fle_val in LE; try assumption.
  assert (RL : (round32 (fval v + fval s1) <= round32 (fval w + fval s1))%R) by (apply round32_le; lra).
  pose proof (powerRZ_lt 2 128 ltac:(lra)) as PT.
  destruct M1 as [(A1 & B1 & C1)|[(A1 & ->)|(A1 & ->)]], M2 as [(A2 & B2 & C2)|[(A2 & ->)|(A2 & ->)]];
    try (apply Rabs_def2 in A1); try (apply Rabs_def2 in A2); try reflexivity; try lra.
  - apply fle_val; try assumption. lra.
  - destruct v'; try contradiction; reflexivity.
  - destruct w'; try contradiction; reflexivity.
Qed.
(** Moving keeps the weak order along every axis, for shifts up to 2^127. *)
Theorem C135_order : forall dbg d x y z qs qs', Forall is_f32 d -> Forall finite d -> (lenN d < 2 ^ 63)%N ->
  (forall s, s = x \/ s = y \/ s = z -> finite s /\ (Rabs (fval s) <= powerRZ 2 127)%R) ->
  reads dbg d qs -> reads dbg (fc_move_by d x y z) qs' -> 
  forall i j p q p' q', nthN qs i = Some p -> nthN qs j = Some q -> nthN qs' i = Some p' -> nthN qs' j = Some q' ->
  forall ax, axis3 ax -> fle (ax p) (ax q) -> fle (ax p') (ax q').
Proof.
  intros dbg d x y z qs qs' F FF L SH R R' i j p q p' q' Hp Hq Hp' Hq' ax A LE.
  assert (L' : (lenN (fc_move_by d x y z) < 2 ^ 63)%N).
  { replace (lenN (fc_move_by d x y z)) with (lenN d); [exact L|]. clear. unfold lenN. f_equal. induction (d : fcloud) as [|a|a b|a b c r IH] using three_ind; cbn; congruence. }
  pose proof (reads_fun dbg d _ _ L (reads_any dbg d) R) as E. pose proof (reads_fun dbg _ _ _ L' (reads_any dbg _) R') as E'. rewrite move_triples, map_map in E'. subst qs qs'.
  rewrite nthN_map in Hp, Hq, Hp', Hq'. destruct (nthN (fc_triples d) i) as [t|] eqn:Ti; [|discriminate]. destruct (nthN (fc_triples d) j) as [u|] eqn:Tj; [|discriminate].
  injection Hp as <-. injection Hq as <-. injection Hp' as <-. injection Hq' as <-.
  assert (T3 := triples_f32 d F). assert (T4 := triples_finite d FF). rewrite Forall_forall in T3, T4. rewrite nthN_nth_error in Ti, Tj. apply nth_error_In in Ti, Tj.
  destruct (T3 t Ti) as (A1 & A2 & A3), (T3 u Tj) as (B1 & B2 & B3), (T4 t Ti) as (C1 & C2 & C3), (T4 u Tj) as (D1 & D2 & D3).
  assert (G : forall a b s, is_f32 a -> is_f32 b -> finite a -> finite b -> s = x \/ s = y \/ s = z -> fle (widen a) (widen b) -> fle (widen (add32 a (narrow s))) (widen (add32 b (narrow s)))).
  { intros a b s Va Vb Fa Fb S0 LL. destruct (SH s S0) as [Fs Bs]. eapply (moved32_order (widen a) (widen b) s); try apply widen_double; try (apply widen_finite; assumption); try (apply add32_moved; assumption); [|exact LL].
    intros s' K. apply (kept_finite s); assumption. }
  destruct A as [-> | [-> | ->]]; apply G; auto.
Qed.
Print Assumptions C135_order.
(** Refuted: moving back restores the cloud. *)
Theorem C135_move_back_refuted : exists d (s : T F64), Forall is_f32 d /\ fc_get false d 0 = Ok (Some (fp3 1 1 1)) /\
  fc_get false (fc_move_by (fc_move_by d s s s) (nneg s) (nneg s) (nneg s)) 0 = Ok (Some (fp3 0 0 0)).
Proof.
  exists (map (fun z => narrow (fz z)) [1; 1; 1]%Z), (fz (2 ^ 30)). split; [apply Forall_map, Forall_forall; intros; apply narrow_f32|]. split; vmeq.
Qed.
Print Assumptions C135_move_back_refuted.
Example C135_case : let d := map (fun z => narrow (fz z)) [1; 2; 3; 4; 5; 6]%Z in Forall is_f32 d /\ Forall finite d /\ (finite (fz 10) /\ Rabs (fval (fz 10)) <= powerRZ 2 127)%R /\ reads false d [fp3 1 2 3; fp3 4 5 6] /\ fc_get true (fc_move_by d (fz 10) (fz 20) (fz (-1))) 1 = Ok (Some (fp3 14 25 5)).
Proof.
  intros d. split; [apply Forall_map, Forall_forall; intros; apply narrow_f32|]. split; [repeat constructor|]. split.
  { split; [exact I|]. replace (fz 10) with (S754_finite false (10 * 2 ^ 49) (-49)) by vmeq. rewrite (CompressLemmas.fval_int _ _ 10) by (reflexivity || (vm_compute; discriminate)).
    rewrite Rabs_pos_eq by lra. change (powerRZ 2 127) with (2 ^ 127)%R. apply Rle_trans with (2 ^ 4)%R; [lra|]. apply Rle_pow; [lra|lia]. }
  split; [|vmeq].
  pose proof (reads_any false d) as R. replace (map widen3 (fc_triples d)) with [fp3 1 2 3; fp3 4 5 6] in R by vmeq. exact R.
Qed.

(** From a vector of f32: whatever its length, the whole triples are the points and the rest is ignored; the vector is given back
    unchanged. *)
Theorem C136_from_vec : forall dbg v, fc_into (fc_from v) = v /\ 
  exists qs, reads dbg (fc_from v) qs /\ (3 * lenN qs <= lenN v < 3 * lenN qs + 3)%N /\
    forall i q, nthN qs i = Some q -> nthN v (3 * i) <> None /\ option_map widen (nthN v (3 * i)) = Some (px q) /\ option_map widen (nthN v (3 * i + 1)) = Some (py q) /\ option_map widen (nthN v (3 * i + 2)) = Some (pz q).
Proof.
  intros dbg v. split; [reflexivity|]. exists (map widen3 (fc_triples v)). split; [apply reads_any|]. destruct (flat_triples v) as [E L]. split.
  - pose proof (f_equal lenN E) as Q. rewrite lenN_app, flat_len in Q. rewrite lenN_map. unfold lenN in *. lia.
  - intros i q H. rewrite nthN_map in H. destruct (nth_flat (fc_triples v) (rest3 v) L i) as (A & B & C). rewrite <- E in A, B, C. rewrite A, B, C.
    destruct (nthN (fc_triples v) i) as [t|]; [|discriminate]. injection H as <-. repeat split. discriminate.
Qed.
Print Assumptions C136_from_vec.
(** Refuted: a pushed point is the last point of the cloud: after a vector whose length is no multiple of three the new
    coordinates complete the unfinished triple, and no point of the cloud is the pushed one. *)
Theorem C136_push_after_from_refuted : exists v p, Forall is_f32 v /\ reads false (fc_push (fc_from v) p) [fp3 1 2 3; fp3 4 10 20] /\ p = fp3 10 20 30.
Proof.
  exists (map (fun z => narrow (fz z)) [1; 2; 3; 4]%Z), (fp3 10 20 30). split; [apply Forall_map, Forall_forall; intros; apply narrow_f32|]. split; [|reflexivity].
  pose proof (reads_any false (fc_push (fc_from (map (fun z => narrow (fz z)) [1; 2; 3; 4]%Z)) (fp3 10 20 30))) as R.
  replace (map widen3 (fc_triples (fc_push (fc_from (map (fun z => narrow (fz z)) [1; 2; 3; 4]%Z)) (fp3 10 20 30)))) with [fp3 1 2 3; fp3 4 10 20] in R by vmeq. exact R.
Qed.
Print Assumptions C136_push_after_from_refuted.
(** Refuted: a set that panics leaves the cloud as it was: out of range by one point it overwrites the unfinished triple first. *)
Theorem C136_set_partial_write_refuted : exists v p d, fc_set false (fc_from v) 1 p = (d, Panic) /\ d <> v.
Proof.
  exists (map (fun z => narrow (fz z)) [1; 2; 3; 4]%Z), (fp3 10 20 30), (map (fun z => narrow (fz z)) [1; 2; 3; 10]%Z). split; [vmeq|vm_compute; discriminate].
Qed.
Print Assumptions C136_set_partial_write_refuted.
Example C136_case : reads true (fc_from (map (fun z => narrow (fz z)) [1; 2; 3; 4]%Z)) [fp3 1 2 3].
Proof.
  pose proof (reads_any true (fc_from (map (fun z => narrow (fz z)) [1; 2; 3; 4]%Z))) as R.
  replace (map widen3 (fc_triples (fc_from (map (fun z => narrow (fz z)) [1; 2; 3; 4]%Z)))) with [fp3 1 2 3] in R by vmeq. exact R.
Qed.
