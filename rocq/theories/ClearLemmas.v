(** Lemmas about collisions of boxes anywhere in doubles. *)
From Verif Require Import Base BaseLemmas Num NumLemmas BBoxModel GeomSpec FloatSpec FloatLemmas FloatBridge RootLemmas WrapLemmas DistSpec DistLemmas DistLemmas2 DistLemmas3 LineModel AabbModel AabbSpec AabbLemmas BoxDistSpec BoxDistLemmas MeanLemmas SatF64Lemmas GridKdLemmas GridBoxLemmas ClearSpec.
From Coq Require Import Floats.SpecFloat Reals Lra Lia.
From Flocq Require Import Core.
Local Open Scope R_scope.

Section Axis.
Context (k : Z) (K : (-960 <= k <= 1000)%Z).
Let U : R := ur * bp k.
Lemma U_pos : 0 < U. Proof. unfold U. pose proof ur_small. pose proof (bp_pos k). nra. Qed.
Lemma eta_U : eta <= U / 1000.
Proof.
  unfold U, ur, eta. assert (B : bp (-1012) <= bp (-52) * bp k) by (rewrite <- bpow_plus; apply bpow_le; lia).
  assert (C : bp (-1074) <= bp (-1012) * / 1024) by (change (/ 1024) with (bp (-10)); rewrite <- bpow_plus; apply bpow_le; lia).
  pose proof (bp_pos (-1012)). lra.
Qed.
Lemma err r (n : R) : 0 <= n -> Rabs r <= n * bp k -> Rabs (rnd r - r) <= (n + / 1000) * U.
Proof.
  intros N B. destruct (mul_rel r) as (e & h & E1 & E2 & ->). replace (r * (1 + e) + h - r) with (r * e + h) by ring.
  apply Rle_trans with (1 := Rabs_triang _ _). rewrite Rabs_mult. pose proof eta_U as EU.
  assert (Rabs r * Rabs e <= n * bp k * ur) by (apply Rmult_le_compat; try apply Rabs_pos; assumption).
  unfold U in *. lra.
Qed.
Lemma le_two : le_e 1 (n2 : T F64).
Proof. split; [split; [reflexivity|exact I]|]. rewrite fval_2, Rabs_pos_eq by lra. change (bp 1) with 2. lra. Qed.
Lemma half_le_e x : le_e (k + 1) x -> le_e k (ndiv x n2) /\ fval (ndiv x n2) = rnd (fval x / 2).
Proof.
  intros [[D F] B]. pose proof (div_val x n2 D eq_refl F I) as R. rewrite fval_2 in R. specialize (R ltac:(lra)).
  apply rounds_le; [exact R|apply double_div; [exact D|reflexivity]| |lia].
  unfold Rdiv. rewrite Rabs_mult, (Rabs_pos_eq (/ 2)) by lra. rewrite bp_S in B. lra.
Qed.
(** Size and center of one axis. *)
Lemma size_err x y : le_e k x -> le_e k y -> le_e (k + 1) (nsub y x) /\ Rabs (fval (nsub y x) - (fval y - fval x)) <= (2 + / 1000) * U.
Proof.
  intros X Y. destruct (le_sub k y x Y X ltac:(lia)) as [L V]. split; [exact L|]. rewrite V. apply err; [lra|].
  destruct X as [_ X], Y as [_ Y]. unfold Rminus. apply Rle_trans with (1 := Rabs_triang _ _). rewrite Rabs_Ropp. lra.
Qed.
Lemma center_err x y : le_e k x -> le_e k y -> le_e (k + 1) (nadd x (ndiv (nsub y x) n2)) /\
  Rabs (fval (nadd x (ndiv (nsub y x) n2)) - (fval x + fval y) / 2) <= (4 + / 100) * U.
Proof.
  intros X Y. destruct (size_err x y X Y) as [L1 V1]. destruct (half_le_e _ L1) as [L2 V2]. destruct (le_add k _ _ X L2 ltac:(lia)) as [L3 V3].
  split; [exact L3|]. rewrite V3. set (s := fval (nsub y x)) in *. set (h := fval (ndiv (nsub y x) n2)) in *.
  assert (E2 : Rabs (h - s / 2) <= (1 + / 1000) * U).
  { rewrite V2. apply err; [lra|]. destruct L1 as [_ L1]. fold s in L1. unfold Rdiv. rewrite Rabs_mult, (Rabs_pos_eq (/ 2)) by lra. rewrite bp_S in L1. lra. }
  assert (E3 : Rabs (rnd (fval x + h) - (fval x + h)) <= (2 + / 1000) * U).
  { apply err; [lra|]. destruct X as [_ X], L2 as [_ L2]. apply Rle_trans with (1 := Rabs_triang _ _). fold h in L2. lra. }
  pose proof U_pos. apply Rabs_le_inv in V1, E2, E3. apply Rabs_le. lra.
Qed.
Lemma collide_clear a1 a2 b1 b2 : le_e k a1 -> le_e k a2 -> le_e k b1 -> le_e k b2 -> flt a1 a2 -> flt b1 b2 ->
  exists r, collide_axis (nadd a1 (ndiv (nsub a2 a1) n2)) (nadd b1 (ndiv (nsub b2 b1) n2)) (unwrap (positive_new (nabs (nsub a2 a1)))) (unwrap (positive_new (nabs (nsub b2 b1)))) = Ok r /\
    (bp (k - 48) <= fval a2 - fval b1 -> bp (k - 48) <= fval b2 - fval a1 -> r = true) /\
    (r = true -> - bp (k - 48) <= fval a2 - fval b1 /\ - bp (k - 48) <= fval b2 - fval a1).
Proof.
  intros A1 A2 B1 B2 LA LB.
  rewrite (proj1 (size_axis a1 a2 (proj1 (proj1 A1)) (proj1 (proj1 A2)) LA)), (proj1 (size_axis b1 b2 (proj1 (proj1 B1)) (proj1 (proj1 B2)) LB)).
  unfold collide_axis. cbn [obind]. eexists. split; [reflexivity|].
  destruct (size_err _ _ A1 A2) as [SA EA], (size_err _ _ B1 B2) as [SB EB], (center_err _ _ A1 A2) as [CA FA], (center_err _ _ B1 B2) as [CB FB].
  set (sa := nsub a2 a1) in *. set (sb := nsub b2 b1) in *. set (ca := nadd a1 (ndiv sa n2)) in *. set (cb := nadd b1 (ndiv sb n2)) in *. clearbody sa sb ca cb.
  destruct (le_sub (k + 1) ca cb CA CB ltac:(lia)) as [L1 V1].
  assert (L1' : le_e (k + 1 + 1) (nabs (nsub ca cb))).
  { destruct L1 as [[D F] B]. split; [split; [apply double_abs, D|apply finite_abs, F]|]. rewrite fval_abs, Rabs_Rabsolu. exact B. }
  destruct (le_mul 1 (k + 1 + 1) n2 _ le_two L1' ltac:(lia)) as [L2 V2]. destruct (le_add (k + 1) sa sb SA SB ltac:(lia)) as [L3 V3].
  destruct L2 as [[D2 F2] _], L3 as [[D3 F3] _]. rewrite nltb_val by assumption.
  set (p := fval (nmul n2 (nabs (nsub ca cb)))) in *. set (q := fval (nadd sa sb)) in *.
  assert (N4 : Rabs (fval ca - fval cb) <= 4 * bp k).
  { destruct CA as [_ CA], CB as [_ CB]. rewrite bp_S in CA, CB. unfold Rminus. apply Rle_trans with (1 := Rabs_triang _ _). rewrite Rabs_Ropp. lra. }
  assert (E1 : Rabs (fval (nsub ca cb) - (fval ca - fval cb)) <= (4 + / 1000) * U) by (rewrite V1; apply err; [lra|exact N4]).
  assert (E2 : Rabs (p - 2 * Rabs (fval (nsub ca cb))) <= (8 + / 1000) * U).
  { rewrite V2, fval_2, fval_abs. apply err; [lra|]. destruct L1 as [_ L1]. rewrite !bp_S in L1. rewrite Rabs_mult, Rabs_Rabsolu, (Rabs_pos_eq 2) by lra. lra. }
  assert (E3 : Rabs (q - (fval sa + fval sb)) <= (4 + / 1000) * U).
  { rewrite V3. apply err; [lra|]. destruct SA as [_ SA], SB as [_ SB]. rewrite bp_S in SA, SB. apply Rle_trans with (1 := Rabs_triang _ _). lra. }
  assert (W : bp (k - 48) = 32 * U).
  { unfold U, ur. replace (k - 48)%Z with (5 + (-52 + (-1 + k)))%Z by lia. rewrite !bpow_plus. change (bp 5) with 32. change (bp (-1)) with (/ 2). lra. }
  pose proof U_pos as UP. clearbody p q. clear V1 V2 V3 D2 F2 D3 F3 N4 L1 L1' CA CB SA SB. rewrite W.
  assert (X : fval a1 < fval a2) by (apply flt_val; [apply A1|apply A2|apply A1|apply A2|exact LA]).
  assert (Y : fval b1 < fval b2) by (apply flt_val; [apply B1|apply B2|apply B1|apply B2|exact LB]).
  generalize dependent (fval (nsub ca cb)). intros d E1 E2.
  apply Rabs_le_inv in EA, EB, FA, FB, E1, E2, E3.
  split.
  - intros H1 H2. apply Rlt_bool_true. destruct (Rcase_abs d) as [S|S]; [rewrite Rabs_left in E2 by exact S|rewrite Rabs_right in E2 by exact S]; lra.
  - intros H. assert (H' : p < q) by (destruct (Rlt_bool_spec p q); [assumption|discriminate]).
    destruct (Rcase_abs d) as [S|S]; [rewrite Rabs_left in E2 by exact S|rewrite Rabs_right in E2 by exact S]; lra.
Qed.
End Axis.

(** ** Boxes *)
Lemma upto3_le k b ax : box_upto3 k b -> axis3 ax -> le_e k (ax (min3 b)) /\ le_e k (ax (max3 b)) /\ flt (ax (min3 b)) (ax (max3 b)).
Proof.
  intros [(F1 & F2 & V) B] A. destruct (F1 ax A) as [D1 G1], (F2 ax A) as [D2 G2], (B ax A) as [B1 B2]. rewrite bp_powerRZ in B1, B2.
  split; [|split]; [split; [split; [exact D1|apply DistLemmas.finite_f, G1]|exact B1]|split; [split; [exact D2|apply DistLemmas.finite_f, G2]|exact B2]|exact (V ax A)].
Qed.
Lemma upto2_le k b ax : box_upto2 k b -> axis2 ax -> le_e k (ax (min2 b)) /\ le_e k (ax (max2 b)) /\ flt (ax (min2 b)) (ax (max2 b)).
Proof.
  intros [(F1 & F2 & V) B] A. destruct (F1 ax A) as [D1 G1], (F2 ax A) as [D2 G2], (B ax A) as [B1 B2]. rewrite bp_powerRZ in B1, B2.
  split; [|split]; [split; [split; [exact D1|apply DistLemmas.finite_f, G1]|exact B1]|split; [split; [exact D2|apply DistLemmas.finite_f, G2]|exact B2]|exact (V ax A)].
Qed.
Lemma collides3_clear k a b : (-960 <= k <= 1000)%Z -> box_upto3 k a -> box_upto3 k b -> exists r, bb3_collides_with a b = Ok r /\
  (overlap3 (powerRZ 2 (k - 48)) a b -> r = true) /\ (r = true -> overlap3 (- powerRZ 2 (k - 48)) a b).
Proof.
  intros K A B. rewrite bp_powerRZ.
  assert (C : forall ax, axis3 ax -> exists r, collide_axis (ax (bb3_center a)) (ax (bb3_center b)) (unwrap (positive_new (nabs (nsub (ax (max3 a)) (ax (min3 a)))))) (unwrap (positive_new (nabs (nsub (ax (max3 b)) (ax (min3 b)))))) = Ok r /\
    (bp (k - 48) <= fval (ax (max3 a)) - fval (ax (min3 b)) -> bp (k - 48) <= fval (ax (max3 b)) - fval (ax (min3 a)) -> r = true) /\
    (r = true -> - bp (k - 48) <= fval (ax (max3 a)) - fval (ax (min3 b)) /\ - bp (k - 48) <= fval (ax (max3 b)) - fval (ax (min3 a)))).
  { intros ax X. destruct (upto3_le k a ax A X) as (A1 & A2 & LA), (upto3_le k b ax B X) as (B1 & B2 & LB).
    destruct (collide_clear k K _ _ _ _ A1 A2 B1 B2 LA LB) as (r & E & H). exists r. split; [|exact H]. rewrite <- E. destruct X as [->|[->| ->]]; reflexivity. }
  destruct (C px (or_introl eq_refl)) as (r1 & E1 & T1 & F1), (C py (or_intror (or_introl eq_refl))) as (r2 & E2 & T2 & F2), (C pz (or_intror (or_intror eq_refl))) as (r3 & E3 & T3 & F3).
  exists (r1 && r2 && r3). split; [|split].
  - unfold bb3_collides_with, bb3_size_x, bb3_size_y, bb3_size_z. rewrite E1, E2, E3. destruct r1, r2, r3; reflexivity.
  - intros O. destruct (O px (or_introl eq_refl)) as [O1 O2], (O py (or_intror (or_introl eq_refl))) as [O3 O4], (O pz (or_intror (or_intror eq_refl))) as [O5 O6].
    rewrite (T1 O1 O2), (T2 O3 O4), (T3 O5 O6). reflexivity.
  - intros H. apply andb_prop in H as [H H3]. apply andb_prop in H as [H1 H2]. intros ax [->|[->| ->]]; [exact (F1 H1)|exact (F2 H2)|exact (F3 H3)].
Qed.
Lemma collides2_clear k a b : (-960 <= k <= 1000)%Z -> box_upto2 k a -> box_upto2 k b -> exists r, bb2_collides_with a b = Ok r /\
  (overlap2 (powerRZ 2 (k - 48)) a b -> r = true) /\ (r = true -> overlap2 (- powerRZ 2 (k - 48)) a b).
Proof.
  intros K A B. rewrite bp_powerRZ.
  assert (C : forall ax, axis2 ax -> exists r, collide_axis (ax (bb2_center a)) (ax (bb2_center b)) (unwrap (positive_new (nabs (nsub (ax (max2 a)) (ax (min2 a)))))) (unwrap (positive_new (nabs (nsub (ax (max2 b)) (ax (min2 b)))))) = Ok r /\
    (bp (k - 48) <= fval (ax (max2 a)) - fval (ax (min2 b)) -> bp (k - 48) <= fval (ax (max2 b)) - fval (ax (min2 a)) -> r = true) /\
    (r = true -> - bp (k - 48) <= fval (ax (max2 a)) - fval (ax (min2 b)) /\ - bp (k - 48) <= fval (ax (max2 b)) - fval (ax (min2 a)))).
  { intros ax X. destruct (upto2_le k a ax A X) as (A1 & A2 & LA), (upto2_le k b ax B X) as (B1 & B2 & LB).
    destruct (collide_clear k K _ _ _ _ A1 A2 B1 B2 LA LB) as (r & E & H). exists r. split; [|exact H]. rewrite <- E. destruct X as [->| ->]; reflexivity. }
  destruct (C x2 (or_introl eq_refl)) as (r1 & E1 & T1 & F1), (C y2 (or_intror eq_refl)) as (r2 & E2 & T2 & F2).
  exists (r1 && r2). split; [|split].
  - unfold bb2_collides_with, bb2_size_x, bb2_size_y. rewrite E1, E2. destruct r1, r2; reflexivity.
  - intros O. destruct (O x2 (or_introl eq_refl)) as [O1 O2], (O y2 (or_intror eq_refl)) as [O3 O4]. rewrite (T1 O1 O2), (T2 O3 O4). reflexivity.
  - intros H. apply andb_prop in H as [H1 H2]. intros ax [->| ->]; [exact (F1 H1)|exact (F2 H2)].
Qed.

(** ** Trees *)
Section Some.
Context {HB BB : Type} (bb_of : list HB -> BB) (isl isr : N -> BB -> HB -> bool) (good : HB -> Prop).
Hypothesis cover : forall depth data x, Forall good data -> In x data -> isl depth (bb_of data) x = true \/ isr depth (bb_of data) x = true.
Context (guard : BB -> res bool) (test : HB -> res bool) (sure : HB -> Prop).
Hypothesis test_ok : forall x, good x -> exists b, test x = Ok b.
Hypothesis guard_ok : forall data, data <> [] -> Forall good data -> exists b, guard (bb_of data) = Ok b.
Hypothesis prune : forall data x, Forall good data -> In x data -> sure x -> guard (bb_of data) = Ok true.
(** A query finds what passes the test and no guard can reject, and only what passes the test. *)
Lemma query_some levels bucket depth data : Forall good data -> forall acc, exists out,
  aabb_query guard test (aabb_new_rec bb_of isl isr levels bucket depth data) acc = Ok (acc ++ out) /\
  (forall x, In x out -> In x data /\ test x = Ok true) /\ (forall x, In x data -> sure x -> test x = Ok true -> In x out).
Proof.
  intro G. apply (split_cases bb_of isl isr good cover levels bucket depth data (fun data t => forall acc, exists out,
    aabb_query guard test t acc = Ok (acc ++ out) /\ (forall x, In x out -> In x data /\ test x = Ok true) /\ (forall x, In x data -> sure x -> test x = Ok true -> In x out))); auto.
  - intro acc. exists []. cbn. rewrite app_nil_r. split; [reflexivity|tauto].
  - clear data G. intros data NE G acc. cbn [aabb_query]. destruct (guard_ok data NE G) as [[|] E]; rewrite E; cbn [obind].
    + destruct (leaf_select_spec good test test_ok data acc G) as (out & E' & S). exists out. split; [exact E'|]. split; intros x; rewrite S; tauto.
    + exists []. rewrite app_nil_r. split; [reflexivity|]. split; [intros x []|]. intros x Hx Q _. rewrite (prune data x G Hx Q) in E. discriminate.
  - clear data G. intros data dl dr l r NE G _ _ S IL IR acc. cbn [aabb_query].
    destruct (guard_ok data NE G) as [[|] E]; rewrite E; cbn [obind].
    + destruct (IL acc) as (o1 & E1 & S1 & R1). rewrite E1. cbn [obind]. destruct (IR (acc ++ o1)) as (o2 & E2 & S2 & R2).
      exists (o1 ++ o2). rewrite E2, <- app_assoc. split; [reflexivity|]. split; intros x; rewrite in_app_iff, S.
      * intros [H|H]; [destruct (S1 x H)|destruct (S2 x H)]; tauto.
      * intros [H|H] Q T; [left; apply R1|right; apply R2]; assumption.
    + exists []. rewrite app_nil_r. split; [reflexivity|]. split; [intros x []|]. intros x Hx Q _. rewrite (prune data x G Hx Q) in E. discriminate.
Qed.
End Some.
Lemma finite_aabb x : FloatSpec.finite x -> AabbSpec.finite x.
Proof. destruct x; intros []; split; try (intros ?); discriminate. Qed.
Lemma upto3_good k b : box_upto3 k b -> good_box3 b.
Proof.
  intros H ax A. destruct H as [(F1 & F2 & V) _]. split; [apply finite_aabb, F1, A|]. split; [apply finite_aabb, F2, A|]. exact (@ltb_leb F64 _ _ (V ax A)).
Qed.
Lemma upto2_good k b : box_upto2 k b -> good_box2 b.
Proof.
  intros H ax A. destruct H as [(F1 & F2 & V) _]. split; [apply finite_aabb, F1, A|]. split; [apply finite_aabb, F2, A|]. exact (@ltb_leb F64 _ _ (V ax A)).
Qed.
Section Trees.
Context (k : Z) (K : (-960 <= k <= 1000)%Z) {HB : Type}.
Lemma bb_of3_upto (bbox : HB -> bb3 F64) data : data <> [] -> Forall (fun x => box_upto3 k (bbox x)) data ->
  box_upto3 k (bb_of3 bbox data) /\ forall x ax, In x data -> axis3 ax ->
    fval (ax (min3 (bb_of3 bbox data))) <= fval (ax (min3 (bbox x))) /\ fval (ax (max3 (bbox x))) <= fval (ax (max3 (bb_of3 bbox data))).
Proof.
  intros NE G. assert (G' : Forall (fun x => good_box3 (bbox x)) data) by (eapply Forall_impl; [intros x; apply upto3_good|exact G]).
  pose proof (good3_bnum bbox data G') as BN. rewrite Forall_forall in G.
  assert (Q : forall ax, axis3 ax -> le_e k (ax (min3 (bb_of3 bbox data))) /\ le_e k (ax (max3 (bb_of3 bbox data))) /\ flt (ax (min3 (bb_of3 bbox data))) (ax (max3 (bb_of3 bbox data))) /\
    forall x, In x data -> fle (ax (min3 (bb_of3 bbox data))) (ax (min3 (bbox x))) /\ fle (ax (max3 (bbox x))) (ax (max3 (bb_of3 bbox data)))).
  { intros ax A. destruct (bb_of3_bounds F64_laws bbox data ax A BN NE) as ((y & Y & EY) & (z & Z & EZ) & B).
    split; [rewrite EY; apply (upto3_le k (bbox y) ax (G y Y) A)|]. split; [rewrite EZ; apply (upto3_le k (bbox z) ax (G z Z) A)|]. split; [|exact B].
    destruct (B y Y) as [B1 B2]. pose proof (proj2 (proj2 (upto3_le k (bbox y) ax (G y Y) A))) as L.
    exact (leb_ltb_trans F64_laws _ _ _ B1 (ltb_leb_trans F64_laws _ _ _ L B2)). }
  split.
  - split.
    + split; [intros ax A; destruct (Q ax A) as ([[D F] _] & _); split; [exact D|apply DistLemmas.finite_f, F]|].
      split; [intros ax A; destruct (Q ax A) as (_ & [[D F] _] & _); split; [exact D|apply DistLemmas.finite_f, F]|]. intros ax A. apply Q, A.
    + intros ax A. rewrite bp_powerRZ. destruct (Q ax A) as ([_ B1] & [_ B2] & _). split; assumption.
  - intros x ax X A. destruct (Q ax A) as ([[D1 F1] _] & [[D2 F2] _] & _ & B). destruct (B x X) as [B1 B2].
    destruct (upto3_le k (bbox x) ax (G x X) A) as ([[D3 F3] _] & [[D4 F4] _] & _). apply fle_val in B1; [|assumption..]. apply fle_val in B2; [|assumption..]. split; assumption.
Qed.
Lemma bb_of2_upto (bbox : HB -> bb2 F64) data : data <> [] -> Forall (fun x => box_upto2 k (bbox x)) data ->
  box_upto2 k (bb_of2 bbox data) /\ forall x ax, In x data -> axis2 ax ->
    fval (ax (min2 (bb_of2 bbox data))) <= fval (ax (min2 (bbox x))) /\ fval (ax (max2 (bbox x))) <= fval (ax (max2 (bb_of2 bbox data))).
Proof.
  intros NE G. assert (G' : Forall (fun x => good_box2 (bbox x)) data) by (eapply Forall_impl; [intros x; apply upto2_good|exact G]).
  pose proof (good2_bnum bbox data G') as BN. rewrite Forall_forall in G.
  assert (Q : forall ax, axis2 ax -> le_e k (ax (min2 (bb_of2 bbox data))) /\ le_e k (ax (max2 (bb_of2 bbox data))) /\ flt (ax (min2 (bb_of2 bbox data))) (ax (max2 (bb_of2 bbox data))) /\
    forall x, In x data -> fle (ax (min2 (bb_of2 bbox data))) (ax (min2 (bbox x))) /\ fle (ax (max2 (bbox x))) (ax (max2 (bb_of2 bbox data)))).
  { intros ax A. destruct (bb_of2_bounds F64_laws bbox data ax A BN NE) as ((y & Y & EY) & (z & Z & EZ) & B).
    split; [rewrite EY; apply (upto2_le k (bbox y) ax (G y Y) A)|]. split; [rewrite EZ; apply (upto2_le k (bbox z) ax (G z Z) A)|]. split; [|exact B].
    destruct (B y Y) as [B1 B2]. pose proof (proj2 (proj2 (upto2_le k (bbox y) ax (G y Y) A))) as L.
    exact (leb_ltb_trans F64_laws _ _ _ B1 (ltb_leb_trans F64_laws _ _ _ L B2)). }
  split.
  - split.
    + split; [intros ax A; destruct (Q ax A) as ([[D F] _] & _); split; [exact D|apply DistLemmas.finite_f, F]|].
      split; [intros ax A; destruct (Q ax A) as (_ & [[D F] _] & _); split; [exact D|apply DistLemmas.finite_f, F]|]. intros ax A. apply Q, A.
    + intros ax A. rewrite bp_powerRZ. destruct (Q ax A) as ([_ B1] & [_ B2] & _). split; assumption.
  - intros x ax X A. destruct (Q ax A) as ([[D1 F1] _] & [[D2 F2] _] & _ & B). destruct (B x X) as [B1 B2].
    destruct (upto2_le k (bbox x) ax (G x X) A) as ([[D3 F3] _] & [[D4 F4] _] & _). apply fle_val in B1; [|assumption..]. apply fle_val in B2; [|assumption..]. split; assumption.
Qed.
Lemma tree3_clear (bbox : HB -> bb3 F64) data maxdepth bucket bb before : Forall (fun x => box_upto3 k (bbox x)) data -> box_upto3 k bb -> exists found,
  aabb_query (fun b => bb3_collides_with b bb) (fun x => bb3_collides_with (bbox x) bb) (aabb3_new bbox data maxdepth bucket) before = Ok (before ++ found) /\
  (forall x, In x found -> In x data /\ overlap3 (- powerRZ 2 (k - 48)) (bbox x) bb) /\
  (forall x, In x data -> overlap3 (powerRZ 2 (k - 48)) (bbox x) bb -> In x found).
Proof.
  intros G V.
  destruct (query_some (bb_of3 bbox) (is_left3 bbox) (is_right3 bbox) (fun x => box_upto3 k (bbox x))
    ltac:(intros depth d x F; apply cover3_f; eapply Forall_impl; [intros y; apply upto3_good|exact F])
    (fun b => bb3_collides_with b bb) (fun x => bb3_collides_with (bbox x) bb) (fun x => overlap3 (powerRZ 2 (k - 48)) (bbox x) bb)) with (levels := maxdepth) (bucket := bucket) (depth := 0%N) (data := data) (acc := before)
    as (out & E & S & R).
  - intros x X. destruct (collides3_clear k (bbox x) bb K X V) as (r & E & _). eauto.
  - intros d NE F. destruct (collides3_clear k (bb_of3 bbox d) bb K (proj1 (bb_of3_upto bbox d NE F)) V) as (r & E & _). eauto.
  - intros d x F X O. assert (NE : d <> []) by (intros ->; destruct X). destruct (bb_of3_upto bbox d NE F) as [B1 B2].
    destruct (collides3_clear k (bb_of3 bbox d) bb K B1 V) as (r & -> & T & _). rewrite T; [reflexivity|].
    intros ax A. destruct (O ax A), (B2 x ax X A). lra.
  - exact G.
  - exists out. split; [exact E|]. rewrite Forall_forall in G. split; intros x.
    + intros X. destruct (S x X) as [H1 H2]. split; [exact H1|]. destruct (collides3_clear k (bbox x) bb K (G x H1) V) as (r & E' & _ & F). apply F. congruence.
    + intros X O. apply R; [exact X|exact O|]. destruct (collides3_clear k (bbox x) bb K (G x X) V) as (r & -> & T & _). rewrite (T O). reflexivity.
Qed.
Lemma tree2_clear (bbox : HB -> bb2 F64) data maxdepth bucket bb before : Forall (fun x => box_upto2 k (bbox x)) data -> box_upto2 k bb -> exists found,
  aabb_query (fun b => bb2_collides_with b bb) (fun x => bb2_collides_with (bbox x) bb) (aabb2_new bbox data maxdepth bucket) before = Ok (before ++ found) /\
  (forall x, In x found -> In x data /\ overlap2 (- powerRZ 2 (k - 48)) (bbox x) bb) /\
  (forall x, In x data -> overlap2 (powerRZ 2 (k - 48)) (bbox x) bb -> In x found).
Proof.
  intros G V.
  destruct (query_some (bb_of2 bbox) (is_left2 bbox) (is_right2 bbox) (fun x => box_upto2 k (bbox x))
    ltac:(intros depth d x F; apply cover2_f; eapply Forall_impl; [intros y; apply upto2_good|exact F])
    (fun b => bb2_collides_with b bb) (fun x => bb2_collides_with (bbox x) bb) (fun x => overlap2 (powerRZ 2 (k - 48)) (bbox x) bb)) with (levels := maxdepth) (bucket := bucket) (depth := 0%N) (data := data) (acc := before)
    as (out & E & S & R).
  - intros x X. destruct (collides2_clear k (bbox x) bb K X V) as (r & E & _). eauto.
  - intros d NE F. destruct (collides2_clear k (bb_of2 bbox d) bb K (proj1 (bb_of2_upto bbox d NE F)) V) as (r & E & _). eauto.
  - intros d x F X O. assert (NE : d <> []) by (intros ->; destruct X). destruct (bb_of2_upto bbox d NE F) as [B1 B2].
    destruct (collides2_clear k (bb_of2 bbox d) bb K B1 V) as (r & -> & T & _). rewrite T; [reflexivity|].
    intros ax A. destruct (O ax A), (B2 x ax X A). lra.
  - exact G.
  - exists out. split; [exact E|]. rewrite Forall_forall in G. split; intros x.
    + intros X. destruct (S x X) as [H1 H2]. split; [exact H1|]. destruct (collides2_clear k (bbox x) bb K (G x H1) V) as (r & E' & _ & F). apply F. congruence.
    + intros X O. apply R; [exact X|exact O|]. destruct (collides2_clear k (bbox x) bb K (G x X) V) as (r & -> & T & _). rewrite (T O). reflexivity.
Qed.
End Trees.
