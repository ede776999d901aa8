(** Proofs about bounding boxes. *)
From Verif Require Import Base Num NumLemmas BBoxModel GeomSpec.
From Coq Require Import Floats.SpecFloat Reals Lra.
From Coq Require Import ZifyBool ZifyNat ZifyN.

(** ** i32 counter *)
Lemma i32_inc_small dbg k : (0 <= k < 2 ^ 31 - 1)%Z -> i32_inc dbg k = Ok (k + 1)%Z.
Proof.
  intro H. unfold i32_inc, i32_wrap.
  destruct (Z.eqb_spec k (2^31-1)); [lia|]. rewrite andb_false_r.
  rewrite Z.mod_small by lia. f_equal. lia.
Qed.
Lemma i32_wrap_inc k : i32_inc false (i32_wrap k) = Ok (i32_wrap (k + 1)).
Proof.
  unfold i32_inc, i32_wrap. cbn [andb]. f_equal.
  replace ((k + 2 ^ 31) mod 2 ^ 32 - 2 ^ 31 + 1 + 2 ^ 31)%Z with ((k + 2 ^ 31) mod 2 ^ 32 + 1)%Z by lia.
  rewrite Zplus_mod_idemp_l. f_equal. f_equal. lia.
Qed.
Lemma i32_wrap_nz k : (0 < k < 2 ^ 32)%Z -> i32_wrap k <> 0%Z.
Proof.
  intros H. unfold i32_wrap.
  destruct (Z_lt_ge_dec (k + 2^31) (2^32)).
  - rewrite Z.mod_small by lia. lia.
  - replace (k + 2^31)%Z with (k - 2^31 + 1 * 2^32)%Z by lia. rewrite Z_mod_plus_full.
    rewrite Z.mod_small by lia. lia.
Qed.
Lemma i32_wrap_big k : (2 ^ 31 <= k < 2 ^ 32)%Z -> (i32_wrap k < 0)%Z.
Proof.
  intros H. unfold i32_wrap.
  replace (k + 2^31)%Z with (k - 2^31 + 1 * 2^32)%Z by lia. rewrite Z_mod_plus_full.
  rewrite Z.mod_small by lia. lia.
Qed.
Lemma i32_wrap_1 : i32_wrap 1 = 1%Z. Proof. reflexivity. Qed.

Section Gen.
Context {NM : Num} {num : T NM -> Prop} (L : OrdLaws NM num).
Local Open Scope num_scope.

Definition fmin (l : list (T NM)) (a : T NM) := fold_left (fun m v => if v < m then v else m) l a.
Definition fmax (l : list (T NM)) (a : T NM) := fold_left (fun m v => if v > m then v else m) l a.

Lemma fmin_spec l : forall a, num a -> Forall num l ->
  In (fmin l a) (a :: l) /\ forall v, In v (a :: l) -> (fmin l a <= v) = true.
Proof.
  induction l as [|x l IH]; intros a Ha Hl; cbn.
  - split; auto. intros v [<-|[]]. apply (leb_refl L); auto.
  - inversion Hl as [|? ? Hx Hl']; subst.
    destruct (x < a) eqn:E.
    + destruct (IH x Hx Hl') as [I B]. split.
      * destruct I; auto.
      * intros v [<-|H]; [|apply B; exact H].
        eapply (leb_trans L); [apply B; left; reflexivity|apply ltb_leb; auto].
    + destruct (IH a Ha Hl') as [I B]. split.
      * destruct I; auto.
      * intros v [<-|[<-|H]]; try (apply B; cbn; auto; fail).
        eapply (leb_trans L); [apply B; left; reflexivity|].
        apply (not_ltb L); auto.
Qed.
Lemma fmax_spec l : forall a, num a -> Forall num l ->
  In (fmax l a) (a :: l) /\ forall v, In v (a :: l) -> (v <= fmax l a) = true.
Proof.
  induction l as [|x l IH]; intros a Ha Hl; cbn.
  - split; auto. intros v [<-|[]]. apply (leb_refl L); auto.
  - inversion Hl as [|? ? Hx Hl']; subst. rewrite (gtb_ltb L).
    destruct (a < x) eqn:E.
    + destruct (IH x Hx Hl') as [I B]. split.
      * destruct I; auto.
      * intros v [<-|H]; [|apply B; exact H].
        eapply (leb_trans L); [apply ltb_leb; eassumption|apply B; left; reflexivity].
    + destruct (IH a Ha Hl') as [I B]. split.
      * destruct I; auto.
      * intros v [<-|[<-|H]]; try (apply B; cbn; auto; fail).
        eapply (leb_trans L); [|apply B; left; reflexivity].
        apply (not_ltb L); auto.
Qed.

Lemma bb3_loop_spec dbg ps : forall c mn mx, (0 < c)%Z -> (c + Z.of_nat (length ps) < 2 ^ 31)%Z ->
  bb3_loop dbg ps c mn mx = Ok ((c + Z.of_nat (length ps))%Z,
    (mk3 (fmin (map px ps) (px mn)) (fmin (map py ps) (py mn)) (fmin (map pz ps) (pz mn)),
     mk3 (fmax (map px ps) (px mx)) (fmax (map py ps) (py mx)) (fmax (map pz ps) (pz mx)))).
Proof.
  induction ps as [|p ps IH]; intros c mn mx Hc Hl; cbn [bb3_loop length map] in *.
  - cbn. rewrite Z.add_0_r. destruct mn, mx; reflexivity.
  - destruct (Z.eqb_spec c 0); [lia|]. rewrite i32_inc_small by lia. cbn [obind].
    rewrite IH by lia. cbn [px py pz fmin fmax fold_left]. f_equal. f_equal. lia.
Qed.
Lemma bb3_from_spec dbg ps : (Z.of_nat (length ps) < 2 ^ 31)%Z ->
  bb3_from_iterator dbg ps = match ps with
    | p :: q :: r => bb3_new
        (mk3 (fmin (map px (q :: r)) (px p)) (fmin (map py (q :: r)) (py p)) (fmin (map pz (q :: r)) (pz p)))
        (mk3 (fmax (map px (q :: r)) (px p)) (fmax (map py (q :: r)) (py p)) (fmax (map pz (q :: r)) (pz p)))
    | _ => Err TooFewPoints end.
Proof.
  intro H. unfold bb3_from_iterator. destruct ps as [|p ps]; [reflexivity|].
  cbn [bb3_loop length] in *. cbn [Z.eqb]. rewrite i32_inc_small by lia. cbn [obind].
  rewrite bb3_loop_spec by lia. cbn [obind].
  destruct ps as [|q r]; [reflexivity|].
  destruct (Z.leb_spec 2 (0 + 1 + Z.of_nat (length (q :: r)))); [reflexivity|cbn [length] in *; lia].
Qed.
Lemma bb2_loop_spec dbg ps : forall c mn mx, (0 < c)%Z -> (c + Z.of_nat (length ps) < 2 ^ 31)%Z ->
  bb2_loop dbg ps c mn mx = Ok ((c + Z.of_nat (length ps))%Z,
    (mk2 (fmin (map x2 ps) (x2 mn)) (fmin (map y2 ps) (y2 mn)),
     mk2 (fmax (map x2 ps) (x2 mx)) (fmax (map y2 ps) (y2 mx)))).
Proof.
  induction ps as [|p ps IH]; intros c mn mx Hc Hl; cbn [bb2_loop length map] in *.
  - cbn. rewrite Z.add_0_r. destruct mn, mx; reflexivity.
  - destruct (Z.eqb_spec c 0); [lia|]. rewrite i32_inc_small by lia. cbn [obind].
    rewrite IH by lia. cbn [x2 y2 fmin fmax fold_left]. f_equal. f_equal. lia.
Qed.
Lemma bb2_from_spec dbg ps : (Z.of_nat (length ps) < 2 ^ 31)%Z ->
  bb2_from_iterator dbg ps = match ps with
    | p :: q :: r => bb2_new
        (mk2 (fmin (map x2 (q :: r)) (x2 p)) (fmin (map y2 (q :: r)) (y2 p)))
        (mk2 (fmax (map x2 (q :: r)) (x2 p)) (fmax (map y2 (q :: r)) (y2 p)))
    | _ => Err TooFewPoints end.
Proof.
  intro H. unfold bb2_from_iterator. destruct ps as [|p ps]; [reflexivity|].
  cbn [bb2_loop length] in *. cbn [Z.eqb]. rewrite i32_inc_small by lia. cbn [obind].
  rewrite bb2_loop_spec by lia. cbn [obind].
  destruct ps as [|q r]; [reflexivity|].
  destruct (Z.leb_spec 2 (0 + 1 + Z.of_nat (length (q :: r)))); [reflexivity|cbn [length] in *; lia].
Qed.

(** *** beyond i32::MAX points *)
Lemma bb3_loop_wrap ps : forall k mn mx, (0 < k)%Z -> (k + Z.of_nat (length ps) < 2 ^ 32)%Z ->
  exists b : pt3 NM * pt3 NM,
    bb3_loop false ps (i32_wrap k) mn mx = Ok (i32_wrap (k + Z.of_nat (length ps)), b).
Proof.
  induction ps as [|p ps IH]; intros k mn mx Hk Hl; cbn [bb3_loop length] in *.
  - exists (mn, mx). do 3 f_equal. lia.
  - pose proof (i32_wrap_nz k ltac:(lia)). destruct (Z.eqb_spec (i32_wrap k) 0); [lia|].
    rewrite i32_wrap_inc. cbn [obind].
    replace (k + Z.of_nat (S (length ps)))%Z with ((k + 1) + Z.of_nat (length ps))%Z by lia.
    apply IH; lia.
Qed.
Lemma bb3_overflow_release ps : (2 ^ 31 <= Z.of_nat (length ps) < 2 ^ 32)%Z ->
  @bb3_from_iterator NM false ps = Err TooFewPoints.
Proof.
  intro H. unfold bb3_from_iterator. destruct ps as [|p ps]; [cbn in H; lia|].
  cbn [bb3_loop length] in *. cbn [Z.eqb].
  change 0%Z with (i32_wrap 0) at 1. rewrite i32_wrap_inc. cbn [obind].
  destruct (bb3_loop_wrap ps (0 + 1) p p ltac:(lia) ltac:(lia)) as [[b1 b2] ->]. cbn [obind].
  pose proof (i32_wrap_big (0 + 1 + Z.of_nat (length ps)) ltac:(lia)).
  destruct (Z.leb_spec 2 (i32_wrap (0 + 1 + Z.of_nat (length ps)))); [lia|reflexivity].
Qed.
Lemma bb3_loop_debug ps : forall k mn mx, (0 < k < 2 ^ 31)%Z -> (2 ^ 31 <= k + Z.of_nat (length ps))%Z ->
  @bb3_loop NM true ps k mn mx = Panic.
Proof.
  induction ps as [|p ps IH]; intros k mn mx Hk Hl; cbn [bb3_loop length] in *; [lia|].
  destruct (Z.eqb_spec k 0); [lia|].
  destruct (Z.eq_dec k (2^31-1)) as [->|].
  - reflexivity.
  - rewrite i32_inc_small by lia. cbn [obind]. apply IH; lia.
Qed.
Lemma bb3_overflow_debug ps : (2 ^ 31 <= Z.of_nat (length ps))%Z ->
  @bb3_from_iterator NM true ps = Panic.
Proof.
  intro H. unfold bb3_from_iterator. destruct ps as [|p ps]; [cbn in H; lia|].
  cbn [bb3_loop length] in *. cbn [Z.eqb]. rewrite i32_inc_small by lia. cbn [obind].
  rewrite bb3_loop_debug by lia. reflexivity.
Qed.
Lemma bb2_loop_wrap ps : forall k mn mx, (0 < k)%Z -> (k + Z.of_nat (length ps) < 2 ^ 32)%Z ->
  exists b : pt2 NM * pt2 NM,
    bb2_loop false ps (i32_wrap k) mn mx = Ok (i32_wrap (k + Z.of_nat (length ps)), b).
Proof.
  induction ps as [|p ps IH]; intros k mn mx Hk Hl; cbn [bb2_loop length] in *.
  - exists (mn, mx). do 3 f_equal. lia.
  - pose proof (i32_wrap_nz k ltac:(lia)). destruct (Z.eqb_spec (i32_wrap k) 0); [lia|].
    rewrite i32_wrap_inc. cbn [obind].
    replace (k + Z.of_nat (S (length ps)))%Z with ((k + 1) + Z.of_nat (length ps))%Z by lia.
    apply IH; lia.
Qed.
Lemma bb2_overflow_release ps : (2 ^ 31 <= Z.of_nat (length ps) < 2 ^ 32)%Z ->
  @bb2_from_iterator NM false ps = Err TooFewPoints.
Proof.
  intro H. unfold bb2_from_iterator. destruct ps as [|p ps]; [cbn in H; lia|].
  cbn [bb2_loop length] in *. cbn [Z.eqb].
  change 0%Z with (i32_wrap 0) at 1. rewrite i32_wrap_inc. cbn [obind].
  destruct (bb2_loop_wrap ps (0 + 1) p p ltac:(lia) ltac:(lia)) as [[b1 b2] ->]. cbn [obind].
  pose proof (i32_wrap_big (0 + 1 + Z.of_nat (length ps)) ltac:(lia)).
  destruct (Z.leb_spec 2 (i32_wrap (0 + 1 + Z.of_nat (length ps)))); [lia|reflexivity].
Qed.
Lemma bb2_loop_debug ps : forall k mn mx, (0 < k < 2 ^ 31)%Z -> (2 ^ 31 <= k + Z.of_nat (length ps))%Z ->
  @bb2_loop NM true ps k mn mx = Panic.
Proof.
  induction ps as [|p ps IH]; intros k mn mx Hk Hl; cbn [bb2_loop length] in *; [lia|].
  destruct (Z.eqb_spec k 0); [lia|].
  destruct (Z.eq_dec k (2^31-1)) as [->|].
  - reflexivity.
  - rewrite i32_inc_small by lia. cbn [obind]. apply IH; lia.
Qed.
Lemma bb2_overflow_debug ps : (2 ^ 31 <= Z.of_nat (length ps))%Z ->
  @bb2_from_iterator NM true ps = Panic.
Proof.
  intro H. unfold bb2_from_iterator. destruct ps as [|p ps]; [cbn in H; lia|].
  cbn [bb2_loop length] in *. cbn [Z.eqb]. rewrite i32_inc_small by lia. cbn [obind].
  rewrite bb2_loop_debug by lia. reflexivity.
Qed.
End Gen.

(** ** F64 *)
Notation LF := F64_laws.
Lemma SFltb_nltb (a b : T F64) : SFltb a b = nltb a b. Proof. reflexivity. Qed.

Ltac axes := let ax := fresh "ax" in
  intros ax H; first [ destruct H as [->|[->| ->]] | destruct H as [->| ->] ].

Lemma axis3_all {NM} (Q : (pt3 NM -> T NM) -> Prop) :
  (forall ax, axis3 ax -> Q ax) <-> Q px /\ Q py /\ Q pz.
Proof.
  split.
  - intro H. repeat split; apply H; unfold axis3; auto.
  - intros (H1 & H2 & H3) ax [->|[->| ->]]; auto.
Qed.
Lemma axis2_all {NM} (Q : (pt2 NM -> T NM) -> Prop) :
  (forall ax, axis2 ax -> Q ax) <-> Q x2 /\ Q y2.
Proof.
  split.
  - intro H. repeat split; apply H; unfold axis2; auto.
  - intros (H1 & H2) ax [->| ->]; auto.
Qed.
Lemma axis3_ex {NM} (Q : (pt3 NM -> T NM) -> Prop) :
  (exists ax, axis3 ax /\ Q ax) <-> Q px \/ Q py \/ Q pz.
Proof.
  split.
  - intros (ax & [->|[->| ->]] & H); auto.
  - intros [H|[H|H]]; eexists; (split; [|exact H]); unfold axis3; auto.
Qed.
Lemma axis2_ex {NM} (Q : (pt2 NM -> T NM) -> Prop) :
  (exists ax, axis2 ax /\ Q ax) <-> Q x2 \/ Q y2.
Proof.
  split.
  - intros (ax & [->| ->] & H); auto.
  - intros [H|H]; eexists; (split; [|exact H]); unfold axis2; auto.
Qed.


Lemma lt_of_not (a b : T F64) : number a -> number b ->
  neqb a b = false -> ngtb a b = false -> flt a b.
Proof.
  intros A B E G. rewrite (gtb_ltb LF) in G.
  destruct (trichotomy LF a b A B) as [H|[H|H]]; [exact H|congruence|congruence].
Qed.
Lemma bb3_new_spec mn mx : number3 mn -> number3 mx -> new3_outcome mn mx (bb3_new mn mx).
Proof.
  intros A B. unfold bb3_new.
  destruct (neqb (px mn) (px mx)) eqn:E1; [apply axis3_ex; left; exact E1|].
  destruct (neqb (py mn) (py mx)) eqn:E2; [apply axis3_ex; right; left; exact E2|].
  destruct (neqb (pz mn) (pz mx)) eqn:E3; [apply axis3_ex; right; right; exact E3|].
  cbn [orb].
  assert (NE : forall ax, axis3 ax -> ~ feq (ax mn) (ax mx)).
  { apply axis3_all. unfold feq. change SFeqb with (@neqb F64). rewrite E1, E2, E3. auto. }
  apply axis3_all in A as (A1 & A2 & A3). apply axis3_all in B as (B1 & B2 & B3).
  destruct (ngtb (px mn) (px mx)) eqn:G1.
  { split; [exact NE|]. apply axis3_ex. left. rewrite (gtb_ltb LF) in G1. exact G1. }
  destruct (ngtb (py mn) (py mx)) eqn:G2.
  { split; [exact NE|]. apply axis3_ex. right; left. rewrite (gtb_ltb LF) in G2. exact G2. }
  destruct (ngtb (pz mn) (pz mx)) eqn:G3.
  { split; [exact NE|]. apply axis3_ex. right; right. rewrite (gtb_ltb LF) in G3. exact G3. }
  split; [reflexivity|]. apply axis3_all. split; [|split]; apply lt_of_not; auto.
Qed.
Lemma bb2_new_spec mn mx : number2 mn -> number2 mx -> new2_outcome mn mx (bb2_new mn mx).
Proof.
  intros A B. unfold bb2_new.
  destruct (neqb (x2 mn) (x2 mx)) eqn:E1; [apply axis2_ex; left; exact E1|].
  destruct (neqb (y2 mn) (y2 mx)) eqn:E2; [apply axis2_ex; right; exact E2|].
  cbn [orb].
  assert (NE : forall ax, axis2 ax -> ~ feq (ax mn) (ax mx)).
  { apply axis2_all. unfold feq. change SFeqb with (@neqb F64). rewrite E1, E2. auto. }
  apply axis2_all in A as (A1 & A2). apply axis2_all in B as (B1 & B2).
  destruct (ngtb (x2 mn) (x2 mx)) eqn:G1.
  { split; [exact NE|]. apply axis2_ex. left. rewrite (gtb_ltb LF) in G1. exact G1. }
  destruct (ngtb (y2 mn) (y2 mx)) eqn:G2.
  { split; [exact NE|]. apply axis2_ex. right. rewrite (gtb_ltb LF) in G2. exact G2. }
  split; [reflexivity|]. apply axis2_all. split; apply lt_of_not; auto.
Qed.

(** Characterisation of from_iterator. *)

Lemma fmin_f a l : number a -> Forall number l -> is_min (@fmin F64 l a) (a :: l).
Proof. intros A Hl. exact (fmin_spec LF l a A Hl). Qed.
Lemma fmax_f a l : number a -> Forall number l -> is_max (@fmax F64 l a) (a :: l).
Proof. intros A Hl. exact (fmax_spec LF l a A Hl). Qed.
Lemma min_max_differ lo hi vs : is_min lo vs -> is_max hi vs -> flt lo hi -> differ vs.
Proof. intros [A _] [B _] H. exists lo, hi; auto. Qed.
Lemma min_max_same lo hi vs : is_min lo vs -> is_max hi vs -> feq lo hi -> ~ differ vs.
Proof.
  intros [_ A] [_ B] E (u & v & Hu & Hv & H).
  pose proof (A _ Hu) as U. pose proof (B _ Hv) as V.
  assert (C : nltb lo hi = true).
  { eapply (ltb_leb_trans LF); [eapply (leb_ltb_trans LF)|]; eassumption. }
  apply (ltb_not_eqb) in C. change (SFeqb lo hi = true) in E. change SFeqb with (@neqb F64) in E. congruence.
Qed.
Lemma min_le_max lo hi vs : is_min lo vs -> is_max hi vs -> ~ flt hi lo.
Proof.
  intros [A _] [_ B] H. pose proof (B _ A) as C.
  pose proof (ltb_not_leb LF _ _ H) as D. unfold fle in C. change SFleb with (@nleb F64) in C. congruence.
Qed.

Lemma from3_spec dbg ps : Forall number3 ps -> (Z.of_nat (length ps) < 2 ^ 31)%Z ->
  from3_outcome ps (bb3_from_iterator dbg ps).
Proof.
  intros N H. rewrite bb3_from_spec by auto.
  destruct ps as [|p [|q r]]; [cbn; lia|cbn; lia|]. set (qr := q :: r) in *.
  assert (NP : number3 p) by (inversion N; auto).
  assert (NQ : forall ax, axis3 ax -> Forall number (map ax qr)).
  { intros ax Hax. apply Forall_forall. intros v Hv. apply in_map_iff in Hv as (s & <- & Hs).
    inversion N as [|? ? ? N']; subst. rewrite Forall_forall in N'. apply N'; auto. }
  pose proof (fun ax Hax => fmin_f (ax p) (map ax qr) (NP ax Hax) (NQ ax Hax)) as MIN.
  pose proof (fun ax Hax => fmax_f (ax p) (map ax qr) (NP ax Hax) (NQ ax Hax)) as MAX.
  clear NP NQ. rewrite axis3_all in MIN, MAX.
  destruct MIN as (I1 & I2 & I3), MAX as (J1 & J2 & J3).
  set (mn := mk3 _ _ _). set (mx := mk3 _ _ _).
  assert (NM : number3 mn /\ number3 mx).
  { assert (X : forall ax, axis3 ax -> forall v, In v (map ax (p :: qr)) -> number v).
    { intros ax Hax v Hv. apply in_map_iff in Hv as (s & <- & Hs).
      rewrite Forall_forall in N. apply N; auto. }
    rewrite axis3_all in X. destruct X as (X1 & X2 & X3).
    split; (intros ? [->|[->| ->]]; cbn [px py pz mn mx]);
      [apply X1, I1|apply X2, I2|apply X3, I3|apply X1, J1|apply X2, J2|apply X3, J3]. }
  destruct NM as [N1 N2]. pose proof (bb3_new_spec mn mx N1 N2) as S.
  destruct (bb3_new mn mx) as [b|e|]; cbv beta iota delta [new3_outcome from3_outcome] in S |- *.
  - destruct S as [-> S]. split; [cbn; lia|]. cbn [min3 max3].
    rewrite axis3_all in S. destruct S as (S1 & S2 & S3).
    apply axis3_all. cbn [px py pz]. subst mn mx. cbn [px py pz].
    split; [|split]; (split; [eassumption|split; [eassumption|eapply min_max_differ; eassumption]]).
  - destruct e; try contradiction.
    + destruct S as [_ S]. apply axis3_ex in S.
      destruct S as [S|[S|S]]; [exact (min_le_max _ _ _ I1 J1 S)|exact (min_le_max _ _ _ I2 J2 S)|exact (min_le_max _ _ _ I3 J3 S)].
    + split; [cbn; lia|]. apply axis3_ex in S. apply axis3_ex.
      destruct S as [S|[S|S]]; [left; exact (min_max_same _ _ _ I1 J1 S)|right;left; exact (min_max_same _ _ _ I2 J2 S)|right;right; exact (min_max_same _ _ _ I3 J3 S)].
  - contradiction.
Qed.
Lemma from2_spec dbg ps : Forall number2 ps -> (Z.of_nat (length ps) < 2 ^ 31)%Z ->
  from2_outcome ps (bb2_from_iterator dbg ps).
Proof.
  intros N H. rewrite bb2_from_spec by auto.
  destruct ps as [|p [|q r]]; [cbn; lia|cbn; lia|]. set (qr := q :: r) in *.
  assert (NP : number2 p) by (inversion N; auto).
  assert (NQ : forall ax, axis2 ax -> Forall number (map ax qr)).
  { intros ax Hax. apply Forall_forall. intros v Hv. apply in_map_iff in Hv as (s & <- & Hs).
    inversion N as [|? ? ? N']; subst. rewrite Forall_forall in N'. apply N'; auto. }
  pose proof (fun ax Hax => fmin_f (ax p) (map ax qr) (NP ax Hax) (NQ ax Hax)) as MIN.
  pose proof (fun ax Hax => fmax_f (ax p) (map ax qr) (NP ax Hax) (NQ ax Hax)) as MAX.
  clear NP NQ. rewrite axis2_all in MIN, MAX.
  destruct MIN as (I1 & I2), MAX as (J1 & J2).
  set (mn := mk2 _ _). set (mx := mk2 _ _).
  assert (NM : number2 mn /\ number2 mx).
  { assert (X : forall ax, axis2 ax -> forall v, In v (map ax (p :: qr)) -> number v).
    { intros ax Hax v Hv. apply in_map_iff in Hv as (s & <- & Hs).
      rewrite Forall_forall in N. apply N; auto. }
    rewrite axis2_all in X. destruct X as (X1 & X2).
    split; (intros ? [->| ->]; cbn [x2 y2 mn mx]);
      [apply X1, I1|apply X2, I2|apply X1, J1|apply X2, J2]. }
  destruct NM as [N1 N2]. pose proof (bb2_new_spec mn mx N1 N2) as S.
  destruct (bb2_new mn mx) as [b|e|]; cbv beta iota delta [new2_outcome from2_outcome] in S |- *.
  - destruct S as [-> S]. split; [cbn; lia|]. cbn [min2 max2].
    rewrite axis2_all in S. destruct S as (S1 & S2).
    apply axis2_all. subst mn mx. cbn [x2 y2].
    split; (split; [eassumption|split; [eassumption|eapply min_max_differ; eassumption]]).
  - destruct e; try contradiction.
    + destruct S as [_ S]. apply axis2_ex in S.
      destruct S as [S|S]; [exact (min_le_max _ _ _ I1 J1 S)|exact (min_le_max _ _ _ I2 J2 S)].
    + split; [cbn; lia|]. apply axis2_ex in S. apply axis2_ex.
      destruct S as [S|S]; [left; exact (min_max_same _ _ _ I1 J1 S)|right; exact (min_max_same _ _ _ I2 J2 S)].
  - contradiction.
Qed.

(** A NaN coordinate makes size panic. *)
Lemma size_nan3 (b : bb3 F64) : px (min3 b) = S754_nan \/ px (max3 b) = S754_nan -> @bb3_size_x F64 b = Panic.
Proof.
  destruct b as [[x y z] [x' y' z']]; cbn. intros [-> | ->]; unfold bb3_size_x; cbn.
  - destruct x' as [[]|[]| |]; reflexivity.
  - reflexivity.
Qed.
Lemma size_nan2 (b : bb2 F64) : x2 (min2 b) = S754_nan \/ x2 (max2 b) = S754_nan -> @bb2_size_x F64 b = Panic.
Proof.
  destruct b as [[x y] [x' y']]; cbn. intros [-> | ->]; unfold bb2_size_x; cbn.
  - destruct x' as [[]|[]| |]; reflexivity.
  - reflexivity.
Qed.

(** ** Merge *)
Lemma min_sel (a b : T F64) : number a -> number b ->
  let m := if nltb b a then b else a in
  number m /\ fle m a /\ fle m b /\ forall c, fle c a -> fle c b -> fle c m.
Proof.
  intros A B m. subst m. destruct (nltb b a) eqn:E.
  - split; [auto|]. split; [exact (ltb_leb _ _ E)|]. split; [apply (leb_refl LF); auto|]. auto.
  - split; [auto|]. split; [apply (leb_refl LF); auto|]. split; [apply (not_ltb LF); auto|]. auto.
Qed.
Lemma max_sel (a b : T F64) : number a -> number b ->
  let m := if ngtb b a then b else a in
  number m /\ fle a m /\ fle b m /\ forall c, fle a c -> fle b c -> fle m c.
Proof.
  intros A B m. subst m. rewrite (gtb_ltb LF). destruct (nltb a b) eqn:E.
  - split; [auto|]. split; [exact (ltb_leb _ _ E)|]. split; [apply (leb_refl LF); auto|]. auto.
  - split; [auto|]. split; [apply (leb_refl LF); auto|]. split; [apply (not_ltb LF); auto|]. auto.
Qed.
Lemma combine3_lub a b : box_number3 a -> box_number3 b ->
  box_number3 (bb3_combine a b) /\ box_le3 a (bb3_combine a b) /\ box_le3 b (bb3_combine a b) /\
  forall c, box_le3 a c -> box_le3 b c -> box_le3 (bb3_combine a b) c.
Proof.
  intros [A1 A2] [B1 B2]. unfold number3 in *. rewrite axis3_all in A1, A2, B1, B2.
  destruct A1 as (?&?&?), A2 as (?&?&?), B1 as (?&?&?), B2 as (?&?&?).
  pose proof (min_sel (px (min3 a)) (px (min3 b)) ltac:(auto) ltac:(auto)) as (?&?&?&?).
  pose proof (min_sel (py (min3 a)) (py (min3 b)) ltac:(auto) ltac:(auto)) as (?&?&?&?).
  pose proof (min_sel (pz (min3 a)) (pz (min3 b)) ltac:(auto) ltac:(auto)) as (?&?&?&?).
  pose proof (max_sel (px (max3 a)) (px (max3 b)) ltac:(auto) ltac:(auto)) as (?&?&?&?).
  pose proof (max_sel (py (max3 a)) (py (max3 b)) ltac:(auto) ltac:(auto)) as (?&?&?&?).
  pose proof (max_sel (pz (max3 a)) (pz (max3 b)) ltac:(auto) ltac:(auto)) as (?&?&?&?).
  split; [split; intros ? [->|[->| ->]]; cbn; auto|].
  split; [intros ? [->|[->| ->]]; cbn; auto 7|].
  split; [intros ? [->|[->| ->]]; cbn; auto 7|].
  intros c C1 C2. unfold box_le3 in *. rewrite axis3_all in C1, C2. apply axis3_all.
  destruct C1 as ((?&?)&(?&?)&(?&?)), C2 as ((?&?)&(?&?)&(?&?)). cbn.
  split; [|split]; split; auto.
Qed.
Lemma combine2_lub a b : box_number2 a -> box_number2 b ->
  box_number2 (bb2_combine a b) /\ box_le2 a (bb2_combine a b) /\ box_le2 b (bb2_combine a b) /\
  forall c, box_le2 a c -> box_le2 b c -> box_le2 (bb2_combine a b) c.
Proof.
  intros [A1 A2] [B1 B2]. unfold number2 in *. rewrite axis2_all in A1, A2, B1, B2.
  destruct A1 as (?&?), A2 as (?&?), B1 as (?&?), B2 as (?&?).
  pose proof (min_sel (x2 (min2 a)) (x2 (min2 b)) ltac:(auto) ltac:(auto)) as (?&?&?&?).
  pose proof (min_sel (y2 (min2 a)) (y2 (min2 b)) ltac:(auto) ltac:(auto)) as (?&?&?&?).
  pose proof (max_sel (x2 (max2 a)) (x2 (max2 b)) ltac:(auto) ltac:(auto)) as (?&?&?&?).
  pose proof (max_sel (y2 (max2 a)) (y2 (max2 b)) ltac:(auto) ltac:(auto)) as (?&?&?&?).
  split; [split; intros ? [->| ->]; cbn; auto|].
  split; [intros ? [->| ->]; cbn; auto 7|].
  split; [intros ? [->| ->]; cbn; auto 7|].
  intros c C1 C2. unfold box_le2 in *. rewrite axis2_all in C1, C2. apply axis2_all.
  destruct C1 as ((?&?)&(?&?)), C2 as ((?&?)&(?&?)). cbn. split; split; auto.
Qed.
Lemma box_le3_trans a b c : box_le3 a b -> box_le3 b c -> box_le3 a c.
Proof. intros H G ax Hax. destruct (H ax Hax), (G ax Hax). split; eapply (leb_trans LF); eassumption. Qed.
Lemma box_le2_trans a b c : box_le2 a b -> box_le2 b c -> box_le2 a c.
Proof. intros H G ax Hax. destruct (H ax Hax), (G ax Hax). split; eapply (leb_trans LF); eassumption. Qed.
Lemma box_le3_refl a : box_number3 a -> box_le3 a a.
Proof. intros [A B] ax Hax. split; apply (leb_refl LF); [apply A|apply B]; auto. Qed.
Lemma box_le2_refl a : box_number2 a -> box_le2 a a.
Proof. intros [A B] ax Hax. split; apply (leb_refl LF); [apply A|apply B]; auto. Qed.
Lemma box_le3_antisym a b : box_le3 a b -> box_le3 b a -> box_eq3 a b.
Proof. intros H G ax Hax. destruct (H ax Hax), (G ax Hax). split; apply (leb_antisym LF); assumption. Qed.
Lemma box_le2_antisym a b : box_le2 a b -> box_le2 b a -> box_eq2 a b.
Proof. intros H G ax Hax. destruct (H ax Hax), (G ax Hax). split; apply (leb_antisym LF); assumption. Qed.

Lemma combine3_laws a b c : box_number3 a -> box_number3 b -> box_number3 c ->
  box_eq3 (bb3_combine a b) (bb3_combine b a) /\
  box_eq3 (bb3_combine a (bb3_combine b c)) (bb3_combine (bb3_combine a b) c) /\
  bb3_combine a a = a.
Proof.
  intros A B C.
  destruct (combine3_lub a b A B) as (N1 & P1 & Q1 & U1).
  destruct (combine3_lub b a B A) as (N2 & P2 & Q2 & U2).
  destruct (combine3_lub b c B C) as (N3 & P3 & Q3 & U3).
  destruct (combine3_lub a _ A N3) as (N4 & P4 & Q4 & U4).
  destruct (combine3_lub _ c N1 C) as (N5 & P5 & Q5 & U5).
  split; [|split].
  - apply box_le3_antisym; auto.
  - apply box_le3_antisym.
    + apply U4; [exact (box_le3_trans _ _ _ P1 P5)|].
      apply U3; [|auto]. exact (box_le3_trans _ _ _ Q1 P5).
    + apply U5; [|exact (box_le3_trans _ _ _ Q3 Q4)].
      apply U1; [auto|]. exact (box_le3_trans _ _ _ P3 Q4).
  - unfold bb3_combine. rewrite !(gtb_ltb LF), !(ltb_irrefl LF). destruct a as [[] []]. reflexivity.
Qed.
Lemma combine2_laws a b c : box_number2 a -> box_number2 b -> box_number2 c ->
  box_eq2 (bb2_combine a b) (bb2_combine b a) /\
  box_eq2 (bb2_combine a (bb2_combine b c)) (bb2_combine (bb2_combine a b) c) /\
  bb2_combine a a = a.
Proof.
  intros A B C.
  destruct (combine2_lub a b A B) as (N1 & P1 & Q1 & U1).
  destruct (combine2_lub b a B A) as (N2 & P2 & Q2 & U2).
  destruct (combine2_lub b c B C) as (N3 & P3 & Q3 & U3).
  destruct (combine2_lub a _ A N3) as (N4 & P4 & Q4 & U4).
  destruct (combine2_lub _ c N1 C) as (N5 & P5 & Q5 & U5).
  split; [|split].
  - apply box_le2_antisym; auto.
  - apply box_le2_antisym.
    + apply U4; [exact (box_le2_trans _ _ _ P1 P5)|].
      apply U3; [|auto]. exact (box_le2_trans _ _ _ Q1 P5).
    + apply U5; [|exact (box_le2_trans _ _ _ Q3 Q4)].
      apply U1; [auto|]. exact (box_le2_trans _ _ _ P3 Q4).
  - unfold bb2_combine. rewrite !(gtb_ltb LF), !(ltb_irrefl LF). destruct a as [[] []]. reflexivity.
Qed.
Lemma merge_valid3 a b : fvalid3 a -> fvalid3 b -> fvalid3 (bb3_combine a b).
Proof.
  intros A B.
  assert (NA : box_number3 a). { split; intros ax Hax; apply (ltb_num LF _ _ (A ax Hax)). }
  assert (NB : box_number3 b). { split; intros ax Hax; apply (ltb_num LF _ _ (B ax Hax)). }
  destruct (combine3_lub a b NA NB) as (_ & P & _). intros ax Hax.
  destruct (P ax Hax) as [P1 P2].
  eapply (leb_ltb_trans LF); [exact P1|]. eapply (ltb_leb_trans LF); [exact (A ax Hax)|exact P2].
Qed.
Lemma merge_valid2 a b : fvalid2 a -> fvalid2 b -> fvalid2 (bb2_combine a b).
Proof.
  intros A B.
  assert (NA : box_number2 a). { split; intros ax Hax; apply (ltb_num LF _ _ (A ax Hax)). }
  assert (NB : box_number2 b). { split; intros ax Hax; apply (ltb_num LF _ _ (B ax Hax)). }
  destruct (combine2_lub a b NA NB) as (_ & P & _). intros ax Hax.
  destruct (P ax Hax) as [P1 P2].
  eapply (leb_ltb_trans LF); [exact P1|]. eapply (ltb_leb_trans LF); [exact (A ax Hax)|exact P2].
Qed.

(** ** Containment *)
Lemma contains3_iff b p : bb3_contains b p = true <->
  forall ax, axis3 ax -> flt (ax (min3 b)) (ax p) /\ flt (ax p) (ax (max3 b)).
Proof.
  rewrite axis3_all. unfold bb3_contains. rewrite !(gtb_ltb LF), !andb_true_iff.
  unfold flt. change SFltb with (@nltb F64). tauto.
Qed.
Lemma contains2_iff b p : bb2_contains b p = true <->
  forall ax, axis2 ax -> flt (ax (min2 b)) (ax p) /\ flt (ax p) (ax (max2 b)).
Proof.
  rewrite axis2_all. unfold bb2_contains. rewrite !(gtb_ltb LF), !andb_true_iff.
  unfold flt. change SFltb with (@nltb F64). tauto.
Qed.
Lemma inside3_iff a b : bb3_is_inside a b = true <->
  forall ax, axis3 ax -> flt (ax (min3 b)) (ax (min3 a)) /\ flt (ax (max3 a)) (ax (max3 b)).
Proof.
  rewrite axis3_all. unfold bb3_is_inside. rewrite !(gtb_ltb LF), !andb_true_iff.
  unfold flt. change SFltb with (@nltb F64). tauto.
Qed.
Lemma inside2_iff a b : bb2_is_inside a b = true <->
  forall ax, axis2 ax -> flt (ax (min2 b)) (ax (min2 a)) /\ flt (ax (max2 a)) (ax (max2 b)).
Proof.
  rewrite axis2_all. unfold bb2_is_inside. rewrite !(gtb_ltb LF), !andb_true_iff.
  unfold flt. change SFltb with (@nltb F64). tauto.
Qed.
Lemma has_inside3 (a b : bb3 F64) : bb3_has_inside a b = bb3_is_inside b a.
Proof. unfold bb3_has_inside, bb3_is_inside. rewrite !(gtb_ltb LF). reflexivity. Qed.
Lemma has_inside2 (a b : bb2 F64) : bb2_has_inside a b = bb2_is_inside b a.
Proof. unfold bb2_has_inside, bb2_is_inside. rewrite !(gtb_ltb LF). reflexivity. Qed.
Lemma inside3_irrefl (a : bb3 F64) : bb3_is_inside a a = false.
Proof. unfold bb3_is_inside. rewrite !(gtb_ltb LF), (ltb_irrefl LF). reflexivity. Qed.
Lemma inside2_irrefl (a : bb2 F64) : bb2_is_inside a a = false.
Proof. unfold bb2_is_inside. rewrite !(gtb_ltb LF), (ltb_irrefl LF). reflexivity. Qed.
Lemma inside3_trans (a b c : bb3 F64) : bb3_is_inside a b = true -> bb3_is_inside b c = true -> bb3_is_inside a c = true.
Proof.
  rewrite !inside3_iff. intros H G ax Hax. destruct (H ax Hax), (G ax Hax).
  split; eapply (ltb_trans LF); eassumption.
Qed.
Lemma inside2_trans (a b c : bb2 F64) : bb2_is_inside a b = true -> bb2_is_inside b c = true -> bb2_is_inside a c = true.
Proof.
  rewrite !inside2_iff. intros H G ax Hax. destruct (H ax Hax), (G ax Hax).
  split; eapply (ltb_trans LF); eassumption.
Qed.
Lemma inside3_contains (a b : bb3 F64) p : bb3_is_inside a b = true -> bb3_contains a p = true -> bb3_contains b p = true.
Proof.
  rewrite inside3_iff, !contains3_iff. intros H G ax Hax. destruct (H ax Hax), (G ax Hax).
  split; eapply (ltb_trans LF); eassumption.
Qed.
Lemma inside2_contains (a b : bb2 F64) p : bb2_is_inside a b = true -> bb2_contains a p = true -> bb2_contains b p = true.
Proof.
  rewrite inside2_iff, !contains2_iff. intros H G ax Hax. destruct (H ax Hax), (G ax Hax).
  split; eapply (ltb_trans LF); eassumption.
Qed.

(** ** Reals *)
Local Open Scope R_scope.
Ltac rcbn := cbn [T nadd nsub nmul ndiv nneg nabs nsqrt RN] in *; rewrite ?R_n0, ?R_n1, ?R_n2, ?R_nhalf in *.

Lemma size_R (lo hi : T RN) : lo < hi -> unwrap (positive_new (nabs (nsub hi lo))) = Ok (hi - lo).
Proof.
  intro H. unfold positive_new. rcbn. rewrite Rabs_pos_eq by lra.
  destruct (R_gtb_spec (hi - lo) 0); [reflexivity|lra].
Qed.
Lemma collide_axis_R (a1 a2 b1 b2 : T RN) : a1 < a2 -> b1 < b2 ->
  collide_axis (nadd a1 (ndiv (nsub a2 a1) n2)) (nadd b1 (ndiv (nsub b2 b1) n2))
    (unwrap (positive_new (nabs (nsub a2 a1)))) (unwrap (positive_new (nabs (nsub b2 b1))))
  = Ok (if Rlt_dec (Rmax a1 b1) (Rmin a2 b2) then true else false).
Proof.
  intros A B. rewrite !size_R by auto. cbn [collide_axis obind]. f_equal. rcbn.
  set (c := a1 + (a2 - a1) / 2 - (b1 + (b2 - b1) / 2)).
  assert (C : 2 * c = a1 + a2 - b1 - b2) by (unfold c; lra).
  destruct (R_ltb_spec (2 * Rabs c) (a2 - a1 + (b2 - b1))) as [H|H];
  destruct (Rlt_dec (Rmax a1 b1) (Rmin a2 b2)) as [G|G]; auto; exfalso;
  unfold Rmax, Rmin in G; unfold Rabs in H;
  destruct (Rle_dec a1 b1), (Rle_dec a2 b2), (Rcase_abs c); lra.
Qed.
Lemma overlap_iff (a1 a2 b1 b2 : R) : a1 < a2 -> b1 < b2 ->
  Rmax a1 b1 < Rmin a2 b2 <-> exists v, a1 < v < a2 /\ b1 < v < b2.
Proof.
  intros A B. split.
  - intro H. exists ((Rmax a1 b1 + Rmin a2 b2) / 2).
    unfold Rmax, Rmin in *. destruct (Rle_dec a1 b1), (Rle_dec a2 b2); lra.
  - intros (v & H1 & H2). unfold Rmax, Rmin. destruct (Rle_dec a1 b1), (Rle_dec a2 b2); lra.
Qed.

Lemma collides3_R a b : valid3 a -> valid3 b ->
  exists r, bb3_collides_with a b = Ok r /\ (r = true <-> exists p, interior3 a p /\ interior3 b p).
Proof.
  intros A B. unfold valid3 in A, B. rewrite axis3_all in A, B.
  destruct A as (A1 & A2 & A3), B as (B1 & B2 & B3).
  unfold bb3_collides_with, bb3_center, bb3_size_x, bb3_size_y, bb3_size_z. cbn [px py pz].
  rewrite !collide_axis_R by auto.
  eexists. split.
  { unfold res_and. cbn [obind].
    instantiate (1 := (if Rlt_dec (Rmax (px (min3 a)) (px (min3 b))) (Rmin (px (max3 a)) (px (max3 b))) then true else false)
     && ((if Rlt_dec (Rmax (py (min3 a)) (py (min3 b))) (Rmin (py (max3 a)) (py (max3 b))) then true else false)
     && (if Rlt_dec (Rmax (pz (min3 a)) (pz (min3 b))) (Rmin (pz (max3 a)) (pz (max3 b))) then true else false))).
    repeat (destruct Rlt_dec); reflexivity. }
  assert (X : forall P Q : Prop, forall d : {P} + {Q}, (P -> Q -> False) -> (if d then true else false) = true <-> P).
  { intros P Q d K. destruct d; split; auto; try discriminate; intro; exfalso; auto. }
  rewrite !andb_true_iff, !X by tauto. rewrite !overlap_iff by auto.
  unfold interior3. split.
  - intros ((x & Hx) & (y & Hy) & (z & Hz)). exists (@mk3 RN x y z).
    split; intros ? [->|[->| ->]]; cbn; tauto.
  - intros (p & Ha & Hb). rewrite axis3_all in Ha, Hb. firstorder.
Qed.
Lemma collides2_R a b : valid2 a -> valid2 b ->
  exists r, bb2_collides_with a b = Ok r /\ (r = true <-> exists p, interior2 a p /\ interior2 b p).
Proof.
  intros A B. unfold valid2 in A, B. rewrite axis2_all in A, B.
  destruct A as (A1 & A2), B as (B1 & B2).
  unfold bb2_collides_with, bb2_center, bb2_size_x, bb2_size_y. cbn [x2 y2].
  rewrite !collide_axis_R by auto.
  eexists. split.
  { unfold res_and. cbn [obind].
    instantiate (1 := (if Rlt_dec (Rmax (x2 (min2 a)) (x2 (min2 b))) (Rmin (x2 (max2 a)) (x2 (max2 b))) then true else false)
     && (if Rlt_dec (Rmax (y2 (min2 a)) (y2 (min2 b))) (Rmin (y2 (max2 a)) (y2 (max2 b))) then true else false)).
    repeat (destruct Rlt_dec); reflexivity. }
  assert (X : forall P Q : Prop, forall d : {P} + {Q}, (P -> Q -> False) -> (if d then true else false) = true <-> P).
  { intros P Q d K. destruct d; split; auto; try discriminate; intro; exfalso; auto. }
  rewrite !andb_true_iff, !X by tauto. rewrite !overlap_iff by auto.
  unfold interior2. split.
  - intros ((x & Hx) & (y & Hy)). exists (@mk2 RN x y).
    split; intros ? [->| ->]; cbn; tauto.
  - intros (p & Ha & Hb). rewrite axis2_all in Ha, Hb. firstorder.
Qed.

(** Distance of a value to an interval. *)
Definition idist (lo hi v : R) : R := Rmax (Rmax (lo - v) 0) (v - hi).
Definition clampR (lo hi v : R) : R := Rmax lo (Rmin v hi).
Lemma max3_R (a b c : T RN) : max_f64_3 a b c = Rmax (Rmax a b) c.
Proof. unfold max_f64_3. rewrite !R_max. reflexivity. Qed.
Lemma idist_clamp lo hi v : lo < hi -> lo <= clampR lo hi v <= hi /\ (idist lo hi v)^2 = (v - clampR lo hi v)^2.
Proof.
  intro H. unfold idist, clampR, Rmax, Rmin.
  destruct (Rle_dec (lo - v) 0), (Rle_dec v hi);
  repeat match goal with |- context [Rle_dec ?a ?b] => destruct (Rle_dec a b) end; split;
    first [lra | ring | (assert (v = hi) by lra; subst; ring) | (assert (v = lo) by lra; subst; ring)].
Qed.
Lemma idist_le lo hi v w : lo < hi -> lo <= w <= hi -> (idist lo hi v)^2 <= (v - w)^2.
Proof.
  intros H W. rewrite <- !Rsqr_pow2. apply Rsqr_le_abs_1. unfold idist, Rmax, Rabs.
  destruct (Rle_dec (lo - v) 0);
  [destruct (Rle_dec 0 (v - hi))|destruct (Rle_dec (lo - v) (v - hi))];
  repeat destruct Rcase_abs; lra.
Qed.
Lemma idist_zero lo hi v : lo < hi -> (idist lo hi v)^2 = 0 <-> lo <= v <= hi.
Proof.
  intro H. split.
  - intro E. assert (Z : idist lo hi v = 0). { destruct (Req_dec (idist lo hi v) 0) as [|K]; auto. pose proof (pow_nonzero _ 2 K). lra. }
    unfold idist, Rmax in Z. destruct (Rle_dec (lo - v) 0);
    [destruct (Rle_dec 0 (v - hi))|destruct (Rle_dec (lo - v) (v - hi))]; lra.
  - intro W. pose proof (idist_le lo hi v v H W). pose proof (pow2_ge_0 (idist lo hi v)). nra.
Qed.
Lemma nonneg_R (v : T RN) : 0 <= v -> unwrap (nonneg_new v) = Ok v.
Proof.
  intro H. unfold nonneg_new. rewrite R_n0. destruct (R_geb_spec v 0); [reflexivity|lra].
Qed.

Lemma sqr_distance3_R b p : valid3 b ->
  exists d, bb3_sqr_distance b p = Ok d /\ bb3_distance b p = Ok (sqrt d) /\
    (exists q, closed3 b q /\ d = sqd3 p q) /\
    (forall q, closed3 b q -> d <= sqd3 p q) /\
    (d = 0 <-> closed3 b p).
Proof.
  intro V. unfold valid3 in V. rewrite axis3_all in V. destruct V as (V1 & V2 & V3).
  unfold bb3_distance, bb3_sqr_distance. rewrite !max3_R. rcbn.
  fold (idist (px (min3 b)) (px (max3 b)) (px p)).
  fold (idist (py (min3 b)) (py (max3 b)) (py p)).
  fold (idist (pz (min3 b)) (pz (max3 b)) (pz p)).
  set (dx := idist (@px RN _) _ _). set (dy := idist (@py RN _) _ _). set (dz := idist (@pz RN _) _ _).
  assert (NN : 0 <= dx * dx + dy * dy + dz * dz) by nra.
  exists (dx * dx + dy * dy + dz * dz). rewrite nonneg_R by exact NN.
  split; [reflexivity|]. split.
  { cbn [obind]. apply nonneg_R. apply sqrt_pos. }
  split; [|split].
  - exists (@mk3 RN (clampR (px (min3 b)) (px (max3 b)) (px p)) (clampR (py (min3 b)) (py (max3 b)) (py p))
              (clampR (pz (min3 b)) (pz (max3 b)) (pz p))).
    destruct (idist_clamp _ _ (px p) V1) as [C1 E1], (idist_clamp _ _ (py p) V2) as [C2 E2],
      (idist_clamp _ _ (pz p) V3) as [C3 E3].
    split; [intros ? [->|[->| ->]]; cbn; auto|]. unfold sqd3. cbn [px py pz].
    rewrite <- E1, <- E2, <- E3. fold dx dy dz. ring.
  - intros q Q. unfold closed3 in Q. rewrite axis3_all in Q. destruct Q as (Q1 & Q2 & Q3). unfold sqd3.
    pose proof (idist_le _ _ (px p) _ V1 Q1). pose proof (idist_le _ _ (py p) _ V2 Q2).
    pose proof (idist_le _ _ (pz p) _ V3 Q3). fold dx in H. fold dy in H0. fold dz in H1. lra.
  - unfold closed3. rewrite axis3_all. rewrite <- !(idist_zero _ _ _ V1), <- !(idist_zero _ _ _ V2), <- !(idist_zero _ _ _ V3).
    fold dx dy dz. split; [intro; repeat split; nra|]. intros (?&?&?); lra.
Qed.
Lemma sqr_distance2_R b p : valid2 b ->
  exists d, bb2_sqr_distance b p = Ok d /\ bb2_distance b p = Ok (sqrt d) /\
    (exists q, closed2 b q /\ d = sqd2 p q) /\
    (forall q, closed2 b q -> d <= sqd2 p q) /\
    (d = 0 <-> closed2 b p).
Proof.
  intro V. unfold valid2 in V. rewrite axis2_all in V. destruct V as (V1 & V2).
  unfold bb2_distance, bb2_sqr_distance. rewrite !max3_R. rcbn.
  fold (idist (x2 (min2 b)) (x2 (max2 b)) (x2 p)).
  fold (idist (y2 (min2 b)) (y2 (max2 b)) (y2 p)).
  set (dx := idist (@x2 RN _) _ _). set (dy := idist (@y2 RN _) _ _).
  assert (NN : 0 <= dx * dx + dy * dy) by nra.
  exists (dx * dx + dy * dy). rewrite nonneg_R by exact NN.
  split; [reflexivity|]. split.
  { cbn [obind]. apply nonneg_R. apply sqrt_pos. }
  split; [|split].
  - exists (@mk2 RN (clampR (x2 (min2 b)) (x2 (max2 b)) (x2 p)) (clampR (y2 (min2 b)) (y2 (max2 b)) (y2 p))).
    destruct (idist_clamp _ _ (x2 p) V1) as [C1 E1], (idist_clamp _ _ (y2 p) V2) as [C2 E2].
    split; [intros ? [->| ->]; cbn; auto|]. unfold sqd2. cbn [x2 y2].
    rewrite <- E1, <- E2. fold dx dy. ring.
  - intros q Q. unfold closed2 in Q. rewrite axis2_all in Q. destruct Q as (Q1 & Q2). unfold sqd2.
    pose proof (idist_le _ _ (x2 p) _ V1 Q1). pose proof (idist_le _ _ (y2 p) _ V2 Q2).
    fold dx in H. fold dy in H0. lra.
  - unfold closed2. rewrite axis2_all. rewrite <- !(idist_zero _ _ _ V1), <- !(idist_zero _ _ _ V2).
    fold dx dy. split; [intro; repeat split; nra|]. intros (?&?); lra.
Qed.

(** Gap of two intervals. *)
Definition rgap (smin smax omin omax : R) : R := @gap_axis RN smin smax omin omax.
Lemma rgap_cases a1 a2 b1 b2 : a1 < a2 -> b1 < b2 ->
  (b2 < a1 /\ rgap a1 a2 b1 b2 = b2 - a1) \/
  (a1 <= b2 /\ a2 < b1 /\ rgap a1 a2 b1 b2 = b1 - a2) \/
  (a1 <= b2 /\ b1 <= a2 /\ rgap a1 a2 b1 b2 = 0).
Proof.
  intros A B. unfold rgap, gap_axis. rcbn. destruct (R_ltb_spec b2 a1); [left; auto|].
  destruct (R_gtb_spec b1 a2); right; [left|right]; repeat split; lra.
Qed.
Lemma rgap_attained a1 a2 b1 b2 : a1 < a2 -> b1 < b2 ->
  exists u v, a1 <= u <= a2 /\ b1 <= v <= b2 /\ (rgap a1 a2 b1 b2)^2 = (u - v)^2.
Proof.
  intros A B. destruct (rgap_cases a1 a2 b1 b2 A B) as [[H E]|[(H & H' & E)|(H & H' & E)]]; rewrite E.
  - exists a1, b2. repeat split; try lra; ring.
  - exists a2, b1. repeat split; try lra; ring.
  - exists (Rmax a1 b1), (Rmax a1 b1). unfold Rmax. destruct (Rle_dec a1 b1); repeat split; try lra; ring.
Qed.
Lemma rgap_le a1 a2 b1 b2 u v : a1 < a2 -> b1 < b2 -> a1 <= u <= a2 -> b1 <= v <= b2 ->
  (rgap a1 a2 b1 b2)^2 <= (u - v)^2.
Proof.
  intros A B U V. rewrite <- !Rsqr_pow2. apply Rsqr_le_abs_1.
  destruct (rgap_cases a1 a2 b1 b2 A B) as [[H E]|[(H & H' & E)|(H & H' & E)]]; rewrite E;
  unfold Rabs; repeat destruct Rcase_abs; lra.
Qed.
Lemma rgap_sym a1 a2 b1 b2 : a1 < a2 -> b1 < b2 -> (rgap a1 a2 b1 b2)^2 = (rgap b1 b2 a1 a2)^2.
Proof.
  intros A B. destruct (rgap_cases a1 a2 b1 b2 A B) as [[H E]|[(H & H' & E)|(H & H' & E)]];
  destruct (rgap_cases b1 b2 a1 a2 B A) as [[G F]|[(G & G' & F)|(G & G' & F)]]; rewrite E, F; try lra; ring.
Qed.
Lemma rgap_zero a1 a2 b1 b2 : a1 < a2 -> b1 < b2 ->
  (rgap a1 a2 b1 b2)^2 = 0 <-> exists v, a1 <= v <= a2 /\ b1 <= v <= b2.
Proof.
  intros A B. split.
  - intro E. destruct (rgap_attained a1 a2 b1 b2 A B) as (u & v & U & V & F). rewrite E in F.
    assert (u = v). { destruct (Req_dec (u - v) 0) as [|K]; [lra|]. pose proof (pow_nonzero _ 2 K). lra. }
    subst. eauto.
  - intros (v & U & V). pose proof (rgap_le a1 a2 b1 b2 v v A B U V).
    pose proof (pow2_ge_0 (rgap a1 a2 b1 b2)). nra.
Qed.

Lemma sqr_distance_bb3_R a b : valid3 a -> valid3 b ->
  exists d, bb3_sqr_distance_bb a b = Ok d /\ bb3_sqr_distance_bb b a = Ok d /\
    (exists p q, closed3 a p /\ closed3 b q /\ d = sqd3 p q) /\
    (forall p q, closed3 a p -> closed3 b q -> d <= sqd3 p q) /\
    (d = 0 <-> exists p, closed3 a p /\ closed3 b p).
Proof.
  intros A B. unfold valid3 in A, B. rewrite axis3_all in A, B.
  destruct A as (A1 & A2 & A3), B as (B1 & B2 & B3).
  unfold bb3_sqr_distance_bb. rcbn.
  change (@gap_axis RN) with rgap.
  pose proof (rgap_sym _ _ _ _ A1 B1) as S1. pose proof (rgap_sym _ _ _ _ A2 B2) as S2.
  pose proof (rgap_sym _ _ _ _ A3 B3) as S3.
  set (gx := rgap (px (min3 a)) _ _ _) in *. set (gy := rgap (py (min3 a)) _ _ _) in *.
  set (gz := rgap (pz (min3 a)) _ _ _) in *.
  set (hx := rgap (px (min3 b)) _ _ _) in *. set (hy := rgap (py (min3 b)) _ _ _) in *.
  set (hz := rgap (pz (min3 b)) _ _ _) in *.
  exists (gx * gx + gy * gy + gz * gz).
  rewrite nonneg_R by (unfold T, RN; nra).
  replace (hx * hx + hy * hy + hz * hz) with (gx * gx + gy * gy + gz * gz) by (ring_simplify; lra).
  rewrite nonneg_R by (unfold T, RN; nra).
  split; [reflexivity|]. split; [reflexivity|].
  split; [|split].
  - destruct (rgap_attained _ _ _ _ A1 B1) as (u1 & v1 & U1 & V1 & E1).
    destruct (rgap_attained _ _ _ _ A2 B2) as (u2 & v2 & U2 & V2 & E2).
    destruct (rgap_attained _ _ _ _ A3 B3) as (u3 & v3 & U3 & V3 & E3).
    fold gx in E1. fold gy in E2. fold gz in E3.
    exists (@mk3 RN u1 u2 u3), (@mk3 RN v1 v2 v3). split; [intros ? [->|[->| ->]]; cbn; auto|].
    split; [intros ? [->|[->| ->]]; cbn; auto|]. unfold sqd3. cbn [px py pz]. rewrite <- E1, <- E2, <- E3. ring.
  - intros p q P Q. unfold closed3 in P, Q. rewrite axis3_all in P, Q.
    destruct P as (P1 & P2 & P3), Q as (Q1 & Q2 & Q3). unfold sqd3.
    pose proof (rgap_le _ _ _ _ _ _ A1 B1 P1 Q1) as E1. pose proof (rgap_le _ _ _ _ _ _ A2 B2 P2 Q2) as E2.
    pose proof (rgap_le _ _ _ _ _ _ A3 B3 P3 Q3) as E3. fold gx in E1. fold gy in E2. fold gz in E3. lra.
  - pose proof (rgap_zero _ _ _ _ A1 B1) as Z1. pose proof (rgap_zero _ _ _ _ A2 B2) as Z2.
    pose proof (rgap_zero _ _ _ _ A3 B3) as Z3. fold gx in Z1. fold gy in Z2. fold gz in Z3. split.
    + intro E. destruct Z1 as [Z1 _], Z2 as [Z2 _], Z3 as [Z3 _].
      destruct Z1 as (u & U); [nra|]. destruct Z2 as (v & V); [nra|]. destruct Z3 as (w & W); [nra|].
      exists (@mk3 RN u v w). split; intros ? [->|[->| ->]]; cbn; tauto.
    + intros (p & P & Q). unfold closed3 in P, Q. rewrite axis3_all in P, Q.
      destruct Z1 as [_ Z1], Z2 as [_ Z2], Z3 as [_ Z3].
      assert (gx^2 = 0) by (apply Z1; exists (px p); tauto).
      assert (gy^2 = 0) by (apply Z2; exists (py p); tauto).
      assert (gz^2 = 0) by (apply Z3; exists (pz p); tauto). lra.
Qed.
Lemma sqr_distance_bb2_R a b : valid2 a -> valid2 b ->
  exists d, bb2_sqr_distance_bb a b = Ok d /\ bb2_sqr_distance_bb b a = Ok d /\
    (exists p q, closed2 a p /\ closed2 b q /\ d = sqd2 p q) /\
    (forall p q, closed2 a p -> closed2 b q -> d <= sqd2 p q) /\
    (d = 0 <-> exists p, closed2 a p /\ closed2 b p).
Proof.
  intros A B. unfold valid2 in A, B. rewrite axis2_all in A, B.
  destruct A as (A1 & A2), B as (B1 & B2).
  unfold bb2_sqr_distance_bb. rcbn.
  change (@gap_axis RN) with rgap.
  pose proof (rgap_sym _ _ _ _ A1 B1) as S1. pose proof (rgap_sym _ _ _ _ A2 B2) as S2.
  set (gx := rgap (x2 (min2 a)) _ _ _) in *. set (gy := rgap (y2 (min2 a)) _ _ _) in *.
  set (hx := rgap (x2 (min2 b)) _ _ _) in *. set (hy := rgap (y2 (min2 b)) _ _ _) in *.
  exists (gx * gx + gy * gy).
  rewrite nonneg_R by (unfold T, RN; nra).
  replace (hx * hx + hy * hy) with (gx * gx + gy * gy) by (ring_simplify; lra).
  rewrite nonneg_R by (unfold T, RN; nra).
  split; [reflexivity|]. split; [reflexivity|].
  split; [|split].
  - destruct (rgap_attained _ _ _ _ A1 B1) as (u1 & v1 & U1 & V1 & E1).
    destruct (rgap_attained _ _ _ _ A2 B2) as (u2 & v2 & U2 & V2 & E2).
    fold gx in E1. fold gy in E2.
    exists (@mk2 RN u1 u2), (@mk2 RN v1 v2). split; [intros ? [->| ->]; cbn; auto|].
    split; [intros ? [->| ->]; cbn; auto|]. unfold sqd2. cbn [x2 y2]. rewrite <- E1, <- E2. ring.
  - intros p q P Q. unfold closed2 in P, Q. rewrite axis2_all in P, Q.
    destruct P as (P1 & P2), Q as (Q1 & Q2). unfold sqd2.
    pose proof (rgap_le _ _ _ _ _ _ A1 B1 P1 Q1) as E1. pose proof (rgap_le _ _ _ _ _ _ A2 B2 P2 Q2) as E2.
    fold gx in E1. fold gy in E2. lra.
  - pose proof (rgap_zero _ _ _ _ A1 B1) as Z1. pose proof (rgap_zero _ _ _ _ A2 B2) as Z2.
    fold gx in Z1. fold gy in Z2. split.
    + intro E. destruct Z1 as [Z1 _], Z2 as [Z2 _].
      destruct Z1 as (u & U); [nra|]. destruct Z2 as (v & V); [nra|].
      exists (@mk2 RN u v). split; intros ? [->| ->]; cbn; tauto.
    + intros (p & P & Q). unfold closed2 in P, Q. rewrite axis2_all in P, Q.
      destruct Z1 as [_ Z1], Z2 as [_ Z2].
      assert (gx^2 = 0) by (apply Z1; exists (x2 p); tauto).
      assert (gy^2 = 0) by (apply Z2; exists (y2 p); tauto). lra.
Qed.

(** Move and scale. *)
Lemma move3_R b x y z : valid3 b -> valid3 (bb3_move_by b x y z).
Proof.
  intro V. unfold valid3 in *. rewrite axis3_all in *. cbn. lra.
Qed.
Lemma move2_R b x y : valid2 b -> valid2 (bb2_move_by b x y).
Proof.
  intro V. unfold valid2 in *. rewrite axis2_all in *. cbn. lra.
Qed.
Lemma scale3_R b f : valid3 b -> 0 < f ->
  exists b', bb3_scale b f = Ok b' /\ valid3 b' /\ forall ax, axis3 ax ->
    ax (max3 b') + ax (min3 b') = ax (max3 b) + ax (min3 b) /\
    ax (max3 b') - ax (min3 b') = f * (ax (max3 b) - ax (min3 b)).
Proof.
  intros V F. unfold valid3 in *. rewrite axis3_all in V. destruct V as (V1 & V2 & V3).
  unfold bb3_scale, bb3_size_x, bb3_size_y, bb3_size_z. rewrite !size_R by auto. cbn [obind].
  eexists. split; [reflexivity|]. rewrite !axis3_all. cbn [px py pz min3 max3 bb3_center]. rcbn.
  assert (forall u v, u < v -> u + (v - u) / 2 - 1 / 2 * f * (v - u) < u + (v - u) / 2 + 1 / 2 * f * (v - u)).
  { intros u v H. pose proof (Rmult_lt_0_compat f (v - u) F). lra. }
  split; [auto|]. repeat split; field.
Qed.
Lemma scale2_R b f : valid2 b -> 0 < f ->
  exists b', bb2_scale b f = Ok b' /\ valid2 b' /\ forall ax, axis2 ax ->
    ax (max2 b') + ax (min2 b') = ax (max2 b) + ax (min2 b) /\
    ax (max2 b') - ax (min2 b') = f * (ax (max2 b) - ax (min2 b)).
Proof.
  intros V F. unfold valid2 in *. rewrite axis2_all in V. destruct V as (V1 & V2).
  unfold bb2_scale, bb2_size_x, bb2_size_y. rewrite !size_R by auto. cbn [obind].
  eexists. split; [reflexivity|]. rewrite !axis2_all. cbn [x2 y2 min2 max2 bb2_center]. rcbn.
  assert (forall u v, u < v -> u + (v - u) / 2 - 1 / 2 * f * (v - u) < u + (v - u) / 2 + 1 / 2 * f * (v - u)).
  { intros u v H. pose proof (Rmult_lt_0_compat f (v - u) F). lra. }
  split; [auto|]. repeat split; field.
Qed.
Lemma move3_closed (b : bb3 RN) x y z (p : pt3 RN) : 
  closed3 (bb3_move_by b x y z) (rp3 (px p + x) (py p + y) (pz p + z)) <-> closed3 b p.
Proof. unfold closed3. rewrite !axis3_all. cbn. lra. Qed.
Lemma move2_closed (b : bb2 RN) x y (p : pt2 RN) :
  closed2 (bb2_move_by b x y) (rp2 (x2 p + x) (y2 p + y)) <-> closed2 b p.
Proof. unfold closed2. rewrite !axis2_all. cbn. lra. Qed.
