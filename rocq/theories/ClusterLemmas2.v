From Verif Require Import Base BaseLemmas Num NumLemmas BBoxModel GeomSpec BBoxLemmas FloatSpec FloatBridge WrapLemmas CompressLemmas CloudLemmas ClusterModel ClusterSpec ClusterLemmas.
From Coq Require Import Floats.SpecFloat Reals Lra Lia ZifyBool ZifyNat ZifyN.
From Flocq Require Import Core BinarySingleNaN.
Local Open Scope N_scope.

Lemma lit_int (k : Z) : (Z.abs k < 2 ^ 53)%Z -> f_finite (@lit F64 k 0) /\ fval (@lit F64 k 0) = IZR k.
Proof.
  intros H. cbn [lit F64]. rewrite binary_normalize_equiv. rewrite finite_B, fval_B.
  pose proof (binary_normalize_correct f64_prec f64_emax Hprec Hmax mode_NE k 0 false) as C. cbv zeta in C.
  assert (Q : F2R (Float radix2 k 0) = IZR k) by (unfold F2R; cbn; ring).
  rewrite Q in C. change (SpecFloat.fexp f64_prec f64_emax) with (FLT_exp (-1074) 53) in C. change (round_mode mode_NE) with ZnearestE in C.
  assert (G : rnd (IZR k) = IZR k).
  { apply rnd_id. apply generic_format_FLT. exists (Float radix2 k 0); [symmetry; exact Q|exact H|]. cbn. lia. }
  rewrite G in C. rewrite Rlt_bool_true in C; [destruct C as (A & B & _); auto|].
  apply Rlt_trans with (IZR (2 ^ 53)); [rewrite <- abs_IZR; apply IZR_lt, H|].
  change (2 ^ 53)%Z with (radix_val radix2 ^ 53)%Z. rewrite IZR_Zpower by lia. apply bpow_lt. unfold f64_emax. lia.
Qed.
Lemma incr_ok (size : T F64) (c : N) : is_double size -> flt n0 size -> c < 2 ^ 16 ->
  is_double (ndiv size (of_usize c)) /\ fle n0 (ndiv size (of_usize c)).
Proof.
  intros S P L. split; [apply double_div; [exact S|apply double_lit]|].
  destruct (N.eq_dec c 0) as [->|NZ].
  - change (@of_usize F64 0) with (S754_zero false : T F64). destruct size as [?|[]| |[] ? ?]; try discriminate P; reflexivity.
  - unfold of_usize. destruct (lit_int (Z.of_N c) ltac:(lia)) as [F V].
    apply div_nn_pos; [exact S|apply double_lit|apply pos_nn, P| |].
    + apply flt_val; [reflexivity|apply double_lit|exact I|exact F|]. rewrite V. change (fval n0) with 0%R. apply (IZR_lt 0). lia.
    + intros _ E. rewrite E in F. exact F.
Qed.

Lemma good_combine a b : good_box a -> good_box b ->
  good_box (bb3_combine a b) /\ box_le3 a (bb3_combine a b) /\ box_le3 b (bb3_combine a b).
Proof.
  intros (Da & Va & Fa) (Db & Vb & Fb).
  assert (NU : forall c : bb3 F64, (forall ax, axis3 ax -> finite (ax (min3 c)) /\ finite (ax (max3 c))) -> box_number3 c).
  { intros c H. split; intros ax A; destruct (H ax A) as [H1 H2]; intros E; [rewrite E in H1; exact H1|rewrite E in H2; exact H2]. }
  destruct (combine3_lub a b (NU a Fa) (NU b Fb)) as (_ & P & Q & _).
  split; [|auto]. split; [|split; [apply merge_valid3; auto|]].
  - intros ax A. destruct (Da ax A), (Db ax A). unfold bb3_combine. destruct A as [->|[->| ->]]; cbn [min3 max3 px py pz];
      split; match goal with |- is_double (if ?c then _ else _) => destruct c; assumption end.
  - intros ax A. destruct (Fa ax A), (Fb ax A). unfold bb3_combine. destruct A as [->|[->| ->]]; cbn [min3 max3 px py pz];
      split; match goal with |- finite (if ?c then _ else _) => destruct c; assumption end.
Qed.
Lemma fle_trans_f (a b c : T F64) : fle a b -> fle b c -> fle a c.
Proof.
  unfold fle. destruct a as [?|[]| |[] ma ea], b as [?|[]| |[] mb eb], c as [?|[]| |[] mc ec]; cbn; try discriminate; try reflexivity;
  intros H1 H2; unfold SFleb, SFcompare in *;
  repeat match goal with
  | H : context [Z.compare ?x ?y] |- _ => destruct (Z.compare_spec x y); subst
  | |- context [Z.compare ?x ?y] => destruct (Z.compare_spec x y); subst
  end; try lia; try discriminate; try reflexivity;
  repeat match goal with
  | H : context [Pcompare ?x ?y Eq] |- _ => change (Pcompare x y Eq) with (Pos.compare x y) in H; destruct (Pos.compare_spec x y); subst
  | |- context [Pcompare ?x ?y Eq] => change (Pcompare x y Eq) with (Pos.compare x y); destruct (Pos.compare_spec x y); subst
  end; try lia; try discriminate; try reflexivity.
Qed.
Lemma box_le_trans a b c : box_le3 a b -> box_le3 b c -> box_le3 a c.
Proof. intros H1 H2 ax A. destruct (H1 ax A), (H2 ax A). split; eapply fle_trans_f; eassumption. Qed.

Section All.
  Context {HB : Type} (bbox : HB -> bb3 F64).
  Lemma bb_all_F data : forall acc all, good_box acc -> (forall d, In d data -> good_box (bbox d)) ->
    fold_left (fun all x => match all with Some a => Some (bb3_combine a (bbox x)) | None => Some (bbox x) end) data (Some acc) = Some all ->
    good_box all /\ box_le3 acc all /\ forall d, In d data -> box_le3 (bbox d) all.
  Proof.
    induction data as [|d r IH]; intros acc all G H E; cbn [fold_left] in E.
    - injection E as <-. split; [exact G|]. split; [|intros d []]. intros ax A. destruct G as (_ & _ & F). destruct (F ax A) as [F1 F2].
      assert (Rf : forall x : T F64, finite x -> fle x x).
      { intros x Fx. destruct x as [[]|?| |[] mx ex]; try contradiction; try reflexivity; unfold fle, SFleb, SFcompare; rewrite Z.compare_refl;
          change (Pcompare mx mx Eq) with (Pos.compare mx mx); rewrite Pos.compare_refl; reflexivity. }
      split; apply Rf; assumption.
    - destruct (good_combine acc (bbox d) G (H d (or_introl eq_refl))) as (G' & L1 & L2).
      destruct (IH _ all G' (fun d I => H d (or_intror I)) E) as (A & B & C).
      split; [exact A|]. split; [eapply box_le_trans; eassumption|].
      intros e [<-|I]; [eapply box_le_trans; eassumption|apply C, I].
  Qed.
  Lemma fold_some {B} (f : B -> HB -> B) (g : HB -> B) data : forall acc, exists all,
    fold_left (fun o x => match o with Some a => Some (f a x) | None => Some (g x) end) data (Some acc) = Some all.
  Proof. induction data as [|d r IH]; intros acc; cbn [fold_left]; [eexists; reflexivity|apply IH]. Qed.

  Lemma cluster_complete data cx cy : data <> [] -> (forall d, In d data -> good_box (bbox d)) -> cx < 2 ^ 16 -> cy < 2 ^ 16 ->
    exists c, cluster_new f64_as bbox data cx cy = Ok c /\
      forall x y, is_double x -> finite x -> is_double y -> finite y ->
        exists k, for_each_candidate f64_as c x y = Ok (filter k data) /\
          forall d, In d data -> inside_xy (bbox d) x y -> k d = true.
  Proof.
    intros NE G Lx Ly. destruct data as [|d0 r]; [contradiction|].
    assert (Q : exists all, bb_all bbox (d0 :: r) = Some all /\ good_box all /\ forall d, In d (d0 :: r) -> box_le3 (bbox d) all).
    { unfold bb_all. cbn [fold_left].
      destruct (fold_some (fun a x => bb3_combine a (bbox x)) bbox r (bbox d0)) as [all E]. exists all. rewrite E. split; [reflexivity|].
      destruct (bb_all_F r (bbox d0) all) as (A & B & C); [apply G; left; reflexivity|intros d I; apply G; right; exact I|exact E|].
      split; [exact A|]. intros d [<-|I]; [exact B|apply C, I]. }
    destruct Q as (all & Q & (Da & Va & Fa) & LE). unfold cluster_new. rewrite Q.
    pose proof (Da px (or_introl eq_refl)) as [Dx1 Dx2]. pose proof (Da py (or_intror (or_introl eq_refl))) as [Dy1 Dy2].
    pose proof (Fa px (or_introl eq_refl)) as [Fx1 Fx2]. pose proof (Fa py (or_intror (or_introl eq_refl))) as [Fy1 Fy2].
    destruct (size_axis _ _ Dx1 Dx2 (Va px (or_introl eq_refl))) as [Sx Px].
    destruct (size_axis _ _ Dy1 Dy2 (Va py (or_intror (or_introl eq_refl)))) as [Sy Py].
    unfold bb3_size_x, bb3_size_y. rewrite Sx, Sy. cbn [obind].
    destruct (incr_ok _ cx (double_sub _ _ Dx2 Dx1) Px Lx) as [Ix Nx].
    destruct (incr_ok _ cy (double_sub _ _ Dy2 Dy1) Py Ly) as [Iy Ny].
    eexists. split; [reflexivity|]. intros x y X FX Y FY. eexists. split; [apply candidates_spec|].
    intros d I (H1 & H2 & H3 & H4). destruct (G d I) as (Dd & Vd & Fd).
    pose proof (Dd px (or_introl eq_refl)) as [Ex1 Ex2]. pose proof (Dd py (or_intror (or_introl eq_refl))) as [Ey1 Ey2].
    pose proof (Fd px (or_introl eq_refl)) as [Gx1 Gx2]. pose proof (Fd py (or_intror (or_introl eq_refl))) as [Gy1 Gy2].
    destruct (LE d I px (or_introl eq_refl)) as [Kx _]. destruct (LE d I py (or_intror (or_introl eq_refl))) as [Ky _].
    unfold reaches, within. cbn [fst snd]. rewrite !andb_true_iff, !N.leb_le.
    split; split; apply cell_mono; try assumption; eapply fle_trans_f; eassumption.
  Qed.
  Lemma cluster_empty cx cy : cluster_new f64_as bbox [] cx cy = Err BoundingBoxMissing.
  Proof. reflexivity. Qed.
End All.

(** ** Reals *)
Section Real.
  Context {HB : Type} (bbox : HB -> bb3 RN).
  Definition lo_of (ax : pt3 RN -> R) (d : HB) : R := ax (min3 (bbox d)).
  Definition hi_of (ax : pt3 RN -> R) (d : HB) : R := ax (max3 (bbox d)).
  Lemma Rmin_lt (a b : R) : (if @nltb RN a b then a else b) = Rmin a b.
  Proof. unfold nltb. cbn [ncmp RN]. unfold Rcmp, Rmin. destruct (total_order_T a b) as [[L|L]|L], (Rle_dec a b); lra. Qed.
  Lemma Rmax_gt (a b : R) : (if @ngtb RN a b then a else b) = Rmax b a.
  Proof. unfold ngtb. cbn [ncmp RN]. unfold Rcmp, Rmax. destruct (total_order_T a b) as [[L|L]|L], (Rle_dec b a); lra. Qed.
  Lemma bb_all_R (ax : pt3 RN -> R) (A : axis3 (NM:=RN) ax) data : forall acc all,
    fold_left (fun all x => match all with Some a => Some (bb3_combine a (bbox x)) | None => Some (bbox x) end) data (Some acc) = Some all ->
    spans (ax (min3 acc) :: map (lo_of ax) data) (ax (max3 acc) :: map (hi_of ax) data) (ax (min3 all)) (ax (max3 all)).
  Proof.
    induction data as [|d r IH]; intros acc all E; cbn [fold_left] in E.
    - injection E as <-. cbn [map]. split; [left; reflexivity|]. split; [left; reflexivity|]. split; intros v [<-|[]]; apply Rle_refl.
    - assert (C : ax (min3 (bb3_combine acc (bbox d))) = Rmin (ax (min3 (bbox d))) (ax (min3 acc)) /\
                  ax (max3 (bb3_combine acc (bbox d))) = Rmax (ax (max3 acc)) (ax (max3 (bbox d)))).
      { unfold bb3_combine. destruct A as [->|[->| ->]]; cbn [min3 max3 px py pz]; (split; [apply Rmin_lt|apply Rmax_gt]). }
      destruct C as [C1 C2].
      destruct (IH _ all E) as (I1 & I2 & I3 & I4). rewrite C1 in I1, I3. rewrite C2 in I2, I4. cbn [map].
      pose proof (Rmin_l (ax (min3 (bbox d))) (ax (min3 acc))) as M1. pose proof (Rmin_r (ax (min3 (bbox d))) (ax (min3 acc))) as M2.
      pose proof (Rmax_l (ax (max3 acc)) (ax (max3 (bbox d)))) as M3. pose proof (Rmax_r (ax (max3 acc)) (ax (max3 (bbox d)))) as M4.
      assert (N1 := I3 _ (or_introl eq_refl)). assert (N2 := I4 _ (or_introl eq_refl)).
      split; [|split; [|split]].
      + destruct I1 as [<-|I1]; [|right; right; exact I1]. unfold Rmin. match goal with |- context [Rle_dec ?a ?b] => destruct (Rle_dec a b) end; [right; left; reflexivity|left; reflexivity].
      + destruct I2 as [<-|I2]; [|right; right; exact I2]. unfold Rmax. match goal with |- context [Rle_dec ?a ?b] => destruct (Rle_dec a b) end; [right; left; reflexivity|left; reflexivity].
      + intros v [<-|[<-|I]]; [lra|unfold lo_of; lra|apply I3; right; exact I].
      + intros v [<-|[<-|I]]; [lra|unfold hi_of; lra|apply I4; right; exact I].
  Qed.
  Lemma spans_fun los his lo hi lo' hi' : spans los his lo hi -> spans los his lo' hi' -> lo = lo' /\ hi = hi'.
  Proof.
    intros (A & B & C & D) (A' & B' & C' & D'). pose proof (C _ A'). pose proof (C' _ A). pose proof (D _ B'). pose proof (D' _ B). split; lra.
  Qed.
  Lemma size_R (a b : R) : (a < b)%R -> unwrap (@positive_new RN (@nabs RN (@nsub RN b a))) = Ok (b - a)%R.
  Proof.
    intros L. cbn [nabs nsub RN]. rewrite Rabs_pos_eq by lra. unfold positive_new, ngtb, n0. cbn [ncmp lit RN]. unfold Rcmp.
    replace (0 * powerRZ 2 0)%R with 0%R by ring. destruct (total_order_T (b - a) 0) as [[?|?]|?]; try lra. reflexivity.
  Qed.
  Lemma Int_part_floor r : Int_part r = Zfloor r.
  Proof. symmetry. apply Zfloor_imp. rewrite plus_IZR. destruct (base_Int_part r). lra. Qed.
  Lemma cell_R (s i v : R) (c : N) (w : R) : (0 < i)%R -> w = (IZR (Z.of_N c) * i)%R -> c < 2 ^ 16 -> (s <= v <= s + w)%R ->
    (IZR (Z.of_N (cell (NM:=RN) real_as s i v)) <= (v - s) / i < IZR (Z.of_N (cell (NM:=RN) real_as s i v)) + 1)%R.
  Proof.
    intros PI W L H. unfold cell. cbn [nsub ndiv RN]. set (q := ((v - s) / i)%R).
    assert (Q : (0 <= q <= IZR (Z.of_N c))%R).
    { unfold q. split; [apply Rmult_le_pos; [lra|apply Rlt_le, Rinv_0_lt_compat, PI]|].
      apply (Rmult_le_reg_r i); [exact PI|]. unfold Rdiv. rewrite Rmult_assoc, Rinv_l, Rmult_1_r by lra. lra. }
    assert (F0 : (0 <= Zfloor q)%Z) by (apply Zfloor_lub; cbn; lra).
    assert (F1 : (Zfloor q <= Z.of_N c)%Z) by (apply le_IZR; pose proof (Zfloor_lb q); lra).
    unfold real_as. rewrite Int_part_floor. replace (N.min (2 ^ 16 - 1) (Z.to_N (Zfloor q))) with (Z.to_N (Zfloor q)) by lia.
    rewrite Z2N.id by exact F0. split; [apply Zfloor_lb|apply Zfloor_ub].
  Qed.
  Lemma cell_near (s i u v : R) (c : N) (w : R) : (0 < i)%R -> w = (IZR (Z.of_N c) * i)%R -> c < 2 ^ 16 ->
    (s <= u <= s + w)%R -> (s <= v <= s + w)%R -> cell (NM:=RN) real_as s i u <= cell (NM:=RN) real_as s i v -> (u < v + i)%R.
  Proof.
    intros PI W L U V C. pose proof (cell_R s i u c w PI W L U) as [U1 U2]. pose proof (cell_R s i v c w PI W L V) as [V1 V2].
    assert (C' : (IZR (Z.of_N (cell (NM:=RN) real_as s i u)) <= IZR (Z.of_N (cell (NM:=RN) real_as s i v)))%R) by (apply IZR_le; lia).
    assert (Q : ((u - s) / i < (v - s) / i + 1)%R) by lra.
    apply (Rmult_lt_compat_r i) in Q; [|exact PI]. rewrite Rmult_plus_distr_r in Q. unfold Rdiv in Q.
    rewrite !Rmult_assoc, !Rinv_l, !Rmult_1_r in Q by lra. lra.
  Qed.
  Lemma cluster_near data cx cy : data <> [] -> (forall d, In d data -> real_box (bbox d)) -> 0 < cx < 2 ^ 16 -> 0 < cy < 2 ^ 16 ->
    exists c, cluster_new real_as bbox data cx cy = Ok c /\
      forall lox hix loy hiy x y,
        spans (map (lo_of px) data) (map (hi_of px) data) lox hix ->
        spans (map (lo_of py) data) (map (hi_of py) data) loy hiy ->
        (lox <= x <= hix)%R -> (loy <= y <= hiy)%R ->
        exists l, for_each_candidate real_as c x y = Ok l /\ forall d, In d l -> In d data /\
          (lo_of px d - (hix - lox) / IZR (Z.of_N cx) < x < hi_of px d + (hix - lox) / IZR (Z.of_N cx))%R /\
          (lo_of py d - (hiy - loy) / IZR (Z.of_N cy) < y < hi_of py d + (hiy - loy) / IZR (Z.of_N cy))%R.
  Proof.
    intros NE G Lx Ly. destruct data as [|d0 r]; [contradiction|].
    assert (Q : exists all, bb_all bbox (d0 :: r) = Some all /\ forall ax : pt3 RN -> R, axis3 (NM:=RN) ax ->
      spans (map (lo_of ax) (d0 :: r)) (map (hi_of ax) (d0 :: r)) (ax (min3 all)) (ax (max3 all))).
    { unfold bb_all. cbn [fold_left].
      destruct (fold_some (fun a x => bb3_combine a (bbox x)) bbox r (bbox d0)) as [all E]. exists all. rewrite E. split; [reflexivity|].
      intros ax A. exact (bb_all_R ax A r (bbox d0) all E). }
    destruct Q as (all & Q & SP). unfold cluster_new. rewrite Q.
    pose proof (SP px (or_introl eq_refl)) as SX. pose proof (SP py (or_intror (or_introl eq_refl))) as SY.
    assert (LT : forall ax : pt3 RN -> R, axis3 (NM:=RN) ax -> (ax (min3 all) < ax (max3 all))%R).
    { intros ax A. destruct (SP ax A) as (_ & _ & C & D). specialize (C (lo_of ax d0) (or_introl eq_refl)). specialize (D (hi_of ax d0) (or_introl eq_refl)).
      pose proof (G d0 (or_introl eq_refl) ax A) as Z. unfold lo_of, hi_of in *. lra. }
    pose proof (LT px (or_introl eq_refl)) as LX. pose proof (LT py (or_intror (or_introl eq_refl))) as LY.
    unfold bb3_size_x, bb3_size_y. rewrite (size_R _ _ LX), (size_R _ _ LY). cbn [obind].
    eexists. split; [reflexivity|]. intros lox hix loy hiy x y Sx Sy X Y.
    destruct (spans_fun _ _ _ _ _ _ SX Sx) as [E1 E2]. destruct (spans_fun _ _ _ _ _ _ SY Sy) as [E3 E4].
    rewrite E1, E2 in *. rewrite E3, E4 in *.
    eexists. split; [apply candidates_spec|]. intros d I. apply filter_In in I as [I K]. split; [exact I|].
    unfold reaches, within in K. cbn [fst snd] in K. rewrite !andb_true_iff, !N.leb_le in K. destruct K as [[K1 K2] [K3 K4]].
    rewrite !lit_n in *. cbn [ndiv RN] in *.
    assert (PX : (0 < IZR (Z.of_N cx))%R) by (apply (IZR_lt 0); lia). assert (PY : (0 < IZR (Z.of_N cy))%R) by (apply (IZR_lt 0); lia).
    assert (IX : (0 < (hix - lox) / IZR (Z.of_N cx))%R) by (apply Rdiv_lt_0_compat; lra).
    assert (IY : (0 < (hiy - loy) / IZR (Z.of_N cy))%R) by (apply Rdiv_lt_0_compat; lra).
    assert (WX : (hix - lox)%R = (IZR (Z.of_N cx) * ((hix - lox) / IZR (Z.of_N cx)))%R) by (field; lra).
    assert (WY : (hiy - loy)%R = (IZR (Z.of_N cy) * ((hiy - loy) / IZR (Z.of_N cy)))%R) by (field; lra).
    assert (BX : (lox <= lo_of px d /\ hi_of px d <= hix /\ lo_of px d < hi_of px d)%R).
    { destruct Sx as (_ & _ & C & D). split; [apply C, in_map, I|]. split; [apply D, in_map, I|]. apply (G d I px). left. reflexivity. }
    assert (BY : (loy <= lo_of py d /\ hi_of py d <= hiy /\ lo_of py d < hi_of py d)%R).
    { destruct Sy as (_ & _ & C & D). split; [apply C, in_map, I|]. split; [apply D, in_map, I|]. apply (G d I py). right. left. reflexivity. }
    pose proof (cell_near lox _ (lo_of px d) x cx (hix - lox) IX WX (proj2 Lx) ltac:(lra) ltac:(lra) K1) as R1.
    pose proof (cell_near lox _ x (hi_of px d) cx (hix - lox) IX WX (proj2 Lx) ltac:(lra) ltac:(lra) K2) as R2.
    pose proof (cell_near loy _ (lo_of py d) y cy (hiy - loy) IY WY (proj2 Ly) ltac:(lra) ltac:(lra) K3) as R3.
    pose proof (cell_near loy _ y (hi_of py d) cy (hiy - loy) IY WY (proj2 Ly) ltac:(lra) ltac:(lra) K4) as R4.
    split; split; lra.
  Qed.
End Real.
