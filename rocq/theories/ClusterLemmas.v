From Verif Require Import Base BaseLemmas Num NumLemmas BBoxModel GeomSpec FloatSpec FloatBridge WrapLemmas CompressLemmas ClusterModel ClusterSpec.
From Coq Require Import Floats.SpecFloat Reals Lra Lia ZifyBool ZifyNat ZifyN.
From Flocq Require Import Core.
Local Open Scope N_scope.

(** ** The map *)
Lemma upto_In lo hi x : In x (upto lo hi) <-> lo <= x <= hi.
Proof.
  unfold upto. rewrite in_map_iff. split.
  - intros (i & <- & I). apply in_seq in I. lia.
  - intros H. exists (N.to_nat (x - lo)). split; [lia|]. apply in_seq. lia.
Qed.
Lemma upto_NoDup lo hi : NoDup (upto lo hi).
Proof.
  unfold upto. generalize (seq_NoDup (N.to_nat (hi + 1 - lo)) 0). generalize (seq 0 (N.to_nat (hi + 1 - lo))).
  induction l as [|a l IH]; intros D; [constructor|]. inversion D as [|? ? D1 D2]; subst. cbn [map]. constructor; [|apply IH, D2].
  rewrite in_map_iff. intros (b & E & I). assert (a = b) by lia. subst. contradiction.
Qed.
Definition within (lo hi x : N) : bool := (lo <=? x) && (x <=? hi).
Lemma inner_spec i cx l : NoDup l -> forall m k,
  fold_left (fun m cy => map_push m (cx, cy) i) l m k =
  m k ++ (if (fst k =? cx) && existsb (N.eqb (snd k)) l then [i] else []).
Proof.
  induction l as [|cy l IH]; intros D m k; cbn [fold_left existsb].
  - rewrite andb_false_r, app_nil_r. reflexivity.
  - inversion D as [|? ? D1 D2]; subst. rewrite IH by exact D2. unfold map_push. cbn [fst snd].
    destruct (N.eqb_spec (fst k) cx) as [Ex|Ex]; cbn [andb]; [|reflexivity].
    destruct (N.eqb_spec (snd k) cy) as [Ey|Ey]; cbn [orb]; [|reflexivity].
    assert (Q : existsb (N.eqb (snd k)) l = false).
    { destruct (existsb (N.eqb (snd k)) l) eqn:Q; [|reflexivity]. exfalso. apply existsb_exists in Q as (z & I & E).
      apply N.eqb_eq in E. apply D1. congruence. }
    rewrite Q, app_nil_r. reflexivity.
Qed.
Lemma outer_spec i ly l : NoDup ly -> NoDup l -> forall m k,
  fold_left (fun m cx => fold_left (fun m cy => map_push m (cx, cy) i) ly m) l m k =
  m k ++ (if existsb (N.eqb (fst k)) l && existsb (N.eqb (snd k)) ly then [i] else []).
Proof.
  intros Dy. induction l as [|cx l IH]; intros D m k; cbn [fold_left existsb].
  - rewrite app_nil_r. reflexivity.
  - inversion D as [|? ? D1 D2]; subst. rewrite IH by exact D2. rewrite inner_spec by exact Dy.
    destruct (N.eqb_spec (fst k) cx) as [Ex|Ex]; cbn [andb orb]; [|rewrite app_nil_r; reflexivity].
    assert (Q : existsb (N.eqb (fst k)) l = false).
    { destruct (existsb (N.eqb (fst k)) l) eqn:Q; [|reflexivity]. exfalso. apply existsb_exists in Q as (z & I & E).
      apply N.eqb_eq in E. apply D1. congruence. }
    rewrite Q, app_nil_r. reflexivity.
Qed.
Lemma existsb_upto lo hi x : existsb (N.eqb x) (upto lo hi) = within lo hi x.
Proof.
  unfold within. apply Bool.eq_true_iff_eq. rewrite existsb_exists, andb_true_iff, N.leb_le, N.leb_le. split.
  - intros (y & I & E). apply N.eqb_eq in E. subst. apply upto_In, I.
  - intros H. exists x. rewrite N.eqb_refl. split; [apply upto_In, H|reflexivity].
Qed.
Lemma map_range_spec i cx0 cx1 cy0 cy1 m k : map_range i cx0 cx1 cy0 cy1 m k =
  m k ++ (if within cx0 cx1 (fst k) && within cy0 cy1 (snd k) then [i] else []).
Proof. unfold map_range. rewrite outer_spec by apply upto_NoDup. rewrite !existsb_upto. reflexivity. Qed.

Section Map.
  Context {NM : Num} (cast : N -> T NM -> N) {HB : Type} (bbox : HB -> bb3 NM).
  Context (sx sy ix iy : T NM).
  (** The element reaches the cell. *)
  Definition reaches (k : N * N) (d : HB) : bool :=
    within (cell cast sx ix (px (min3 (bbox d)))) (cell cast sx ix (px (max3 (bbox d)))) (fst k) &&
    within (cell cast sy iy (py (min3 (bbox d)))) (cell cast sy iy (py (max3 (bbox d)))) (snd k).
  Fixpoint ids (k : HB -> bool) (data : list HB) (i : N) : list N :=
    match data with [] => [] | d :: r => (if k d then [i] else []) ++ ids k r (i + 1) end.
  Lemma map_all_spec data : forall i m k, map_all cast bbox sx sy ix iy data i m k = m k ++ ids (reaches k) data i.
  Proof.
    induction data as [|d r IH]; intros i m k; cbn [map_all ids]; [rewrite app_nil_r; reflexivity|].
    rewrite IH, map_range_spec, <- app_assoc. reflexivity.
  Qed.
  Lemma visited_ids k r : forall pre, visited (pre ++ r) (ids k r (lenN pre)) = Ok (filter k r).
  Proof.
    induction r as [|d r IH]; intros pre; [reflexivity|]. cbn [ids filter].
    assert (Q : visited (pre ++ d :: r) (ids k r (lenN pre + 1)) = Ok (filter k r)).
    { specialize (IH (pre ++ [d])). rewrite <- app_assoc in IH. cbn [app] in IH.
      rewrite <- IH. f_equal. f_equal. rewrite lenN_app. reflexivity. }
    destruct (k d); cbn [app]; [|exact Q]. cbn [visited].
    rewrite nthN_nth_error. unfold lenN at 1. rewrite Nat2N.id, nth_error_app2, Nat.sub_diag by lia. cbn [nth_error].
    rewrite Q. reflexivity.
  Qed.
  Lemma candidates_spec data x y : for_each_candidate cast
      (mkcl data (map_all cast bbox sx sy ix iy data 0 (fun _ => [])) sx sy ix iy) x y =
    Ok (filter (reaches (cell cast sx ix x, cell cast sy iy y)) data).
  Proof.
    unfold for_each_candidate. cbn [cl_data cl_map start_x incr_x start_y incr_y].
    rewrite map_all_spec. cbn [app]. apply (visited_ids _ data []).
  Qed.
End Map.

(** ** The casts *)
Lemma as_val bits (z : T F64) : f_finite z -> f64_as bits z = N.min (2 ^ bits - 1) (Z.to_N (Zfloor (fval z))).
Proof.
  intros F. destruct z as [s|s| |s m e]; cbn [f_finite] in F; try contradiction; unfold f64_as.
  - cbn [fval]. rewrite (Zfloor_IZR 0). lia.
  - assert (PP : (0 < IZR (Zpos m) * bpow radix2 e)%R) by (apply Rmult_lt_0_compat; [apply IZR_lt; lia|apply bpow_gt_0]).
    destruct s.
    + assert (L : (Zfloor (fval (S754_finite true m e)) < 0)%Z).
      { apply lt_IZR. eapply Rle_lt_trans; [apply Zfloor_lb|]. unfold fval. rewrite two_bpow. lra. }
      destruct (Zfloor (fval (S754_finite true m e))); [lia|lia|]. cbn. lia.
    + f_equal. f_equal. symmetry. apply Zfloor_imp. rewrite fval_split, plus_IZR.
      destruct (Z.leb_spec 0 e) as [G|G].
      * rewrite mult_IZR. change (2 ^ e)%Z with (radix_val radix2 ^ e)%Z. rewrite IZR_Zpower by exact G. lra.
      * set (d := (2 ^ (- e))%Z). assert (D0 : (0 < d)%Z) by (apply Z.pow_pos_nonneg; lia). assert (DR : (0 < IZR d)%R) by (apply IZR_lt; exact D0).
        assert (Eb : bpow radix2 e = (/ IZR d)%R). { unfold d. change (2 ^ (- e))%Z with (radix_val radix2 ^ (- e))%Z. rewrite IZR_Zpower by lia. rewrite <- bpow_opp. f_equal. lia. }
        rewrite Eb. pose proof (Z.div_mod (Zpos m) d ltac:(lia)) as DM. pose proof (Z.mod_pos_bound (Zpos m) d D0) as MB.
        set (qd := (Zpos m / d)%Z) in *. set (rd := (Zpos m mod d)%Z) in *. rewrite DM, plus_IZR, mult_IZR.
        replace ((IZR d * IZR qd + IZR rd) * / IZR d)%R with (IZR qd + IZR rd * / IZR d)%R by (field; lra).
        assert (0 <= IZR rd)%R by (apply IZR_le; lia). assert (IZR rd < IZR d)%R by (apply IZR_lt; lia).
        assert (0 < / IZR d)%R by (apply Rinv_0_lt_compat; exact DR). assert (IZR d * / IZR d = 1)%R by (apply Rinv_r; lra). nra.
Qed.
Lemma as_le_max bits z : f64_as bits z <= 2 ^ bits - 1.
Proof. destruct z as [s|[]| |[] m e]; unfold f64_as; lia. Qed.
Lemma as_mono bits (a b : T F64) : is_double a -> is_double b -> fle a b -> f64_as bits a <= f64_as bits b.
Proof.
  intros A B L.
  destruct b as [sb|[]| |sb mb eb]; [| | | |].
  4: { destruct a as [?|[]| |? ? ?]; discriminate L. }
  3: { apply (as_le_max bits a). }
  2: { destruct a as [[]|[]| |[] ? ?]; try discriminate L; cbn; lia. }
  1,2: destruct a as [sa|[]| |sa ma ea]; try discriminate L; try (destruct sb; discriminate L); try (cbn; lia);
    match goal with |- f64_as _ ?u <= f64_as _ ?v =>
      apply (fle_val u v A B I I) in L; rewrite !as_val by exact I end;
    pose proof (Zfloor_le _ _ L); lia.
Qed.
Lemma rounds_mono r1 r2 z1 z2 bits : (r1 <= r2)%R -> rounds r1 z1 -> rounds r2 z2 -> f64_as bits z1 <= f64_as bits z2.
Proof.
  intros L R1 R2. pose proof (rnd_le _ _ L) as M. pose proof top_pos as TP.
  destruct R1 as [(B1 & F1 & V1)|[(B1 & ->)|(B1 & ->)]].
  - destruct R2 as [(B2 & F2 & V2)|[(B2 & ->)|(B2 & ->)]].
    + rewrite !as_val by assumption. rewrite V1, V2. pose proof (Zfloor_le _ _ M). lia.
    + apply as_le_max.
    + apply Rabs_def2 in B1. lra.
  - destruct R2 as [(B2 & F2 & V2)|[(B2 & ->)|(B2 & ->)]]; [apply Rabs_def2 in B2; lra|lia|lra].
  - cbn. lia.
Qed.
Lemma div_mono bits (a b i : T F64) : is_double a -> is_double b -> is_double i -> fle n0 a -> fle a b -> fle n0 i ->
  f64_as bits (ndiv a i) <= f64_as bits (ndiv b i).
Proof.
  intros A B I' PA AB PI.
  assert (PB : fle n0 b).
  { destruct a as [?|[]| |[] ? ?], b as [?|[]| |[] ? ?]; try discriminate PA; try discriminate AB; reflexivity. }
  destruct (nn_cases i I' PI) as [->|[FI VI]].
  - destruct (nn_cases a A PA) as [->|[FA VA]]; [cbn; lia|]. destruct (div_fin_inf a FA) as [s ->]. cbn. lia.
  - destruct (Req_dec (fval i) 0) as [Z|NZ].
    + apply (is_zero_val i I' FI) in Z as [s ->].
      destruct a as [sa|[]| |[] ma ea]; try discriminate PA; try (cbn; lia);
      destruct b as [sb|[]| |[] mb eb]; try discriminate AB; try discriminate PB; try (destruct s; cbn; lia).
    + destruct (nn_cases a A PA) as [->|[FA VA]].
      * destruct (nn_cases b B PB) as [->|[FB VB]]; [lia|]. exfalso. destruct b; try contradiction; discriminate AB.
      * destruct (nn_cases b B PB) as [->|[FB VB]].
        -- rewrite (div_inf_fin i FI) by lra. apply as_le_max.
        -- apply (rounds_mono (fval a / fval i) (fval b / fval i)); [|apply div_val; auto|apply div_val; auto].
           apply (fle_val a b A B FA FB) in AB. apply Rmult_le_compat_r; [|exact AB].
           apply Rlt_le, Rinv_0_lt_compat. lra.
Qed.
Lemma sub_mono (s a b : T F64) : is_double s -> is_double a -> is_double b -> f_finite s -> f_finite a -> f_finite b ->
  fle s a -> fle a b -> fle n0 (nsub a s) /\ fle (nsub a s) (nsub b s).
Proof.
  intros S A B FS FA FB SA AB. apply (fle_val s a S A FS FA) in SA. apply (fle_val a b A B FA FB) in AB.
  pose proof (sub_val a s A S FA FS) as R1. pose proof (sub_val b s B S FB FS) as R2. pose proof top_pos.
  assert (M0 : (0 <= rnd (fval a - fval s))%R) by (apply rnd_nn; lra).
  assert (M : (rnd (fval a - fval s) <= rnd (fval b - fval s))%R) by (apply rnd_le; lra).
  split.
  - eapply rounds_nn; [apply double_sub; auto|exact R1|exact M0].
  - destruct R1 as [(B1 & F1 & V1)|[(B1 & ->)|(B1 & ->)]]; [| |lra].
    + destruct R2 as [(B2 & F2 & V2)|[(B2 & ->)|(B2 & ->)]]; [| |lra].
      * apply fle_val; auto using double_sub. rewrite V1, V2. exact M.
      * destruct (nsub a s) as [?|?| |? ? ?]; try contradiction; reflexivity.
    + destruct R2 as [(B2 & F2 & V2)|[(B2 & ->)|(B2 & ->)]]; [apply Rabs_def2 in B2; lra|reflexivity|lra].
Qed.
Lemma cell_mono (s i a b : T F64) : is_double s -> is_double i -> is_double a -> is_double b ->
  f_finite s -> f_finite a -> f_finite b -> fle n0 i -> fle s a -> fle a b -> cell f64_as s i a <= cell f64_as s i b.
Proof.
  intros S I' A B FS FA FB PI SA AB. destruct (sub_mono s a b S A B FS FA FB SA AB) as [M0 M].
  unfold cell. apply div_mono; auto using double_sub.
Qed.
