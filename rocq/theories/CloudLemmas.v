From Verif Require Import Base BaseLemmas Num NumLemmas SortSpec BBoxModel GeomSpec BBoxLemmas KdLemmas VecModel VecSpec VecLemmas OcModel LineModel MatrixSpec MatrixLemmas AabbSpec AabbLemmas FloatLemmas CloudModel CloudSpec VecModel.
From Coq Require Import Floats.SpecFloat Reals Lra Psatz Lia.
Local Open Scope R_scope.

(** ** Distances *)
Lemma dist3_R (p q : pt3 RN) : dist_3d p q = rdist3 p q. Proof. apply dist_R. Qed.
Lemma dist2_R (p q : pt2 RN) : dist_2d p q = rdist2 p q.
Proof. unfold dist_2d, rdist2, sqr_dist_2d, sqd2, nsq. cbn [nsqrt RN]. f_equal. cbn [nadd nsub nmul RN T]. toR; ring. Qed.
Lemma rdist3_sym p q : rdist3 p q = rdist3 q p. Proof. unfold rdist3, sqd3. f_equal. ring. Qed.
Lemma rdist2_sym p q : rdist2 p q = rdist2 q p. Proof. unfold rdist2, sqd2. f_equal. ring. Qed.
Lemma cs3 (a b c x y z : R) : a * x + b * y + c * z <= sqrt (a ^ 2 + b ^ 2 + c ^ 2) * sqrt (x ^ 2 + y ^ 2 + z ^ 2).
Proof.
  rewrite <- sqrt_mult by nra. apply Rle_trans with (Rabs (a * x + b * y + c * z)); [apply Rle_abs|].
  rewrite <- sqrt_Rsqr_abs. apply sqrt_le_1_alt. unfold Rsqr.
  pose proof (Rle_0_sqr (a * y - b * x)). pose proof (Rle_0_sqr (a * z - c * x)). pose proof (Rle_0_sqr (b * z - c * y)). unfold Rsqr in *. nra.
Qed.
Lemma norm_tri (a b c x y z : R) : sqrt ((a + x) ^ 2 + (b + y) ^ 2 + (c + z) ^ 2) <= sqrt (a ^ 2 + b ^ 2 + c ^ 2) + sqrt (x ^ 2 + y ^ 2 + z ^ 2).
Proof.
  pose proof (cs3 a b c x y z) as H.
  assert (A : 0 <= a ^ 2 + b ^ 2 + c ^ 2) by nra. assert (X : 0 <= x ^ 2 + y ^ 2 + z ^ 2) by nra.
  pose proof (sqrt_pos (a ^ 2 + b ^ 2 + c ^ 2)). pose proof (sqrt_pos (x ^ 2 + y ^ 2 + z ^ 2)).
  pose proof (sqrt_sqrt _ A). pose proof (sqrt_sqrt _ X).
  assert (S : 0 <= (a + x) ^ 2 + (b + y) ^ 2 + (c + z) ^ 2) by (pose proof (pow2_ge_0 (a + x)); pose proof (pow2_ge_0 (b + y)); pose proof (pow2_ge_0 (c + z)); lra).
  apply Rsqr_incr_0_var; [|lra]. rewrite Rsqr_sqrt by exact S. unfold Rsqr. nra.
Qed.
Lemma tri3 a b c : rdist3 a c <= rdist3 a b + rdist3 b c.
Proof.
  unfold rdist3, sqd3. pose proof (norm_tri (px a - px b) (py a - py b) (pz a - pz b) (px b - px c) (py b - py c) (pz b - pz c)) as H.
  replace (px a - px b + (px b - px c)) with (px a - px c) in H by (toR; ring).
  replace (py a - py b + (py b - py c)) with (py a - py c) in H by (toR; ring).
  replace (pz a - pz b + (pz b - pz c)) with (pz a - pz c) in H by (toR; ring). exact H.
Qed.
Lemma tri2 a b c : rdist2 a c <= rdist2 a b + rdist2 b c.
Proof.
  unfold rdist2, sqd2. pose proof (norm_tri (x2 a - x2 b) (y2 a - y2 b) 0 (x2 b - x2 c) (y2 b - y2 c) 0) as H.
  replace (x2 a - x2 b + (x2 b - x2 c)) with (x2 a - x2 c) in H by (toR; ring).
  replace (y2 a - y2 b + (y2 b - y2 c)) with (y2 a - y2 c) in H by (toR; ring).
  replace (0 + 0) with 0 in H by ring. replace (0 ^ 2) with 0 in H by ring. rewrite !Rplus_0_r in H. exact H.
Qed.

(** ** Paths *)
Lemma length_from_R {P} (dm d : P -> P -> R) : (forall p q, dm p q = d q p) ->
  forall ps p (acc : R), (@length_from RN P dm p ps acc : R) = acc + path d (p :: ps).
Proof.
  intros E. induction ps as [|q r IH]; intros p acc; cbn [length_from path].
  - symmetry. apply Rplus_0_r.
  - rewrite IH. cbn [nadd RN]. rewrite E. apply Rplus_assoc.
Qed.
Lemma pc3_length_R ps : pc3_length ps = path rdist3 ps.
Proof.
  destruct ps as [|p r]; [cbn [pc3_length path]; apply R_n0|]. unfold pc3_length.
  rewrite (length_from_R _ rdist3); [rewrite R_n0; apply Rplus_0_l|]. intros. rewrite dist3_R. apply rdist3_sym.
Qed.
Lemma pc2_length_R ps : pc2_length ps = path rdist2 ps.
Proof.
  destruct ps as [|p r]; [cbn [pc2_length path]; apply R_n0|]. unfold pc2_length.
  rewrite (length_from_R _ rdist2); [rewrite R_n0; apply Rplus_0_l|]. intros. rewrite dist2_R. apply rdist2_sym.
Qed.
Lemma last_cons {P} (r : list P) : forall q p, last (q :: r) p = last r q.
Proof. induction r as [|a r IH]; intros q p; [reflexivity|]. change (last (a :: r) p = last (a :: r) q). rewrite !IH. reflexivity. Qed.
Lemma path_ge {P} (d : P -> P -> R) : (forall a, d a a = 0) -> (forall a b c, d a c <= d a b + d b c) ->
  forall ps p, d p (last ps p) <= path d (p :: ps).
Proof.
  intros Z Tr. induction ps as [|q r IH]; intros p.
  - cbn [last path]. rewrite Z. lra.
  - specialize (IH q). cbn [path]. replace (last (q :: r) p) with (last r q); [specialize (Tr p q (last r q)); cbn [path] in *; lra|].
    symmetry. apply last_cons.
Qed.
Lemma path_app {P} (d : P -> P -> R) : forall ps p x, path d ((p :: ps) ++ [x]) = path d (p :: ps) + d (last ps p) x.
Proof.
  induction ps as [|q r IH]; intros p x.
  - cbn [app path last]. ring.
  - specialize (IH q x). cbn [app path] in *. rewrite IH. replace (last (q :: r) p) with (last r q); [ring|].
    symmetry. apply last_cons.
Qed.
Lemma rdist3_self a : rdist3 a a = 0.
Proof. unfold rdist3, sqd3. rewrite <- sqrt_0. f_equal. toR; ring. Qed.
Lemma rdist2_self a : rdist2 a a = 0.
Proof. unfold rdist2, sqd2. rewrite <- sqrt_0. f_equal. toR; ring. Qed.

(** ** Means *)
Lemma Some_inj {A} (a b : A) : Some a = Some b -> a = b. Proof. congruence. Qed.
Lemma lit_n (n : N) : @of_usize RN n = IZR (Z.of_N n).
Proof. unfold of_usize. cbn. ring. Qed.
Lemma fold_sum3 ax : axis3 ax -> forall (ps : list (pt3 RN)) s,
  ax (fold_left (fun s p => mk3 (nadd (px s) (px p)) (nadd (py s) (py p)) (nadd (pz s) (pz p))) ps s) = ax s + total (map ax ps).
Proof.
  intros A ps. induction ps as [|p ps IH]; intros s; cbn [fold_left map total fold_right]; [symmetry; apply Rplus_0_r|].
  rewrite IH. unfold total. destruct A as [->|[->| ->]]; cbn [px py pz fold_right]; apply Rplus_assoc.
Qed.
Lemma fold_sum2 ax : axis2 ax -> forall (ps : list (pt2 RN)) s,
  ax (fold_left (fun s p => mk2 (nadd (x2 s) (x2 p)) (nadd (y2 s) (y2 p))) ps s) = ax s + total (map ax ps).
Proof.
  intros A ps. induction ps as [|p ps IH]; intros s; cbn [fold_left map total fold_right]; [symmetry; apply Rplus_0_r|].
  rewrite IH. unfold total. destruct A as [->| ->]; cbn [x2 y2 fold_right]; apply Rplus_assoc.
Qed.
Lemma cog3_R (ps : list (pt3 RN)) c : pc3_cog ps = Some c -> forall ax, axis3 ax -> ax c = total (map ax ps) / INR (length ps).
Proof.
  destruct ps as [|p r]; [discriminate|]. unfold pc3_cog, sum_3d. intros H ax A. apply Some_inj in H. subst c.
  pose proof (fold_sum3 ax A (p :: r) (mk3 n0 n0 n0)) as F. rewrite lit_n. unfold lenN. rewrite nat_N_Z, <- INR_IZR_INZ.
  set (s := fold_left _ _ _) in *. clearbody s. assert (Z : ax (@mk3 RN n0 n0 n0) = 0) by (destruct A as [->|[->| ->]]; cbn [px py pz]; apply R_n0).
  rewrite Z, Rplus_0_l in F. rewrite <- F. destruct A as [->|[->| ->]]; reflexivity.
Qed.
Lemma cog2_R (ps : list (pt2 RN)) c : pc2_cog ps = Some c -> forall ax, axis2 ax -> ax c = total (map ax ps) / INR (length ps).
Proof.
  destruct ps as [|p r]; [discriminate|]. unfold pc2_cog. intros H ax A. apply Some_inj in H. subst c.
  pose proof (fold_sum2 ax A (p :: r) (mk2 n0 n0)) as F. rewrite lit_n. unfold lenN. rewrite nat_N_Z, <- INR_IZR_INZ.
  set (s := fold_left _ _ _) in *. clearbody s. assert (Z : ax (@mk2 RN n0 n0) = 0) by (destruct A as [->| ->]; cbn [x2 y2]; apply R_n0).
  rewrite Z, Rplus_0_l in F. rewrite <- F. destruct A as [->| ->]; reflexivity.
Qed.
Lemma mean_between {P} (f : P -> R) lo hi ps : ps <> [] -> (forall p, In p ps -> lo <= f p <= hi) ->
  lo <= total (map f ps) / INR (length ps) <= hi.
Proof.
  intros NE H. assert (L : 0 < INR (length ps)) by (destruct ps; [congruence|]; apply lt_0_INR; cbn; lia).
  assert (G : INR (length ps) * lo <= total (map f ps) <= INR (length ps) * hi).
  { clear NE L. induction ps as [|p r IH]; [cbn; lra|]. cbn [map length]. unfold total in *. cbn [fold_right]. rewrite S_INR.
    pose proof (H p (or_introl eq_refl)). specialize (IH (fun q I => H q (or_intror I))). lra. }
  split; (apply Rmult_le_reg_r with (INR (length ps)); [exact L|]); unfold Rdiv; rewrite Rmult_assoc, Rinv_l by lra; lra.
Qed.

(** ** Ray and triangle *)
Lemma ray_unique (l : line3 RN) a b c p u v w t : rdot3 (area_vec a b c) (dir l) <> 0 ->
  p = at_param l t -> u + v + w = 1 -> p = weighted u v w a b c ->
  t = - rdot3 (area_vec a b c) (rp3 (px (anchor l) - px a) (py (anchor l) - py a) (pz (anchor l) - pz a)) / rdot3 (area_vec a b c) (dir l).
Proof.
  intros D E S W. apply Rmult_eq_reg_r with (rdot3 (area_vec a b c) (dir l)); [|exact D].
  unfold Rdiv. rewrite Rmult_assoc, Rinv_l by exact D.
  assert (P0 : rdot3 (area_vec a b c) (rp3 (px p - px a) (py p - py a) (pz p - pz a)) = 0).
  { rewrite W. replace u with (1 - v - w) by lra. unfold rdot3, area_vec, weighted, rp3. cbn [px py pz]. toR; ring. }
  rewrite E in P0. unfold rdot3, at_param, rp3 in *. cbn [px py pz] in *. toR; lra.
Qed.

Lemma ray_triangle_R (l : line3 RN) (a b c : pt3 RN) : exists o, intersection_ray_triangle l a b c = Ok o /\
  forall p, o = Some p <-> crosses l a b c p.
Proof.
  unfold intersection_ray_triangle. destruct (normal_of_face_R a b c) as (n & -> & NN). cbn [obind].
  set (A := area_vec a b c) in *.
  set (w := rp3 (px (anchor l) - px a) (py (anchor l) - py a) (pz (anchor l) - pz a)).
  change (vsub3 (anchor l) a) with w. change (@dot3 RN) with rdot3 in *.
  assert (SUM : forall p m, rdot3 m (cross3 (vsub3 b a) (vsub3 p a)) + rdot3 m (cross3 (vsub3 c b) (vsub3 p b)) + rdot3 m (cross3 (vsub3 a c) (vsub3 p c)) = rdot3 m A).
  { intros. unfold A, rdot3, cross3, vsub3, area_vec. cbn [px py pz]. toR; cbn [T RN nadd nsub nmul]; ring. }
  destruct NN as [Z|(k & K & KX & KY & KZ)].
  - (* no area *)
    assert (NC : forall p, ~ crosses l a b c p).
    { intros p (H & _). apply H. apply rsq3_zero in Z. destruct Z as (Z1 & Z2 & Z3). fold A. unfold rdot3. rewrite Z1, Z2, Z3. toR; ring. }
    assert (NA : rdot3 n A = 0).
    { apply rsq3_zero in Z. destruct Z as (Z1 & Z2 & Z3). unfold rdot3. rewrite Z1, Z2, Z3. toR; ring. }
    destruct (R_eqb_spec (rdot3 n (dir l)) n0) as [E0|E0]; [exists None; split; [reflexivity|intros p; split; [discriminate|intros C; destruct (NC p C)]]|].
    destruct (R_leb_spec (@ndiv RN (@nneg RN (rdot3 n w)) (rdot3 n (dir l))) n0) as [E1|E1]; [exists None; split; [reflexivity|intros p; split; [discriminate|intros C; destruct (NC p C)]]|].
    set (p := pt3_add _ _). change (@dot3 RN) with rdot3 in *. specialize (SUM p n). rewrite NA in SUM.
    destruct (R_leb_spec (rdot3 n (cross3 (vsub3 b a) (vsub3 p a))) n0) as [L1|L1]; [exists None; split; [reflexivity|intros q; split; [discriminate|intros C; destruct (NC q C)]]|].
    destruct (R_leb_spec (rdot3 n (cross3 (vsub3 c b) (vsub3 p b))) n0) as [L2|L2]; [exists None; split; [reflexivity|intros q; split; [discriminate|intros C; destruct (NC q C)]]|].
    destruct (R_leb_spec (rdot3 n (cross3 (vsub3 a c) (vsub3 p c))) n0) as [L3|L3]; [exists None; split; [reflexivity|intros q; split; [discriminate|intros C; destruct (NC q C)]]|].
    rewrite R_n0 in *. lra.
  - assert (KD : forall v, rdot3 A v = k * rdot3 n v).
    { intros v. unfold rdot3. rewrite KX, KY, KZ. toR; ring. }
    assert (A0 : crosses l a b c = fun p => crosses l a b c p) by reflexivity. clear A0.
    destruct (R_eqb_spec (rdot3 n (dir l)) n0) as [E|E].
    { exists None. split; [reflexivity|]. intros p. split; [discriminate|]. intros (D & _). exfalso. apply D. fold A. rewrite KD, E, R_n0. ring. }
    rewrite R_n0 in E. assert (DD : rdot3 A (dir l) <> 0) by (rewrite KD; intros X; apply Rmult_integral in X; destruct X; [lra|auto]).
    set (r := @ndiv RN (@nneg RN (rdot3 n w)) (rdot3 n (dir l))).
    assert (RR : r = - rdot3 A w / rdot3 A (dir l)).
    { toR. unfold r. cbn [ndiv nneg RN]. rewrite !KD. field. split; [exact E|lra]. }
    assert (U : forall p, crosses l a b c p -> 0 < r /\ p = at_param l r).
    { intros p (_ & (t & T0 & PE) & (u & v & x & _ & _ & _ & S & W)).
      pose proof (ray_unique l a b c p u v x t DD PE S W) as TE. fold A in TE. fold w in TE. rewrite <- RR in TE. subst t. auto. }
    destruct (R_leb_spec r n0) as [L|L].
    { exists None. split; [reflexivity|]. intros p. split; [discriminate|]. intros C. destruct (U p C) as [X _]. rewrite R_n0 in L. exfalso. cbn [T RN] in *. lra. }
    assert (R0 : 0 < r) by (rewrite R_n0 in L; cbn [T RN] in *; lra). clear L.
    set (p := pt3_add (anchor l) (norm3_mul (dir l) r)). assert (PP : p = at_param l r) by reflexivity.
    change (@dot3 RN) with rdot3 in *.
    assert (PL : rdot3 A (vsub3 p a) = 0).
    { rewrite PP. unfold vsub3, at_param, rp3. transitivity (rdot3 A w + r * rdot3 A (dir l)).
      - unfold rdot3, w, rp3. cbn [px py pz]. toR; cbn [T RN nadd nsub nmul]; ring.
      - rewrite RR. unfold Rdiv. rewrite Rmult_assoc, Rinv_l by exact DD. ring. }
    set (s1 := rdot3 A (cross3 (vsub3 b a) (vsub3 p a))). set (s2 := rdot3 A (cross3 (vsub3 c b) (vsub3 p b))). set (s3 := rdot3 A (cross3 (vsub3 a c) (vsub3 p c))).
    assert (SS : s1 + s2 + s3 = rsq3 A) by (apply SUM).
    assert (Q : 0 < rsq3 A). { pose proof (rsq3_nonneg A) as G. destruct (Req_dec (rsq3 A) 0) as [X|X]; [|cbn [T RN] in *; lra]. exfalso. apply DD. apply rsq3_zero in X. destruct X as (X1 & X2 & X3). unfold rdot3. rewrite X1, X2, X3. toR; ring. }
    assert (WT : forall u v x, u + v + x = 1 -> p = weighted u v x a b c -> s2 = u * rsq3 A /\ s3 = v * rsq3 A /\ s1 = x * rsq3 A).
    { intros u v x S W. replace u with (1 - v - x) by lra. unfold s1, s2, s3. rewrite W. replace u with (1 - v - x) by lra. unfold rsq3, A, rdot3, cross3, vsub3, area_vec, weighted, rp3. cbn [px py pz].
      split; [|split]; toR; cbn [T RN nadd nsub nmul]; ring. }
    assert (BW : p = weighted (s2 / rsq3 A) (s3 / rsq3 A) (s1 / rsq3 A) a b c).
    { assert (H : forall ax, axis3 ax -> rsq3 A * (ax p - ax a) = s3 * (ax b - ax a) + s1 * (ax c - ax a) + rdot3 A (vsub3 p a) * ax A).
      { intros ax [->|[->| ->]]; unfold s1, s3, rsq3, A, rdot3, cross3, vsub3, area_vec; cbn [px py pz]; toR; cbn [T RN nadd nsub nmul]; ring. }
      assert (H' : forall ax, axis3 ax -> ax p = s2 / rsq3 A * ax a + s3 / rsq3 A * ax b + s1 / rsq3 A * ax c).
      { intros ax X. specialize (H ax X). rewrite PL, Rmult_0_l, Rplus_0_r in H. apply Rmult_eq_reg_l with (rsq3 A); [|lra].
        replace s2 with (rsq3 A - s1 - s3) by lra. transitivity (rsq3 A * (ax p - ax a) + rsq3 A * ax a); [toR; cbn [T RN]; ring|]. rewrite H. toR; cbn [T RN]. field. cbn [T RN] in *. lra. }
      destruct p as [x y z]. unfold weighted, rp3. f_equal.
      - exact (H' px (or_introl eq_refl)).
      - exact (H' py (or_intror (or_introl eq_refl))).
      - exact (H' pz (or_intror (or_intror eq_refl))). }
    assert (KS1 : s1 = k * rdot3 n (cross3 (vsub3 b a) (vsub3 p a))) by apply KD.
    assert (KS2 : s2 = k * rdot3 n (cross3 (vsub3 c b) (vsub3 p b))) by apply KD.
    assert (KS3 : s3 = k * rdot3 n (cross3 (vsub3 a c) (vsub3 p c))) by apply KD.
    assert (POS : forall t : R, 0 < k * t <-> 0 < t).
    { intros t. split; intros H; [|apply Rmult_lt_0_compat; lra]. apply Rmult_lt_reg_l with k; [exact K|]. rewrite Rmult_0_r. exact H. }
    assert (IFF : (0 < s1 /\ 0 < s2 /\ 0 < s3) -> crosses l a b c p).
    { intros (S1 & S2 & S3). split; [exact DD|]. split; [exists r; auto|]. exists (s2 / rsq3 A), (s3 / rsq3 A), (s1 / rsq3 A).
      split; [apply Rdiv_lt_0_compat; lra|]. split; [apply Rdiv_lt_0_compat; lra|]. split; [apply Rdiv_lt_0_compat; lra|]. split; [|exact BW].
      rewrite <- SS. field. lra. }
    assert (ONLY : forall q, crosses l a b c q -> q = p /\ 0 < s1 /\ 0 < s2 /\ 0 < s3).
    { intros q C. destruct (U q C) as [_ QE]. assert (q = p) by (rewrite PP; exact QE). subst q. split; [reflexivity|].
      destruct C as (_ & _ & (u & v & x & U1 & U2 & U3 & S & W)). destruct (WT u v x S W) as (-> & -> & ->).
      split; [|split]; apply Rmult_lt_0_compat; assumption. }
    assert (NO : ~ (0 < s1 /\ 0 < s2 /\ 0 < s3) -> forall q, None = Some q <-> crosses l a b c q).
    { intros N q. split; [discriminate|]. intros C. destruct (ONLY q C) as (_ & C'). contradiction. }
    rewrite R_n0.
    destruct (R_leb_spec (rdot3 n (cross3 (vsub3 b a) (vsub3 p a))) 0) as [L1|L1].
    { exists None. split; [reflexivity|]. apply NO. intros (X & _). rewrite KS1, POS in X. cbn [T RN] in *. lra. }
    destruct (R_leb_spec (rdot3 n (cross3 (vsub3 c b) (vsub3 p b))) 0) as [L2|L2].
    { exists None. split; [reflexivity|]. apply NO. intros (_ & X & _). rewrite KS2, POS in X. cbn [T RN] in *. lra. }
    destruct (R_leb_spec (rdot3 n (cross3 (vsub3 a c) (vsub3 p c))) 0) as [L3|L3].
    { exists None. split; [reflexivity|]. apply NO. intros (_ & _ & X). rewrite KS3, POS in X. cbn [T RN] in *. lra. }
    exists (Some p). split; [reflexivity|]. intros q. split.
    + intros [= <-]. apply IFF. rewrite KS1, KS2, KS3, !POS. cbn [T RN] in *. lra.
    + intros C. destruct (ONLY q C) as [-> _]. reflexivity.
Qed.

(** ** The closest hit *)
Section Closest.
Context {X : Type} (l : line3 RN) (bbox : X -> option (bb3 RN)).
Definition hit_of (x : X) : option (pt3 RN) := match bbox x with Some b => intersection l b | None => None end.
Definition far (p : pt3 RN) : R := sqr_dist_3d (anchor l) p.
(** the invariant: the current result is the first of the closest hits so far *)
Definition best (pre : list X) (r : option (pt3 RN * X)) : Prop :=
  match r with
  | None => forall y, In y pre -> hit_of y = None
  | Some (i, x) => exists u v, pre = u ++ x :: v /\ hit_of x = Some i /\
      (forall y j, In y u -> hit_of y = Some j -> far i < far j) /\
      (forall y j, In y v -> hit_of y = Some j -> far i <= far j)
  end.
Lemma step_best pre r x : best pre r -> best (pre ++ [x]) (closest_step l r (bbox x) x).
Proof.
  intros H. unfold closest_step.
  assert (K : hit_of x = None -> best (pre ++ [x]) r).
  { intros E. destruct r as [[i z]|]; cbn [best] in *.
    - destruct H as (u & v & -> & HZ & A & B). exists u, (v ++ [x]). rewrite <- app_assoc. split; [reflexivity|]. split; [exact HZ|]. split; [exact A|].
      intros y j Y. apply in_app_or in Y. destruct Y as [Y|[<-|[]]]; [apply B, Y|congruence].
    - intros y Y. apply in_app_or in Y. destruct Y as [Y|[<-|[]]]; auto. }
  unfold hit_of in K. destruct (bbox x) as [b|] eqn:EB; [|apply K; reflexivity].
  destruct (intersection l b) as [i|] eqn:EI; [|apply K; reflexivity]. clear K.
  assert (HX : hit_of x = Some i) by (unfold hit_of; rewrite EB; exact EI).
  destruct r as [[q z]|]; cbn [best] in H.
  - destruct H as (u & v & -> & HZ & A & B). destruct (R_ltb_spec (sqr_dist_3d (anchor l) i) (sqr_dist_3d (anchor l) q)) as [L|L]; cbn [best].
    + exists (u ++ z :: v), []. split; [reflexivity|]. split; [exact HX|]. split; [|intros y j []].
      intros y j Y HY. unfold far in *. apply in_app_or in Y. destruct Y as [Y|[<-|Y]].
      * specialize (A y j Y HY). cbn [T RN] in *. lra.
      * assert (j = q) by congruence. subst j. exact L.
      * specialize (B y j Y HY). cbn [T RN] in *. lra.
    + exists u, (v ++ [x]). rewrite <- app_assoc. split; [reflexivity|]. split; [exact HZ|]. split; [exact A|].
      intros y j Y HY. apply in_app_or in Y. destruct Y as [Y|[<-|[]]]; [exact (B y j Y HY)|].
      assert (j = i) by congruence. subst j. unfold far. cbn [T RN] in *. lra.
  - exists pre, []. split; [reflexivity|]. split; [exact HX|]. split; [|intros y j []].
    intros y j Y HY. rewrite (H y Y) in HY. discriminate.
Qed.
Lemma closest_best : forall xs pre r, best pre r -> best (pre ++ xs) (fold_left (fun r x => closest_step l r (bbox x) x) xs r).
Proof.
  induction xs as [|x xs IH]; intros pre r H; cbn [fold_left]; [rewrite app_nil_r; exact H|].
  replace (pre ++ x :: xs) with ((pre ++ [x]) ++ xs) by (rewrite <- app_assoc; reflexivity). apply IH, step_best, H.
Qed.
End Closest.
(** the index variant does the same with positions *)
Lemma index_fold {NM : Num} {X} (ray : line3 NM) (bbox : X -> option (bb3 NM)) : forall xs k (r : option (pt3 NM * N)) (r' : option (pt3 NM * X)) pre,
  k = lenN pre -> (match r, r' with None, None => True | Some (p, i), Some (q, x) => p = q /\ nthN (pre ++ xs) i = Some x /\ (i < k)%N | _, _ => False end) ->
  match fst (fold_left (fun s x => (closest_step ray (fst s) (bbox x) (snd s), N.succ (snd s))) xs (r, k)), fold_left (fun r x => closest_step ray r (bbox x) x) xs r' with
  | None, None => True | Some (p, i), Some (q, x) => p = q /\ nthN (pre ++ xs) i = Some x | _, _ => False end.
Proof.
  induction xs as [|x xs IH]; intros k r r' pre K H; cbn [fold_left fst].
  - destruct r as [[p i]|], r' as [[q y]|]; auto. destruct H as (-> & H & _). auto.
  - cbn [snd]. replace (pre ++ x :: xs) with ((pre ++ [x]) ++ xs) in * by (rewrite <- app_assoc; reflexivity).
    apply IH; [rewrite lenN_app; subst k; unfold lenN; cbn [length]; lia|].
    assert (KX : nthN ((pre ++ [x]) ++ xs) k = Some x).
    { rewrite <- app_assoc. rewrite nthN_app. subst k. rewrite N.ltb_irrefl, N.sub_diag. reflexivity. }
    unfold closest_step. destruct (bbox x) as [b|]; [destruct (intersection ray b) as [j|]|].
    + destruct r as [[p i]|], r' as [[q y]|]; try contradiction.
      * destruct H as (-> & H & I). destruct (nltb _ _); [split; [reflexivity|split; [exact KX|lia]]|split; [reflexivity|split; [exact H|lia]]].
      * split; [reflexivity|]. split; [exact KX|lia].
    + destruct r as [[p i]|], r' as [[q y]|]; auto. destruct H as (-> & H & I). split; [reflexivity|]. split; [exact H|lia].
    + destruct r as [[p i]|], r' as [[q y]|]; auto. destruct H as (-> & H & I). split; [reflexivity|]. split; [exact H|lia].
Qed.

(** ** Squares of doubles *)
Lemma sq_sign (x : T F64) : nsq x = S754_nan \/ exists s, nsq x = s /\ (match s with S754_zero b | S754_infinity b | S754_finite b _ _ => b = false | S754_nan => False end).
Proof.
  unfold nsq. cbn [nmul F64]. destruct x as [b|b| |b m e]; cbn [SFmul].
  - right. eexists. split; [reflexivity|]. rewrite xorb_nilpotent. reflexivity.
  - right. eexists. split; [reflexivity|]. rewrite xorb_nilpotent. reflexivity.
  - left. reflexivity.
  - rewrite xorb_nilpotent. unfold binary_round_aux. set (r := shr_fexp _ _ _ _ _). destruct r as [mrs e'].
    set (r' := shr_fexp _ _ _ _ _). destruct r' as [mrs' e'']. destruct (shr_m mrs') as [|q|q]; [|destruct (Z.leb _ _)|].
    + right. eexists. split; reflexivity.
    + right. eexists. split; reflexivity.
    + right. eexists. split; reflexivity.
    + left. reflexivity.
Qed.
Lemma add_0_l (x : T F64) : nadd n0 (nsq x) = nsq x.
Proof. destruct (sq_sign x) as [->|(s & -> & H)]; [reflexivity|]. destruct s as [b|b| |b m e]; subst; try contradiction; reflexivity. Qed.
Definition psn (s : T F64) : Prop := match (s : spec_float) with S754_zero b | S754_infinity b | S754_finite b _ _ => b = false | S754_nan => False end.
Lemma psn_sq (x : T F64) : number x -> psn (nsq x).
Proof.
  intros H. destruct (sq_sign x) as [E|(s & E & K)]; [|rewrite E; exact K]. exfalso. revert E. unfold nsq. cbn [nmul F64].
  destruct x as [b|b| |b m e]; cbn [SFmul]; try discriminate; [exact (fun _ => H eq_refl)|]. apply round_aux_num. lia.
Qed.
Lemma psn_norm (m : positive) e : psn (binary_normalize f64_prec f64_emax (Zpos m) e false).
Proof.
  cbn [binary_normalize]. pose proof (round_num false m e) as N. revert N. unfold binary_round. destruct (shl_align _ _ _) as [mz ez].
  unfold binary_round_aux. set (r := shr_fexp _ _ _ _ _). destruct r as [mrs e'].
  set (r' := shr_fexp _ _ _ _ _). destruct r' as [mrs' e'']. destruct (shr_m mrs') as [|q|q]; [|destruct (Z.leb _ _)|]; intros N; try reflexivity. destruct (N eq_refl).
Qed.
Lemma psn_add (x y : T F64) : psn x -> psn y -> psn (nadd x y).
Proof.
  cbn [nadd F64]. destruct x as [b|b| |b m e], y as [b'|b'| |b' m' e']; cbn [psn SFadd]; intros; subst; try contradiction; try reflexivity.
  cbn [cond_Zopp]. apply psn_norm.
Qed.
Lemma psn_num x : psn x -> number x. Proof. intros H ->. exact H. Qed.
Lemma sub0_num (x : T F64) : number x -> number (nsub n0 x).
Proof. unfold number. intros H. destruct x as [b|b| |b m e]; try (exact (fun _ => H eq_refl)); destruct b; discriminate. Qed.
Lemma origin3_num (p : pt3 F64) : number3 p -> number (sqr_dist_3d (mk3 n0 n0 n0) p).
Proof.
  intros H. unfold sqr_dist_3d. cbn [px py pz]. apply psn_num. apply psn_add; [apply psn_add|]; apply psn_sq, sub0_num, H; unfold axis3; auto.
Qed.
Lemma origin2_num (p : pt2 F64) : number2 p -> number (sqr_dist_2d (mk2 n0 n0) p).
Proof.
  intros H. unfold sqr_dist_2d. cbn [x2 y2]. apply psn_num. apply psn_add; apply psn_sq, sub0_num, H; unfold axis2; auto.
Qed.
Lemma cmp_preorder {NM num} (L : OrdLaws NM num) {A} (f : A -> T NM) (l : list A) : Forall (fun a => num (f a)) l ->
  cmp_ok (fun a b => cmp_or_eq (ncmp (f a) (f b))) l.
Proof.
  intros H. rewrite Forall_forall in H. split.
  - intros a b Ia Ib. destruct (num_cmp L (f a) (f b) (H a Ia) (H b Ib)) as [c E], (num_cmp L (f b) (f a) (H b Ib) (H a Ia)) as [d D].
    rewrite E, D. cbn [cmp_or_eq].
    pose proof (gtb_ltb L (f a) (f b)) as G. pose proof (gtb_ltb L (f b) (f a)) as G'. unfold ngtb, nltb in *. rewrite E, D in *. destruct c, d; try discriminate; reflexivity.
  - intros a b c Ia Ib Ic X Y.
    assert (LE : forall a b, In a l -> In b l -> cmp_or_eq (ncmp (f a) (f b)) <> Gt <-> nleb (f a) (f b) = true).
    { intros u v Iu Iv. destruct (num_cmp L (f u) (f v) (H u Iu) (H v Iv)) as [k E]. unfold nleb. rewrite E. cbn [cmp_or_eq]. destruct k; split; congruence. }
    apply LE in X, Y; auto. apply LE; auto. exact (leb_trans L _ _ _ X Y).
Qed.
(** sorting by a comparison that agrees with a number-valued key on the list *)
Lemma sort_by_key {sort} (SO : sort_ok sort) {A} (ax : A -> T F64) cmp (ps : list A) :
  (forall a, In a ps -> number (ax a)) -> (forall a b, In a ps -> In b ps -> cmp a b = cmp_or_eq (ncmp (ax a) (ax b))) ->
  StronglySorted (fun p q => fle (ax p) (ax q)) (sort A cmp ps) /\
  forall p, In p ps -> filter (fun q => neqb (ax p) (ax q)) (sort A cmp ps) = filter (fun q => neqb (ax p) (ax q)) ps.
Proof.
  intros NU E.
  assert (OK : cmp_ok cmp ps).
  { assert (K : cmp_ok (fun a b => cmp_or_eq (ncmp (ax a) (ax b))) ps) by (apply (cmp_preorder F64_laws ax), Forall_forall; exact NU).
    destruct K as [K1 K2]. split.
    - intros a b Ia Ib. rewrite !E by assumption. apply K1; assumption.
    - intros a b c Ia Ib Ic. rewrite !E by assumption. apply K2; assumption. }
  pose proof (sort_perm _ SO A cmp ps) as P. split.
  - assert (S : forall l, (forall x, In x l -> In x ps) -> StronglySorted (fun a b => cmp a b <> Gt) l -> StronglySorted (fun p q => fle (ax p) (ax q)) l).
    { induction l as [|x l IH]; intros I H; [constructor|]. inversion H as [|? ? H1 H2]; subst. constructor; [apply IH; [intros; apply I; right; assumption|exact H1]|].
      apply Forall_forall. intros y Iy. apply (proj1 (Forall_forall _ _) H2) in Iy as C. rewrite E in C by (apply I; cbn; auto).
      change (nleb (ax x) (ax y) = true). unfold nleb. destruct (num_cmp F64_laws (ax x) (ax y)) as [o Q]; [apply NU, I; cbn [In]; auto..|]. rewrite Q in C |- *. cbn [cmp_or_eq] in C. destruct o; try reflexivity. exfalso; apply C; reflexivity. }
    apply S; [intros x I; eapply Permutation_in; [apply Permutation_sym, P|exact I]|]. apply (sort_sorted _ SO), OK.
  - intros p Ip. pose proof (sort_stable _ SO A cmp ps OK p Ip) as F.
    assert (G : forall l, (forall x, In x l -> In x ps) -> filter (fun q => neqb (ax p) (ax q)) l = filter (fun y => is_eq (cmp p y)) l).
    { induction l as [|x l IH]; intros I; [reflexivity|]. cbn [filter]. rewrite IH by (intros; apply I; right; assumption).
      rewrite E by first [exact Ip | apply I; left; reflexivity]. unfold neqb. destruct (num_cmp F64_laws (ax p) (ax x)) as [o Q]; [apply NU; first [exact Ip | apply I; left; reflexivity]..|]. rewrite Q. destruct o; reflexivity. }
    rewrite !G; [exact F|auto|]. intros x I; eapply Permutation_in; [apply Permutation_sym, P|exact I].
Qed.
Lemma mid_R (a b : R) : @nadd RN a (@ndiv RN (@nsub RN b a) n2) = (a + b) / 2.
Proof. rewrite R_n2. change (a + (b - a) / 2 = (a + b) / 2)%R. field. Qed.
Lemma center3_R (b : bb3 RN) : bb3_center b = rp3 ((px (min3 b) + px (max3 b)) / 2) ((py (min3 b) + py (max3 b)) / 2) ((pz (min3 b) + pz (max3 b)) / 2).
Proof. unfold bb3_center, rp3. rewrite !mid_R. reflexivity. Qed.
Lemma center2_R (b : bb2 RN) : bb2_center b = rp2 ((x2 (min2 b) + x2 (max2 b)) / 2) ((y2 (min2 b) + y2 (max2 b)) / 2).
Proof. unfold bb2_center, rp2. rewrite !mid_R. reflexivity. Qed.
(** boxes in the plane under increasing maps of the axes *)
Definition pmap2 (gx gy : R -> R) (p : pt2 RN) : pt2 RN := rp2 (gx (x2 p)) (gy (y2 p)).
Lemma bb2_new_R (mn mx : pt2 RN) b : bb2_new mn mx = Ok b <-> b = mkbb2 mn mx /\ x2 mn < x2 mx /\ y2 mn < y2 mx.
Proof.
  unfold bb2_new.
  destruct (R_eqb_spec (x2 mn) (x2 mx)), (R_eqb_spec (y2 mn) (y2 mx)); cbn [orb];
    try (split; [discriminate|intros (_ & ? & ?); exfalso; lra]).
  destruct (R_gtb_spec (x2 mn) (x2 mx)), (R_gtb_spec (y2 mn) (y2 mx)); cbn [orb];
    try (split; [discriminate|intros (_ & ? & ?); exfalso; lra]).
  split; [intros H; apply Ok_inj in H; subst b; repeat split; lra|intros (-> & _); reflexivity].
Qed.
Lemma bb_pmap2 dbg ps b gx gy : incr gx -> incr gy -> (Z.of_nat (length ps) < 2 ^ 31)%Z ->
  bb2_from_iterator dbg ps = Ok b ->
  bb2_from_iterator dbg (map (pmap2 gx gy) ps) = Ok (mkbb2 (pmap2 gx gy (min2 b)) (pmap2 gx gy (max2 b))).
Proof.
  intros X Y L. rewrite !bb2_from_spec by (rewrite ?map_length; exact L).
  destruct ps as [|p [|q r]]; try discriminate. intros H. apply bb2_new_R in H. destruct H as (-> & A & B).
  assert (M : forall g (ax : pt2 RN -> T RN), (forall t, ax (pmap2 gx gy t) = g (ax t)) ->
     map ax (map (pmap2 gx gy) (q :: r)) = map g (map ax (q :: r))).
  { intros g ax E. rewrite !map_map. apply map_ext. exact E. }
  pose proof (M gx x2 (fun _ => eq_refl)) as MX. pose proof (M gy y2 (fun _ => eq_refl)) as MY.
  set (l := q :: r) in *. change (map (pmap2 gx gy) (p :: l)) with (pmap2 gx gy p :: map (pmap2 gx gy) l).
  change (map (pmap2 gx gy) l) with (pmap2 gx gy q :: map (pmap2 gx gy) r).
  cbv iota. change (pmap2 gx gy q :: map (pmap2 gx gy) r) with (map (pmap2 gx gy) l).
  rewrite MX, MY. apply bb2_new_R. cbn [min2 max2].
  change (x2 (pmap2 gx gy p)) with (gx (x2 p)). change (y2 (pmap2 gx gy p)) with (gy (y2 p)).
  rewrite !fmin_map, !fmax_map by assumption. cbn [x2 y2] in *. auto.
Qed.
