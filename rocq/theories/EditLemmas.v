From Verif Require Import Base BaseLemmas Num NumLemmas SortSpec BBoxModel GeomSpec BBoxLemmas KdModel KdLemmas FilterModel VecModel VecSpec VecLemmas
  LineModel MatrixModel MatrixSpec MatrixLemmas FloatSpec FloatLemmas FloatBridge WrapModel ShapeModel CloudModel CloudSpec CloudLemmas NormalLemmas EditModel EditSpec.
From Coq Require Import Floats.SpecFloat Reals Lra Psatz Lia.
Local Open Scope R_scope.

Lemma seen3_set {NM A} (E : pos3 NM A) a x y z : lawful3 E -> seen3 E (s3z E (s3y E (s3x E a x) y) z) = mk3 x y z.
Proof.
  intros L. unfold seen3.
  destruct (L (s3y E (s3x E a x) y) z) as (_ & _ & Z1 & Z2 & Z3). rewrite Z1, Z2, Z3.
  destruct (L (s3x E a x) y) as (_ & (Y1 & Y2 & _) & _). rewrite Y1, Y2.
  destruct (L a x) as ((X1 & _) & _). rewrite X1. reflexivity.
Qed.
Lemma seen2_set {NM A} (E : pos2 NM A) a x y : lawful2 E -> seen2 E (s2y E (s2x E a x) y) = mk2 x y.
Proof.
  intros L. unfold seen2. destruct (L (s2x E a x) y) as (_ & Y1 & Y2). rewrite Y1, Y2. destruct (L a x) as ((X1 & _) & _). rewrite X1. reflexivity.
Qed.
Lemma lawful_point3 {NM} : lawful3 (@pos3_point NM). Proof. intros [? ? ?] v. cbn. auto 10. Qed.
Lemma lawful_box3 {NM} : lawful3 (@pos3_box NM). Proof. intros [[? ? ?] ? ? ?] v. cbn. auto 10. Qed.
Lemma lawful_point2 {NM} : lawful2 (@pos2_point NM). Proof. intros [? ?] v. cbn. auto 10. Qed.
Lemma lawful_circle {NM} : lawful2 (@pos2_circle NM). Proof. intros [[? ?] ?] v. cbn. auto 10. Qed.
Lemma lawful_box2 {NM} : lawful2 (@pos2_box NM). Proof. intros [[? ?] ? ?] v. cbn. auto 10. Qed.

(** ** Two points *)
Lemma fmin2_R (a b : R) : @fmin RN [b] a = Rmin a b.
Proof. unfold fmin. cbn [fold_left]. destruct (R_ltb_spec b a) as [L|L]; unfold Rmin; destruct (Rle_dec a b); try reflexivity; cbn in *; lra. Qed.
Lemma fmax2_R (a b : R) : @fmax RN [b] a = Rmax a b.
Proof. unfold fmax. cbn [fold_left]. destruct (R_gtb_spec b a) as [L|L]; unfold Rmax; destruct (Rle_dec a b); try reflexivity; cbn in *; lra. Qed.
Lemma minmax_lt (a b : R) : Rmin a b < Rmax a b <-> a <> b.
Proof. unfold Rmin, Rmax. destruct (Rle_dec a b); split; intros; try lra; try (intros ->; lra). Qed.
Lemma minmax_sum (a b : R) : Rmin a b + Rmax a b = a + b.
Proof. unfold Rmin, Rmax. destruct (Rle_dec a b); lra. Qed.
Definition span3 (s : seg (pt3 RN)) : bb3 RN :=
  mkbb3 (rp3 (Rmin (px (seg_start s)) (px (seg_end s))) (Rmin (py (seg_start s)) (py (seg_end s))) (Rmin (pz (seg_start s)) (pz (seg_end s))))
        (rp3 (Rmax (px (seg_start s)) (px (seg_end s))) (Rmax (py (seg_start s)) (py (seg_end s))) (Rmax (pz (seg_start s)) (pz (seg_end s)))).
Definition span2 (s : seg (pt2 RN)) : bb2 RN :=
  mkbb2 (rp2 (Rmin (x2 (seg_start s)) (x2 (seg_end s))) (Rmin (y2 (seg_start s)) (y2 (seg_end s))))
        (rp2 (Rmax (x2 (seg_start s)) (x2 (seg_end s))) (Rmax (y2 (seg_start s)) (y2 (seg_end s)))).
Lemma seg3_bb_R dbg (s : seg (pt3 RN)) : seg3_bb dbg s = bb3_new (min3 (span3 s)) (max3 (span3 s)).
Proof.
  unfold seg3_bb. rewrite bb3_from_spec by (cbn; lia). cbn [map]. rewrite !fmin2_R, !fmax2_R. reflexivity.
Qed.
Lemma seg2_bb_R dbg (s : seg (pt2 RN)) : seg2_bb dbg s = bb2_new (min2 (span2 s)) (max2 (span2 s)).
Proof.
  unfold seg2_bb. rewrite bb2_from_spec by (cbn; lia). cbn [map]. rewrite !fmin2_R, !fmax2_R. reflexivity.
Qed.
Lemma seg3_bb_ok dbg (s : seg (pt3 RN)) : (forall ax, axis3 ax -> ax (seg_start s) <> ax (seg_end s)) -> seg3_bb dbg s = Ok (span3 s).
Proof.
  intros H. rewrite seg3_bb_R. apply bb3_new_R. unfold span3. cbn [min3 max3 rp3 px py pz]. rewrite !minmax_lt.
  repeat split; [apply (H px)|apply (H py)|apply (H pz)]; unfold axis3; auto.
Qed.
Lemma seg3_bb_none dbg (s : seg (pt3 RN)) : (exists ax, axis3 ax /\ ax (seg_start s) = ax (seg_end s)) -> seg3_bb dbg s = Err MinMaxEqual.
Proof.
  intros (ax & A & E). rewrite seg3_bb_R. unfold bb3_new, span3. cbn [min3 max3 rp3 px py pz].
  assert (Q : forall a b : R, a = b -> @neqb RN (Rmin a b) (Rmax a b) = true).
  { intros a b ->. destruct (R_eqb_spec (Rmin b b) (Rmax b b)) as [|N]; [reflexivity|]. exfalso. apply N. unfold Rmin, Rmax. destruct (Rle_dec b b); reflexivity. }
  destruct A as [->|[->| ->]]; rewrite (Q _ _ E), ?Bool.orb_true_r; reflexivity.
Qed.
Lemma seg2_bb_ok dbg (s : seg (pt2 RN)) : (forall ax, axis2 ax -> ax (seg_start s) <> ax (seg_end s)) -> seg2_bb dbg s = Ok (span2 s).
Proof.
  intros H. rewrite seg2_bb_R. unfold bb2_new, span2. cbn [min2 max2 rp2 x2 y2].
  assert (X : x2 (seg_start s) <> x2 (seg_end s)) by (apply H; unfold axis2; auto).
  assert (Y : y2 (seg_start s) <> y2 (seg_end s)) by (apply H; unfold axis2; auto).
  apply minmax_lt in X, Y. cbn in X, Y.
  destruct (R_eqb_spec (Rmin (x2 (seg_start s)) (x2 (seg_end s))) (Rmax (x2 (seg_start s)) (x2 (seg_end s)))); [cbn in *; lra|].
  destruct (R_eqb_spec (Rmin (y2 (seg_start s)) (y2 (seg_end s))) (Rmax (y2 (seg_start s)) (y2 (seg_end s)))); [cbn in *; lra|].
  destruct (R_gtb_spec (Rmin (x2 (seg_start s)) (x2 (seg_end s))) (Rmax (x2 (seg_start s)) (x2 (seg_end s)))); [cbn in *; lra|].
  destruct (R_gtb_spec (Rmin (y2 (seg_start s)) (y2 (seg_end s))) (Rmax (y2 (seg_start s)) (y2 (seg_end s)))); [cbn in *; lra|]. reflexivity.
Qed.
Lemma seg2_bb_none dbg (s : seg (pt2 RN)) : (exists ax, axis2 ax /\ ax (seg_start s) = ax (seg_end s)) -> seg2_bb dbg s = Err MinMaxEqual.
Proof.
  intros (ax & A & E). rewrite seg2_bb_R. unfold bb2_new, span2. cbn [min2 max2 rp2 x2 y2].
  assert (Q : forall a b : R, a = b -> @neqb RN (Rmin a b) (Rmax a b) = true).
  { intros a b ->. destruct (R_eqb_spec (Rmin b b) (Rmax b b)) as [|N]; [reflexivity|]. exfalso. apply N. unfold Rmin, Rmax. destruct (Rle_dec b b); reflexivity. }
  destruct A as [->| ->]; rewrite (Q _ _ E), ?Bool.orb_true_r; reflexivity.
Qed.
Lemma span3_center s : bb3_center (span3 s) = rp3 ((px (seg_start s) + px (seg_end s)) / 2) ((py (seg_start s) + py (seg_end s)) / 2) ((pz (seg_start s) + pz (seg_end s)) / 2).
Proof. rewrite center3_R. unfold span3. cbn [min3 max3 rp3 px py pz]. rewrite !minmax_sum. reflexivity. Qed.
Lemma span2_center s : bb2_center (span2 s) = rp2 ((x2 (seg_start s) + x2 (seg_end s)) / 2) ((y2 (seg_start s) + y2 (seg_end s)) / 2).
Proof. rewrite center2_R. unfold span2. cbn [min2 max2 rp2 x2 y2]. rewrite !minmax_sum. reflexivity. Qed.
Lemma center_3d_R (p q : pt3 RN) : center_3d p q = rp3 ((px p + px q) / 2) ((py p + py q) / 2) ((pz p + pz q) / 2).
Proof. unfold center_3d, rp3. rewrite R_n2. cbn [T RN nadd nsub ndiv]. f_equal; toR; field. Qed.
Lemma center_2d_R (p q : pt2 RN) : center_2d p q = rp2 ((x2 p + x2 q) / 2) ((y2 p + y2 q) / 2).
Proof. unfold center_2d, rp2. rewrite R_n2. cbn [T RN nadd nsub ndiv]. f_equal; toR; field. Qed.
Lemma sqrt_scale (f d : R) : 0 <= f -> 0 <= d -> sqrt (f * f * d) = f * sqrt d.
Proof. intros F D. rewrite sqrt_mult by nra. rewrite sqrt_square by exact F. reflexivity. Qed.
