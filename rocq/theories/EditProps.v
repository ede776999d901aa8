(** Properties of editing positions, turning, segments and ordering of shapes (C144-C149). *)
From Verif Require Import Base BaseLemmas Num NumLemmas SortSpec BBoxModel GeomSpec BBoxLemmas KdModel KdLemmas FilterModel VecModel VecSpec VecLemmas
  LineModel MatrixModel MatrixSpec MatrixLemmas FloatSpec FloatLemmas FloatBridge WrapModel ShapeModel CloudModel CloudSpec CloudLemmas NormalLemmas EditModel EditSpec EditLemmas.
From Coq Require Import Floats.SpecFloat Reals Lra Psatz Lia.
Local Open Scope R_scope.

(** ** C144: editing positions *)
(** Whatever the numbers (so with f64, bit for bit): on an object whose coordinates read back what was written, every editing operation
    changes the position coordinate by coordinate as its name says, reading all coordinates before writing any. *)
Theorem C144_edit3 {NM A} (E : pos3 NM A) : lawful3 E -> forall a (o : pt3 NM) (k x y z : T NM),
  seen3 E (edit3_add E a o) = mk3 (g3x E a + px o)%num (g3y E a + py o)%num (g3z E a + pz o)%num /\
  seen3 E (edit3_subtract E a o) = mk3 (g3x E a - px o)%num (g3y E a - py o)%num (g3z E a - pz o)%num /\
  seen3 E (edit3_scale_pos E a k) = mk3 (k * g3x E a)%num (k * g3y E a)%num (k * g3z E a)%num /\
  seen3 E (edit3_increase E a o k) =
    mk3 (px o + k * (g3x E a - px o))%num (py o + k * (g3y E a - py o))%num (pz o + k * (g3z E a - pz o))%num /\
  seen3 E (set_xyz E a x y z) = mk3 x y z /\ seen3 E (set3_xy E a x y) = mk3 x y (g3z E a) /\
  seen3 E (set3_xz E a x z) = mk3 x (g3y E a) z /\ seen3 E (set3_yz E a y z) = mk3 (g3x E a) y z.
Proof.
  intros L a o k x y z. unfold edit3_add, edit3_subtract, edit3_scale_pos, edit3_increase, set_xyz. cbv zeta. rewrite !seen3_set by exact L.
  do 5 (split; [reflexivity|]). unfold seen3, set3_xy, set3_xz, set3_yz.
  destruct (L a x) as ((X1 & X2 & X3) & _), (L (s3x E a x) y) as (_ & (Y1 & Y2 & Y3) & _), (L (s3x E a x) z) as (_ & _ & Z1 & Z2 & Z3).
  destruct (L a y) as (_ & (W1 & W2 & W3) & _), (L (s3y E a y) z) as (_ & _ & V1 & V2 & V3).
  rewrite Y1, Y2, Y3, Z1, Z2, Z3, V1, V2, V3, X1, X2, X3, W1, W2. auto.
Qed.
Print Assumptions C144_edit3.
Theorem C144_edit2 {NM A} (E : pos2 NM A) : lawful2 E -> forall a (o : pt2 NM) (k x y : T NM),
  seen2 E (edit2_add E a o) = mk2 (g2x E a + x2 o)%num (g2y E a + y2 o)%num /\
  seen2 E (edit2_subtract E a o) = mk2 (g2x E a - x2 o)%num (g2y E a - y2 o)%num /\
  seen2 E (edit2_scale_pos E a k) = mk2 (k * g2x E a)%num (k * g2y E a)%num /\
  seen2 E (edit2_increase E a o k) = mk2 (x2 o + k * (g2x E a - x2 o))%num (y2 o + k * (g2y E a - y2 o))%num /\
  seen2 E (set_xy E a x y) = mk2 x y.
Proof.
  intros L a o k x y. unfold edit2_add, edit2_subtract, edit2_scale_pos, edit2_increase, set_xy. cbv zeta. rewrite !seen2_set by exact L. auto.
Qed.
Print Assumptions C144_edit2.
(** Points, circles and boxes are such objects, and editing keeps radius and sizes. *)
Theorem C144_lawful (NM : Num) :
  lawful3 (@pos3_point NM) /\ lawful3 (@pos3_box NM) /\ lawful2 (@pos2_point NM) /\ lawful2 (@pos2_circle NM) /\ lawful2 (@pos2_box NM) /\
  keeps3 (@pos3_box NM) extent3 /\ keeps3 (@pos3_sphere NM) sph_radius /\ keeps2 (@pos2_circle NM) cir_radius /\ keeps2 (@pos2_box NM) extent2.
Proof.
  do 5 (split; [first [apply lawful_point3|apply lawful_box3|apply lawful_point2|apply lawful_circle|apply lawful_box2]|]).
  repeat split.
Qed.
Print Assumptions C144_lawful.
(** In exact arithmetic subtracting undoes adding, scaling the position by 1/k undoes scaling by k, and adding undoes subtracting. *)
Theorem C144_undo (b : box3d RN) (o : pt3 RN) (k : R) :
  edit3_subtract pos3_box (edit3_add pos3_box b o) o = b /\ edit3_add pos3_box (edit3_subtract pos3_box b o) o = b /\
  (k <> 0 -> edit3_scale_pos pos3_box (edit3_scale_pos pos3_box b k) (1 / k) = b).
Proof.
  destruct b as [[x y z] sx sy sz], o as [u v w]. unfold edit3_add, edit3_subtract, edit3_scale_pos, pos3_box, box3_at, pos3_point. cbn.
  split; [do 2 f_equal; toR; ring|]. split; [do 2 f_equal; toR; ring|]. intros K. do 2 f_equal; toR; field; exact K.
Qed.
Print Assumptions C144_undo.
(** Not with f64, already for points. *)
Theorem C144_undo_refuted : exists p o : pt3 F64, (forall ax, axis3 ax -> finite (ax p) /\ finite (ax o)) /\
  seen3 pos3_point (edit3_subtract pos3_point (edit3_add pos3_point p o) o) = fp3 0 0 0 /\ p = fp3 1 1 1.
Proof.
  exists (fp3 1 1 1), (fp3 (2 ^ 60) (2 ^ 60) (2 ^ 60)). split; [|split; [vmeq|reflexivity]].
  intros ax [->|[->| ->]]; split; vm_compute; reflexivity.
Qed.
Print Assumptions C144_undo_refuted.
(** Spheres are not lawful: z() reads y.  Adding anything sets z to y plus the other z; adding the zero vector, or scaling the position by
    one, keeps a sphere exactly if its center has z = y. *)
Theorem C144_sphere_refuted (s : sphere RN) (o : pt3 RN) :
  sph_center (edit3_add pos3_sphere s o) = rp3 (px (sph_center s) + px o) (py (sph_center s) + py o) (py (sph_center s) + pz o) /\
  (edit3_add pos3_sphere s (rp3 0 0 0) = s <-> pz (sph_center s) = py (sph_center s)) /\
  (edit3_scale_pos pos3_sphere s (1 : R) = s <-> pz (sph_center s) = py (sph_center s)) /\
  (edit3_increase pos3_sphere s o (1 : R) = s <-> pz (sph_center s) = py (sph_center s)).
Proof.
  destruct s as [[x y z] r], o as [u v w]. unfold edit3_add, edit3_scale_pos, edit3_increase, set_xyz, pos3_sphere, sphere_at, pos3_point. cbn.
  split; [reflexivity|]. split; [|split]; (split; [intros H; injection H as _ H; cbn in *; lra|intros ->; do 2 f_equal; toR; ring]).
Qed.
Print Assumptions C144_sphere_refuted.
Example C144_case : edit3_add pos3_box (mkbox3d (fp3 1 2 3) (fz 4) (fz 5) (fz 6)) (fp3 10 20 30) = mkbox3d (fp3 11 22 33) (fz 4) (fz 5) (fz 6) /\
  edit3_add pos3_sphere (mksphere (fp3 1 2 3) (fz 1)) (fp3 0 0 0) = mksphere (fp3 1 2 2) (fz 1) /\
  edit2_increase pos2_point (fp2 3 5) (fp2 1 1) (fz 2) = fp2 5 9.
Proof. split; [vmeq|split; vmeq]. Qed.

(** ** C145: building and copying positions by dimension *)
(** set_position / position_nd: writing a coordinate of an existing dimension is read back and leaves the others; other dimensions are
    refused and nothing changes. *)
Theorem C145_set_position {NM} (p : pt3 NM) (d : N) (v : T NM) :
  ((d < 3)%N -> exists q, point3_set_position p d v = (q, Ok tt) /\ pt3_position_nd q d = Some v /\
     forall e, e <> d -> pt3_position_nd q e = pt3_position_nd p e) /\
  ((3 <= d)%N -> point3_set_position p d v = (p, Err DimensionsDontMatch) /\ pt3_position_nd p d = None).
Proof.
  split; intros D.
  - assert (C : (d = 0 \/ d = 1 \/ d = 2)%N) by lia. destruct C as [->|[->| ->]]; eexists; (split; [reflexivity|split; [reflexivity|]]);
    intros e E; destruct e as [|[[e|e|]|[e|e|]|]]; try reflexivity; congruence.
  - destruct d as [|[[d|d|]|[d|d|]|]]; try lia; split; reflexivity.
Qed.
Print Assumptions C145_set_position.
(** new_nd needs exactly three coordinates; a shape built that way has unit size. *)
Theorem C145_new_nd {NM} (l : list (T NM)) :
  (forall p, point3_new_nd l = Ok p <-> l = [px p; py p; pz p]) /\
  (length l <> 3%nat -> point3_new_nd l = Err DimensionsDontMatch) /\
  (forall s, sphere_new_nd l = Ok s -> sph_radius s = n1 /\ l = [px (sph_center s); py (sph_center s); pz (sph_center s)]) /\
  (forall b, box3_new_nd l = Ok b -> extent3 b = (n1, n1, n1) /\ l = [px (box_center b); py (box_center b); pz (box_center b)]).
Proof.
  split; [|split; [|split]].
  - intros [x y z]. destruct l as [|a [|b [|c [|]]]]; cbn; split; intros H; try discriminate; injection H as <- <- <-; reflexivity.
  - intros H. destruct l as [|a [|b [|c [|]]]]; cbn in *; try reflexivity. congruence.
  - intros s H. destruct l as [|a [|b [|c [|]]]]; try discriminate. injection H as <-. split; reflexivity.
  - intros s H. destruct l as [|a [|b [|c [|]]]]; try discriminate. injection H as <-. split; reflexivity.
Qed.
Print Assumptions C145_new_nd.
(** Copying by dimension agrees with copying x, y, z for points and boxes - not for spheres. *)
Theorem C145_from {NM} (p : pt3 NM) :
  (forall q, point3_from_nd p 3 (nd3 pos3_point q) = (point3_from p (seen3 pos3_point q), Ok tt)) /\
  (forall q, point3_from_nd p 3 (nd3 pos3_box q) = (point3_from p (seen3 pos3_box q), Ok tt)) /\
  (forall q, point3_from_nd p 3 (nd3 pos3_sphere q) = (sph_center q, Ok tt)) /\
  (forall q, point3_from p (seen3 pos3_sphere q) = sph_center q <-> py (sph_center q) = pz (sph_center q)).
Proof.
  split; [intros [? ? ?]; reflexivity|]. split; [intros [[? ? ?] ? ? ?]; reflexivity|]. split; [intros [[? ? ?] ?]; reflexivity|].
  intros [[x y z] r]. cbn. unfold point3_from. cbn. split; [intros H; injection H; auto|intros ->; reflexivity].
Qed.
Print Assumptions C145_from.
(** A failing copy leaves the point unchanged if the number of dimensions is wrong; a source that announces three dimensions but lacks a
    coordinate leaves the point half overwritten. *)
Theorem C145_from_nd_fails {NM} (p : pt3 NM) (dims : N) o :
  (dims <> 3%N -> point3_from_nd p dims o = (p, Err DimensionsDontMatch)) /\
  (forall x, o 0%N = Some x -> o 1%N = None -> point3_from_nd p 3 o = (mk3 x (py p) (pz p), Err IncorrectDimension)).
Proof.
  unfold point3_from_nd. split.
  - intros H. destruct (N.eqb_spec dims 3); [congruence|reflexivity].
  - intros x H H1. cbn [N.eqb negb]. rewrite H, H1. reflexivity.
Qed.
Print Assumptions C145_from_nd_fails.
(** The center by dimension is the middle in exact arithmetic and agrees with center(); zero_nd never fails for the crate's types. *)
Theorem C145_center_nd (p q : pt3 RN) :
  center_nd point3_new_nd 3 3 (pt3_position_nd p) (pt3_position_nd q) = Ok (build3_center pos3_point p q) /\
  middle3 p q (build3_center pos3_point p q) /\ build3_center pos3_point p q = center_3d p q /\
  zero_nd point3_new_nd 3 = Ok (rp3 0 0 0).
Proof.
  split; [reflexivity|]. split; [|split].
  - intros ax [->|[->| ->]]; unfold build3_center; cbn [new3 g3x g3y g3z pos3_point px py pz]; rewrite R_nhalf; cbn [T RN nadd nmul]; lra.
  - rewrite center_3d_R. unfold build3_center. cbn [new3 g3x g3y g3z pos3_point]. rewrite R_nhalf. cbn [T RN nadd nmul]. unfold rp3. f_equal; toR; field.
  - unfold zero_nd, point3_new_nd. cbn [repeat N.to_nat Pos.to_nat Pos.iter_op Nat.add]. rewrite R_n0. reflexivity.
Qed.
Print Assumptions C145_center_nd.
(** In f64 both formulas can leave the range although the middle is representable, at different places. *)
Theorem C145_center_overflow_refuted : exists M : T F64, finite M /\
  build3_center pos3_point (mk3 M M M) (mk3 M M M) = @mk3 F64 (S754_infinity false) (S754_infinity false) (S754_infinity false) /\
  center_3d (mk3 M M M) (mk3 M M M) = mk3 M M M /\
  build3_center pos3_point (mk3 (- M) (- M) (- M))%num (mk3 M M M) = fp3 0 0 0 /\
  center_3d (mk3 (- M) (- M) (- M))%num (mk3 M M M) = @mk3 F64 (S754_infinity false) (S754_infinity false) (S754_infinity false).
Proof. exists (@lit F64 1 1023). split; [vm_compute; reflexivity|]. split; [vmeq|]. split; [vmeq|]. split; vmeq. Qed.
Print Assumptions C145_center_overflow_refuted.
Example C145_case : point3_set_position (fp3 1 2 3) 1 (fz 7) = (fp3 1 7 3, Ok tt) /\ box3_new_nd [fz 1; fz 2; fz 3] = Ok (mkbox3d (fp3 1 2 3) (fz 1) (fz 1) (fz 1)) /\
  point3_from_nd (fp3 0 0 0) 3 (nd3 pos3_sphere (mksphere (fp3 1 2 3) (fz 4))) = (fp3 1 2 3, Ok tt) /\
  point3_from (fp3 0 0 0) (seen3 pos3_sphere (mksphere (fp3 1 2 3) (fz 4))) = fp3 1 2 2.
Proof. repeat split. Qed.
