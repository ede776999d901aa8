(** Positions addressed by dimension (C156), operators of points (C157), directions. *)
From Verif Require Import Base BaseLemmas Num NumLemmas BBoxModel GeomSpec BBoxLemmas KdModel KdLemmas FilterModel VecModel VecSpec VecLemmas
  LineModel MatrixModel MatrixSpec MatrixLemmas FloatSpec FloatLemmas FloatBridge WrapModel ShapeModel CloudModel CloudSpec CloudLemmas ShapeSpec ShapeLemmas NormalModel AngleLemmas NormalLemmas EditModel EditSpec EditLemmas NdModel NdSpec.
From Coq Require Import Floats.SpecFloat Reals Lra Psatz Lia.
Local Open Scope R_scope.

(** ** C156 *)
Lemma below2 (d : N) : (d < 2)%N -> d = 0%N \/ d = 1%N. Proof. lia. Qed.
Lemma below3 (d : N) : (d < 3)%N -> d = 0%N \/ d = 1%N \/ d = 2%N. Proof. lia. Qed.
Theorem C156_set_position : forall NM : Num,
  nd_sets 2 (nd2 (@pos2_point NM)) (fun _ => tt) point2_set_position /\
  nd_sets 2 (nd2 (@pos2_circle NM)) cir_radius circle_set_position /\
  nd_sets 2 (nd2 (@pos2_box NM)) extent2 box2_set_position /\
  nd_sets 3 (nd3 (@pos3_point NM)) (fun _ => tt) point3_set_position /\
  nd_sets 3 (nd3 (@pos3_sphere NM)) sph_radius sphere_set_position /\
  nd_sets 3 (nd3 (@pos3_box NM)) extent3 box3_set_position.
Proof.
  intros NM.
  assert (P2 : forall (p : pt2 NM) d v, (d < 2)%N -> exists q, point2_set_position p d v = (q, Ok tt) /\ pt2_position_nd q d = Some v /\ forall e, e <> d -> pt2_position_nd q e = pt2_position_nd p e).
  { intros p d v D. destruct (below2 d D) as [-> | ->]; eexists; (split; [reflexivity|split; [reflexivity|]]); intros e E; destruct e as [|[e|e|]]; try reflexivity; congruence. }
  assert (Q2 : forall (p : pt2 NM) d v, (2 <= d)%N -> point2_set_position p d v = (p, Err DimensionsDontMatch) /\ pt2_position_nd p d = None).
  { intros p d v D. destruct d as [|[d|d|]]; try lia; split; reflexivity. }
  assert (P3 : forall (p : pt3 NM) d v, (d < 3)%N -> exists q, point3_set_position p d v = (q, Ok tt) /\ pt3_position_nd q d = Some v /\ forall e, e <> d -> pt3_position_nd q e = pt3_position_nd p e).
  { intros p d v D. destruct (below3 d D) as [-> | [-> | ->]]; eexists; (split; [reflexivity|split; [reflexivity|]]); intros e E; destruct e as [|[[e|e|]|[e|e|]|]]; try reflexivity; congruence. }
  assert (Q3 : forall (p : pt3 NM) d v, (3 <= d)%N -> point3_set_position p d v = (p, Err DimensionsDontMatch) /\ pt3_position_nd p d = None).
  { intros p d v D. destruct d as [|[[d|d|]|[d|d|]|]]; try lia; split; reflexivity. }
  split; [|split; [|split; [|split; [|split]]]]; intros a d v.
  - split; [intros D; destruct (P2 a d v D) as (q & E1 & E2 & E3); exists q; auto|apply Q2].
  - unfold circle_set_position, pos2_circle. cbn [nd2]. split; intros D.
    + destruct (P2 (cir_center a) d v D) as (q & E1 & E2 & E3). rewrite E1. eexists. split; [reflexivity|]. cbn. auto.
    + destruct (Q2 (cir_center a) d v D) as (E1 & E2). rewrite E1. destruct a. auto.
  - unfold box2_set_position, pos2_box. cbn [nd2]. split; intros D.
    + destruct (P2 (box2_center a) d v D) as (q & E1 & E2 & E3). rewrite E1. eexists. split; [reflexivity|]. cbn. auto.
    + destruct (Q2 (box2_center a) d v D) as (E1 & E2). rewrite E1. destruct a. auto.
  - split; [intros D; destruct (P3 a d v D) as (q & E1 & E2 & E3); exists q; auto|apply Q3].
  - unfold sphere_set_position, pos3_sphere, sphere_position_nd. cbn [nd3]. split; intros D.
    + destruct (P3 (sph_center a) d v D) as (q & E1 & E2 & E3). rewrite E1. eexists. split; [reflexivity|]. cbn. auto.
    + destruct (Q3 (sph_center a) d v D) as (E1 & E2). rewrite E1. destruct a. auto.
  - unfold box3_set_position, pos3_box. cbn [nd3]. split; intros D.
    + destruct (P3 (box_center a) d v D) as (q & E1 & E2 & E3). rewrite E1. eexists. split; [reflexivity|]. cbn. auto.
    + destruct (Q3 (box_center a) d v D) as (E1 & E2). rewrite E1. destruct a. auto.
Qed.
Print Assumptions C156_set_position.

Lemma copies_2 {NM : Num} : nd_copies 2 (@pt2_position_nd NM) (fun _ => tt) point2_from_nd.
Proof.
  intros p o. unfold point2_from_nd. split; [|split].
  - intros dims D. destruct (N.eqb_spec dims 2); [congruence|reflexivity].
  - intros H. cbn [N.eqb Pos.eqb negb]. pose proof (H 0%N eq_refl) as H0. pose proof (H 1%N eq_refl) as H1.
    destruct (o 0%N) as [x|] eqn:E0; [|congruence]. destruct (o 1%N) as [y|] eqn:E1; [|congruence]. eexists. split; [reflexivity|]. split; [|reflexivity].
    intros e E. destruct (below2 e E) as [-> | ->]; cbn; auto.
  - intros d D H N0. cbn [N.eqb Pos.eqb negb]. destruct (below2 d D) as [-> | ->].
    + rewrite N0. eexists. split; [reflexivity|]. split; [lia|]. auto.
    + pose proof (H 0%N eq_refl) as H0. destruct (o 0%N) as [x|] eqn:E0; [|congruence]. rewrite N0. eexists. split; [reflexivity|].
      split; [intros e E; assert (e = 0%N) by lia; subst; cbn; auto|]. split; [|reflexivity]. intros e E. destruct e as [|[e|e|]]; try reflexivity; lia.
Qed.
Lemma copies_3 {NM : Num} : nd_copies 3 (@pt3_position_nd NM) (fun _ => tt) point3_from_nd.
Proof.
  intros p o. unfold point3_from_nd. split; [|split].
  - intros dims D. destruct (N.eqb_spec dims 3); [congruence|reflexivity].
  - intros H. cbn [N.eqb Pos.eqb negb]. pose proof (H 0%N eq_refl) as H0. pose proof (H 1%N eq_refl) as H1. pose proof (H 2%N eq_refl) as H2.
    destruct (o 0%N) as [x|] eqn:E0; [|congruence]. destruct (o 1%N) as [y|] eqn:E1; [|congruence]. destruct (o 2%N) as [z|] eqn:E2; [|congruence]. eexists. split; [reflexivity|]. split; [|reflexivity].
    intros e E. destruct (below3 e E) as [-> | [-> | ->]]; cbn; auto.
  - intros d D H N0. cbn [N.eqb Pos.eqb negb]. destruct (below3 d D) as [-> | [-> | ->]].
    + rewrite N0. eexists. split; [reflexivity|]. split; [lia|]. auto.
    + pose proof (H 0%N eq_refl) as H0. destruct (o 0%N) as [x|] eqn:E0; [|congruence]. rewrite N0. eexists. split; [reflexivity|].
      split; [intros e E; assert (e = 0%N) by lia; subst; cbn; auto|]. split; [|reflexivity]. intros e E. destruct e as [|[[e|e|]|[e|e|]|]]; try reflexivity; lia.
    + pose proof (H 0%N eq_refl) as H0. pose proof (H 1%N eq_refl) as H1. destruct (o 0%N) as [x|] eqn:E0; [|congruence]. destruct (o 1%N) as [y|] eqn:E1; [|congruence]. rewrite N0. eexists. split; [reflexivity|].
      split; [intros e E; assert (C : e = 0%N \/ e = 1%N) by lia; destruct C; subst; cbn; auto|]. split; [|reflexivity]. intros e E. destruct e as [|[[e|e|]|[e|e|]|]]; try reflexivity; lia.
Qed.
(** Copying at a center is copying, with the size kept. *)
Lemma copies_at {NM : Num} {P A B} n (getp : P -> N -> option (T NM)) (fromp : P -> N -> (N -> option (T NM)) -> P * res unit)
  (center : A -> P) (at_ : A -> P -> A) (size : A -> B) (from : A -> N -> (N -> option (T NM)) -> A * res unit) (get : A -> N -> option (T NM)) :
  (forall a, at_ a (center a) = a) -> (forall a p, center (at_ a p) = p) -> (forall a p, size (at_ a p) = size a) ->
  (forall a dims o, from a dims o = let '(p, r) := fromp (center a) dims o in (at_ a p, r)) -> (forall a, get a = getp (center a)) ->
  nd_copies n getp (fun _ => tt) fromp -> nd_copies n get size from.
Proof.
  intros H1 H2 H3 H4 H5 C a o. destruct (C (center a) o) as (A1 & A2 & A3). split; [|split].
  - intros dims D. rewrite H4, (A1 dims D), H1. reflexivity.
  - intros H. destruct (A2 H) as (p & E1 & E2 & _). exists (at_ a p). rewrite H4, E1. split; [reflexivity|]. split; [|apply H3]. intros e E. rewrite H5, H2. apply E2, E.
  - intros d D H N0. destruct (A3 d D H N0) as (p & E1 & E2 & E3 & _). exists (at_ a p). rewrite H4, E1. split; [reflexivity|].
    split; [intros e E; rewrite H5, H2; apply E2, E|]. split; [|apply H3]. intros e E. rewrite !H5, H2. apply E3, E.
Qed.
Theorem C156_copy : forall NM : Num,
  nd_copies 2 (nd2 (@pos2_point NM)) (fun _ => tt) point2_from_nd /\
  nd_copies 2 (nd2 (@pos2_circle NM)) cir_radius circle_from_nd /\
  nd_copies 2 (nd2 (@pos2_box NM)) extent2 box2_from_nd /\
  nd_copies 3 (nd3 (@pos3_point NM)) (fun _ => tt) point3_from_nd /\
  nd_copies 3 (nd3 (@pos3_sphere NM)) sph_radius sphere_from_nd /\
  nd_copies 3 (nd3 (@pos3_box NM)) extent3 box3_from_nd.
Proof.
  intros NM. split; [exact copies_2|]. split; [|split; [|split; [exact copies_3|split]]].
  - apply (copies_at 2 pt2_position_nd point2_from_nd cir_center circle_at); try reflexivity; [intros []; reflexivity|exact copies_2].
  - apply (copies_at 2 pt2_position_nd point2_from_nd box2_center box2_at); try reflexivity; [intros []; reflexivity|exact copies_2].
  - apply (copies_at 3 pt3_position_nd point3_from_nd sph_center sphere_at); try reflexivity; [intros []; reflexivity|exact copies_3].
  - apply (copies_at 3 pt3_position_nd point3_from_nd box_center box3_at); try reflexivity; [intros []; reflexivity|exact copies_3].
Qed.
Print Assumptions C156_copy.

(** `from`: the position of another object is taken as it is seen, and the size is kept. *)
Theorem C156_from : forall NM : Num,
  (forall (p o : pt2 NM), point2_from p o = o) /\
  (forall (c : circle NM) o, cir_center (circle_from c o) = o /\ cir_radius (circle_from c o) = cir_radius c) /\
  (forall (b : box2d NM) o, box2_center (box2_from b o) = o /\ extent2 (box2_from b o) = extent2 b) /\
  (forall (p o : pt3 NM), point3_from p o = o) /\
  (forall (s : sphere NM) o, sph_center (sphere_from s o) = o /\ sph_radius (sphere_from s o) = sph_radius s) /\
  (forall (b : box3d NM) o, box_center (box3_from b o) = o /\ extent3 (box3_from b o) = extent3 b).
Proof.
  intros NM. split; [intros ? []; reflexivity|]. split; [intros ? []; split; reflexivity|]. split; [intros ? []; split; reflexivity|].
  split; [intros ? []; reflexivity|]. split; [intros ? []; split; reflexivity|]. intros ? []; split; reflexivity.
Qed.
Print Assumptions C156_from.

Lemma lenN_le4 {A} (l : list A) : match l with [] => lenN l = 0%N | [_] => lenN l = 1%N | [_; _] => lenN l = 2%N | [_; _; _] => lenN l = 3%N | _ => (4 <= lenN l)%N end.
Proof. destruct l as [|a [|b [|c [|d l]]]]; try reflexivity. unfold lenN. cbn [length]. lia. Qed.
(** new_nd: exactly as many coordinates as dimensions; shapes get size one. *)
Theorem C156_new_nd : forall NM : Num,
  nd_builds 2 (nd2 (@pos2_point NM)) (fun _ => tt) tt point2_new_nd /\
  nd_builds 2 (nd2 (@pos2_circle NM)) cir_radius n1 circle_new_nd /\
  nd_builds 2 (nd2 (@pos2_box NM)) extent2 (n1, n1) box2_new_nd /\
  nd_builds 3 (nd3 (@pos3_point NM)) (fun _ => tt) tt point3_new_nd /\
  nd_builds 3 (nd3 (@pos3_sphere NM)) sph_radius n1 sphere_new_nd /\
  nd_builds 3 (nd3 (@pos3_box NM)) extent3 (n1, n1, n1) box3_new_nd.
Proof.
  intros NM.
  split; [|split; [|split; [|split; [|split]]]]; intros l; pose proof (lenN_le4 l) as L; destruct l as [|a [|b [|c [|d l]]]]; (split; [intros E|intros E]); try lia; try reflexivity; try (exfalso; lia).
  1-3: eexists; split; [reflexivity|]; split; [|reflexivity]; intros e D; destruct (below2 e D) as [-> | ->]; reflexivity.
  all: eexists; split; [reflexivity|]; split; [|reflexivity]; intros e D; destruct (below3 e D) as [-> | [-> | ->]]; reflexivity.
Qed.
Print Assumptions C156_new_nd.

(** The center by dimension of two objects of the plane is the middle in exact arithmetic and has size one; objects of
    different dimension have none; the errors of copying and of the center differ. *)
Theorem C156_center_nd : forall (p q : pt2 RN) (c : circle RN) (b : box2d RN),
  (exists m, center_nd point2_new_nd 2 2 (pt2_position_nd p) (pt2_position_nd q) = Ok m /\ middle2 p q m /\ m = build2_center pos2_point p q) /\
  (exists m, center_nd circle_new_nd 2 2 (nd2 pos2_circle c) (pt2_position_nd q) = Ok m /\ middle2 (cir_center c) q (cir_center m) /\ cir_radius m = (1 : R)) /\
  (exists m, center_nd box2_new_nd 2 2 (nd2 pos2_box b) (pt2_position_nd q) = Ok m /\ middle2 (box2_center b) q (box2_center m) /\ box2_sx m = (1 : R) /\ box2_sy m = (1 : R)) /\
  zero_nd point2_new_nd 2 = Ok (rp2 0 0).
Proof.
  intros [x y] [u v] [[cx cy] r] [[bx by_] sx sy].
  assert (M : forall a b : R, (@nmul RN nhalf (@nadd RN a b) : R) = (a + b) / 2) by (intros; rewrite R_nhalf; cbn [T RN nadd nmul]; lra).
  assert (M2 : forall a b s t : R, middle2 (@mk2 RN a b) (@mk2 RN s t) (@mk2 RN (nmul nhalf (@nadd RN a s)) (nmul nhalf (@nadd RN b t)))).
  { intros a b s t ax [->| ->]; cbn [x2 y2]; rewrite M; cbn [T RN]; lra. }
  split; [eexists; split; [reflexivity|]; split; [apply M2|reflexivity]|].
  split; [eexists; split; [reflexivity|]; split; [apply M2|apply R_n1]|].
  split; [eexists; split; [reflexivity|]; split; [apply M2|split; apply R_n1]|].
  unfold zero_nd, point2_new_nd. cbn [repeat N.to_nat Pos.to_nat Pos.iter_op Nat.add]. rewrite R_n0. reflexivity.
Qed.
Print Assumptions C156_center_nd.
Theorem C156_other_dimension : forall (NM : Num) (p : pt2 NM) (q : pt3 NM),
  center_nd point2_new_nd 2 3 (pt2_position_nd p) (pt3_position_nd q) = Err IncorrectDimension /\
  center_nd point3_new_nd 3 2 (pt3_position_nd q) (pt2_position_nd p) = Err IncorrectDimension /\
  point2_from_nd p 3 (pt3_position_nd q) = (p, Err DimensionsDontMatch) /\
  point3_from_nd q 2 (pt2_position_nd p) = (q, Err DimensionsDontMatch).
Proof. intros. repeat split. Qed.
Print Assumptions C156_other_dimension.
(** A sphere reads its third coordinate back by dimension, but not with z(). *)
Theorem C156_sphere_z_refuted : exists s s' : sphere F64, sphere_set_position s 2 (fz 7) = (s', Ok tt) /\
  nd3 pos3_sphere s' 2 = Some (fz 7) /\ g3z pos3_sphere s' = fz 2.
Proof. exists (mksphere (fp3 1 2 3) (fz 1)), (mksphere (fp3 1 2 7) (fz 1)). repeat split. Qed.
Print Assumptions C156_sphere_z_refuted.
Example C156_case : circle_set_position (mkcircle (fp2 1 2) (fz 5)) 1 (fz 7) = (mkcircle (fp2 1 7) (fz 5), Ok tt) /\
  circle_from_nd (mkcircle (fp2 1 2) (fz 5)) 2 (nd2 pos2_box (mkbox2d (fp2 3 4) (fz 6) (fz 6))) = (mkcircle (fp2 3 4) (fz 5), Ok tt) /\
  box2_new_nd [fz 1; fz 2] = Ok (mkbox2d (fp2 1 2) (fz 1) (fz 1)) /\
  circle_from_nd (mkcircle (fp2 1 2) (fz 5)) 2 (fun d => if N.eqb d 0 then Some (fz 9) else None) = (mkcircle (fp2 9 2) (fz 5), Err IncorrectDimension).
Proof. repeat split. Qed.

(** ** C157: operators of points *)
(** In exact arithmetic the operators are those of a vector space, dividing by a number other than 0 undoes multiplying
    by it, and the length is multiplied by the absolute value. *)
Theorem C157_exact : forall (a b c : pt2 RN) (k l : R),
  pt2_add a b = pt2_add b a /\ pt2_add (pt2_add a b) c = pt2_add a (pt2_add b c) /\
  pt2_sub a b = pt2_add a (pt2_neg b) /\ pt2_add (pt2_sub a b) b = a /\ pt2_add a (pt2_neg a) = rp2 0 0 /\
  pt2_mul (pt2_add a b) k = pt2_add (pt2_mul a k) (pt2_mul b k) /\ pt2_mul a (k + l) = pt2_add (pt2_mul a k) (pt2_mul a l) /\
  pt2_mul (pt2_mul a k) l = pt2_mul a (k * l) /\ pt2_mul a (1 : R) = a /\
  (k <> 0 -> pt2_div (pt2_mul a k) k = a /\ pt2_mul (pt2_div a k) k = a) /\
  rsq2 (pt2_mul a k) = k * k * rsq2 a /\ rsq2 (pt2_neg a) = rsq2 a.
Proof.
  intros [a1 a2] [b1 b2] [c1 c2] k l. unfold pt2_add, pt2_sub, pt2_mul, pt2_div, pt2_neg, rp2, rsq2, rdot2. cbn [x2 y2 T RN nadd nsub nmul ndiv nneg].
  change (T RN) with R in *.
  assert (M : forall a b a' b' : R, a = a' -> b = b' -> @mk2 RN a b = @mk2 RN a' b') by (intros; subst; reflexivity).
  repeat match goal with |- _ /\ _ => split end; try (intros K; split); try (apply M); toR; try ring; try (field; exact K).
Qed.
Print Assumptions C157_exact.
Theorem C157_exact_3d : forall (a b c : pt3 RN) (k l : R),
  pt3_add a b = pt3_add b a /\ pt3_add (pt3_add a b) c = pt3_add a (pt3_add b c) /\
  pt3_sub a b = pt3_add a (pt3_neg b) /\ pt3_add (pt3_sub a b) b = a /\ pt3_add a (pt3_neg a) = rp3 0 0 0 /\
  pt3_mul (pt3_add a b) k = pt3_add (pt3_mul a k) (pt3_mul b k) /\ pt3_mul a (k + l) = pt3_add (pt3_mul a k) (pt3_mul a l) /\
  pt3_mul (pt3_mul a k) l = pt3_mul a (k * l) /\ pt3_mul a (1 : R) = a /\
  (k <> 0 -> pt3_div (pt3_mul a k) k = a /\ pt3_mul (pt3_div a k) k = a) /\
  rsq3 (pt3_mul a k) = k * k * rsq3 a /\ rsq3 (pt3_neg a) = rsq3 a.
Proof.
  intros [a1 a2 a3] [b1 b2 b3] [c1 c2 c3] k l. unfold pt3_add, pt3_sub, pt3_mul, pt3_div, pt3_neg, rp3, rsq3, rdot3. cbn [px py pz T RN nadd nsub nmul ndiv nneg].
  change (T RN) with R in *.
  assert (M : forall a b c a' b' c' : R, a = a' -> b = b' -> c = c' -> @mk3 RN a b c = @mk3 RN a' b' c') by (intros; subst; reflexivity).
  repeat match goal with |- _ /\ _ => split end; try (intros K; split); try (apply M); toR; try ring; try (field; exact K).
Qed.
Print Assumptions C157_exact_3d.

Lemma SFadd_comm_f (a b : T F64) : nadd a b = nadd b a.
Proof.
  destruct a as [s|s| |s m e], b as [t|t| |t m' e']; cbn; try reflexivity; try (destruct s, t; reflexivity).
  rewrite (Z.min_comm e e'). f_equal. apply Z.add_comm.
Qed.
Lemma SFmul_comm_f (a b : T F64) : nmul a b = nmul b a.
Proof.
  destruct a as [s|s| |s m e], b as [t|t| |t m' e']; cbn; rewrite ?(Bool.xorb_comm s t); try reflexivity.
  rewrite Pos.mul_comm, (Z.add_comm e e'). reflexivity.
Qed.
Lemma SFsub_add_f (a b : T F64) : nsub a b = nadd a (nneg b).
Proof. 
  destruct a as [s|s| |s m e], b as [t|t| |t m' e']; cbn; try reflexivity; try (destruct s, t; reflexivity).
Qed.
Lemma SFneg_f (a : T F64) : nneg (nneg a) = a.
Proof. destruct a as [s|s| |s m e]; cbn; rewrite ?Bool.negb_involutive; reflexivity. Qed.
(** With f64, bit for bit: adding commutes, subtracting is adding the negative, and negating twice changes nothing. *)
Theorem C157_f64 : (forall a b : pt2 F64, pt2_add a b = pt2_add b a /\ pt2_sub a b = pt2_add a (pt2_neg b) /\ pt2_neg (pt2_neg a) = a) /\
  forall a b : pt3 F64, pt3_add a b = pt3_add b a /\ pt3_sub a b = pt3_add a (pt3_neg b) /\ pt3_neg (pt3_neg a) = a.
Proof.
  split; [intros [a1 a2] [b1 b2]|intros [a1 a2 a3] [b1 b2 b3]].
  - unfold pt2_add, pt2_sub, pt2_neg. cbn [x2 y2]. rewrite !SFsub_add_f, !SFneg_f, (SFadd_comm_f a1 b1), (SFadd_comm_f a2 b2). auto.
  - unfold pt3_add, pt3_sub, pt3_neg. cbn [px py pz]. rewrite !SFsub_add_f, !SFneg_f, (SFadd_comm_f a1 b1), (SFadd_comm_f a2 b2), (SFadd_comm_f a3 b3). auto.
Qed.
Print Assumptions C157_f64.
(** With f64 dividing is not multiplying by the inverse, adding is not associative, dividing does not undo multiplying, and dividing the origin by 0 gives no
    numbers. *)
Theorem C157_f64_refuted : 
  (exists a : pt2 F64, pt2_div a (fz 5) <> pt2_mul a (ndiv (fz 1) (fz 5)) /\ (forall ax, axis2 ax -> finite (ax a))) /\
  (exists a b c : pt2 F64, pt2_add (pt2_add a b) c = fp2 1 1 /\ pt2_add a (pt2_add b c) = fp2 0 0) /\
  (exists (a : pt3 F64) k, pt3_mul (pt3_div a k) k <> a /\ finite k /\ flt (fz 0) k /\ forall ax, axis3 ax -> finite (ax a)) /\
  pt3_div (fp3 0 1 (-1)) (fz 0) = @mk3 F64 S754_nan (S754_infinity false) (S754_infinity true).
Proof.
  split; [|split; [|split]].
  - exists (fp2 3 3). split; [intros H; apply (f_equal (fun p : pt2 F64 => SFeqb (x2 p) (ndiv (fz 3) (fz 5)))) in H; vm_compute in H; discriminate|]. intros ax [->| ->]; vm_compute; reflexivity.
  - exists (fp2 (2 ^ 60) (2 ^ 60)), (fp2 (- 2 ^ 60) (- 2 ^ 60)), (fp2 1 1). split; vmeq.
  - exists (fp3 1 1 1), (fz 49). split; [intros H; apply (f_equal (fun p : pt3 F64 => SFeqb (px p) (fz 1))) in H; vm_compute in H; discriminate|]. split; [vm_compute; reflexivity|]. split; [vm_compute; reflexivity|]. intros ax [->|[->| ->]]; vm_compute; reflexivity.
  - vmeq.
Qed.
Print Assumptions C157_f64_refuted.
Example C157_case : pt2_mul (pt2_sub (fp2 3 5) (fp2 1 1)) (fz 2) = fp2 4 8 /\ pt3_div (fp3 2 4 6) (fz 2) = fp3 1 2 3 /\ pt3_neg (fp3 1 (-2) 3) = fp3 (-1) 2 (-3) /\ pt2_div (fp2 2 4) (fz 2) = fp2 1 2.
Proof. split; [vmeq|split; [vmeq|split; vmeq]]. Qed.

(** ** Further directions (C154) *)
(** The directions of the negative axes are exact with f64, too. *)
Theorem C154_negative_directions : @norm2_x_neg F64 = Ok (fp2 (-1) 0) /\ @norm2_y_neg F64 = Ok (fp2 0 (-1)) /\
  @norm3_x_neg F64 = Ok (fp3 (-1) 0 0) /\ @norm3_y_neg F64 = Ok (fp3 0 (-1) 0) /\ @norm3_z_neg F64 = Ok (fp3 0 0 (-1)).
Proof. repeat split; vmeq. Qed.
Print Assumptions C154_negative_directions.
(** They equal the negatives of the directions of the positive axes as numbers, but not bit for bit: the zeros differ in sign. *)
Theorem C154_negative_directions_signs : exists a b : pt3 F64, norm3_x = Ok a /\ norm3_x_neg = Ok b /\ norm3_neg a <> b /\ pt3_eq (norm3_neg a) b = true.
Proof.
  exists (fp3 1 0 0), (fp3 (-1) 0 0). split; [vmeq|]. split; [vmeq|]. split; [intros H; apply (f_equal (fun p : pt3 F64 => match py p with S754_zero s => s | _ => false end)) in H; vm_compute in H; discriminate|]. vm_compute. reflexivity.
Qed.
Print Assumptions C154_negative_directions_signs.

(** ** Further theorems on editing (C144, C147, C148, C149, C150) *)
(** zero() is the origin, with size one for shapes. *)
Theorem C145_zero : forall NM : Num, seen3 (@pos3_point NM) (build3_zero pos3_point) = mk3 n0 n0 n0 /\ seen3 (@pos3_sphere NM) (build3_zero pos3_sphere) = mk3 n0 n0 n0 /\
  sph_radius (build3_zero (@pos3_sphere NM)) = n1 /\ seen3 (@pos3_box NM) (build3_zero pos3_box) = mk3 n0 n0 n0 /\ extent3 (build3_zero (@pos3_box NM)) = (n1, n1, n1).
Proof. intros. repeat split. Qed.
Print Assumptions C145_zero.
(** Also in the plane, transforming a shape and taking its center with another object give it size one; the centers are transformed like points. *)
Theorem C147_size_lost_2d : forall {NM} (b : box2d NM) (c : circle NM) (m : mat3 NM) (o : pt2 NM),
  extent2 (build2_multiply_m pos2_box b m) = (n1, n1) /\ box2_center (build2_multiply_m pos2_box b m) = pt2_multiply_m (box2_center b) m /\
  extent2 (build2_center pos2_box b o) = (n1, n1) /\
  cir_radius (build2_multiply_m pos2_circle c m) = n1 /\ cir_center (build2_multiply_m pos2_circle c m) = pt2_multiply_m (cir_center c) m /\
  cir_radius (build2_center pos2_circle c o) = n1.
Proof. intros. repeat split. Qed.
Print Assumptions C147_size_lost_2d.
Theorem C147_center_2d : forall (b : box2d RN) (c : circle RN) (o : pt2 RN),
  middle2 (box2_center b) o (box2_center (build2_center pos2_box b o)) /\ middle2 (cir_center c) o (cir_center (build2_center pos2_circle c o)).
Proof.
  intros [[x y] sx sy] [[u v] r] [s t]. split; intros ax [->| ->]; unfold build2_center; cbn [new2 g2x g2y pos2_box pos2_circle box2_center cir_center x2 y2]; rewrite R_nhalf; cbn [T RN nadd nmul]; lra.
Qed.
Print Assumptions C147_center_2d.
Theorem C148_transform_2d : forall (s : seg (pt2 RN)) (m : mat3 RN),
  (isometry2 (fun p => pt2_multiply_m p m) -> seg2_length (seg2_transform s m) = seg2_length s) /\
  seg2_cog (seg2_transform s m) = Some (pt2_multiply_m (center_2d (seg_start s) (seg_end s)) m) /\
  seg_start (seg2_transform s m) = pt2_multiply_m (seg_start s) m /\ seg_end (seg2_transform s m) = pt2_multiply_m (seg_end s) m.
Proof.
  intros s m. split; [|split; [|split; reflexivity]].
  - intros I. unfold seg2_length. rewrite !dist2_R. unfold rdist2. f_equal. apply I.
  - unfold seg2_cog, seg2_transform. cbn [seg_start seg_end]. unfold center_2d, pt2_multiply_m. rewrite R_n2. cbn [x2 y2 T RN nadd nsub nmul ndiv]. f_equal. f_equal; toR; field.
Qed.
Print Assumptions C148_transform_2d.
Example C148_transform_2d_case : isometry2 (fun p => pt2_multiply_m p (@m3_translation RN (1 : R) (2 : R))).
Proof. intros [x y] [u v]. unfold sqd2, pt2_multiply_m, m3_translation. cbn -[n0 n1]. rewrite ?R_n0, ?R_n1. toR; ring. Qed.
(** Circles are equal as values exactly if centers and radii are equal numbers, and then they are equal in their order, too. *)
Theorem C149_circle_equal : forall a b : circle F64, circle_eq a b = true <->
  feq (x2 (cir_center a)) (x2 (cir_center b)) /\ feq (y2 (cir_center a)) (y2 (cir_center b)) /\ feq (cir_radius a) (cir_radius b).
Proof.
  intros a b. unfold circle_eq, pt2_eq. rewrite !Bool.andb_true_iff. unfold feq. change (@neqb F64) with SFeqb. tauto.
Qed.
Print Assumptions C149_circle_equal.
(** Moving a Box2D moves its center and scaling multiplies its sizes; the other part stays. *)
Theorem C150_box2_edit : (forall {NM} (b : box2d NM) x y, box2_center (box2_move_by b x y) = mk2 (x2 (box2_center b) + x)%num (y2 (box2_center b) + y)%num /\ extent2 (box2_move_by b x y) = extent2 b) /\
  forall (b : box2d RN) (f : R), box2_center (box2_scale b f) = box2_center b /\ box2_sx (box2_scale b f) = f * box2_sx b /\ box2_sy (box2_scale b f) = f * box2_sy b.
Proof.
  split; [intros; split; reflexivity|]. intros [c sx sy] f. cbn [box2_sx box2_sy] in *. split; [reflexivity|]. unfold box2_scale, pos_mul. cbn [box2_sx box2_sy T RN nmul]. split; toR; ring.
Qed.
Print Assumptions C150_box2_edit.
(** The zero matrices send every point to the origin and absorb every matrix. *)
Theorem C44_zeroes : (forall p : pt2 RN, pt2_multiply_m p m3_zeroes = rp2 0 0) /\ (forall p : pt3 RN, pt3_multiply_m p m4_zeroes = rp3 0 0 0) /\
  (forall a : mat3 RN, m3_mul a m3_zeroes = m3_zeroes /\ m3_mul m3_zeroes a = m3_zeroes) /\ (forall a : mat4 RN, m4_mul a m4_zeroes = m4_zeroes /\ m4_mul m4_zeroes a = m4_zeroes).
Proof.
  split; [|split; [|split]].
  - intros [x y]. unfold pt2_multiply_m, m3_zeroes, rp2. cbn [x2 y2 m3_00 m3_01 m3_02 m3_10 m3_11 m3_12]. rewrite R_n0. cbn [T RN nadd nmul]. f_equal; toR; ring.
  - intros [x y z]. unfold pt3_multiply_m, m4_zeroes, rp3. cbn [px py pz m4_00 m4_01 m4_02 m4_03 m4_10 m4_11 m4_12 m4_13 m4_20 m4_21 m4_22 m4_23]. rewrite R_n0. cbn [T RN nadd nmul]. f_equal; toR; ring.
  - intros a. split; unfold m3_mul, m3_zeroes; cbn [m3_00 m3_01 m3_02 m3_10 m3_11 m3_12 m3_20 m3_21 m3_22]; rewrite R_n0; cbn [T RN nadd nmul]; f_equal; toR; ring.
  - intros a. split; apply m4_eq; unfold m4_mul, m4_zeroes; cbn [m4_00 m4_01 m4_02 m4_03 m4_10 m4_11 m4_12 m4_13 m4_20 m4_21 m4_22 m4_23 m4_30 m4_31 m4_32 m4_33]; rewrite R_n0; cbn [T RN nadd nmul]; toR; ring.
Qed.
Print Assumptions C44_zeroes.
(** Transforming a cloud transforms each point, in order; an isometry keeps all distances within it. *)
Theorem C45_cloud_2d : forall (ps : list (pt2 RN)) (m : mat3 RN), length (pts2_transform ps m) = length ps /\
  (forall i p, nth_error ps i = Some p -> nth_error (pts2_transform ps m) i = Some (pt2_multiply_m p m)) /\
  (isometry2 (fun p => pt2_multiply_m p m) -> forall i j p q p' q', nth_error ps i = Some p -> nth_error ps j = Some q ->
     nth_error (pts2_transform ps m) i = Some p' -> nth_error (pts2_transform ps m) j = Some q' -> sqd2 p' q' = sqd2 p q).
Proof.
  intros ps m. assert (G : forall i p, nth_error ps i = Some p -> nth_error (pts2_transform ps m) i = Some (pt2_multiply_m p m)).
  { intros i p H. unfold pts2_transform. rewrite nth_error_map, H. reflexivity. }
  split; [apply map_length|]. split; [exact G|]. intros I i j p q p' q' P Q P' Q'. rewrite (G _ _ P) in P'. rewrite (G _ _ Q) in Q'. injection P' as <-. injection Q' as <-. apply I.
Qed.
Print Assumptions C45_cloud_2d.
(** Dropping z is projecting on the default plane. *)
Theorem C142_flatten : (forall p : pt3 RN, exists pl, plane_default = Ok pl /\ project_point_on_plane pl p = transform_to_2d p) /\
  forall p : pt3 F64, (forall ax, axis3 ax -> is_double (ax p) /\ finite (ax p)) ->
    exists pl, plane_default = Ok pl /\ pt2_eq (project_point_on_plane pl p) (transform_to_2d p) = true.
Proof.
  split.
  - intros [x y z]. unfold plane_default. rewrite norm3_x_R, norm3_y_R. eexists. split; [reflexivity|]. unfold project_point_on_plane, transform_to_2d, conn, dot3, rp3. cbn [porigin pu pv px py pz x2 y2]. rewrite R_n0. cbn [T RN nadd nsub nmul]. f_equal; toR; ring.
  - intros p H. destruct (project_default_F p H) as (pl & E & X & Y). exists pl. split; [exact E|]. unfold pt2_eq, transform_to_2d. cbn [x2 y2]. unfold feq in *. change SFeqb with (@neqb F64) in *. rewrite X, Y. reflexivity.
Qed.
Print Assumptions C142_flatten.
