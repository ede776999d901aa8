From Verif Require Import Base Num NumLemmas BBoxModel GeomSpec BBoxLemmas KdModel KdLemmas FilterModel VecModel VecSpec VecLemmas LineModel MatrixModel MatrixSpec MatrixLemmas WrapModel FloatSpec FloatBridge WrapLemmas ShapeModel ShapeSpec.
From Coq Require Import Floats.SpecFloat Reals Lra Lia.
Local Open Scope R_scope.

(** ** The separating axis test, any arithmetic *)
Lemma step_false {NM} (a b : sat_object NM) l : fold_left (sat_step a b) l false = false.
Proof. induction l; auto. Qed.
Lemma step_forallb {NM} (a b : sat_object NM) l s :
  fold_left (sat_step a b) l s = s && forallb (fun ax => negb (sat_apart a b ax)) l.
Proof.
  revert s. induction l as [|x l IH]; intros s; [destruct s; reflexivity|].
  cbn [fold_left]. rewrite IH. unfold sat_step. destruct s; cbn [andb forallb]; auto.
Qed.
Lemma collide_forallb {NM} (a b : sat_object NM) :
  sat_collide a b = forallb (fun ax => negb (sat_apart a b ax)) (sat_axes a ++ sat_axes b).
Proof. unfold sat_collide. rewrite !step_forallb, forallb_app. reflexivity. Qed.
Lemma apart_sym {NM} (a b : sat_object NM) ax : sat_apart a b ax = sat_apart b a ax.
Proof.
  unfold sat_apart. destruct (sat_range ax (sat_points a)) as [[x|] [y|]], (sat_range ax (sat_points b)) as [[z|] [w|]]; auto.
  apply orb_comm.
Qed.
Lemma forallb_same {A} (f g : A -> bool) l : (forall x, f x = g x) -> forallb f l = forallb g l.
Proof. intros H. induction l; cbn; rewrite ?H, ?IHl; auto. Qed.
Lemma collide_sym {NM} (a b : sat_object NM) : sat_collide a b = sat_collide b a.
Proof.
  rewrite !collide_forallb, !forallb_app, andb_comm. f_equal; apply forallb_same; intros x; rewrite apart_sym; reflexivity.
Qed.

(** ** Over the reals *)
Lemma range_fold (u : pt3 RN) ps mn mx : exists mn' mx',
  fold_left (sat_visit u) ps (Some mn, Some mx) = (Some mn', Some mx') /\
  (mn' <= mn /\ mx <= mx') /\ (forall p, In p ps -> mn' <= rdot3 p u <= mx') /\
  (mn' = mn \/ exists p, In p ps /\ mn' = rdot3 p u) /\ (mx' = mx \/ exists p, In p ps /\ mx' = rdot3 p u).
Proof.
  revert mn mx. induction ps as [|p ps IH]; intros mn mx.
  - exists mn, mx. split; [reflexivity|]. split; [lra|]. split; [intros ? []|auto].
  - cbn [fold_left]. unfold sat_visit at 2. cbn [fst snd]. rewrite dot3_R.
    set (x := rdot3 p u).
    assert (E1 : exists mn1, (if nltb (x : T RN) mn then Some (x : T RN) else Some mn) = Some mn1 /\ mn1 <= mn /\ mn1 <= x /\ (mn1 = mn \/ mn1 = x)).
    { destruct (R_ltb_spec x mn); eexists; split; try reflexivity; repeat split; auto; lra. }
    assert (E2 : exists mx1, (if ngtb (x : T RN) mx then Some (x : T RN) else Some mx) = Some mx1 /\ mx <= mx1 /\ x <= mx1 /\ (mx1 = mx \/ mx1 = x)).
    { destruct (R_gtb_spec x mx); eexists; split; try reflexivity; repeat split; auto; lra. }
    destruct E1 as (mn1 & -> & A1 & A2 & A3), E2 as (mx1 & -> & B1 & B2 & B3).
    destruct (IH mn1 mx1) as (mn' & mx' & E & [C1 C2] & D & F & G). exists mn', mx'. split; [exact E|]. split; [lra|].
    split. { intros q [<-|Q]; [fold x; lra|apply D, Q]. }
    split.
    + destruct F as [->|(q & Q & ->)]; [|right; exists q; split; [right|]; auto]. destruct A3 as [->| ->]; auto. right. exists p. split; [left|]; auto.
    + destruct G as [->|(q & Q & ->)]; [|right; exists q; split; [right|]; auto]. destruct B3 as [->| ->]; auto. right. exists p. split; [left|]; auto.
Qed.
Lemma range_R (u : pt3 RN) ps : ps <> [] -> exists mn mx,
  sat_range u ps = (Some mn, Some mx) /\ (forall p, In p ps -> mn <= rdot3 p u <= mx) /\
  (exists p, In p ps /\ mn = rdot3 p u) /\ (exists p, In p ps /\ mx = rdot3 p u).
Proof.
  destruct ps as [|p ps]; [congruence|]. intros _. unfold sat_range. cbn [fold_left]. unfold sat_visit at 2. cbn [fst snd].
  destruct (range_fold u ps (dot3 p u) (dot3 p u)) as (mn & mx & E & C & D & F & G). exists mn, mx. split; [exact E|].
  rewrite dot3_R in *. split. { intros q [<-|Q]; [lra|apply D, Q]. }
  split; [destruct F as [->|(q & Q & ->)]|destruct G as [->|(q & Q & ->)]]; [exists p|exists q|exists p|exists q]; split; auto; [left|right|left|right]; auto.
Qed.

Lemma wsum_lin (u : pt3 RN) (a b c : R) ws (ps : list (pt3 RN)) :
  a * wsum ws (map px ps) + b * wsum ws (map py ps) + c * wsum ws (map pz ps)
  = wsum ws (map (fun p : pt3 RN => a * px p + b * py p + c * pz p) ps).
Proof.
  revert ps. induction ws as [|w ws IH]; intros [|p ps]; cbn [map wsum]; try (toR; ring).
  rewrite <- IH. toR; ring.
Qed.
Lemma wsum_bound ws (f : pt3 RN -> R) ps m M : length ws = length ps -> (forall w, In w ws -> 0 <= w) ->
  (forall p, In p ps -> m <= f p <= M) ->
  m * fold_right Rplus 0 ws <= wsum ws (map f ps) <= M * fold_right Rplus 0 ws.
Proof.
  revert ps. induction ws as [|w ws IH]; intros [|p ps] L W B; try discriminate; cbn [map wsum fold_right]; [lra|].
  destruct (IH ps) as [I1 I2]; [injection L; auto|intros; apply W; right; auto|intros; apply B; right; auto|].
  assert (0 <= w) by (apply W; left; auto). assert (m <= f p <= M) by (apply B; left; auto). nra.
Qed.
Lemma hull_bound (u : pt3 RN) ps p m M : in_hull ps p -> (forall q, In q ps -> m <= rdot3 q u <= M) -> m <= rdot3 p u <= M.
Proof.
  intros (ws & L & W & S1 & H) B.
  assert (E : rdot3 p u = wsum ws (map (fun q : pt3 RN => rdot3 q u) ps)).
  { unfold rdot3 at 1. rewrite (H px), (H py), (H pz) by (unfold axis3; auto).
    transitivity (px u * wsum ws (map px ps) + py u * wsum ws (map py ps) + pz u * wsum ws (map pz ps)); [toR; ring|].
    rewrite (wsum_lin u). f_equal. apply map_ext. intros q. unfold rdot3. toR; ring. }
  rewrite E. pose proof (wsum_bound ws (fun q => rdot3 q u) ps m M L W B) as G. rewrite S1 in G. lra.
Qed.
Lemma hull_nonempty ps p : in_hull ps p -> ps <> [].
Proof. intros (ws & L & _ & S1 & _) ->. destruct ws; [cbn in S1; lra|discriminate]. Qed.
Lemma separates (a b : sat_object RN) p : sat_collide a b = false ->
  in_hull (sat_points a) p -> in_hull (sat_points b) p -> False.
Proof.
  rewrite collide_forallb. intros F A B.
  assert (X : exists u, sat_apart a b u = true).
  { induction (sat_axes a ++ sat_axes b) as [|u l IH]; cbn [forallb] in F; [discriminate|].
    destruct (sat_apart a b u) eqn:E; eauto. }
  destruct X as [u X]. unfold sat_apart in X.
  destruct (range_R u _ (hull_nonempty _ _ A)) as (mna & mxa & EA & BA & _).
  destruct (range_R u _ (hull_nonempty _ _ B)) as (mnb & mxb & EB & BB & _).
  rewrite EA, EB in X. pose proof (hull_bound u _ _ _ _ A BA). pose proof (hull_bound u _ _ _ _ B BB).
  apply orb_true_iff in X. destruct X as [X|X]; apply R_ltb in X; lra.
Qed.

(** ** Unit vectors *)
Lemma norm3_new_unit (a : pt3 RN) : rsq3 a = 1 -> norm3_new a = Ok a.
Proof.
  intros E. rewrite norm3_new_R. destruct (Req_EM_T (rsq3 a) 0) as [D|D]; [lra|]. rewrite E, sqrt_1.
  destruct a as [x y z]. cbn [px py pz]. f_equal. f_equal; toR; field.
Qed.
Lemma norm3_x_R : @norm3_x RN = Ok (rp3 1 0 0).
Proof. unfold norm3_x. rewrite R_n1, R_n0. rewrite norm3_new_unit; [reflexivity|]. unfold rsq3, rdot3. cbn. lra. Qed.
Lemma norm3_y_R : @norm3_y RN = Ok (rp3 0 1 0).
Proof. unfold norm3_y. rewrite R_n1, R_n0. rewrite norm3_new_unit; [reflexivity|]. unfold rsq3, rdot3. cbn. lra. Qed.
Lemma norm3_z_R' : @norm3_z RN = Ok (rp3 0 0 1).
Proof. unfold norm3_z. rewrite R_n1, R_n0. rewrite norm3_new_unit; [reflexivity|]. unfold rsq3, rdot3. cbn. lra. Qed.
Lemma norm3_or_z_unit (v : pt3 RN) : rsq3 v = 1 -> norm3_or_z v = Ok v.
Proof. intros E. unfold norm3_or_z. rewrite norm3_new_unit, norm3_z_R' by auto. reflexivity. Qed.
Lemma norm3_or_z_R (v : pt3 RN) : exists n, norm3_or_z v = Ok n /\ rsq3 n = 1.
Proof.
  unfold norm3_or_z. destruct (norm3_new v) as [n|e|] eqn:E.
  - rewrite norm3_z_R'. exists n. split; [reflexivity|]. apply norm3_unit in E. tauto.
  - rewrite norm3_z_R'. eexists. split; [reflexivity|]. unfold rsq3, rdot3. cbn. lra.
  - exfalso. rewrite norm3_new_R in E. destruct (Req_EM_T _ _); discriminate.
Qed.
Lemma cross_unit (y z : pt3 RN) : rsq3 y = 1 -> rsq3 z = 1 -> rdot3 y z = 0 -> rsq3 (cross3 z y) = 1.
Proof.
  intros Y Z D. transitivity (rsq3 y * rsq3 z - rdot3 y z * rdot3 y z).
  - unfold rsq3, rdot3, cross3. cbn. toR; ring.
  - rewrite Y, Z, D. lra.
Qed.

(** ** The corner points span the solids *)
Definition tri8 (a b c : R) : list R :=
  [ (1-a)*(1-b)*(1-c); (1-a)*(1-b)*c; (1-a)*b*(1-c); (1-a)*b*c; a*(1-b)*(1-c); a*(1-b)*c; a*b*(1-c); a*b*c ].
Lemma tri8_hull a b c (ps : list (pt3 RN)) p : length ps = 8%nat -> 0 <= a <= 1 -> 0 <= b <= 1 -> 0 <= c <= 1 ->
  (forall ax, axis3 ax -> ax p = wsum (tri8 a b c) (map ax ps)) -> in_hull ps p.
Proof.
  intros L A B C H. exists (tri8 a b c). split; [rewrite L; reflexivity|]. split; [|split; [cbn; toR; ring|exact H]].
  intros w W. cbn in W.
  repeat (destruct W as [<-|W]; [repeat apply Rmult_le_pos; lra|]). destruct W.
Qed.
Lemma hull_bb (b : bb3 RN) p : valid3 b -> closed3 b p -> in_hull (bb3_corners b) p.
Proof.
  intros V H. unfold valid3, closed3 in *. rewrite axis3_all in V, H.
  destruct b as [[x0 y0 z0] [x1 y1 z1]], p as [x y z]. cbn [px py pz min3 max3 T RN] in *. destruct V as (V1 & V2 & V3), H as (H1 & H2 & H3).
  assert (G : forall l h v : R, l < h -> l <= v <= h -> exists t, 0 <= t <= 1 /\ v = l + t * (h - l)).
  { intros l h v L B. exists ((v - l) / (h - l)). split.
    - split; [apply Rmult_le_pos; [lra|apply Rlt_le, Rinv_0_lt_compat; lra]|apply Rmult_le_reg_r with (h - l); [lra|]; unfold Rdiv; rewrite Rmult_assoc, Rinv_l; lra].
    - field. lra. }
  destruct (G _ _ _ V1 H1) as (a & A & ->), (G _ _ _ V2 H2) as (b & B & ->), (G _ _ _ V3 H3) as (c & C & ->).
  apply (tri8_hull a b c); auto. rewrite axis3_all. unfold tri8, bb3_corners. cbn [map wsum px py pz min3 max3]. repeat split; toR; ring.
Qed.
Lemma half_range (s i : R) : 0 < s -> Rabs i <= s / 2 -> exists t, 0 <= t <= 1 /\ i = (2 * t - 1) * s.
Proof.
  intros S B. pose proof (Rle_abs i) as B1. pose proof (Rle_abs (- i)) as B2. rewrite Rabs_Ropp in B2.
  exists ((i / s + 1) / 2). assert (E : i / s * s = i) by (field; lra). set (q := i / s) in *.
  split; [split|].
  - assert (- (1/2) <= q); [|lra]. apply Rmult_le_reg_r with s; auto. lra.
  - assert (q <= 1/2); [|lra]. apply Rmult_le_reg_r with s; auto. lra.
  - rewrite <- E. lra.
Qed.
Lemma hull_ubox (u : ubox RN) p : proper_ubox u -> solid_ubox u p -> in_hull (ubox_points u (rcross (ub_z u) (ub_y u))) p.
Proof.
  intros (Y & Z & D & SX & SY & SZ) (i & j & k & I & J & K & H).
  destruct (half_range _ _ SX I) as (a & A & ->), (half_range _ _ SY J) as (b & B & ->), (half_range _ _ SZ K) as (c & C & ->).
  set (X := rcross (ub_z u) (ub_y u)) in *. clearbody X. rewrite axis3_all in H.
  exists [ (1-a)*(1-b)*c; (1-a)*(1-b)*(1-c); (1-a)*b*(1-c); (1-a)*b*c; a*(1-b)*c; a*(1-b)*(1-c); a*b*(1-c); a*b*c ].
  split; [reflexivity|]. split; [|split; [cbn; toR; ring|]].
  - intros w W. cbn in W. repeat (destruct W as [<-|W]; [repeat apply Rmult_le_pos; lra|]). destruct W.
  - rewrite axis3_all. destruct H as (H1 & H2 & H3). rewrite H1, H2, H3. unfold ubox_points, pt3_sub, pt3_add, pt3_mul.
    cbn [map wsum px py pz T RN nadd nsub nmul]. repeat split; toR; ring.
Qed.
Lemma hull_tri (t : tri RN) p : solid_tri t p -> in_hull [tri_a t; tri_b t; tri_c t] p.
Proof.
  intros (i & j & k & I & J & K & S & H). exists [i; j; k]. split; [reflexivity|]. split; [|split; [cbn; lra|]].
  - intros w [<-|[<-|[<-|[]]]]; auto.
  - intros ax A. rewrite (H ax A). cbn [map wsum]. toR; ring.
Qed.

Definition sat_of (c : collider RN) : res (sat_object RN) :=
  match c with CAABB b => sat_of_bb b | CBox u => sat_of_ubox u | CFace t => sat_of_tri t end.
Lemma sat_of_bb_R (b : bb3 RN) : sat_of_bb b = Ok (mksat (bb3_corners b) [rp3 1 0 0; rp3 0 1 0; rp3 0 0 1]).
Proof. unfold sat_of_bb. rewrite norm3_x_R, norm3_y_R, norm3_z_R'. reflexivity. Qed.
Lemma x_dir_proper (u : ubox RN) : proper_ubox u -> ubox_x_dir u = Ok (rcross (ub_z u) (ub_y u)).
Proof. intros (Y & Z & D & _). unfold ubox_x_dir. apply norm3_or_z_unit. apply cross_unit; auto. Qed.
Lemma sat_of_spec (c : collider RN) : proper c -> exists o, sat_of c = Ok o /\ forall p, solid c p -> in_hull (sat_points o) p.
Proof.
  destruct c as [b|u|t]; cbn [proper sat_of solid]; intros P.
  - rewrite sat_of_bb_R. eexists. split; [reflexivity|]. intros p. apply hull_bb, P.
  - unfold sat_of_ubox. rewrite x_dir_proper by auto. eexists. split; [reflexivity|]. intros p. apply hull_ubox, P.
  - unfold sat_of_tri.
    destruct (norm3_or_z_R (cross3 (conn (tri_a t) (tri_b t)) (conn (tri_b t) (tri_c t)))) as (n & -> & _). cbn [obind].
    destruct (norm3_or_z_R (cross3 n (conn (tri_a t) (tri_b t)))) as (e1 & -> & _). cbn [obind].
    destruct (norm3_or_z_R (cross3 n (conn (tri_b t) (tri_c t)))) as (e2 & -> & _). cbn [obind].
    destruct (norm3_or_z_R (cross3 n (conn (tri_c t) (tri_a t)))) as (e3 & -> & _). cbn [obind].
    eexists. split; [reflexivity|]. intros p. apply hull_tri.
Qed.
Lemma collides_sat (a b : collider RN) : proper a -> proper b ->
  (forall x y, a = CAABB x -> b = CAABB y -> False) ->
  exists oa ob, sat_of a = Ok oa /\ sat_of b = Ok ob /\ collider_collides a b = Ok (sat_collide oa ob).
Proof.
  intros PA PB N. destruct (sat_of_spec a PA) as (oa & EA & _), (sat_of_spec b PB) as (ob & EB & _). exists oa, ob. split; auto. split; auto.
  destruct a as [x|x|x], b as [y|y|y]; try (exfalso; eapply N; reflexivity); cbn [collider_collides sat_of] in *; unfold sat_collide_res;
    rewrite EA, EB; cbn [obind]; auto; f_equal; apply collide_sym.
Qed.

(** ** Corners of unaligned boxes *)
Lemma closed_cube (c q : pt3 RN) m : closed3 (mkbb3 (@mk3 RN (px c - m) (py c - m) (pz c - m)) (@mk3 RN (px c + m) (py c + m) (pz c + m))) q ->
  0 <= m -> sqd3 c q <= 3 * (m * m).
Proof.
  intros H M. unfold closed3 in H. rewrite axis3_all in H. cbn [min3 max3 px py pz T RN] in H. destruct H as (A & B & C).
  unfold sqd3. cbn [T RN] in *.
  assert (G : forall x y : R, x - m <= y <= x + m -> (x - y) ^ 2 <= m * m).
  { intros x y [H1 H2]. assert (0 <= (m - (x - y)) * (m + (x - y))) by (apply Rmult_le_pos; lra). nra. }
  pose proof (G _ _ A). pose proof (G _ _ B). pose proof (G _ _ C). lra.
Qed.
Definition max_size (u : ubox RN) : R := Rmax (Rmax (ub_sx u) (ub_sy u)) (ub_sz u).
Lemma ubox_bb_R (u : ubox RN) : 0 < ub_sx u -> 0 < ub_sy u -> 0 < ub_sz u ->
  let m := (1 / 2 * max_size u)%R in let c := ub_center u in
  ubox_bounding_box u = Ok (mkbb3 (@mk3 RN (px c - m) (py c - m) (pz c - m)) (@mk3 RN (px c + m) (py c + m) (pz c + m))) /\
  0 < max_size u /\ max_size u * max_size u <= ub_sx u * ub_sx u + ub_sy u * ub_sy u + ub_sz u * ub_sz u.
Proof.
  intros X Y Z m c. unfold ubox_bounding_box.
  assert (E : (if ngtb (ub_sz u) (if ngtb (ub_sy u) (ub_sx u) then ub_sy u else ub_sx u) then ub_sz u else if ngtb (ub_sy u) (ub_sx u) then ub_sy u else ub_sx u) = max_size u).
  { unfold max_size. destruct (R_gtb_spec (ub_sy u) (ub_sx u)).
    - rewrite (Rmax_right (ub_sx u)) by (cbn in *; lra). destruct (R_gtb_spec (ub_sz u) (ub_sy u)); [rewrite Rmax_right|rewrite Rmax_left]; auto; cbn in *; lra.
    - rewrite (Rmax_left (ub_sx u)) by (cbn in *; lra). destruct (R_gtb_spec (ub_sz u) (ub_sx u)); [rewrite Rmax_right|rewrite Rmax_left]; auto; cbn in *; lra. }
  cbv zeta. rewrite E.
  assert (M : 0 < max_size u /\ max_size u * max_size u <= ub_sx u * ub_sx u + ub_sy u * ub_sy u + ub_sz u * ub_sz u).
  { cbn [T RN] in *. unfold max_size. apply Rmax_case; [apply Rmax_case|]; split; auto; nra. }
  split; [|exact M]. subst m c. destruct M as [M _].
  replace (nmul (n:=RN) nhalf (max_size u)) with (1 / 2 * max_size u) by (rewrite R_nhalf; cbn; toR; lra).
  match goal with |- unwrap_res (bb3_new ?a ?b) = _ => assert (G : bb3_new a b = Ok (mkbb3 a b)) end.
  { apply bb3_new_R. cbn [px py pz T RN nadd nsub]. repeat split; lra. }
  rewrite G. reflexivity.
Qed.
Lemma corner_sum (u : ubox RN) (x : pt3 RN) :
  fold_right Rplus 0 (map (sqd3 (ub_center u)) (ubox_points u x)) =
  8 * (ub_sx u * ub_sx u * rsq3 x + ub_sy u * ub_sy u * rsq3 (ub_y u) + ub_sz u * ub_sz u * rsq3 (ub_z u)).
Proof.
  unfold ubox_points, sqd3, rsq3, rdot3, pt3_sub, pt3_add, pt3_mul. cbn [map fold_right px py pz T RN nadd nsub nmul]. toR; ring.
Qed.
Lemma corner_each (u : ubox RN) (x q : pt3 RN) : rdot3 x (ub_y u) = 0 -> rdot3 x (ub_z u) = 0 -> rdot3 (ub_y u) (ub_z u) = 0 ->
  In q (ubox_points u x) ->
  sqd3 (ub_center u) q = ub_sx u * ub_sx u * rsq3 x + ub_sy u * ub_sy u * rsq3 (ub_y u) + ub_sz u * ub_sz u * rsq3 (ub_z u).
Proof.
  intros XY XZ YZ H.
  assert (G : exists s t r, s * s = 1 /\ t * t = 1 /\ r * r = 1 /\
     sqd3 (ub_center u) q = ub_sx u * ub_sx u * rsq3 x + ub_sy u * ub_sy u * rsq3 (ub_y u) + ub_sz u * ub_sz u * rsq3 (ub_z u)
       + 2 * s * t * ub_sx u * ub_sy u * rdot3 x (ub_y u) + 2 * s * r * ub_sx u * ub_sz u * rdot3 x (ub_z u) + 2 * t * r * ub_sy u * ub_sz u * rdot3 (ub_y u) (ub_z u)).
  { unfold ubox_points in H. cbn [In] in H.
    repeat (destruct H as [<-|H]; [
      unfold sqd3, rsq3, rdot3, pt3_sub, pt3_add, pt3_mul; cbn [px py pz T RN nadd nsub nmul];
      first [ exists 1, 1, 1; split; [lra|]; split; [lra|]; split; [lra|]; toR; ring
            | exists 1, 1, (-1); split; [lra|]; split; [lra|]; split; [lra|]; toR; ring
            | exists 1, (-1), 1; split; [lra|]; split; [lra|]; split; [lra|]; toR; ring
            | exists 1, (-1), (-1); split; [lra|]; split; [lra|]; split; [lra|]; toR; ring ] |]).
    destruct H. }
  destruct G as (s & t & r & _ & _ & _ & ->). rewrite XY, XZ, YZ. toR; ring.
Qed.
Lemma cross_perp (y z : pt3 RN) : rdot3 (rcross z y) y = 0 /\ rdot3 (rcross z y) z = 0.
Proof. unfold rdot3, rcross. cbn [px py pz rp3]. split; toR; ring. Qed.

(** ** Bounding boxes of shapes in IEEE arithmetic *)
Lemma fle_inf (x : T F64) : x <> S754_nan -> fle x infinity /\ fle (S754_infinity true) x.
Proof. destruct x as [s|s| |s m e]; intros H; try (exfalso; apply H; reflexivity); try (destruct s); split; reflexivity. Qed.
Lemma finite_num (x : T F64) : f_finite x -> x <> S754_nan. Proof. intros H ->. exact H. Qed.
Lemma sym_le (c r : T F64) : is_double c -> is_double r -> f_finite c -> fle n0 r -> fle (nsub c r) (nadd c r).
Proof.
  intros C D F P. destruct (nn_cases r D P) as [->|[FR VR]].
  - rewrite add_inf_r by auto. replace (nsub c infinity) with (S754_infinity true : T F64); [reflexivity|]. destruct c; try contradiction; reflexivity.
  - pose proof (sub_val c r C D F FR) as A. pose proof (add_val c r C D F FR) as B.
    assert (L : (FloatBridge.rnd (fval c - fval r) <= FloatBridge.rnd (fval c + fval r))%R) by (apply rnd_le; lra).
    pose proof top_pos as TP.
    destruct A as [(A1 & A2 & A3)|[(A1 & A2)|(A1 & A2)]].
    + destruct B as [(B1 & B2 & B3)|[(B1 & B2)|(B1 & B2)]].
      * apply fle_val; auto using double_sub, double_add. lra.
      * rewrite B2. apply fle_inf, finite_num, A2.
      * exfalso. apply Rabs_def2 in A1. lra.
    + destruct B as [(B1 & B2 & B3)|[(B1 & B2)|(B1 & B2)]].
      * exfalso. apply Rabs_def2 in B1. lra.
      * rewrite A2, B2. reflexivity.
      * exfalso. lra.
    + rewrite A2. apply fle_inf. destruct B as [(B1 & B2 & B3)|[(B1 & B2)|(B1 & B2)]]; [apply finite_num, B2|rewrite B2; discriminate..].
Qed.
Lemma half_nn (s : T F64) : is_double s -> flt n0 s -> is_double (ndiv s n2) /\ fle n0 (ndiv s n2).
Proof.
  intros D P. split; [apply double_div; auto using double_n2|]. apply div_nn_pos; auto using double_n2, pos_nn; [vmeq|]. intros _. rewrite n2_fin. discriminate.
Qed.
Lemma le_not_gt (x y : T F64) : fle x y -> ngtb x y = false.
Proof. unfold fle, SFleb, ngtb. cbn [ncmp F64]. destruct (SFcompare x y) as [[]|]; auto; discriminate. Qed.
Lemma eqb_feq (x y : T F64) : neqb x y = true <-> feq x y.
Proof. unfold feq, SFeqb, neqb. cbn [ncmp F64]. destruct (SFcompare x y) as [[]|]; split; auto; discriminate. Qed.
Lemma new3_le_panics (mn mx : pt3 F64) : (forall ax, axis3 ax -> fle (ax mn) (ax mx)) ->
  if_panics (unwrap_res (bb3_new mn mx)) (exists ax, axis3 ax /\ feq (ax mn) (ax mx)) (fun b => b = mkbb3 mn mx).
Proof.
  intros H. unfold bb3_new. rewrite !le_not_gt by (apply H; unfold axis3; auto). cbn [orb].
  destruct (neqb (px mn) (px mx)) eqn:E1; [exists px; split; [left; auto|apply eqb_feq, E1]|].
  destruct (neqb (py mn) (py mx)) eqn:E2; [exists py; split; [right; left; auto|apply eqb_feq, E2]|].
  destruct (neqb (pz mn) (pz mx)) eqn:E3; [exists pz; split; [right; right; auto|apply eqb_feq, E3]|].
  cbn [orb unwrap_res if_panics]. split; auto.
  intros (ax & [->|[->| ->]] & E); apply eqb_feq in E; congruence.
Qed.
Lemma new2_le_panics (mn mx : pt2 F64) : (forall ax, axis2 ax -> fle (ax mn) (ax mx)) ->
  if_panics (unwrap_res (bb2_new mn mx)) (exists ax, axis2 ax /\ feq (ax mn) (ax mx)) (fun b => b = mkbb2 mn mx).
Proof.
  intros H. unfold bb2_new. rewrite !le_not_gt by (apply H; unfold axis2; auto). cbn [orb].
  destruct (neqb (x2 mn) (x2 mx)) eqn:E1; [exists x2; split; [left; auto|apply eqb_feq, E1]|].
  destruct (neqb (y2 mn) (y2 mx)) eqn:E2; [exists y2; split; [right; auto|apply eqb_feq, E2]|].
  cbn [orb unwrap_res if_panics]. split; auto.
  intros (ax & [->| ->] & E); apply eqb_feq in E; congruence.
Qed.
