From Verif Require Import Base Num NumLemmas BBoxModel BBoxLemmas GeomSpec VecModel VecSpec VecLemmas MatrixModel MatrixSpec.
From Coq Require Import Reals Lra Psatz.
Local Open Scope R_scope.

Ltac mcbn := cbn -[n0 n1 n2 nhalf sin cos sqrt]; rewrite ?R_n0, ?R_n1, ?R_n2.
Ltac mring := mcbn; repeat f_equal; toR; ring.

Lemma m4_eq (a b : mat4 RN) : m4_00 a = m4_00 b -> m4_01 a = m4_01 b -> m4_02 a = m4_02 b -> m4_03 a = m4_03 b -> m4_10 a = m4_10 b -> m4_11 a = m4_11 b -> m4_12 a = m4_12 b -> m4_13 a = m4_13 b -> m4_20 a = m4_20 b -> m4_21 a = m4_21 b -> m4_22 a = m4_22 b -> m4_23 a = m4_23 b -> m4_30 a = m4_30 b -> m4_31 a = m4_31 b -> m4_32 a = m4_32 b -> m4_33 a = m4_33 b -> a = b.
Proof. destruct a, b. cbn. intros; subst; reflexivity. Qed.
Lemma m3_entry a b : forall i j, (i < 3)%nat -> (j < 3)%nat ->
  entry3 (m3_mul a b) i j = sum_to 3 (fun k => entry3 a i k * entry3 b k j).
Proof.
  intros i j Hi Hj. do 3 (destruct i as [|i]; [do 3 (destruct j as [|j]; [cbn; toR; ring|]); exfalso; lia|]). exfalso; lia.
Qed.
Lemma m4_entry a b : forall i j, (i < 4)%nat -> (j < 4)%nat ->
  entry4 (m4_mul a b) i j = sum_to 4 (fun k => entry4 a i k * entry4 b k j).
Proof.
  intros i j Hi Hj. do 4 (destruct i as [|i]; [do 4 (destruct j as [|j]; [cbn; toR; ring|]); exfalso; lia|]). exfalso; lia.
Qed.
Lemma m3_assoc (a b c : mat3 RN) : m3_mul (m3_mul a b) c = m3_mul a (m3_mul b c).
Proof. destruct a, b, c. unfold m3_mul. mcbn. f_equal; toR; ring. Qed.
Lemma m4_assoc (a b c : mat4 RN) : m4_mul (m4_mul a b) c = m4_mul a (m4_mul b c).
Proof. destruct a, b, c. apply m4_eq; unfold m4_mul; mcbn; toR; ring. Qed.
Lemma m3_id_l (a : mat3 RN) : m3_mul m3_identity a = a.
Proof. destruct a. unfold m3_mul, m3_identity. mcbn. f_equal; toR; ring. Qed.
Lemma m3_id_r (a : mat3 RN) : m3_mul a m3_identity = a.
Proof. destruct a. unfold m3_mul, m3_identity. mcbn. f_equal; toR; ring. Qed.
Lemma m4_id_l (a : mat4 RN) : m4_mul m4_identity a = a.
Proof. destruct a. apply m4_eq; unfold m4_mul, m4_identity; mcbn; toR; ring. Qed.
Lemma m4_id_r (a : mat4 RN) : m4_mul a m4_identity = a.
Proof. destruct a. apply m4_eq; unfold m4_mul, m4_identity; mcbn; toR; ring. Qed.
Lemma m3_compose (a b : mat3 RN) p : affine3 b -> pt2_multiply_m p (m3_mul a b) = pt2_multiply_m (pt2_multiply_m p b) a.
Proof.
  destruct a, b, p. unfold affine3. cbn [entry3]. intros (A & B & C). unfold m3_mul, pt2_multiply_m. cbn in *. subst. f_equal; toR; ring.
Qed.
Lemma m4_compose (a b : mat4 RN) p : affine4 b -> pt3_multiply_m p (m4_mul a b) = pt3_multiply_m (pt3_multiply_m p b) a.
Proof.
  destruct a, b, p. unfold affine4. cbn [entry4]. intros (A & B & C & D). unfold m4_mul, pt3_multiply_m. cbn in *. subst. f_equal; toR; ring.
Qed.
Lemma m3_affine_mul (a b : mat3 RN) : affine3 a -> affine3 b -> affine3 (m3_mul a b).
Proof. destruct a, b. unfold affine3, m3_mul. cbn. intros (-> & -> & ->) (-> & -> & ->). repeat split; toR; ring. Qed.
Lemma m4_affine_mul (a b : mat4 RN) : affine4 a -> affine4 b -> affine4 (m4_mul a b).
Proof. destruct a, b. unfold affine4, m4_mul. cbn. intros (-> & -> & -> & ->) (-> & -> & -> & ->). repeat split; toR; ring. Qed.
Lemma Ok_inj {E A} (a b : A) : @Ok E A a = Ok b -> a = b. Proof. congruence. Qed.
Ltac aff := unfold affine3, affine4; cbn -[n0 n1]; rewrite ?R_n0, ?R_n1; auto 10.
Lemma affine_identity3 : affine3 m3_identity. Proof. aff. Qed.
Lemma affine_identity4 : affine4 m4_identity. Proof. aff. Qed.
Lemma affine_translation3 x y : affine3 (m3_translation x y). Proof. aff. Qed.
Lemma affine_translation4 x y z : affine4 (m4_translation x y z). Proof. aff. Qed.
Lemma affine_scale3 x y : affine3 (m3_scale x y). Proof. aff. Qed.
Lemma affine_scale4 x y z : affine4 (m4_scale x y z). Proof. aff. Qed.
Lemma affine_rotation3 t r : affine3 (m3_rotation t r). Proof. aff. Qed.
Lemma affine_axis4 t u r : affine4 (m4_rotation_axis t u r). Proof. aff. Qed.
Lemma affine_rotation4 t x y z : affine4 (m4_rotation t x y z).
Proof. unfold m4_rotation. apply m4_affine_mul; [apply m4_affine_mul|]; aff. Qed.
Lemma affine_look (t u : pt3 RN) m : m4_look_at t u = Ok m -> affine4 m.
Proof. unfold m4_look_at. destruct (normalized3 t); cbn [obind]; try discriminate. intros H. apply Ok_inj in H; subst m. unfold affine4. cbn [entry4 m4_30 m4_31 m4_32 m4_33]. rewrite R_n0, R_n1. auto. Qed.

(** ** actions *)
Lemma id_act2 (p : pt2 RN) : pt2_multiply_m p m3_identity = p.
Proof. destruct p. unfold pt2_multiply_m, m3_identity. mcbn. f_equal; toR; ring. Qed.
Lemma id_act3 (p : pt3 RN) : pt3_multiply_m p m4_identity = p.
Proof. destruct p. unfold pt3_multiply_m, m4_identity. mcbn. f_equal; toR; ring. Qed.
Lemma translation_act2 x y (p : pt2 RN) : pt2_multiply_m p (m3_translation x y) = rp2 (x2 p + x) (y2 p + y).
Proof. unfold pt2_multiply_m, m3_translation, rp2. mcbn. f_equal; toR; ring. Qed.
Lemma translation_act3 x y z (p : pt3 RN) : pt3_multiply_m p (m4_translation x y z) = rp3 (px p + x) (py p + y) (pz p + z).
Proof. unfold pt3_multiply_m, m4_translation, rp3. mcbn. f_equal; toR; ring. Qed.
Lemma scale_act2 x y (p : pt2 RN) : pt2_multiply_m p (m3_scale x y) = rp2 (x2 p * x) (y2 p * y).
Proof. unfold pt2_multiply_m, m3_scale, rp2. mcbn. f_equal; toR; ring. Qed.
Lemma scale_act3 x y z (p : pt3 RN) : pt3_multiply_m p (m4_scale x y z) = rp3 (px p * x) (py p * y) (pz p * z).
Proof. unfold pt3_multiply_m, m4_scale, rp3. mcbn. f_equal; toR; ring. Qed.
Lemma rotation_act2 r (p : pt2 RN) : pt2_multiply_m p (m3_rotation RT r) =
  rp2 (x2 p * cos r - y2 p * sin r) (x2 p * sin r + y2 p * cos r).
Proof. unfold pt2_multiply_m, m3_rotation, rp2, RT. mcbn. f_equal; toR; ring. Qed.

Lemma sc1 r : cos r * cos r = 1 - sin r * sin r.
Proof. pose proof (sin2_cos2 r) as E. unfold Rsqr in E. lra. Qed.

Lemma rotation2_iso r : isometry2 (fun p => pt2_multiply_m p (m3_rotation RT r)).
Proof.
  intros p q. rewrite !rotation_act2. unfold sqd2, rp2. cbn [x2 y2]. set (c := cos r). set (s := sin r).
  assert (E : c * c = 1 - s * s) by apply sc1. clearbody c s. destruct p as [a b], q as [d e]. cbn [x2 y2].
  transitivity ((c * c + s * s) * ((a - d)^2 + (b - e)^2)); [ring|]. rewrite E. ring.
Qed.
Lemma rotation2_add a b : m3_mul (m3_rotation RT a) (m3_rotation RT b) = m3_rotation RT (a + b).
Proof. unfold m3_mul, m3_rotation, RT. cbn -[n0 n1 n2 sin cos sqrt]. rewrite cos_plus, sin_plus, ?R_n0, ?R_n1. f_equal; toR; ring. Qed.
Lemma rotation2_0 : m3_rotation RT 0 = m3_identity.
Proof. unfold m3_rotation, m3_identity, RT. cbn -[n0 n1 sin cos]. rewrite cos_0, sin_0, R_n0, R_n1. f_equal; toR; ring. Qed.

Lemma axis_act t r (u p : pt3 RN) : t = RT -> pt3_multiply_m p (m4_rotation_axis t u r) =
  rp3 (px p * cos r + px (rcross u p) * sin r + px u * rdot3 u p * (1 - cos r))
      (py p * cos r + py (rcross u p) * sin r + py u * rdot3 u p * (1 - cos r))
      (pz p * cos r + pz (rcross u p) * sin r + pz u * rdot3 u p * (1 - cos r)).
Proof. intros ->. unfold pt3_multiply_m, m4_rotation_axis, rp3, RT, rdot3, rcross. mcbn. f_equal; toR; ring. Qed.

Lemma axis_iso_alg (c s a b d x y z : R) : c * c + s * s = 1 -> a*a+b*b+d*d = 1 ->
  let w := a*x+b*y+d*z in
  (x*c + (b*z-d*y)*s + a*w*(1-c))^2 + (y*c + (d*x-a*z)*s + b*w*(1-c))^2 + (z*c + (a*y-b*x)*s + d*w*(1-c))^2
  = x^2+y^2+z^2.
Proof.
  intros E U w.
  assert (L : (b*z-d*y)^2 + (d*x-a*z)^2 + (a*y-b*x)^2 = (a*a+b*b+d*d)*(x^2+y^2+z^2) - w^2) by (unfold w; ring).
  transitivity (c*c*(x^2+y^2+z^2) + s*s*((b*z-d*y)^2 + (d*x-a*z)^2 + (a*y-b*x)^2) + (a*a+b*b+d*d)*w^2*(1-c)^2 + 2*c*(1-c)*w^2).
  - unfold w. ring.
  - rewrite L, U. replace (s*s) with (1-c*c) by lra. ring.
Qed.
Lemma axis_iso r (u : pt3 RN) : rsq3 u = 1 -> isometry3 (fun p => pt3_multiply_m p (m4_rotation_axis RT u r)).
Proof.
  intros U p q. rewrite !(axis_act RT) by reflexivity. unfold sqd3, rcross, rdot3, rp3. cbn [px py pz].
  pose proof (sin2_cos2 r) as E. unfold Rsqr in E. set (c := cos r) in *. set (s := sin r) in *.
  unfold rsq3, rdot3 in U.
  pose proof (axis_iso_alg c s (px u) (py u) (pz u) (px p - px q) (py p - py q) (pz p - pz q)) as A. cbv zeta in A.
  rewrite <- A; [toR; ring|lra|exact U].
Qed.
Lemma axis_add a b (u : pt3 RN) : rsq3 u = 1 ->
  m4_mul (m4_rotation_axis RT u a) (m4_rotation_axis RT u b) = m4_rotation_axis RT u (a + b).
Proof.
  intros U. unfold rsq3, rdot3 in U. destruct u as [x y z]. cbn [px py pz] in U.
  assert (Z : z * z = 1 - x * x - y * y) by (cbn in *; lra). clear U.
  apply m4_eq; unfold m4_mul, m4_rotation_axis, RT; cbn -[n0 n1 n2 sin cos sqrt]; rewrite ?cos_plus, ?sin_plus, ?R_n0, ?R_n1;
  toR; ring [Z].
Qed.
Lemma axis_0 (u : pt3 RN) : m4_rotation_axis RT u 0 = m4_identity.
Proof.
  apply m4_eq; unfold m4_rotation_axis, m4_identity, RT; cbn -[n0 n1 sin cos]; rewrite ?cos_0, ?sin_0, ?R_n0, ?R_n1; toR; ring.
Qed.
Lemma rotation_as_axes x y z : m4_rotation RT x y z =
  m4_mul (m4_mul (m4_rotation_axis RT (rp3 1 0 0) x) (m4_rotation_axis RT (rp3 0 1 0) y)) (m4_rotation_axis RT (rp3 0 0 1) z).
Proof.
  unfold m4_rotation. f_equal; [f_equal|]; apply m4_eq; unfold m4_rotation_axis, RT, rp3;
    cbn -[n0 n1 n2 sin cos]; rewrite ?R_n0, ?R_n1; toR; ring.
Qed.
Lemma unit_x : rsq3 (rp3 1 0 0) = 1. Proof. unfold rsq3, rdot3, rp3. cbn. lra. Qed.
Lemma unit_y : rsq3 (rp3 0 1 0) = 1. Proof. unfold rsq3, rdot3, rp3. cbn. lra. Qed.
Lemma unit_z : rsq3 (rp3 0 0 1) = 1. Proof. unfold rsq3, rdot3, rp3. cbn. lra. Qed.
Lemma rotation_act3 x y z p : pt3_multiply_m p (m4_rotation RT x y z) =
  pt3_multiply_m (pt3_multiply_m (pt3_multiply_m p (m4_rotation_axis RT (rp3 0 0 1) z)) (m4_rotation_axis RT (rp3 0 1 0) y))
                 (m4_rotation_axis RT (rp3 1 0 0) x).
Proof. rewrite rotation_as_axes. rewrite !m4_compose by apply affine_axis4. reflexivity. Qed.
Lemma rotation3_iso x y z : isometry3 (fun p => pt3_multiply_m p (m4_rotation RT x y z)).
Proof.
  intros p q. rewrite !rotation_act3.
  rewrite (axis_iso x (rp3 1 0 0) unit_x _ _), (axis_iso y (rp3 0 1 0) unit_y _ _), (axis_iso z (rp3 0 0 1) unit_z _ _). reflexivity.
Qed.

(** ** look_at *)
Lemma normalized3_R (a : pt3 RN) : normalized3 a =
  if Req_EM_T (rsq3 a) 0 then Err NormalizeVecWithoutLength
  else Ok (rp3 (px a / sqrt (rsq3 a)) (py a / sqrt (rsq3 a)) (pz a / sqrt (rsq3 a))).
Proof.
  unfold normalized3. rewrite abs3_R. cbn [obind]. pose proof (rsq3_nonneg a).
  destruct (R_eqb_spec (sqrt (rsq3 a)) (@n0 RN)) as [E|E]; rewrite R_n0 in E; destruct (Req_EM_T (rsq3 a) 0) as [D|D].
  - reflexivity.
  - exfalso. apply D. apply sqrt_eq_0; assumption.
  - exfalso. apply E. rewrite D. apply sqrt_0.
  - reflexivity.
Qed.
Lemma div_back (k x : R) : 0 < k -> x = k * (x / k).
Proof. intros. field. lra. Qed.
Lemma look_at_R (t up : pt3 RN) : rsq3 t <> 0 -> exists n : pt3 RN, rsq3 n = 1 /\
  (px t = sqrt (rsq3 t) * px n /\ py t = sqrt (rsq3 t) * py n /\ pz t = sqrt (rsq3 t) * pz n) /\
  exists m, m4_look_at t up = Ok m /\ forall p, pt3_multiply_m p m =
    rp3 (rdot3 (rcross up t) p) (rdot3 (rcross n (rcross up t)) p) (rdot3 n p).
Proof.
  intros N. pose proof (rsq3_nonneg t). assert (P : 0 < rsq3 t) by lra. pose proof (sqrt_lt_R0 _ P) as S.
  pose proof (sqrt_sqrt (rsq3 t) H) as SS. set (l := sqrt (rsq3 t)) in *.
  exists (rp3 (px t / l) (py t / l) (pz t / l)). split; [|split].
  - unfold rsq3, rdot3, rp3. cbn [px py pz].
    transitivity ((px t * px t + py t * py t + pz t * pz t) / (l * l)); [toR; field; lra|].
    rewrite SS. unfold rsq3, rdot3. apply Rinv_r. unfold rsq3, rdot3 in N. exact N.
  - unfold rp3. cbn [px py pz]. repeat split; apply div_back; lra.
  - unfold m4_look_at. rewrite normalized3_R. destruct (Req_EM_T (rsq3 t) 0); [contradiction|]. cbn [obind].
    eexists. split; [reflexivity|]. intros p. fold l. unfold pt3_multiply_m, cross3, rp3, rcross, rdot3, rp3.
    mcbn. f_equal; toR; ring.
Qed.
Lemma lagrange (a b : pt3 RN) : rsq3 (rcross a b) = rsq3 a * rsq3 b - rdot3 a b * rdot3 a b.
Proof. unfold rsq3, rdot3, rcross, rp3. cbn [px py pz]. toR; ring. Qed.
Lemma dot_cross_l (a b : pt3 RN) : rdot3 (rcross a b) a = 0.
Proof. unfold rdot3, rcross, rp3. cbn [px py pz]. toR; ring. Qed.
Lemma dot_cross_r (a b : pt3 RN) : rdot3 (rcross a b) b = 0.
Proof. unfold rdot3, rcross, rp3. cbn [px py pz]. toR; ring. Qed.

(** the squared length in the frame (u, n x u, n) for u orthogonal to the unit vector n *)
Lemma frame_length (u n p : pt3 RN) : rsq3 n = 1 -> rdot3 n u = 0 ->
  rdot3 u p * rdot3 u p + rdot3 (rcross n u) p * rdot3 (rcross n u) p = rsq3 u * (rsq3 p - rdot3 n p * rdot3 n p).
Proof.
  unfold rsq3, rdot3, rcross, rp3. destruct u as [a b c], n as [x y z], p as [p q r]. cbn [px py pz]. intros N O.
  change (@eq R (x * x + y * y + z * z) 1) in N. change (@eq R (x * a + y * b + z * c) 0) in O.
  (* Gram determinant of (u, n, p), squared triple product *)
  assert (G : ((y * c - z * b) * p + (z * a - x * c) * q + (x * b - y * a) * r) *
              ((y * c - z * b) * p + (z * a - x * c) * q + (x * b - y * a) * r) =
    (a*a+b*b+c*c) * ((x*x+y*y+z*z)*(p*p+q*q+r*r) - (x*p+y*q+z*r)*(x*p+y*q+z*r))
    - (x*a+y*b+z*c) * ((x*a+y*b+z*c)*(p*p+q*q+r*r) - (a*p+b*q+c*r)*(x*p+y*q+z*r))
    + (a*p+b*q+c*r) * ((x*a+y*b+z*c)*(x*p+y*q+z*r) - (x*x+y*y+z*z)*(a*p+b*q+c*r))) by ring.
  rewrite N, O in G. toR. cbn. rewrite G. ring.
Qed.

Lemma perp_exists (n : pt3 RN) : rsq3 n = 1 -> exists w, rdot3 n w = 0 /\ rsq3 w <> 0.
Proof.
  destruct n as [x y z]. unfold rsq3, rdot3. cbn [px py pz]. intros N. change (@eq R (x * x + y * y + z * z) 1) in N.
  destruct (Req_EM_T (x * x + y * y) 0) as [Z|Z].
  - exists (rp3 1 0 0). cbn [px py pz rp3]. assert (x = 0) by nra. subst x. split; [cbn; lra|cbn; lra].
  - exists (rp3 y (- x) 0). cbn [px py pz rp3]. split; [cbn; toR; ring|]. intros E. apply Z. cbn in E. lra.
Qed.
Lemma conn_0 (w : pt3 RN) : conn (rp3 0 0 0) w = w.
Proof. destruct w as [x y z]. unfold conn, rp3. cbn. f_equal; apply Rminus_0_r. Qed.
Lemma sqd3_0 (w : pt3 RN) : sqd3 w (rp3 0 0 0) = rsq3 w.
Proof. unfold sqd3, rsq3, rdot3, rp3. cbn. toR; ring. Qed.
Lemma look_iso (t up : pt3 RN) m : m4_look_at t up = Ok m ->
  (isometry3 (fun p => pt3_multiply_m p m) <-> rsq3 (rcross up t) = 1).
Proof.
  intros H. destruct (Req_EM_T (rsq3 t) 0) as [Z|Z].
  { unfold m4_look_at in H. rewrite normalized3_R in H. destruct (Req_EM_T (rsq3 t) 0); [discriminate|contradiction]. }
  destruct (look_at_R t up Z) as (n & N & (X & Y & W) & m' & E & A). rewrite E in H. apply Ok_inj in H; subst m'.
  pose proof (rsq3_nonneg t). assert (P : 0 < rsq3 t) by lra. pose proof (sqrt_lt_R0 _ P) as S. set (l := sqrt (rsq3 t)) in *.
  set (u := rcross up t) in *.
  assert (O : rdot3 n u = 0).
  { pose proof (dot_cross_r up t) as D. fold u in D. unfold rdot3 in D |- *. rewrite X, Y, W in D.
    apply (Rmult_eq_reg_l l); [|lra]. rewrite Rmult_0_r. rewrite <- D. toR; ring. }
  assert (Q : forall p q, sqd3 (pt3_multiply_m p m) (pt3_multiply_m q m) =
     rsq3 u * (sqd3 p q - (rdot3 n (conn q p)) ^ 2) + (rdot3 n (conn q p)) ^ 2).
  { intros p q. pose proof (frame_length u n (conn q p) N O) as F. rewrite !A.
    replace (sqd3 p q) with (rsq3 (conn q p)) by (unfold sqd3, rsq3, rdot3, conn; cbn; toR; ring).
    replace (rsq3 u * (rsq3 (conn q p) - rdot3 n (conn q p) ^ 2)) with (rsq3 u * (rsq3 (conn q p) - rdot3 n (conn q p) * rdot3 n (conn q p))) by ring.
    rewrite <- F. unfold sqd3, rp3, conn, rdot3. cbn [px py pz]. mcbn. toR; ring. }
  split.
  - intros I. destruct (perp_exists n N) as (w & W0 & W1). specialize (I w (rp3 0 0 0)). cbv beta in I. rewrite Q in I.
    rewrite conn_0, sqd3_0 in I.
    rewrite W0 in I. apply (Rmult_eq_reg_r (rsq3 w)); [|exact W1]. lra.
  - intros U p q. rewrite Q, U. ring.
Qed.

(** ** Boxes of transformed point sets *)
Definition incr (g : R -> R) := forall a b, a < b -> g a < g b.
Lemma incr_inv g a b : incr g -> g a < g b -> a < b.
Proof. intros G H. destruct (Rtotal_order a b) as [L|[E|L]]; [exact L|subst; lra|]. specialize (G _ _ L). lra. Qed.
Lemma fmin_map g l : incr g -> forall a, @fmin RN (map g l) (g a) = g (@fmin RN l a).
Proof.
  intros G. induction l as [|x l IH]; intros a; [reflexivity|]. cbn [map]. unfold fmin in *. cbn [fold_left].
  rewrite <- IH. f_equal.
  destruct (R_ltb_spec (g x : T RN) (g a)) as [A|A], (R_ltb_spec x a) as [B|B]; try reflexivity; exfalso.
  - apply B. apply (incr_inv g); assumption.
  - apply A, G, B.
Qed.
Lemma fmax_map g l : incr g -> forall a, @fmax RN (map g l) (g a) = g (@fmax RN l a).
Proof.
  intros G. induction l as [|x l IH]; intros a; [reflexivity|]. cbn [map]. unfold fmax in *. cbn [fold_left].
  rewrite <- IH. f_equal.
  destruct (R_gtb_spec (g x : T RN) (g a)) as [A|A], (R_gtb_spec x a) as [B|B]; try reflexivity; exfalso.
  - apply B. apply (incr_inv g); assumption.
  - apply A, G, B.
Qed.
Lemma bb3_new_R (mn mx : pt3 RN) b : bb3_new mn mx = Ok b <->
  b = mkbb3 mn mx /\ px mn < px mx /\ py mn < py mx /\ pz mn < pz mx.
Proof.
  unfold bb3_new.
  destruct (R_eqb_spec (px mn) (px mx)), (R_eqb_spec (py mn) (py mx)), (R_eqb_spec (pz mn) (pz mx)); cbn [orb];
    try (split; [discriminate|intros (_ & ? & ? & ?); exfalso; lra]).
  destruct (R_gtb_spec (px mn) (px mx)), (R_gtb_spec (py mn) (py mx)), (R_gtb_spec (pz mn) (pz mx)); cbn [orb];
    try (split; [discriminate|intros (_ & ? & ? & ?); exfalso; lra]).
  split; [intros H; apply Ok_inj in H; subst b; repeat split; lra|intros (-> & _); reflexivity].
Qed.
Definition pmap (gx gy gz : R -> R) (p : pt3 RN) : pt3 RN := rp3 (gx (px p)) (gy (py p)) (gz (pz p)).
Lemma bb_pmap dbg ps b gx gy gz : incr gx -> incr gy -> incr gz -> (Z.of_nat (length ps) < 2 ^ 31)%Z ->
  bb3_from_iterator dbg ps = Ok b ->
  bb3_from_iterator dbg (map (pmap gx gy gz) ps) = Ok (mkbb3 (pmap gx gy gz (min3 b)) (pmap gx gy gz (max3 b))) /\
  px (min3 b) < px (max3 b) /\ py (min3 b) < py (max3 b) /\ pz (min3 b) < pz (max3 b).
Proof.
  intros X Y Z L. rewrite !bb3_from_spec by (rewrite ?map_length; exact L).
  destruct ps as [|p [|q r]]; try discriminate. intros H. apply bb3_new_R in H. destruct H as (-> & A & B & C).
  split; [|auto].
  assert (M : forall g (ax : pt3 RN -> T RN), (forall t, ax (pmap gx gy gz t) = g (ax t)) ->
     map ax (map (pmap gx gy gz) (q :: r)) = map g (map ax (q :: r))).
  { intros g ax E. rewrite !map_map. apply map_ext. exact E. }
  pose proof (M gx px (fun _ => eq_refl)) as MX. pose proof (M gy py (fun _ => eq_refl)) as MY. pose proof (M gz pz (fun _ => eq_refl)) as MZ.
  set (l := q :: r) in *. change (map (pmap gx gy gz) (p :: l)) with (pmap gx gy gz p :: map (pmap gx gy gz) l).
  change (map (pmap gx gy gz) l) with (pmap gx gy gz q :: map (pmap gx gy gz) r).
  cbv iota. change (pmap gx gy gz q :: map (pmap gx gy gz) r) with (map (pmap gx gy gz) l).
  rewrite MX, MY, MZ. apply bb3_new_R. cbn [min3 max3].
  change (px (pmap gx gy gz p)) with (gx (px p)). change (py (pmap gx gy gz p)) with (gy (py p)). change (pz (pmap gx gy gz p)) with (gz (pz p)).
  rewrite !fmin_map, !fmax_map by assumption. cbn [px py pz] in *. auto.
Qed.
