(** C139-C141: angles and direction field filters. *)
From Verif Require Import Base Num NumLemmas GeomSpec VecModel WrapModel VecSpec VecLemmas AngleModel AngleSpec AngleLemmas.
From Coq Require Import Floats.SpecFloat Reals Lra.
Local Open Scope R_scope.

(** In exact arithmetic the reported angle is the angle between the vectors; it fails exactly for zero vectors. *)
Theorem C139_angle (an : Angles RN) (a b : pt3 RN) : exact_acos (nacos an) ->
  (rsq3 a = 0 \/ rsq3 b = 0 -> rad_to3 an a b = Err CantCalculateAngleIfZeroLength) /\
  (rsq3 a <> 0 -> rsq3 b <> 0 ->
     exists t : R, rad_to3 an a b = Ok t /\ forall u : R, angle_between a b u <-> u = t).
Proof.
  intros L. split.
  - intros H. rewrite rad_to3_R. destruct (Req_EM_T (rsq3 a) 0); [reflexivity|]. destruct (Req_EM_T (rsq3 b) 0); [reflexivity|tauto].
  - intros A B. destruct (rad_to3_angle an a b L A B) as (t & E & G). exists t. split; [exact E|]. intros u. split.
    + intros U. exact (angle_unique a b u t A B U G).
    + intros ->. exact G.
Qed.
Print Assumptions C139_angle.

(** It is symmetric, does not depend on the lengths, and turning one vector around gives the supplement. *)
Theorem C139_symmetric (an : Angles RN) (a b : pt3 RN) (k : R) : exact_acos (nacos an) -> rsq3 a <> 0 -> rsq3 b <> 0 ->
  exists t : R, rad_to3 an a b = Ok t /\ rad_to3 an b a = Ok t /\
    (0 < k -> rad_to3 an (times3 k a) b = Ok t) /\ (k < 0 -> rad_to3 an (times3 k a) b = Ok (PI - t)).
Proof.
  intros L A B. destruct (rad_to3_angle an a b L A B) as (t & E & G). exists t. split; [exact E|]. split; [|split].
  - destruct (rad_to3_angle an b a L B A) as (u & F & H). rewrite F. f_equal. exact (angle_unique b a u t B A H (angle_sym _ _ _ G)).
  - intros K. assert (N : rsq3 (times3 k a) <> 0) by (rewrite rsq3_times; intros Z; apply Rmult_integral in Z; destruct Z; [nra|contradiction]).
    destruct (rad_to3_angle an (times3 k a) b L N B) as (u & F & H). rewrite F. f_equal.
    exact (angle_unique _ b u t N B H (angle_scale _ _ _ _ K G)).
  - intros K. assert (N : rsq3 (times3 k a) <> 0) by (rewrite rsq3_times; intros Z; apply Rmult_integral in Z; destruct Z; [nra|contradiction]).
    destruct (rad_to3_angle an (times3 k a) b L N B) as (u & F & H). rewrite F. f_equal.
    exact (angle_unique _ b u (PI - t) N B H (angle_flip _ _ _ _ K G)).
Qed.
Print Assumptions C139_symmetric.

(** With f64 a NaN coordinate of the receiver panics, and without NaN nothing panics. *)
Theorem C139_panics (an : Angles F64) (a b : pt3 F64) :
  (~ numbers3 a -> rad_to3 an a b = Panic) /\
  (numbers3 a -> numbers3 b -> rad_to3 an a b <> Panic) /\
  (numbers3 a -> ~ numbers3 b -> rad_to3 an a b = Panic \/ rad_to3 an a b = Err CantCalculateAngleIfZeroLength).
Proof.
  split; [|split].
  - intros H. unfold rad_to3. rewrite (abs3_nan a H). reflexivity.
  - intros A B. destruct (abs3_num a A) as (l & E & _). destruct (abs3_num b B) as (m & F & _).
    unfold rad_to3. rewrite E. cbn [obind]. destruct (_ == _)%num; [discriminate|]. rewrite F. cbn [obind]. destruct (_ == _)%num; discriminate.
  - intros A B. destruct (abs3_num a A) as (l & E & _). unfold rad_to3. rewrite E. cbn [obind]. destruct (_ == _)%num; [auto|].
    rewrite (abs3_nan b B). auto.
Qed.
Print Assumptions C139_panics.

(** With f64 short vectors that are not zero have no angle: the squares underflow. *)
Theorem C139_short_refuted : exists a : pt3 F64, numbers3 a /\ ~ feq (px a) (fz 0) /\
  forall an b, rad_to3 an a b = Err CantCalculateAngleIfZeroLength.
Proof.
  exists (@mk3 F64 (@lit F64 1 (-600)) (fz 0) (fz 0)). split; [repeat split; vm_compute; discriminate|]. split.
  - vm_compute. discriminate.
  - intros an b. unfold rad_to3. replace (abs3 _) with (@Ok ErrorKind _ (fz 0)) by (vm_compute; reflexivity). reflexivity.
Qed.
Print Assumptions C139_short_refuted.

Example C139_case :
  exact_acos (nacos (mkAngles RN acos atan2_R)) /\ rsq3 (rp3 1 0 0) <> 0 /\ rsq3 (rp3 1 1 0) <> 0 /\
  angle_between (rp3 1 0 0) (rp3 0 1 0) (PI / 2).
Proof.
  split; [apply exact_acos_acos|]. unfold angle_between, rsq3, rdot3. cbn [rp3 px py pz].
  split; [lra|split; [lra|]]. pose proof PI_RGT_0. split; [lra|]. rewrite cos_PI2. ring.
Qed.

(** In exact arithmetic the 3D direction filter accepts exactly the directions within the given angle. *)
Theorem C140_filter (an : Angles RN) (f : @dfilter3 RN) (p n : pt3 RN) :
  exact_acos (nacos an) -> rsq3 (field3 f p) = 1 -> rsq3 n = 1 ->
  exists b, dfilter3_allowed an f (p, n) = Ok b /\
    (b = true <-> exists t, angle_between (field3 f p) n t /\ t <= tol3 f) /\
    (0 <= tol3 f <= PI -> b = true <-> cos (tol3 f) <= rdot3 (field3 f p) n) /\
    (tol3 f < 0 -> b = false) /\ (PI <= tol3 f -> b = true).
Proof.
  intros L A B. destruct (dfilter3_R an f p n L A B) as (b & E & I). exists b. split; [exact E|]. split; [exact I|]. split; [|split].
  - intros H. destruct (dfilter3_dot an f p n L A B H) as (c & E' & J). rewrite E in E'. injection E' as <-. exact J.
  - intros H. destruct b; [|reflexivity]. destruct (proj1 I eq_refl) as (t & [T _] & U). lra.
  - intros H. apply I. destruct (rad_to3_angle an (field3 f p) n L) as (t & _ & T); try lra. exists t. split; [exact T|]. destruct T. lra.
Qed.
Print Assumptions C140_filter.

(** A position without direction, or data without direction, is refused. *)
Theorem C140_no_direction (an : Angles RN) (f : @dfilter3 RN) (p n : pt3 RN) :
  rsq3 (field3 f p) = 0 \/ rsq3 n = 0 -> dfilter3_allowed an f (p, n) = Ok false.
Proof.
  intros H. unfold dfilter3_allowed. cbn [fst snd]. rewrite rad_to3_R.
  destruct (Req_EM_T (rsq3 (field3 f p)) 0); [reflexivity|]. destruct (Req_EM_T (rsq3 n) 0); [reflexivity|tauto].
Qed.
Print Assumptions C140_no_direction.

(** With f64 a filter can refuse the very direction its field prescribes, whatever the tolerance: the cosine is
    computed as a number above one, of which no arc cosine exists. *)
Theorem C140_own_direction_refuted : exists n : pt3 F64, (exists v, norm3_new v = Ok n) /\
  forall an, (forall x, flt (fz 1) x -> nacos an x = S754_nan) ->
  forall eps p, dfilter3_allowed an (mkDF3 (fun _ => n) eps) (p, n) = Ok false.
Proof.
  pose (n := @mk3 F64 (S754_finite true 7862128073219129 (-55)) (S754_finite true 7862128073219129 (-53))
    (S754_finite false 7862128073219129 (-54))).
  assert (N : norm3_new (fp3 (-1) (-4) 2) = Ok n) by vmeq.
  assert (A : abs3 n = Ok (fz 1)) by vmeq.
  assert (D : dot3 n n = (S754_finite false 4503599627370497 (-52) : T F64)) by vmeq.
  assert (E : exists q, norm3_new (fp3 (-1) (-4) 2) = Ok n /\ flt (fz 1) q /\ forall an, rad_to3 an n n = Ok (nacos an q)).
  { exists (ndiv (S754_finite false 4503599627370497 (-52) : T F64) (fz 1)). split; [exact N|]. split; [vmeq|]. intros an.
    assert (B : neqb (fz 1) n0 = false) by vmeq. assert (M : nmul (fz 1) (fz 1) = fz 1) by vmeq.
    unfold rad_to3, nn_mul. rewrite A. cbn [obind]. rewrite B, D, M. reflexivity. }
  clearbody n.
  destruct E as (q & E1 & E2 & E3). exists n. split; [eauto|]. intros an L eps p.
  unfold dfilter3_allowed. cbn [fst snd field3 tol3]. rewrite E3, (L q E2). reflexivity.
Qed.
Print Assumptions C140_own_direction_refuted.

Example C140_case : exists f : @dfilter3 RN, exists p n : pt3 RN, rsq3 (field3 f p) = 1 /\ rsq3 n = 1 /\ 0 <= tol3 f <= PI.
Proof.
  exists (@mkDF3 RN (fun _ => rp3 1 0 0) (PI / 4 : R)), (rp3 5 6 7), (rp3 0 1 0).
  pose proof PI_RGT_0. unfold rsq3, rdot3. cbn [field3 tol3 rp3 px py pz]. lra.
Qed.

(** In exact arithmetic rad_to of 2D positions is the direction in which the other position lies. *)
Theorem C141_rad_to (an : Angles RN) (a b : pt2 RN) : exact_atan2 (natan2 an) ->
  (x2 a = x2 b /\ y2 a = y2 b -> rad_to2 an a b = (0 : R)) /\
  (~ (x2 a = x2 b /\ y2 a = y2 b) -> forall t : R, polar_angle (x2 b - x2 a) (y2 b - y2 a) t <-> t = rad_to2 an a b).
Proof.
  intros L. destruct (rad_to2_polar an a b L) as [A B]. split; [exact A|]. intros N t. specialize (B N). split.
  - intros H. apply (polar_unique (x2 b - x2 a) (y2 b - y2 a)); auto. destruct (Req_dec (x2 b - x2 a) 0) as [D|D]; [right|left; exact D].
    intros E. apply N. cbn in *. lra.
  - intros ->. exact B.
Qed.
Print Assumptions C141_rad_to.

(** The 2D direction filter applies it to directions: every direction with a smaller y component is accepted whatever the
    tolerance, the opposite one included. *)
Theorem C141_accepts_opposite_refuted (an : Angles RN) (f : @dfilter2 RN) (p n : pt2 RN) :
  exact_atan2 (natan2 an) -> 0 <= tol2 f -> y2 n < y2 (field2 f p) -> dfilter2_allowed an f (p, n) = true.
Proof. exact (dfilter2_below an f p n). Qed.
Print Assumptions C141_accepts_opposite_refuted.

(** For a field along the x axis and any tolerance up to a right angle it accepts exactly the lower half circle and the
    axis itself, so arbitrarily close directions are refused. *)
Theorem C141_refuses_close_refuted (an : Angles RN) (f : @dfilter2 RN) (p n : pt2 RN) :
  exact_atan2 (natan2 an) -> 0 <= tol2 f <= PI / 2 -> x2 (field2 f p) = 1 -> y2 (field2 f p) = 0 -> rsq2 n = 1 ->
  dfilter2_allowed an f (p, n) = true <-> y2 n < 0 \/ (x2 n = 1 /\ y2 n = 0).
Proof. exact (dfilter2_x an f p n). Qed.
Print Assumptions C141_refuses_close_refuted.

Example C141_case : exact_atan2 (natan2 (mkAngles RN acos atan2_R)) /\
  (let f := @mkDF2 RN (fun _ => @mk2 RN (0 : R) (1 : R)) (0 : R) in let n := @mk2 RN (0 : R) (-1 : R) in
   dfilter2_allowed (mkAngles RN acos atan2_R) f (@mk2 RN (3 : R) (4 : R), n) = true).
Proof.
  split; [apply exact_atan2_R|]. apply dfilter2_below; [apply exact_atan2_R| |]; cbn; lra.
Qed.
