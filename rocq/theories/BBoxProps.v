(** Theorems about bounding boxes (C10-C16, C76). *)
From Verif Require Import Base Num NumLemmas BBoxModel GeomSpec BBoxLemmas.
From Coq Require Import Floats.SpecFloat Reals Lra.
Local Notation box3 := (bb3 F64).
Local Notation box2 := (bb2 F64).

(** ** C10 *)
Theorem C10_from_iterator_3d : forall (dbg : bool) (ps : list (pt3 F64)),
  Forall number3 ps -> (Z.of_nat (length ps) < 2 ^ 31)%Z ->
  from3_outcome ps (bb3_from_iterator dbg ps).
Proof. exact from3_spec. Qed.
Print Assumptions C10_from_iterator_3d.
Theorem C10_from_iterator_2d : forall (dbg : bool) (ps : list (pt2 F64)),
  Forall number2 ps -> (Z.of_nat (length ps) < 2 ^ 31)%Z ->
  from2_outcome ps (bb2_from_iterator dbg ps).
Proof. exact from2_spec. Qed.
Print Assumptions C10_from_iterator_2d.

Example C10_case :
  bb3_from_iterator false [fp3 1 5 2; fp3 (-3) 7 0; fp3 2 6 9] = Ok (mkbb3 (fp3 (-3) 5 0) (fp3 2 7 9)) /\
  Forall number3 [fp3 1 5 2; fp3 (-3) 7 0; fp3 2 6 9] /\
  bb3_from_iterator true [fp3 1 5 2; fp3 1 7 0] = Err MinMaxEqual /\
  bb3_from_iterator true [fp3 1 5 2] = Err TooFewPoints /\
  bb2_from_iterator false [fp2 1 5; @mk2 F64 (S754_infinity true) (fz 3)]
    = Ok (mkbb2 (@mk2 F64 (S754_infinity true) (fz 3)) (fp2 1 5)).
Proof.
  repeat match goal with |- _ /\ _ => split end; try vmeq.
  repeat constructor; intros ? [->|[->| ->]]; vm_compute; discriminate.
Qed.

(** ** C76: the i32 counter. *)
Theorem C76_from_iterator_3d_overflow : forall (NM : Num) (ps : list (pt3 NM)),
  ((2 ^ 31 <= Z.of_nat (length ps) < 2 ^ 32)%Z -> bb3_from_iterator false ps = Err TooFewPoints) /\
  ((2 ^ 31 <= Z.of_nat (length ps))%Z -> bb3_from_iterator true ps = Panic).
Proof. intros NM ps. split; [apply bb3_overflow_release|apply bb3_overflow_debug]. Qed.
Print Assumptions C76_from_iterator_3d_overflow.
Theorem C76_from_iterator_2d_overflow : forall (NM : Num) (ps : list (pt2 NM)),
  ((2 ^ 31 <= Z.of_nat (length ps) < 2 ^ 32)%Z -> bb2_from_iterator false ps = Err TooFewPoints) /\
  ((2 ^ 31 <= Z.of_nat (length ps))%Z -> bb2_from_iterator true ps = Panic).
Proof. intros NM ps. split; [apply bb2_overflow_release|apply bb2_overflow_debug]. Qed.
Print Assumptions C76_from_iterator_2d_overflow.
(** A point list of that size on which a box exists mathematically. *)
Example C76_case : exists ps : list (pt3 F64),
  Z.of_nat (length ps) = (2 ^ 31)%Z /\ Forall number3 ps /\
  (forall ax, axis3 ax -> differ (map ax ps)) /\
  bb3_from_iterator false ps = Err TooFewPoints /\ bb3_from_iterator true ps = Panic.
Proof.
  destruct (Z_of_nat_complete (2 ^ 31 - 1)) as [k K]; [lia|]. symmetry in K.
  exists (fp3 0 0 0 :: repeat (fp3 1 1 1) k).
  assert (Len : Z.of_nat (length (fp3 0 0 0 :: repeat (fp3 1 1 1) k)) = (2 ^ 31)%Z).
  { cbn [length]. rewrite repeat_length. lia. }
  assert (In1 : In (fp3 1 1 1) (repeat (fp3 1 1 1) k)).
  { destruct k; [cbn in K; lia|]. left; reflexivity. }
  split; [exact Len|]. split.
  { apply Forall_forall. intros p [<-|H]; [|apply repeat_spec in H; subst p];
      intros ? [->|[->| ->]]; vm_compute; discriminate. }
  split.
  { intros ax Hax. exists (ax (fp3 0 0 0)), (ax (fp3 1 1 1)).
    split; [left; reflexivity|]. split; [apply in_map; right; exact In1|].
    destruct Hax as [->|[->| ->]]; vmeq. }
  split; [apply C76_from_iterator_3d_overflow; lia|apply C76_from_iterator_3d_overflow; lia].
Qed.

(** ** C11 *)
Theorem C11_new_3d : forall mn mx : pt3 F64, number3 mn -> number3 mx ->
  new3_outcome mn mx (bb3_new mn mx).
Proof. exact bb3_new_spec. Qed.
Print Assumptions C11_new_3d.
Theorem C11_new_2d : forall mn mx : pt2 F64, number2 mn -> number2 mx ->
  new2_outcome mn mx (bb2_new mn mx).
Proof. exact bb2_new_spec. Qed.
Print Assumptions C11_new_2d.
(** NaN corners can be accepted, and a NaN x coordinate makes size_x() panic. *)
Theorem C11_nan_accepted :
  (exists (mn mx : pt3 F64) b, bb3_new mn mx = Ok b /\ px mn = S754_nan) /\
  (exists (mn mx : pt2 F64) b, bb2_new mn mx = Ok b /\ x2 mn = S754_nan) /\
  (forall b : box3, px (min3 b) = S754_nan \/ px (max3 b) = S754_nan -> bb3_size_x b = Panic) /\
  (forall b : box2, x2 (min2 b) = S754_nan \/ x2 (max2 b) = S754_nan -> bb2_size_x b = Panic).
Proof.
  split; [|split; [|split]].
  - exists (@mk3 F64 S754_nan (fz 0) (fz 0)), (fp3 1 1 1). eexists. split; [reflexivity|vmeq].
  - exists (@mk2 F64 S754_nan (fz 0)), (fp2 1 1). eexists. split; [reflexivity|vmeq].
  - exact size_nan3.
  - exact size_nan2.
Qed.
Print Assumptions C11_nan_accepted.
Example C11_case :
  bb3_new (fp3 0 0 0) (fp3 1 2 3) = Ok (mkbb3 (fp3 0 0 0) (fp3 1 2 3)) /\
  bb3_new (fp3 0 5 0) (fp3 1 2 3) = Err MinMaxSwapped /\
  bb3_new (fp3 0 5 3) (fp3 1 2 3) = Err MinMaxEqual /\
  bb3_new (@mk3 F64 (S754_zero true) (fz 0) (fz 0)) (fp3 0 1 1) = Err MinMaxEqual /\
  number3 (fp3 0 5 3).
Proof.
  repeat match goal with |- _ /\ _ => split end; try vmeq. intros ? [->|[->| ->]]; vm_compute; discriminate.
Qed.

(** ** C12 *)
Theorem C12_merge_3d : forall a b : box3, box_number3 a -> box_number3 b ->
  bb3_consume a b = bb3_combine a b /\
  box_le3 a (bb3_combine a b) /\ box_le3 b (bb3_combine a b) /\
  (forall c, box_le3 a c -> box_le3 b c -> box_le3 (bb3_combine a b) c) /\
  (fvalid3 a -> fvalid3 b -> fvalid3 (bb3_combine a b)).
Proof.
  intros a b A B. destruct (combine3_lub a b A B) as (_ & P & Q & U).
  split; [reflexivity|]. split; [exact P|]. split; [exact Q|]. split; [exact U|]. apply merge_valid3.
Qed.
Print Assumptions C12_merge_3d.
Theorem C12_merge_2d : forall a b : box2, box_number2 a -> box_number2 b ->
  bb2_consume a b = bb2_combine a b /\
  box_le2 a (bb2_combine a b) /\ box_le2 b (bb2_combine a b) /\
  (forall c, box_le2 a c -> box_le2 b c -> box_le2 (bb2_combine a b) c) /\
  (fvalid2 a -> fvalid2 b -> fvalid2 (bb2_combine a b)).
Proof.
  intros a b A B. destruct (combine2_lub a b A B) as (_ & P & Q & U).
  split; [reflexivity|]. split; [exact P|]. split; [exact Q|]. split; [exact U|]. apply merge_valid2.
Qed.
Print Assumptions C12_merge_2d.
Theorem C12_merge_laws_3d : forall a b c : box3, box_number3 a -> box_number3 b -> box_number3 c ->
  box_eq3 (bb3_combine a b) (bb3_combine b a) /\
  box_eq3 (bb3_combine a (bb3_combine b c)) (bb3_combine (bb3_combine a b) c) /\
  bb3_combine a a = a.
Proof. exact combine3_laws. Qed.
Print Assumptions C12_merge_laws_3d.
Theorem C12_merge_laws_2d : forall a b c : box2, box_number2 a -> box_number2 b -> box_number2 c ->
  box_eq2 (bb2_combine a b) (bb2_combine b a) /\
  box_eq2 (bb2_combine a (bb2_combine b c)) (bb2_combine (bb2_combine a b) c) /\
  bb2_combine a a = a.
Proof. exact combine2_laws. Qed.
Print Assumptions C12_merge_laws_2d.
Example C12_case :
  bb3_combine (mkbb3 (fp3 0 0 0) (fp3 1 1 1)) (mkbb3 (fp3 (-1) 0 0) (fp3 0 4 (1)))
    = mkbb3 (fp3 (-1) 0 0) (fp3 1 4 1) /\
  box_number3 (mkbb3 (fp3 0 0 0) (fp3 1 1 1)) /\
  box_number3 (mkbb3 (fp3 (-1) 0 0) (fp3 0 4 1)).
Proof.
  split; [vmeq|].
  split; split; intros ? [->|[->| ->]]; vm_compute; discriminate.
Qed.

(** ** C13 *)
Theorem C13_containment_3d : forall (a b c : box3) (p : pt3 F64),
  (bb3_contains b p = true <->
     forall ax, axis3 ax -> flt (ax (min3 b)) (ax p) /\ flt (ax p) (ax (max3 b))) /\
  (bb3_is_inside a b = true <->
     forall ax, axis3 ax -> flt (ax (min3 b)) (ax (min3 a)) /\ flt (ax (max3 a)) (ax (max3 b))) /\
  bb3_has_inside b a = bb3_is_inside a b /\
  bb3_is_inside a a = false /\
  (bb3_is_inside a b = true -> bb3_is_inside b c = true -> bb3_is_inside a c = true) /\
  (bb3_is_inside a b = true -> bb3_contains a p = true -> bb3_contains b p = true).
Proof.
  intros. repeat match goal with |- _ /\ _ => split end.
  - apply contains3_iff.
  - apply inside3_iff.
  - apply has_inside3.
  - apply inside3_irrefl.
  - apply inside3_trans.
  - apply inside3_contains.
Qed.
Print Assumptions C13_containment_3d.
Theorem C13_containment_2d : forall (a b c : box2) (p : pt2 F64),
  (bb2_contains b p = true <->
     forall ax, axis2 ax -> flt (ax (min2 b)) (ax p) /\ flt (ax p) (ax (max2 b))) /\
  (bb2_is_inside a b = true <->
     forall ax, axis2 ax -> flt (ax (min2 b)) (ax (min2 a)) /\ flt (ax (max2 a)) (ax (max2 b))) /\
  bb2_has_inside b a = bb2_is_inside a b /\
  bb2_is_inside a a = false /\
  (bb2_is_inside a b = true -> bb2_is_inside b c = true -> bb2_is_inside a c = true) /\
  (bb2_is_inside a b = true -> bb2_contains a p = true -> bb2_contains b p = true).
Proof.
  intros. repeat match goal with |- _ /\ _ => split end.
  - apply contains2_iff.
  - apply inside2_iff.
  - apply has_inside2.
  - apply inside2_irrefl.
  - apply inside2_trans.
  - apply inside2_contains.
Qed.
Print Assumptions C13_containment_2d.
Example C13_case :
  bb3_contains (mkbb3 (fp3 0 0 0) (fp3 2 2 2)) (fp3 1 1 1) = true /\
  bb3_contains (mkbb3 (fp3 0 0 0) (fp3 2 2 2)) (fp3 0 1 1) = false /\
  bb3_is_inside (mkbb3 (fp3 0 0 0) (fp3 2 2 2)) (mkbb3 (fp3 (-1) (-1) (-1)) (fp3 3 3 3)) = true /\
  bb2_contains (mkbb2 (fp2 0 0) (fp2 2 2)) (@mk2 F64 S754_nan (fz 1)) = false.
Proof. repeat match goal with |- _ /\ _ => split end; vmeq. Qed.

(** ** C14 *)
Theorem C14_collides_with_3d : forall a b : bb3 RN, valid3 a -> valid3 b ->
  exists r, bb3_collides_with a b = Ok r /\
    (r = true <-> exists p, interior3 a p /\ interior3 b p).
Proof. exact collides3_R. Qed.
Print Assumptions C14_collides_with_3d.
Theorem C14_collides_with_2d : forall a b : bb2 RN, valid2 a -> valid2 b ->
  exists r, bb2_collides_with a b = Ok r /\
    (r = true <-> exists p, interior2 a p /\ interior2 b p).
Proof. exact collides2_R. Qed.
Print Assumptions C14_collides_with_2d.
Example C14_case : let a := mkbb2 (rp2 0 0) (rp2 2 2) in let b := mkbb2 (rp2 1 1) (rp2 3 3) in
  let c := mkbb2 (rp2 2 0) (rp2 3 2) in
  valid2 a /\ valid2 b /\ valid2 c /\
  (exists p, interior2 a p /\ interior2 b p) /\ ~ (exists p, interior2 a p /\ interior2 c p).
Proof.
  cbn zeta. repeat match goal with |- _ /\ _ => split end;
    try (intros ? [->| ->]; cbn; lra).
  - exists (rp2 (3/2) (3/2)). split; intros ? [->| ->]; cbn; lra.
  - intros (p & A & B). specialize (A x2 (or_introl eq_refl)). specialize (B x2 (or_introl eq_refl)).
    cbn in *. lra.
Qed.

(** ** C15 *)
Theorem C15_distance_to_point_3d : forall (b : bb3 RN) (p : pt3 RN), valid3 b ->
  exists d, bb3_sqr_distance b p = Ok d /\ bb3_distance b p = Ok (sqrt d) /\
    (exists q, closed3 b q /\ d = sqd3 p q) /\
    (forall q, closed3 b q -> (d <= sqd3 p q)%R) /\
    (d = 0%R <-> closed3 b p).
Proof. exact sqr_distance3_R. Qed.
Print Assumptions C15_distance_to_point_3d.
Theorem C15_distance_to_point_2d : forall (b : bb2 RN) (p : pt2 RN), valid2 b ->
  exists d, bb2_sqr_distance b p = Ok d /\ bb2_distance b p = Ok (sqrt d) /\
    (exists q, closed2 b q /\ d = sqd2 p q) /\
    (forall q, closed2 b q -> (d <= sqd2 p q)%R) /\
    (d = 0%R <-> closed2 b p).
Proof. exact sqr_distance2_R. Qed.
Print Assumptions C15_distance_to_point_2d.
Theorem C15_distance_to_box_3d : forall a b : bb3 RN, valid3 a -> valid3 b ->
  exists d, bb3_sqr_distance_bb a b = Ok d /\ bb3_sqr_distance_bb b a = Ok d /\
    (exists p q, closed3 a p /\ closed3 b q /\ d = sqd3 p q) /\
    (forall p q, closed3 a p -> closed3 b q -> (d <= sqd3 p q)%R) /\
    (d = 0%R <-> exists p, closed3 a p /\ closed3 b p).
Proof. exact sqr_distance_bb3_R. Qed.
Print Assumptions C15_distance_to_box_3d.
Theorem C15_distance_to_box_2d : forall a b : bb2 RN, valid2 a -> valid2 b ->
  exists d, bb2_sqr_distance_bb a b = Ok d /\ bb2_sqr_distance_bb b a = Ok d /\
    (exists p q, closed2 a p /\ closed2 b q /\ d = sqd2 p q) /\
    (forall p q, closed2 a p -> closed2 b q -> (d <= sqd2 p q)%R) /\
    (d = 0%R <-> exists p, closed2 a p /\ closed2 b p).
Proof. exact sqr_distance_bb2_R. Qed.
Print Assumptions C15_distance_to_box_2d.
Example C15_case :
  valid3 (mkbb3 (rp3 0 0 0) (rp3 1 1 1)) /\ closed3 (mkbb3 (rp3 0 0 0) (rp3 1 1 1)) (rp3 1 (1/2) 1) /\
  ~ closed3 (mkbb3 (rp3 0 0 0) (rp3 1 1 1)) (rp3 3 (1/2) 1) /\
  sqd3 (rp3 3 (1/2) 1) (rp3 1 (1/2) 1) = 4%R /\
  bb3_sqr_distance (mkbb3 (fp3 0 0 0) (fp3 1 1 1)) (fp3 3 1 1) = Ok (fz 4).
Proof.
  repeat match goal with |- _ /\ _ => split end; try (intros ? [->|[->| ->]]; cbn; lra).
  - intro H. specialize (H px (or_introl eq_refl)). cbn in H. lra.
  - unfold sqd3; cbn. lra.
  - vmeq.
Qed.

(** ** C16 *)
Theorem C16_exact_3d : forall (b : bb3 RN), valid3 b ->
  (forall x y z, valid3 (bb3_move_by b x y z) /\ forall p : pt3 RN,
     closed3 (bb3_move_by b x y z) (rp3 (px p + x) (py p + y) (pz p + z)) <-> closed3 b p) /\
  (forall f, (0 < f)%R -> exists b', bb3_scale b f = Ok b' /\ valid3 b' /\ forall ax, axis3 ax ->
    (ax (max3 b') + ax (min3 b') = ax (max3 b) + ax (min3 b))%R /\
    (ax (max3 b') - ax (min3 b') = f * (ax (max3 b) - ax (min3 b)))%R).
Proof. intros b V. split; [intros; split; [apply move3_R; auto|apply move3_closed]|intros; apply scale3_R; auto]. Qed.
Print Assumptions C16_exact_3d.
Theorem C16_exact_2d : forall (b : bb2 RN), valid2 b ->
  (forall x y, valid2 (bb2_move_by b x y) /\ forall p : pt2 RN,
     closed2 (bb2_move_by b x y) (rp2 (x2 p + x) (y2 p + y)) <-> closed2 b p) /\
  (forall f, (0 < f)%R -> exists b', bb2_scale b f = Ok b' /\ valid2 b' /\ forall ax, axis2 ax ->
    (ax (max2 b') + ax (min2 b') = ax (max2 b) + ax (min2 b))%R /\
    (ax (max2 b') - ax (min2 b') = f * (ax (max2 b) - ax (min2 b)))%R).
Proof. intros b V. split; [intros; split; [apply move2_R; auto|apply move2_closed]|intros; apply scale2_R; auto]. Qed.
Print Assumptions C16_exact_2d.
(** In f64 a box of size 1 collapses when moved by 2^60, and a box at 2^52
    collapses when scaled by 2^-10; the accessors documented as safe panic. *)
Theorem C16_f64_collapse_3d : exists (b : box3) (x f : T F64),
  fvalid3 b /\ (n0 < f)%num = true /\
  bb3_size_x (bb3_move_by b x x x) = Panic /\ bb3_bounding_box (bb3_move_by b x x x) = Panic /\
  exists b', bb3_scale (mkbb3 (fp3 (2^52) 0 0) (fp3 (2^52 + 2) 1 1)) f = Ok b' /\
    fvalid3 (mkbb3 (fp3 (2^52) 0 0) (fp3 (2^52 + 2) 1 1)) /\
    bb3_size_x b' = Panic /\ bb3_bounding_box b' = Panic.
Proof.
  exists (mkbb3 (fp3 0 0 0) (fp3 1 1 1)), (fz (2^60)), (lit 1 (-10)).
  split; [intros ? [->|[->| ->]]; vmeq|].
  split; [vmeq|]. split; [vmeq|]. split; [vmeq|].
  exists (mkbb3 (@mk3 F64 (fz (2^52 + 1)) (lit 1023 (-11)) (lit 1023 (-11)))
                (@mk3 F64 (fz (2^52 + 1)) (lit 1025 (-11)) (lit 1025 (-11)))).
  split; [vmeq|].
  split; [intros ? [->|[->| ->]]; vmeq|]. split; vmeq.
Qed.
Print Assumptions C16_f64_collapse_3d.
Theorem C16_f64_collapse_2d : exists (b c : box2) (x f : T F64),
  fvalid2 b /\ fvalid2 c /\ (n0 < f)%num = true /\
  bb2_size_x (bb2_move_by b x x) = Panic /\ bb2_bounding_box (bb2_move_by b x x) = Panic /\
  exists c', bb2_scale c f = Ok c' /\ bb2_size_x c' = Panic /\ bb2_bounding_box c' = Panic.
Proof.
  exists (mkbb2 (fp2 0 0) (fp2 1 1)), (mkbb2 (fp2 (2^52) 0) (fp2 (2^52 + 2) 1)), (fz (2^60)), (lit 1 (-10)).
  split; [intros ? [->| ->]; vmeq|].
  split; [intros ? [->| ->]; vmeq|].
  split; [vmeq|]. split; [vmeq|]. split; [vmeq|].
  exists (mkbb2 (@mk2 F64 (fz (2^52 + 1)) (lit 1023 (-11))) (@mk2 F64 (fz (2^52 + 1)) (lit 1025 (-11)))).
  split; [vmeq|]. split; vmeq.
Qed.
Print Assumptions C16_f64_collapse_2d.
Example C16_case : valid3 (mkbb3 (rp3 0 0 0) (rp3 1 2 3)) /\
  bb3_scale (mkbb3 (fp3 0 0 0) (fp3 2 4 6)) (fz 2) = Ok (mkbb3 (fp3 (-1) (-2) (-3)) (fp3 3 6 9)).
Proof. split; [intros ? [->|[->| ->]]; cbn; lra|vmeq]. Qed.
