(** Geometric filters in doubles (C174). *)
From Verif Require Import Base Num NumLemmas BBoxModel GeomSpec KdModel FilterModel ShapeModel VecModel FloatSpec FloatBridge DistSpec DistLemmas DistLemmas3 DeriveLemmas GeoSpec GeoLemmas UnitLemmas.
From Coq Require Import Floats.SpecFloat Reals Lra.
Local Open Scope R_scope.

(** ** Spheres and circles decide up to a few units in the last place *)
Theorem C174_sphere : forall s p, finite3 (sph_center s) -> finite3 p -> usual_radius (sph_radius s) ->
  decides_radius (filter_sphere s p) (true_dist3 p (sph_center s)) (fval (sph_radius s)).
Proof.
  intros s p C P R. destruct (sqr_key3 p _ P C) as [N K]. apply fin3 in P, C. destruct P as ((? & _) & (? & _) & (? & _)), C as ((? & _) & (? & _) & (? & _)).
  unfold filter_sphere, dist_3d. apply (decided _ _ _ _ _ _ _ _ _ N K); auto.
Qed.
Print Assumptions C174_sphere.
Theorem C174_circle : forall s p, finite2 (cir_center s) -> finite2 p -> usual_radius (cir_radius s) ->
  decides_radius (filter_circle s p) (true_dist2 p (cir_center s)) (fval (cir_radius s)).
Proof.
  intros s p C P R. destruct (sqr_key2 p _ P C) as [N K]. apply fin2 in P, C. destruct P as ((? & _) & (? & _)), C as ((? & _) & (? & _)).
  assert (DZ : is_double (S754_zero false : T F64)) by reflexivity. unfold filter_circle, dist_2d.
  apply (decided _ (x2 p) (x2 (cir_center s)) (y2 p) (y2 (cir_center s)) (S754_zero false) (S754_zero false) _ _ N); auto.
  - rewrite K. rewrite sqk_zero by (reflexivity || exact I). cbn [fval]. rewrite Rmult_0_l, rk0, Rplus_0_r. symmetry. apply rk_fix; [apply rk_fmt|apply rk_le_top].
  - unfold true_dist2, sqd2, real2. cbn [x2 y2 fval]. f_equal. ring.
Qed.
Print Assumptions C174_circle.
(** The sphere filter can accept a position outside of its own bounding box. *)
Theorem C174_bounding_refuted : exists s b p, finite3 (sph_center s) /\ finite3 p /\ usual_radius (sph_radius s) /\
  sphere_bounding_box s = Ok b /\ filter_sphere s p = true /\ flt (px (max3 b)) (px p).
Proof.
  exists (mksphere (fp3 (-1) 0 0) (lit 1 53 : T F64)), (mkbb3 (mk3 (lit (-9007199254740992) 0 : T F64) (lit (-1) 53) (lit (-1) 53)) (mk3 (lit 9007199254740991 0 : T F64) (lit 1 53) (lit 1 53))), (mk3 (lit 1 53 : T F64) n0 n0).
  do 2 (split; [intros ax [->|[->| ->]]; split; vm_compute; reflexivity||exact I|]). split; [|split; [vmeq|split; vm_compute; reflexivity]].
  split; [vm_compute; reflexivity|]. split; [vm_compute; exact I|]. change (sph_radius (mksphere (fp3 (-1) 0 0) (lit 1 53 : T F64))) with (S754_finite false 4503599627370496 1 : T F64). cbn [fval]. rewrite !bp_powerRZ.
  assert (E : 1 * 4503599627370496 * Raux.bpow Zaux.radix2 1 = Raux.bpow Zaux.radix2 53) by (cbn; lra). rewrite E. split; [apply Raux.bpow_le; lia|apply Raux.bpow_lt; lia].
Qed.
Print Assumptions C174_bounding_refuted.

(** ** Boxes: no position inside is rejected, and accepted positions are inside or nearest to the border *)
Lemma ngeb_fle (x y : T F64) : ngeb x y = nleb y x.
Proof.
  unfold ngeb, nleb. assert (E : ncmp y x = option_map CompOpp (ncmp x y)) by apply ncmp_opp. rewrite E. destruct (ncmp x y) as [[]|]; reflexivity.
Qed.
Theorem C174_box : forall b p, finite3 (box_center b) -> finite3 p -> usual_size (box_sx b) -> usual_size (box_sy b) -> usual_size (box_sz b) ->
  (truly_between (px p) (px (box_center b)) (box_sx b) /\ truly_between (py p) (py (box_center b)) (box_sy b) /\ truly_between (pz p) (pz (box_center b)) (box_sz b) -> filter_box3 b p = true) /\
  (filter_box3 b p = true -> between_borders (px p) (px (box_center b)) (box_sx b) /\ between_borders (py p) (py (box_center b)) (box_sy b) /\ between_borders (pz p) (pz (box_center b)) (box_sz b)).
Proof.
  intros b p C P S1 S2 S3. apply fin3 in P, C. destruct P as ((D1 & F1) & (D2 & F2) & (D3 & F3)), C as ((E1 & G1) & (E2 & G2) & (E3 & G3)).
  destruct (interval _ _ _ D1 F1 E1 G1 S1) as [A1 B1]. destruct (interval _ _ _ D2 F2 E2 G2 S2) as [A2 B2]. destruct (interval _ _ _ D3 F3 E3 G3 S3) as [A3 B3].
  unfold filter_box3. rewrite !Bool.andb_true_iff in *. tauto.
Qed.
Print Assumptions C174_box.
Theorem C174_box_2d : forall b p, finite2 (box2_center b) -> finite2 p -> usual_size (box2_sx b) -> usual_size (box2_sy b) ->
  (truly_between (x2 p) (x2 (box2_center b)) (box2_sx b) /\ truly_between (y2 p) (y2 (box2_center b)) (box2_sy b) -> filter_box2 b p = true) /\
  (filter_box2 b p = true -> between_borders (x2 p) (x2 (box2_center b)) (box2_sx b) /\ between_borders (y2 p) (y2 (box2_center b)) (box2_sy b)).
Proof.
  intros b p C P S1 S2. apply fin2 in P, C. destruct P as ((D1 & F1) & (D2 & F2)), C as ((E1 & G1) & (E2 & G2)).
  destruct (interval _ _ _ D1 F1 E1 G1 S1) as [A1 B1]. destruct (interval _ _ _ D2 F2 E2 G2 S2) as [A2 B2].
  unfold filter_box2. rewrite !Bool.andb_true_iff in *. tauto.
Qed.
Print Assumptions C174_box_2d.
(** The box filters accept exactly what their bounding boxes enclose, whatever the doubles. *)
Theorem C174_box_bounding : (forall b bb p, box3_bounding_box b = Ok bb -> (filter_box3 b p = true <-> forall ax, axis3 ax -> fle (ax (min3 bb)) (ax p) /\ fle (ax p) (ax (max3 bb)))) /\
  (forall b bb p, box2_bounding_box b = Ok bb -> (filter_box2 b p = true <-> forall ax, axis2 ax -> fle (ax (min2 bb)) (ax p) /\ fle (ax p) (ax (max2 bb)))).
Proof.
  split; intros b bb p H.
  - unfold box3_bounding_box, unwrap_res, bb3_new in H. destruct (_ || _)%bool; [discriminate|]. destruct (_ || _)%bool; [discriminate|]. injection H as <-. unfold filter_box3. rewrite !Bool.andb_true_iff, !ngeb_fle. split.
    + intros H ax [->|[->| ->]]; cbn [min3 max3 px py pz]; split; apply H.
    + intros H. pose proof (H px ltac:(unfold axis3; auto)). pose proof (H py ltac:(unfold axis3; auto)). pose proof (H pz ltac:(unfold axis3; auto)). cbn [min3 max3 px py pz] in *. tauto.
  - unfold box2_bounding_box, unwrap_res, bb2_new in H. destruct (_ || _)%bool; [discriminate|]. destruct (_ || _)%bool; [discriminate|]. injection H as <-. unfold filter_box2. rewrite !Bool.andb_true_iff, !ngeb_fle. split.
    + intros H ax [->| ->]; cbn [min2 max2 x2 y2]; split; apply H.
    + intros H. pose proof (H x2 ltac:(unfold axis2; auto)). pose proof (H y2 ltac:(unfold axis2; auto)). cbn [min2 max2 x2 y2] in *. tauto.
Qed.
Print Assumptions C174_box_bounding.

Example C174_case : finite3 (fp3 1 2 3) /\ usual_radius (fz 5) /\ usual_size (fz 6) /\
  filter_sphere (mksphere (fp3 1 2 3) (fz 5)) (fp3 4 6 3) = true /\ filter_sphere (mksphere (fp3 1 2 3) (fz 5)) (fp3 4 6 4) = false /\
  filter_box3 (mkbox3d (fp3 1 2 3) (fz 6) (fz 6) (fz 6)) (fp3 4 5 0) = true /\ filter_box3 (mkbox3d (fp3 1 2 3) (fz 6) (fz 6) (fz 6)) (fp3 4 5 (-1)) = false /\
  box3_bounding_box (mkbox3d (fp3 1 2 3) (fz 6) (fz 6) (fz 6)) = Ok (mkbb3 (fp3 (-2) (-1) 0) (fp3 4 5 6)).
Proof.
  assert (V5 : fval (fz 5) = 5). { change (fz 5) with (S754_finite false 5629499534213120 (-50) : T F64). cbn [fval]. rewrite bp_powerRZ. change (Raux.bpow Zaux.radix2 (-50)) with (/ 1125899906842624). field. }
  assert (V6 : fval (fz 6) = 6). { change (fz 6) with (S754_finite false 6755399441055744 (-50) : T F64). cbn [fval]. rewrite bp_powerRZ. change (Raux.bpow Zaux.radix2 (-50)) with (/ 1125899906842624). field. }
  split; [intros ax [->|[->| ->]]; split; vm_compute; reflexivity||exact I|].
  split; [split; [vm_compute; reflexivity|split; [vm_compute; exact I|rewrite V5, !bp_powerRZ; split]]|].
  - apply Rle_trans with (Raux.bpow Zaux.radix2 0); [apply Raux.bpow_le; lia|cbn; lra].
  - apply Rlt_le_trans with (Raux.bpow Zaux.radix2 3); [cbn; lra|apply Raux.bpow_le; lia].
  - split; [split; [vm_compute; reflexivity|split; [vm_compute; exact I|rewrite V6, bp_powerRZ; apply Rle_trans with (Raux.bpow Zaux.radix2 0); [apply Raux.bpow_le; lia|cbn; lra]]]|].
    do 4 (split; [vm_compute; reflexivity|]). vmeq.
Qed.
