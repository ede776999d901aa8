(** Lemmas about the OcTree. *)
From Verif Require Import Base Num NumLemmas BBoxModel GeomSpec BBoxLemmas PermTac OcModel OcSpec.
From Coq Require Import Floats.SpecFloat Reals Lra Permutation.

Section Oct.
Context {NM : Num} {P : Type} (pos : P -> pt3 NM).

Lemma oct_ind (Q : octree P -> Prop) : Q ONone -> (forall p, Q (OLeaf p)) ->
  (forall cs, Forall Q cs -> Q (ONode cs)) -> forall t, Q t.
Proof.
  intros H0 H1 H2. fix IH 1. intros [|p|cs]; [exact H0|apply H1|apply H2].
  induction cs as [|c r IHr]; constructor; [apply IH|exact IHr].
Qed.

(** The points in collection order. *)
Fixpoint oelems (t : octree P) : list P :=
  match t with ONone => [] | OLeaf p => [p] | ONode cs => flat_map oelems cs end.

Lemma oc_size_elems t : oc_size t = length (oelems t).
Proof.
  induction t as [|p|cs IH] using oct_ind; try reflexivity. cbn [oc_size oelems].
  induction IH as [|c r Hc _ IHr]; [reflexivity|]. cbn [fold_right flat_map]. rewrite app_length. lia.
Qed.

Section Collect.
Context (of_pos : pt3 NM -> P).
Lemma collect_neg dbg m : (m < 0)%Z -> forall t d pc,
  oc_collect pos of_pos dbg d m t pc = Ok (pc ++ oelems t) \/
  (dbg = true /\ oc_collect pos of_pos dbg d m t pc = Panic).
Proof.
  intros Hm t. induction t as [|p|cs IH] using oct_ind; intros d pc.
  - left. cbn. now rewrite app_nil_r.
  - left. reflexivity.
  - cbn [oc_collect oelems]. destruct (Z.leb_spec 0 m) as [L|_]; [lia|]. cbn [andb]. revert pc.
    induction IH as [|c r Hc _ IHr]; intro pc; [left; cbn; now rewrite app_nil_r|].
    cbn [flat_map]. unfold i8_inc in *.
    destruct c as [|p|cs'].
    + apply IHr.
    + destruct (dbg && (d =? 127)%Z) eqn:E; cbn [obind].
      * right. split; [destruct dbg; [reflexivity|discriminate]|reflexivity].
      * cbn [oc_collect]. rewrite app_assoc. apply IHr.
    + destruct (dbg && (d =? 127)%Z) eqn:E; cbn [obind].
      * right. split; [destruct dbg; [reflexivity|discriminate]|reflexivity].
      * destruct (Hc ((d + 1 + 128) mod 256 - 128)%Z pc) as [X|[X Y]].
        -- rewrite X. cbn [obind]. rewrite app_assoc. apply IHr.
        -- right. split; [exact X|]. rewrite Y. reflexivity.
Qed.
Lemma collect_le m : forall t d pc, exists out,
  oc_collect pos of_pos false d m t pc = Ok (pc ++ out) /\ (length out <= length (oelems t))%nat.
Proof.
  intro t. induction t as [|p|cs IH] using oct_ind; intros d pc.
  - exists []. cbn. rewrite app_nil_r. auto.
  - exists [p]. cbn. auto.
  - cbn [oc_collect oelems]. revert pc.
    induction IH as [|c r Hc _ IHr]; intro pc; [exists []; cbn; rewrite app_nil_r; auto|].
    cbn [flat_map]. unfold i8_inc in *. cbn [andb] in *.
    assert (Go : forall k : list P -> res (list P),
      (forall pc, exists out, k pc = Ok (pc ++ out) /\ (length out <= length (flat_map oelems r))%nat) ->
      exists out,
      (if (0 <=? m)%Z && (m <? d)%Z
       then obind (oc_collect pos of_pos false ((d + 1 + 128) mod 256 - 128)%Z m c [])
              (fun sub => match pc3_cog (map pos sub) with Some c0 => k (pc ++ [of_pos c0]) | None => k pc end)
       else obind (oc_collect pos of_pos false ((d + 1 + 128) mod 256 - 128)%Z m c pc) k) = Ok (pc ++ out) /\
      (length out <= length (oelems c ++ flat_map oelems r))%nat).
    { intros k Hk. rewrite app_length. destruct ((0 <=? m)%Z && (m <? d)%Z).
      - destruct (Hc ((d + 1 + 128) mod 256 - 128)%Z []) as (o & E & L). rewrite E. cbn [obind app].
        destruct o as [|q o]; cbn [map pc3_cog].
        + destruct (Hk pc) as (o' & E' & L'). exists o'. split; [exact E'|lia].
        + match goal with |- context [k (pc ++ [?z])] => destruct (Hk (pc ++ [z])) as (o' & E' & L') end.
          eexists (_ :: o'). split; [rewrite E', <- app_assoc; reflexivity|]. cbn [length] in *. lia.
      - destruct (Hc ((d + 1 + 128) mod 256 - 128)%Z pc) as (o & E & L). rewrite E. cbn [obind].
        destruct (Hk (pc ++ o)) as (o' & E' & L'). exists (o ++ o'). rewrite E', app_assoc, app_length.
        split; [reflexivity|lia]. }
    destruct c as [|p|cs']; [apply IHr| |]; cbn [obind]; apply Go, IHr.
Qed.
End Collect.

(** Number of levels below a node. *)
Fixpoint oheight (t : octree P) : nat :=
  match t with ONode cs => fold_right (fun c h => Nat.max (match c with ONone => 0 | _ => S (oheight c) end) h)%nat 0%nat cs | _ => 0%nat end.
Lemma collect_shallow (of_pos : pt3 NM -> P) m dbg : (m < 0)%Z -> forall t d pc, (0 <= d)%Z -> (d + Z.of_nat (oheight t) <= 127)%Z ->
  oc_collect pos of_pos dbg d m t pc = Ok (pc ++ oelems t).
Proof.
  intros Hm t. induction t as [|p|cs IH] using oct_ind; intros d pc Hd Hh; [cbn; now rewrite app_nil_r|reflexivity|].
  cbn [oc_collect oelems]. destruct (Z.leb_spec 0 m) as [L|_]; [lia|]. cbn [andb].
  cbn [oheight] in Hh. revert pc Hh.
  induction IH as [|c r Hc _ IHr]; intros pc Hh; [cbn; now rewrite app_nil_r|].
  cbn [flat_map fold_right] in *. specialize (IHr (pc ++ oelems c)).
  destruct c as [|p|cs'].
  - cbn [oelems app] in *. rewrite app_nil_r in IHr. apply IHr. lia.
  - assert (I : i8_inc dbg d = Ok (d + 1)%Z).
    { unfold i8_inc. destruct (Z.eqb_spec d 127); [lia|]. rewrite Bool.andb_false_r. f_equal. rewrite Z.mod_small; lia. }
    rewrite I in IHr |- *. cbn [obind] in IHr |- *.
    rewrite Hc by (cbn; lia). cbn [obind]. rewrite IHr by lia. now rewrite <- app_assoc.
  - assert (I : i8_inc dbg d = Ok (d + 1)%Z).
    { unfold i8_inc. destruct (Z.eqb_spec d 127); [lia|]. rewrite Bool.andb_false_r. f_equal. rewrite Z.mod_small; lia. }
    rewrite I in IHr |- *. cbn [obind] in IHr |- *.
    rewrite Hc by lia. cbn [obind]. rewrite IHr by lia. now rewrite <- app_assoc.
Qed.
Lemma filter_split {A} (f : A -> bool) l : Permutation l (filter f l ++ filter (fun x => negb (f x)) l).
Proof.
  induction l as [|x r IH]; [reflexivity|]. cbn [filter]. destruct (f x); cbn [negb app].
  - now constructor.
  - rewrite <- Permutation_middle. now constructor.
Qed.
Lemma distribute_perm boxes : forall pc, exists rest,
  Permutation pc (concat (distribute pos boxes pc) ++ rest).
Proof.
  induction boxes as [|b r IH]; intro pc; [exists pc; reflexivity|]. cbn [distribute concat].
  destruct (IH (filter (fun p => negb (bb3_contains b (pos p))) pc)) as [rest H]. exists rest.
  rewrite (filter_split (fun p => bb3_contains b (pos p)) pc) at 1. rewrite <- app_assoc.
  apply Permutation_app_head, H.
Qed.
Lemma Forall2_weaken {A B} (R S : A -> B -> Prop) l m : (forall a b, R a b -> S a b) -> Forall2 R l m -> Forall2 S l m.
Proof. intros H F. induction F; constructor; auto. Qed.
Lemma distribute_in boxes : forall pc,
  Forall2 (fun b part => Forall (fun p => bb3_contains b (pos p) = true /\ In p pc) part) boxes (distribute pos boxes pc).
Proof.
  induction boxes as [|b r IH]; intro pc; [constructor|]. cbn [distribute]. constructor.
  - apply Forall_forall. intros p Hp. apply filter_In in Hp. tauto.
  - eapply Forall2_weaken; [|apply IH]. cbn. intros b' part F. eapply Forall_impl; [|exact F].
    intros p [H1 H2]. apply filter_In in H2. tauto.
Qed.
(** Everything known about the children. *)
Lemma build_subnodes_spec (rec : bb3 NM -> list P -> option (res (octree P))) :
  forall boxes parts cs, length boxes = length parts ->
  build_subnodes rec boxes parts = Some cs ->
  Forall2 (fun bp c => (snd bp = [] /\ c = ONone) \/
             snd bp <> [] /\ ((rec (fst bp) (snd bp) = Some (Ok c)) \/
                              c = ONone /\ exists r, rec (fst bp) (snd bp) = Some r /\ forall t, r <> Ok t))
    (combine boxes parts) cs.
Proof.
  induction boxes as [|b boxes IH]; intros [|pc parts] cs L H; try discriminate L.
  { cbn in H. injection H as <-. constructor. }
  cbn [build_subnodes combine] in *. injection L as L.
  destruct pc as [|p pc].
  - destruct (build_subnodes rec boxes parts) as [cs'|] eqn:E; [|discriminate]. injection H as <-.
    constructor; [left; auto|now apply IH].
  - destruct (rec b (p :: pc)) as [[n|e|]|] eqn:R; try discriminate;
      (destruct (build_subnodes rec boxes parts) as [cs'|] eqn:E; [|discriminate]); injection H as <-;
      (constructor; [|now apply IH]); right; cbn [fst snd]; (split; [discriminate|]).
    + left. exact R.
    + right. split; [reflexivity|]. eexists. split; [exact R|discriminate].
    + right. split; [reflexivity|]. eexists. split; [exact R|discriminate].
Qed.
Lemma sub_boxes_length ds (bb : bb3 NM) bs : sub_boxes ds bb = Ok bs -> length bs = length ds.
Proof.
  revert bs. induction ds as [|d r IH]; intros bs H; cbn [sub_boxes] in H; [now injection H as <-|].
  destruct (calc_sub_min_max d bb); try discriminate. cbn [obind] in H.
  destruct (sub_boxes r bb) eqn:E; try discriminate. injection H as <-. cbn. now rewrite (IH _ eq_refl).
Qed.
Lemma distribute_length boxes : forall pc, length (distribute pos boxes pc) = length boxes.
Proof. induction boxes as [|b r IH]; intro pc; cbn; [reflexivity|]. now rewrite IH. Qed.

Lemma children_perm (rec : bb3 NM -> list P -> option (res (octree P)))
  (R : forall b pc t, rec b pc = Some (Ok t) -> exists rest, Permutation pc (oelems t ++ rest)) boxes :
  forall parts cs, length boxes = length parts -> build_subnodes rec boxes parts = Some cs ->
  exists rest, Permutation (concat parts) (flat_map oelems cs ++ rest).
Proof.
  induction boxes as [|b boxes IH]; intros [|pc parts] cs L H; try discriminate L.
  { cbn in H. injection H as <-. exists []. reflexivity. }
  apply build_subnodes_spec in H as F; [|exact L]. cbn [combine] in F. inversion F as [|? c ? cs' Hc F']; subst.
  assert (H' : build_subnodes rec boxes parts = Some cs').
  { cbn [build_subnodes] in H. destruct pc.
    - destruct (build_subnodes rec boxes parts); [|discriminate]. injection H as _ ->. reflexivity.
    - destruct (rec b (p :: pc)) as [[n|e|]|]; try discriminate;
      (destruct (build_subnodes rec boxes parts); [|discriminate]); injection H as _ ->; reflexivity. }
  destruct (IH parts cs') as [rest Hr]; [now injection L|exact H'|].
  assert (C : exists rc, Permutation pc (oelems c ++ rc)).
  { cbn [fst snd] in Hc. destruct Hc as [[-> ->]|[_ [Hc|[-> _]]]].
    - exists []. reflexivity.
    - apply (R _ _ _ Hc).
    - exists pc. reflexivity. }
  destruct C as [rc Hrc]. exists (rc ++ rest). cbn [concat flat_map]. rewrite Hrc, Hr. perm.
Qed.
Lemma oc_new_perm fuel : forall bb pc t, oc_new pos fuel bb pc = Some (Ok t) ->
  exists rest, Permutation pc (oelems t ++ rest).
Proof.
  induction fuel as [|f IH]; intros bb pc t H; [discriminate|]. cbn [oc_new] in H.
  assert (G : match sub_boxes directions bb with
              | Ok boxes => match build_subnodes (oc_new pos f) boxes (distribute pos boxes pc) with
                            | Some cs => Some (Ok (ONode cs)) | None => None end
              | Err e => Some (Err e) | Panic => Some Panic end = Some (Ok t) ->
              exists rest, Permutation pc (oelems t ++ rest)).
  { clear H. intro H. destruct (sub_boxes directions bb) as [boxes|e|]; try discriminate.
    destruct (build_subnodes (oc_new pos f) boxes (distribute pos boxes pc)) as [cs|] eqn:B; [|discriminate].
    injection H as <-. cbn [oelems].
    destruct (children_perm _ IH boxes _ cs (eq_sym (distribute_length boxes pc)) B) as [r1 H1].
    destruct (distribute_perm boxes pc) as [r2 H2]. exists (r1 ++ r2). rewrite H2, H1. perm. }
  destruct pc as [|p [|q r]]; [apply G, H| |apply G, H].
  injection H as <-. exists []. reflexivity.
Qed.
Lemma oc_new_height fuel : forall b pc t, oc_new pos fuel b pc = Some (Ok t) -> (oheight t < fuel)%nat.
Proof.
  induction fuel as [|f IH]; intros b pc t H; [discriminate|]. cbn [oc_new] in H.
  assert (G : match sub_boxes directions b with
              | Ok boxes => match build_subnodes (oc_new pos f) boxes (distribute pos boxes pc) with
                            | Some cs => Some (Ok (ONode cs)) | None => None end
              | Err e => Some (Err e) | Panic => Some Panic end = Some (Ok t) -> (oheight t < S f)%nat).
  { clear H. intro H. destruct (sub_boxes directions b) as [boxes|e|]; try discriminate.
    destruct (build_subnodes (oc_new pos f) boxes (distribute pos boxes pc)) as [cs|] eqn:B; [|discriminate].
    injection H as <-. apply build_subnodes_spec in B; [|symmetry; apply distribute_length].
    cbn [oheight]. clear - IH B. induction B as [|bp c l m X _ IHB]; cbn [fold_right]; [lia|].
    destruct X as [[_ ->]|[_ [X|[-> (r & E & _)]]]].
    - lia.
    - apply IH in X. destruct c; lia.
    - lia. }
  destruct pc as [|p [|q r]]; [apply G, H| |apply G, H]. injection H as <-. cbn. lia.
Qed.
End Oct.

(** ** Doubles: what is kept lies strictly inside *)
Section Inside.
Context {P : Type} (pos : P -> pt3 F64).
Lemma new3_ok_lt (mn mx : pt3 F64) b : bb3_new mn mx = Ok b -> b = mkbb3 mn mx /\
  forall ax, axis3 ax -> number (ax mn) -> number (ax mx) -> flt (ax mn) (ax mx).
Proof.
  unfold bb3_new. destruct (_ || _ || _) eqn:E1; [discriminate|]. destruct (_ || _ || _) eqn:E2 in |- *; [discriminate|].
  intro H. injection H as <-. split; [reflexivity|]. intros ax Hax N1 N2.
  apply Bool.orb_false_iff in E1 as [E1 E13]. apply Bool.orb_false_iff in E1 as [E11 E12].
  apply Bool.orb_false_iff in E2 as [E2 E23]. apply Bool.orb_false_iff in E2 as [E21 E22].
  destruct Hax as [->|[->| ->]]; (destruct (trichotomy F64_laws _ _ N1 N2) as [X|[X|X]]; [exact X|congruence|]);
    rewrite (gtb_ltb F64_laws) in E21, E22, E23; congruence.
Qed.
Lemma flt_num a b : flt a b -> number a /\ number b.
Proof. apply (ltb_num F64_laws). Qed.
Lemma flt_tr a b c : flt a b -> flt b c -> flt a c.
Proof. apply (ltb_trans F64_laws). Qed.

Lemma sub_box_inside bb boxes : sub_boxes directions bb = Ok boxes -> number3 (min3 bb) -> number3 (max3 bb) ->
  forall b p, In b boxes -> bb3_contains b p = true -> finterior3 bb p.
Proof.
  intros H N1 N2. unfold directions in H. cbn [sub_boxes] in H. unfold calc_sub_min_max in H.
  set (m := center_3d (min3 bb) (max3 bb)) in *. clearbody m.
  repeat match type of H with context [bb3_new ?a ?b] =>
    let E := fresh "E" in destruct (bb3_new a b) as [?|?|] eqn:E; cbn [obind] in H; try discriminate end.
  injection H as <-.
  apply new3_ok_lt in E as [-> LU], E0 as [-> _], E1 as [-> _], E2 as [-> _], E3 as [-> _], E4 as [-> _],
    E5 as [-> _], E6 as [-> LD].
  intros b p Hb Hc. rewrite contains3_iff in Hc. intros ax Hax. specialize (Hc ax Hax) as [C1 C2].
  specialize (LU ax Hax). specialize (LD ax Hax). specialize (N1 ax Hax). specialize (N2 ax Hax).
  destruct (flt_num _ _ C1) as [K1 _]. destruct (flt_num _ _ C2) as [_ K2].
  assert (U : number (ax m) -> flt (ax m) (ax p) -> flt (ax (min3 bb)) (ax p)).
  { intros Nm C. eapply flt_tr; [apply LD; assumption|exact C]. }
  assert (D : number (ax m) -> flt (ax p) (ax m) -> flt (ax p) (ax (max3 bb))).
  { intros Nm C. eapply flt_tr; [exact C|apply LU; assumption]. }
  do 8 (destruct Hb as [<-|Hb]; [destruct Hax as [->|[->| ->]]; cbn [min3 max3 px py pz] in *; auto; fail|]).
  destruct Hb.
Qed.
Lemma Forall2_in_r {A B} (R : A -> B -> Prop) l m b : Forall2 R l m -> In b m -> exists a, In a l /\ R a b.
Proof.
  induction 1 as [|x y l m H _ IH]; intro I; [destruct I|]. destruct I as [<-|I]; [exists x; cbn; auto|].
  destruct (IH I) as (a & ? & ?). exists a. cbn; auto.
Qed.
Lemma oc_new_inside fuel bb pc t : oc_new pos fuel bb pc = Some (Ok t) -> length pc <> 1%nat ->
  number3 (min3 bb) -> number3 (max3 bb) -> Forall (fun p => finterior3 bb (pos p)) (oelems t).
Proof.
  intros H L N1 N2. destruct fuel as [|f]; [discriminate|]. cbn [oc_new] in H.
  assert (G : match sub_boxes directions bb with
              | Ok boxes => match build_subnodes (oc_new pos f) boxes (distribute pos boxes pc) with
                            | Some cs => Some (Ok (ONode cs)) | None => None end
              | Err e => Some (Err e) | Panic => Some Panic end = Some (Ok t)).
  { destruct pc as [|p [|q r]]; [exact H|exfalso; apply L; reflexivity|exact H]. }
  clear H. destruct (sub_boxes directions bb) as [boxes|e|] eqn:SB; try discriminate.
  destruct (build_subnodes (oc_new pos f) boxes (distribute pos boxes pc)) as [cs|] eqn:B; [|discriminate].
  injection G as <-. cbn [oelems]. apply build_subnodes_spec in B; [|symmetry; apply distribute_length].
  apply Forall_forall. intros p Hp. apply in_flat_map in Hp as (c & Hc & Hp).
  destruct (Forall2_in_r _ _ _ _ B Hc) as ([b part] & Hbp & X). cbn [fst snd] in X.
  assert (Pp : In p part).
  { destruct X as [[-> ->]|[_ [X|[-> _]]]]; [destruct Hp| |destruct Hp].
    destruct (oc_new_perm pos f b part c X) as [rest Q]. apply (Permutation_in _ (Permutation_sym Q)), in_app_iff. auto. }
  assert (Bb : In b boxes) by (eapply in_combine_l, Hbp).
  assert (Cb : bb3_contains b (pos p) = true).
  { pose proof (distribute_in pos boxes pc) as F. clear - F Hbp Pp.
    remember (distribute pos boxes pc) as parts eqn:E. clear E.
    induction F as [|b0 q0 bs ps H _ IH]; [destruct Hbp|]. destruct Hbp as [E|Hbp]; [|apply IH, Hbp].
    injection E as -> ->. rewrite Forall_forall in H. apply H, Pp. }
  eapply sub_box_inside; eassumption.
Qed.

(** At least two of the points are on the boundary of the bounding box. *)
Lemma boundary_two (ps : list (pt3 F64)) b kept lost :
  (2 <= length ps)%nat -> (forall ax, axis3 ax ->
      is_min (ax (min3 b)) (map ax ps) /\ is_max (ax (max3 b)) (map ax ps) /\ differ (map ax ps)) ->
  Forall (finterior3 b) kept -> Permutation ps (kept ++ lost) -> (length kept + 2 <= length ps)%nat.
Proof.
  intros L2 H F Q. assert (A : axis3 (@px F64)) by (left; reflexivity).
  destruct (H px A) as ([Im Lm] & [IM LM] & D).
  apply in_map_iff in Im as (p & Ep & Ip). apply in_map_iff in IM as (q & Eq & Iq).
  assert (Pl : forall r, In r ps -> (px r = px (min3 b) \/ px r = px (max3 b)) -> In r lost).
  { intros r Ir E. apply (Permutation_in _ Q), in_app_iff in Ir as [K|K]; [exfalso|exact K].
    rewrite Forall_forall in F. destruct (F r K px A) as [K1 K2].
    destruct E as [E|E]; rewrite E in *; [pose proof (ltb_irrefl F64_laws (px (min3 b))) as X|
      pose proof (ltb_irrefl F64_laws (px (max3 b))) as X]; unfold flt in *; change SFltb with (@nltb F64) in *; congruence. }
  assert (Lp : In p lost) by auto. assert (Lq : In q lost) by auto.
  assert (NE : p <> q).
  { intros ->. destruct D as (u & v & Iu & Iv & Luv).
    assert (X : flt (px q) (px q)).
    { rewrite Ep at 1. rewrite Eq.
      eapply (leb_ltb_trans F64_laws); [apply Lm, Iu|]. eapply (ltb_leb_trans F64_laws); [exact Luv|apply LM, Iv]. }
    pose proof (ltb_irrefl F64_laws (px q)). unfold flt in X; change SFltb with (@nltb F64) in X. congruence. }
  apply Permutation_length in Q. rewrite app_length in Q.
  enough (2 <= length lost)%nat by lia.
  destruct lost as [|a [|c r]]; [destruct Lp| |cbn; lia].
  destruct Lp as [->|[]], Lq as [->|[]]. congruence.
Qed.
End Inside.

(** ** Real coordinates: what is kept *)
Ltac toR := match goal with |- ?a = ?b => change (@eq R a b) end.
Section Keep.
Context {P : Type} (pos : P -> pt3 RN).
Local Open Scope R_scope.
Definition rmid (b : bb3 RN) : pt3 RN := center_3d (min3 b) (max3 b).
Lemma rmid_ax b ax : axis3 ax -> ax (rmid b) = (ax (min3 b) + ax (max3 b)) / 2.
Proof.
  unfold rmid, center_3d. rewrite R_n2. intros [->|[->| ->]]; cbn [px py pz]; cbn; lra.
Qed.
Lemma new3_R (mn mx : pt3 RN) : (forall ax, axis3 ax -> ax mn < ax mx) -> bb3_new mn mx = Ok (mkbb3 mn mx).
Proof.
  intro H. unfold bb3_new.
  pose proof (H px (or_introl eq_refl)). pose proof (H py (or_intror (or_introl eq_refl))).
  pose proof (H pz (or_intror (or_intror eq_refl))).
  destruct (R_eqb_spec (px mn) (px mx)); [lra|]. destruct (R_eqb_spec (py mn) (py mx)); [lra|].
  destruct (R_eqb_spec (pz mn) (pz mx)); [lra|]. cbn [orb].
  destruct (R_gtb_spec (px mn) (px mx)); [lra|]. destruct (R_gtb_spec (py mn) (py mx)); [lra|].
  destruct (R_gtb_spec (pz mn) (pz mx)); [lra|]. reflexivity.
Qed.
Lemma new3_R_inv (mn mx : pt3 RN) b : bb3_new mn mx = Ok b -> b = mkbb3 mn mx /\ valid3 b.
Proof.
  unfold bb3_new.
  destruct (R_eqb_spec (px mn) (px mx)); [discriminate|]. destruct (R_eqb_spec (py mn) (py mx)); [discriminate|].
  destruct (R_eqb_spec (pz mn) (pz mx)); [discriminate|]. cbn [orb].
  destruct (R_gtb_spec (px mn) (px mx)); [discriminate|]. destruct (R_gtb_spec (py mn) (py mx)); [discriminate|].
  destruct (R_gtb_spec (pz mn) (pz mx)); [discriminate|]. cbn [orb]. intro H. injection H as <-.
  split; [reflexivity|]. intros ax [->|[->| ->]]; cbn [min3 max3]; lra.
Qed.
(** One of the eight parts: per axis the lower or the upper half. *)
Definition octant (b : bb3 RN) (b' : bb3 RN) : Prop := forall ax, axis3 ax ->
  (ax (min3 b') = ax (min3 b) /\ ax (max3 b') = ax (rmid b)) \/
  (ax (min3 b') = ax (rmid b) /\ ax (max3 b') = ax (max3 b)).
Definition octants (b : bb3 RN) : list (bb3 RN) :=
  let mn := min3 b in let mx := max3 b in let m := rmid b in
  [ mkbb3 m mx;
    mkbb3 (mk3 (px m) (py m) (pz mn)) (mk3 (px mx) (py mx) (pz m));
    mkbb3 (mk3 (px m) (py mn) (pz m)) (mk3 (px mx) (py m) (pz mx));
    mkbb3 (mk3 (px m) (py mn) (pz mn)) (mk3 (px mx) (py m) (pz m));
    mkbb3 (mk3 (px mn) (py m) (pz m)) (mk3 (px m) (py mx) (pz mx));
    mkbb3 (mk3 (px mn) (py m) (pz mn)) (mk3 (px m) (py mx) (pz m));
    mkbb3 (mk3 (px mn) (py mn) (pz m)) (mk3 (px m) (py m) (pz mx));
    mkbb3 mn m ].
Lemma sub_boxes_R b : valid3 b -> sub_boxes directions b = Ok (octants b).
Proof.
  intro V. pose proof (rmid_ax b) as M. unfold valid3 in V.
  unfold directions. cbn [sub_boxes]. unfold calc_sub_min_max. fold (rmid b).
  rewrite !new3_R; [reflexivity|..];
    intros ax Hax; pose proof (V ax Hax); pose proof (M ax Hax);
    destruct Hax as [->|[->| ->]]; cbn [px py pz]; lra.
Qed.
Lemma octants_octant b b' : In b' (octants b) -> octant b b'.
Proof.
  intros H ax Hax. unfold octants in H.
  do 8 (destruct H as [<-|H]; [cbn [min3 max3]; destruct Hax as [->|[->| ->]]; cbn [px py pz]; auto; fail|]).
  destruct H.
Qed.
Lemma octant_valid b b' : valid3 b -> octant b b' -> valid3 b'.
Proof.
  intros V O ax Hax. pose proof (V ax Hax). pose proof (rmid_ax b ax Hax). destruct (O ax Hax) as [[-> ->]|[-> ->]]; lra.
Qed.
Lemma octant_size b b' ax : axis3 ax -> octant b b' -> ax (max3 b') - ax (min3 b') = (ax (max3 b) - ax (min3 b)) / 2.
Proof. intros Hax O. pose proof (rmid_ax b ax Hax). destruct (O ax Hax) as [[-> ->]|[-> ->]]; lra. Qed.
Lemma octant_grid b b' p : valid3 b -> octant b b' -> off_grid b p -> off_grid b' p.
Proof.
  intros V O G ax Hax k n E. pose proof (octant_size b b' ax Hax O) as Sz. rewrite Sz in E.
  pose proof (rmid_ax b ax Hax) as M.
  assert (N2 : 2 ^ n <> 0) by (apply pow_nonzero; lra).
  destruct (O ax Hax) as [[E1 _]|[E1 _]]; rewrite E1 in E.
  - apply (G ax Hax k (S n)). rewrite E. cbn [pow]. toR. field. exact N2.
  - apply (G ax Hax (k + 2 ^ Z.of_nat n)%Z (S n)). rewrite E, M, plus_IZR. cbn [pow].
    rewrite <- pow_IZR. change (IZR 2) with 2. toR. field. exact N2.
Qed.
Lemma contains_R (b : bb3 RN) (p : pt3 RN) : bb3_contains b p = true <-> interior3 b p.
Proof.
  unfold bb3_contains, interior3. rewrite !Bool.andb_true_iff, !R_gtb, !R_ltb. split.
  - intros H ax [->|[->| ->]]; lra.
  - intro H. pose proof (H px (or_introl eq_refl)). pose proof (H py (or_intror (or_introl eq_refl))).
    pose proof (H pz (or_intror (or_intror eq_refl))). repeat split; lra.
Qed.
Lemma grid_off_mid b p ax : axis3 ax -> off_grid b p -> ax p <> ax (rmid b).
Proof.
  intros Hax G E. apply (G ax Hax 1%Z 1%nat). rewrite E, (rmid_ax b ax Hax). cbn. lra.
Qed.
Lemma octants_cover b p : valid3 b -> off_grid b p -> interior3 b p ->
  exists b', In b' (octants b) /\ interior3 b' p.
Proof.
  intros V G I.
  pose proof (grid_off_mid b p px (or_introl eq_refl) G) as X.
  pose proof (grid_off_mid b p py (or_intror (or_introl eq_refl)) G) as Y.
  pose proof (grid_off_mid b p pz (or_intror (or_intror eq_refl)) G) as Z.
  pose proof (I px (or_introl eq_refl)) as IX.
  pose proof (I py (or_intror (or_introl eq_refl))) as IY.
  pose proof (I pz (or_intror (or_intror eq_refl))) as IZ.
  assert (K : forall b', In b' (octants b) -> (px (min3 b') < px p < px (max3 b') -> py (min3 b') < py p < py (max3 b') ->
     pz (min3 b') < pz p < pz (max3 b') -> exists b', In b' (octants b) /\ interior3 b' p)).
  { intros b' Hb H1 H2 H3. exists b'. split; [exact Hb|]. intros ax [->|[->| ->]]; assumption. }
  unfold octants in *.
  destruct (Rlt_or_le (px p) (px (rmid b))), (Rlt_or_le (py p) (py (rmid b))), (Rlt_or_le (pz p) (pz (rmid b)));
  [eapply (K (mkbb3 (min3 b) (rmid b)))
  |eapply (K (mkbb3 (mk3 (px (min3 b)) (py (min3 b)) (pz (rmid b))) (mk3 (px (rmid b)) (py (rmid b)) (pz (max3 b)))))
  |eapply (K (mkbb3 (mk3 (px (min3 b)) (py (rmid b)) (pz (min3 b))) (mk3 (px (rmid b)) (py (max3 b)) (pz (rmid b)))))
  |eapply (K (mkbb3 (mk3 (px (min3 b)) (py (rmid b)) (pz (rmid b))) (mk3 (px (rmid b)) (py (max3 b)) (pz (max3 b)))))
  |eapply (K (mkbb3 (mk3 (px (rmid b)) (py (min3 b)) (pz (min3 b))) (mk3 (px (max3 b)) (py (rmid b)) (pz (rmid b)))))
  |eapply (K (mkbb3 (mk3 (px (rmid b)) (py (min3 b)) (pz (rmid b))) (mk3 (px (max3 b)) (py (rmid b)) (pz (max3 b)))))
  |eapply (K (mkbb3 (mk3 (px (rmid b)) (py (rmid b)) (pz (min3 b))) (mk3 (px (max3 b)) (py (max3 b)) (pz (rmid b)))))
  |eapply (K (mkbb3 (rmid b) (max3 b)))];
  cbn [In min3 max3 px py pz]; try tauto; lra.
Qed.
(** The part a covered point ends up in. *)
Lemma distribute_cover boxes : forall pc p, In p pc -> (exists b, In b boxes /\ interior3 b (pos p)) ->
  exists b part, In (b, part) (combine boxes (distribute pos boxes pc)) /\ In p part.
Proof.
  induction boxes as [|b r IH]; intros pc p Ip [b' [Ib Hb]]; [destruct Ib|]. cbn [distribute combine].
  destruct (bb3_contains b (pos p)) eqn:C.
  - exists b, (filter (fun p => bb3_contains b (pos p)) pc). split; [left; reflexivity|]. apply filter_In. auto.
  - destruct (IH (filter (fun p => negb (bb3_contains b (pos p))) pc) p) as (b2 & part & H1 & H2).
    + apply filter_In. rewrite C. auto.
    + exists b'. split; [|exact Hb]. destruct Ib as [->|Ib]; [|exact Ib]. apply contains_R in Hb. congruence.
    + exists b2, part. split; [right; exact H1|exact H2].
Qed.
(** All points of the list at pairwise distance at least d in some axis. *)
Definition apart (d : R) (pc : list P) : Prop := ForallOrdPairs (fun p q =>
  exists ax, axis3 ax /\ d <= Rabs (ax (pos p) - ax (pos q))) pc.
Lemma apart_filter d f pc : apart d pc -> apart d (filter f pc).
Proof.
  induction 1 as [|p r H F IH]; cbn [filter]; [constructor|]. destruct (f p); [|exact IH].
  constructor; [|exact IH]. apply Forall_forall. intros q Hq. apply filter_In in Hq as [Hq _].
  rewrite Forall_forall in H. apply H, Hq.
Qed.
Lemma apart_distribute d boxes : forall pc, apart d pc -> Forall (apart d) (distribute pos boxes pc).
Proof.
  induction boxes as [|b r IH]; intros pc A; cbn [distribute]; constructor; [now apply apart_filter|].
  apply IH, apart_filter, A.
Qed.
Lemma build_subnodes_total (rec : bb3 RN -> list P -> option (res (octree P))) :
  forall boxes parts, (forall b pc, In (b, pc) (combine boxes parts) -> rec b pc <> None) ->
  build_subnodes rec boxes parts <> None.
Proof.
  induction boxes as [|b boxes IH]; intros [|pc parts] H; try discriminate. cbn [build_subnodes].
  specialize (IH parts (fun b pc I => H b pc (or_intror I))).
  specialize (H b pc (or_introl eq_refl)).
  destruct pc; [destruct (build_subnodes rec boxes parts); [discriminate|congruence]|].
  destruct (rec b (p :: pc)) as [[]|]; try congruence; (destruct (build_subnodes rec boxes parts); [discriminate|congruence]).
Qed.
(** Enough fuel. *)
Lemma oc_new_total n : forall d b pc fuel, (n < fuel)%nat -> valid3 b -> apart d pc ->
  Forall (fun p => interior3 b (pos p)) pc ->
  (forall ax, axis3 ax -> ax (max3 b) - ax (min3 b) <= d * 2 ^ n) -> oc_new pos fuel b pc <> None.
Proof.
  induction n as [|n IH]; intros d b pc fuel L V A F S; (destruct fuel as [|f]; [lia|]); cbn [oc_new].
  - destruct pc as [|p [|q r]]; [|discriminate|].
    + rewrite (sub_boxes_R b V). unfold octants, distribute. cbn. discriminate.
    + exfalso. inversion A as [|? ? H1 _]; subst. inversion H1 as [|? ? (ax & Hax & D) _]; subst.
      inversion F as [|? ? F1 F2]; subst. inversion F2 as [|? ? F3 _]; subst.
      pose proof (F1 ax Hax). pose proof (F3 ax Hax). specialize (S ax Hax). cbn [pow] in S.
      unfold Rabs in D. destruct (Rcase_abs _); lra.
  - assert (G : match build_subnodes (oc_new pos f) (octants b) (distribute pos (octants b) pc) with
                 | Some cs => Some (Ok (ONode cs) : res (octree P)) | None => None end <> None).
    { destruct (build_subnodes (oc_new pos f) (octants b) (distribute pos (octants b) pc)) eqn:E; [discriminate|].
      exfalso. revert E. apply build_subnodes_total. intros b' part Hbp.
      assert (O : octant b b') by (apply octants_octant; eapply in_combine_l, Hbp).
      apply (IH d b' part f); [lia|eapply octant_valid; eassumption| | |].
      - pose proof (apart_distribute d (octants b) pc A) as X. rewrite Forall_forall in X. apply X. eapply in_combine_r, Hbp.
      - pose proof (distribute_in pos (octants b) pc) as X. apply Forall_forall. intros p Hp.
        remember (distribute pos (octants b) pc) as parts eqn:E. clear E.
        clear - X Hbp Hp. induction X as [|b0 q0 bs ps H _ IH]; [destruct Hbp|].
        destruct Hbp as [E|Hbp]; [|apply IH, Hbp]. injection E as -> ->. rewrite Forall_forall in H.
        apply contains_R, H, Hp.
      - intros ax Hax. rewrite (octant_size b b' ax Hax O). specialize (S ax Hax). cbn [pow] in S. lra. }
    rewrite (sub_boxes_R b V). destruct pc as [|p [|q r]]; [exact G|discriminate|exact G].
Qed.
Lemma oc_new_total_root n d b pc fuel : (S n < fuel)%nat -> valid3 b -> apart d pc ->
  (forall ax, axis3 ax -> ax (max3 b) - ax (min3 b) <= d * 2 ^ n) -> oc_new pos fuel b pc <> None.
Proof.
  intros L V A Sz. destruct fuel as [|f]; [lia|]. cbn [oc_new]. rewrite (sub_boxes_R b V).
  assert (G : match build_subnodes (oc_new pos f) (octants b) (distribute pos (octants b) pc) with
                 | Some cs => Some (Ok (ONode cs) : res (octree P)) | None => None end <> None).
  { destruct (build_subnodes (oc_new pos f) (octants b) (distribute pos (octants b) pc)) eqn:E; [discriminate|].
    exfalso. revert E. apply build_subnodes_total. intros b' part Hbp.
    assert (O : octant b b') by (apply octants_octant; eapply in_combine_l, Hbp).
    apply (oc_new_total n d b' part f); [lia|eapply octant_valid; eassumption| | |].
    - pose proof (apart_distribute d (octants b) pc A) as X. rewrite Forall_forall in X. apply X. eapply in_combine_r, Hbp.
    - pose proof (distribute_in pos (octants b) pc) as X. apply Forall_forall. intros p Hp.
      remember (distribute pos (octants b) pc) as parts eqn:E. clear E.
      clear - X Hbp Hp. induction X as [|b0 q0 bs ps H _ IH]; [destruct Hbp|].
      destruct Hbp as [E|Hbp]; [|apply IH, Hbp]. injection E as -> ->. rewrite Forall_forall in H.
      apply contains_R, H, Hp.
    - intros ax Hax. rewrite (octant_size b b' ax Hax O). specialize (Sz ax Hax). specialize (V ax Hax). lra. }
  destruct pc as [|p [|q r]]; [exact G|discriminate|exact G].
Qed.
Lemma oc_new_no_err fuel b pc : valid3 b -> oc_new pos fuel b pc <> None -> exists t, oc_new pos fuel b pc = Some (Ok t).
Proof.
  intros V H. destruct fuel as [|f]; [exfalso; apply H; reflexivity|]. cbn [oc_new] in *. rewrite (sub_boxes_R b V) in *.
  revert H. destruct pc as [|p [|q r]]; [|intros _; eexists; reflexivity|];
    (destruct (build_subnodes _ _ _); intro H; [eexists; reflexivity|exfalso; apply H; reflexivity]).
Qed.
Lemma Forall2_in_l {A B} (Q : A -> B -> Prop) l m a : Forall2 Q l m -> In a l -> exists b, In b m /\ Q a b.
Proof.
  induction 1 as [|x y l m H _ IH]; intro I; [destruct I|]. destruct I as [<-|I]; [exists y; cbn; auto|].
  destruct (IH I) as (b & ? & ?). exists b. cbn; auto.
Qed.
Lemma oc_new_keeps fuel : forall b pc t p, oc_new pos fuel b pc = Some (Ok t) -> valid3 b -> In p pc ->
  off_grid b (pos p) -> interior3 b (pos p) -> In p (oelems t).
Proof.
  induction fuel as [|f IH]; intros b pc t p H V Ip G I; [discriminate|]. cbn [oc_new] in H.
  rewrite (sub_boxes_R b V) in H.
  destruct pc as [|p0 [|p1 r]]; [destruct Ip|injection H as <-; exact Ip|].
  set (pc := p0 :: p1 :: r) in *. clearbody pc.
  destruct (build_subnodes (oc_new pos f) (octants b) (distribute pos (octants b) pc)) as [cs|] eqn:B; [|discriminate].
  injection H as <-. cbn [oelems]. apply build_subnodes_spec in B; [|symmetry; apply distribute_length].
  destruct (distribute_cover (octants b) pc p Ip (octants_cover b (pos p) V G I)) as (b' & part & Hbp & Hp).
  destruct (Forall2_in_l _ _ _ _ B Hbp) as (c & Hc & X). cbn [fst snd] in X.
  apply in_flat_map. exists c. split; [exact Hc|].
  assert (O : octant b b') by (apply octants_octant; eapply in_combine_l, Hbp).
  assert (V' : valid3 b') by (eapply octant_valid; eassumption).
  assert (I' : interior3 b' (pos p)).
  { apply contains_R. pose proof (distribute_in pos (octants b) pc) as Y.
    remember (distribute pos (octants b) pc) as parts eqn:E. clear E.
    clear - Y Hbp Hp. induction Y as [|b0 q0 bs ps H _ IH]; [destruct Hbp|].
    destruct Hbp as [E|Hbp]; [|apply IH, Hbp]. injection E as -> ->. rewrite Forall_forall in H. apply H, Hp. }
  destruct X as [[E _]|[_ [X|[-> (r0 & E & N)]]]].
  - subst part. destruct Hp.
  - apply (IH b' part c p X V' Hp (octant_grid b b' (pos p) V O G) I').
  - exfalso. destruct (oc_new_no_err f b' part V') as [t' E']; [rewrite E; discriminate|].
    rewrite E in E'. injection E' as E'. apply (N t' E').
Qed.
(** Distinct positions are apart by some distance. *)
Lemma apart_exists pc : NoDup (map pos pc) -> exists d, 0 < d /\ apart d pc.
Proof.
  induction pc as [|p r IH]; cbn [map]; intro H; [exists 1; split; [lra|constructor]|].
  inversion H as [|? ? N H']; subst. destruct (IH H') as (d1 & D1 & A1).
  assert (X : exists d, 0 < d /\ Forall (fun q => exists ax, axis3 ax /\ d <= Rabs (ax (pos p) - ax (pos q))) r).
  { clear - N. induction r as [|q r IH]; [exists 1; split; [lra|constructor]|].
    destruct IH as (d & D & F); [intro K; apply N; right; exact K|].
    assert (Y : exists ax, axis3 ax /\ ax (pos p) <> ax (pos q)).
    { destruct (Req_dec (px (pos p)) (px (pos q))) as [E1|]; [|exists px; split; [left; reflexivity|assumption]].
      destruct (Req_dec (py (pos p)) (py (pos q))) as [E2|]; [|exists py; split; [right; left; reflexivity|assumption]].
      destruct (Req_dec (pz (pos p)) (pz (pos q))) as [E3|]; [|exists pz; split; [right; right; reflexivity|assumption]].
      exfalso. apply N. left. destruct (pos p), (pos q); cbn in *; subst; reflexivity. }
    destruct Y as (ax & Hax & Y).
    assert (Z : 0 < Rabs (ax (pos p) - ax (pos q))) by (apply Rabs_pos_lt; lra).
    exists (Rmin d (Rabs (ax (pos p) - ax (pos q)))).
    split; [apply Rmin_glb_lt; assumption|]. constructor; [exists ax; split; [exact Hax|apply Rmin_r]|].
    eapply Forall_impl; [|exact F]. cbn. intros q' (ax' & Hax' & W). exists ax'. split; [exact Hax'|].
    eapply Rle_trans; [apply Rmin_l|exact W]. }
  destruct X as (d2 & D2 & A2). exists (Rmin d1 d2). split; [apply Rmin_glb_lt; assumption|].
  constructor.
  - eapply Forall_impl; [|exact A2]. cbn. intros q (ax & Hax & W). exists ax. split; [exact Hax|].
    eapply Rle_trans; [apply Rmin_r|exact W].
  - clear - A1. induction A1 as [|q r F _ IH]; constructor; [|exact IH].
    eapply Forall_impl; [|exact F]. cbn. intros q' (ax & Hax & W). exists ax. split; [exact Hax|].
    eapply Rle_trans; [apply Rmin_l|exact W].
Qed.
Lemma pow2_big (x : R) : exists n : nat, x <= 2 ^ n.
Proof.
  exists (Z.to_nat (up x)). destruct (archimed x) as [A _].
  destruct (Z_lt_le_dec (up x) 0) as [L|L].
  - apply IZR_lt in L. pose proof (pow_R1_Rle 2 (Z.to_nat (up x)) ltac:(lra)). lra.
  - assert (K : forall n, INR n <= 2 ^ n).
    { induction n as [|n IH]; [cbn; lra|]. rewrite S_INR. cbn [pow]. pose proof (pow_R1_Rle 2 n ltac:(lra)). lra. }
    specialize (K (Z.to_nat (up x))). rewrite INR_IZR_INZ, Z2Nat.id in K by lia. lra.
Qed.
Lemma from3_R dbg (ps : list (pt3 RN)) b : (Z.of_nat (length ps) < 2 ^ 31)%Z ->
  bb3_from_iterator dbg ps = Ok b -> valid3 b /\ forall p, In p ps -> closed3 b p.
Proof.
  intros Hl H. rewrite bb3_from_spec in H by exact Hl. destruct ps as [|p [|q r]]; try discriminate.
  apply new3_R_inv in H as [-> V]. split; [exact V|]. intros x Hx ax Hax.
  assert (E : forall ax : pt3 RN -> T RN, In (ax x) (ax p :: map ax (q :: r))) by (intro f; apply (in_map f _ _ Hx)).
  assert (F : forall l : list (T RN), Forall (fun _ => True) l) by (intro l; apply Forall_forall; auto).
  destruct Hax as [->|[->| ->]]; cbn [min3 max3 px py pz]; split; apply R_leb;
    first [apply (fmin_spec RN_laws)|apply (fmax_spec RN_laws)]; auto.
Qed.
End Keep.
