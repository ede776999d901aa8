(** Lemmas about converted data. *)
From Verif Require Import Base BaseLemmas Num NumLemmas FloatLemmas BBoxModel BBoxLemmas GeomSpec MatrixModel LineModel AabbModel AabbSpec AabbLemmas AabbProps ConvertedModel ConvertedSpec.
From Coq Require Import Floats.SpecFloat.

Lemma fine3_number ps : fine3 ps -> Forall number3 ps.
Proof. intros (F & _). apply Forall_forall. intros p I ax X. exact (proj1 (F p ax I X)). Qed.
Lemma fine2_number ps : fine2 ps -> Forall number2 ps.
Proof. intros (F & _). apply Forall_forall. intros p I ax X. exact (proj1 (F p ax I X)). Qed.

Lemma differ_two vs : differ vs -> (2 <= length vs)%nat.
Proof.
  intros (u & v & A & B & L). destruct vs as [|a [|b r]]; [destruct A| |cbn [length]; lia].
  destruct A as [A|[]], B as [B|[]]. subst u v. assert (K : SFltb a a = false) by exact (ltb_irrefl F64_laws a). unfold flt in L. rewrite K in L. discriminate L.
Qed.

Lemma maybe3 dbg ps : fine3 ps ->
  (exists b, pts3_bb_maybe dbg ps = Ok (Some b) /\ spread3 ps /\ forall ax, axis3 ax -> is_min (ax (min3 b)) (map ax ps) /\ is_max (ax (max3 b)) (map ax ps)) \/
  (pts3_bb_maybe dbg ps = Ok None /\ ~ spread3 ps).
Proof.
  intros F. pose proof (from3_spec dbg ps (fine3_number ps F) (proj2 F)) as H. unfold pts3_bb_maybe.
  destruct (bb3_from_iterator dbg ps) as [b|e|]; cbn in H; [left|right|destruct H].
  - destruct H as (_ & H). exists b. split; [reflexivity|]. split; [intros ax X; apply (H ax X)|]. intros ax X. split; apply (H ax X).
  - split; [reflexivity|]. intros S. destruct e; try (now destruct H).
    all: try (destruct H as (_ & ax & X & N); exact (N (S ax X))).
    all: pose proof (differ_two _ (S px (or_introl eq_refl))) as D; rewrite map_length in D; lia.
Qed.
Lemma maybe2 dbg ps : fine2 ps ->
  (exists b, pts2_bb_maybe dbg ps = Ok (Some b) /\ spread2 ps /\ forall ax, axis2 ax -> is_min (ax (min2 b)) (map ax ps) /\ is_max (ax (max2 b)) (map ax ps)) \/
  (pts2_bb_maybe dbg ps = Ok None /\ ~ spread2 ps).
Proof.
  intros F. pose proof (from2_spec dbg ps (fine2_number ps F) (proj2 F)) as H. unfold pts2_bb_maybe.
  destruct (bb2_from_iterator dbg ps) as [b|e|]; cbn in H; [left|right|destruct H].
  - destruct H as (_ & H). exists b. split; [reflexivity|]. split; [intros ax X; apply (H ax X)|]. intros ax X. split; apply (H ax X).
  - split; [reflexivity|]. intros S. destruct e; try (now destruct H).
    all: try (destruct H as (_ & ax & X & N); exact (N (S ax X))).
    all: pose proof (differ_two _ (S x2 (or_introl eq_refl))) as D; rewrite map_length in D; lia.
Qed.

Lemma cut_minmax {P : Type} (ax : P -> T F64) ps lo hi v : is_min lo (map ax ps) -> is_max hi (map ax ps) ->
  (flt lo v /\ flt v hi <-> both_sides ax v ps).
Proof.
  intros (A & B) (C & D). split.
  - intros (L & H). apply in_map_iff in A, C. destruct A as (p & <- & A), C as (q & <- & C). exists p, q. auto.
  - intros (p & q & Ip & Iq & L & H). split.
    + exact (leb_ltb_trans F64_laws _ _ _ (B _ (in_map ax _ _ Ip)) L).
    + exact (ltb_leb_trans F64_laws _ _ _ H (D _ (in_map ax _ _ Iq))).
Qed.

Section Tree3.
Context {A : Type} (points : A -> list (pt3 F64)) (dbg : bool).
Lemma tree3 (cs : list (converted A)) bbox maxdepth bucket v before :
  (forall c, In c cs -> fine3 (points (conv_get c))) ->
  (forall c, In c cs -> conv_bounding_box (fun a => pts3_bb_maybe dbg (points a)) c = Ok (bbox c)) ->
  let t := aabb3_new bbox cs maxdepth bucket in
  (exists found, aabb3_crossing_x bbox v t before = Ok (before ++ found) /\
     forall c, In c found <-> In c cs /\ both_sides px v (points (conv_get c))) /\
  (exists found, aabb3_crossing_y bbox v t before = Ok (before ++ found) /\
     forall c, In c found <-> In c cs /\ both_sides py v (points (conv_get c))) /\
  (exists found, aabb3_crossing_z bbox v t before = Ok (before ++ found) /\
     forall c, In c found <-> In c cs /\ both_sides pz v (points (conv_get c))).
Proof.
  intros F B t.
  assert (M : forall c, In c cs -> forall ax, axis3 ax -> is_min (ax (min3 (bbox c))) (map ax (points (conv_get c))) /\ is_max (ax (max3 (bbox c))) (map ax (points (conv_get c)))).
  { intros c I. specialize (B c I). unfold conv_bounding_box in B. unfold conv_get in *.
    destruct (maybe3 dbg (points (conv_data c)) (F c I)) as [(b & E & _ & M)|(E & _)]; rewrite E in B; cbn [obind] in B; [|discriminate B].
    injection B as <-. exact M. }
  assert (G : Forall (fun c => good_box3 (bbox c)) cs).
  { apply Forall_forall. intros c I ax X. destruct (M c I ax X) as ((Mi & Mn) & (Ma & _)).
    split; [|split; [|exact (Mn _ Ma)]]; [apply in_map_iff in Mi; destruct Mi as (p & <- & Mi); exact (proj1 (F c I) p ax Mi X)
      |apply in_map_iff in Ma; destruct Ma as (p & <- & Ma); exact (proj1 (F c I) p ax Ma X)]. }
  destruct (C25_crossing_3d _ bbox cs maxdepth bucket v before G) as ((fx & Ex & Hx) & (fy & Ey & Hy) & (fz & Ez & Hz)).
  split; [exists fx; split; [exact Ex|]|split; [exists fy; split; [exact Ey|]|exists fz; split; [exact Ez|]]]; intros c.
  - rewrite Hx. split; intros (I & H); (split; [exact I|]); destruct (M c I px (or_introl eq_refl)) as (M1 & M2); apply (cut_minmax px _ _ _ v M1 M2); exact H.
  - rewrite Hy. split; intros (I & H); (split; [exact I|]); destruct (M c I py (or_intror (or_introl eq_refl))) as (M1 & M2); apply (cut_minmax py _ _ _ v M1 M2); exact H.
  - rewrite Hz. split; intros (I & H); (split; [exact I|]); destruct (M c I pz (or_intror (or_intror eq_refl))) as (M1 & M2); apply (cut_minmax pz _ _ _ v M1 M2); exact H.
Qed.
End Tree3.
Lemma tree2 (cs : list (converted (list (pt2 F64)))) dbg bbox maxdepth bucket v before :
  (forall c, In c cs -> fine2 (conv_get c)) ->
  (forall c, In c cs -> conv_bounding_box (pts2_bb_maybe dbg) c = Ok (bbox c)) ->
  let t := aabb2_new bbox cs maxdepth bucket in
  (exists found, aabb2_crossing_x bbox v t before = Ok (before ++ found) /\
     forall c, In c found <-> In c cs /\ both_sides x2 v (conv_get c)) /\
  (exists found, aabb2_crossing_y bbox v t before = Ok (before ++ found) /\
     forall c, In c found <-> In c cs /\ both_sides y2 v (conv_get c)).
Proof.
  intros F B t.
  assert (M : forall c, In c cs -> forall ax, axis2 ax -> is_min (ax (min2 (bbox c))) (map ax (conv_get c)) /\ is_max (ax (max2 (bbox c))) (map ax (conv_get c))).
  { intros c I. specialize (B c I). unfold conv_bounding_box in B. unfold conv_get in *.
    destruct (maybe2 dbg (conv_data c) (F c I)) as [(b & E & _ & M)|(E & _)]; rewrite E in B; cbn [obind] in B; [|discriminate B].
    injection B as <-. exact M. }
  assert (G : Forall (fun c => good_box2 (bbox c)) cs).
  { apply Forall_forall. intros c I ax X. destruct (M c I ax X) as ((Mi & Mn) & (Ma & _)).
    split; [|split; [|exact (Mn _ Ma)]]; [apply in_map_iff in Mi; destruct Mi as (p & <- & Mi); exact (proj1 (F c I) p ax Mi X)
      |apply in_map_iff in Ma; destruct Ma as (p & <- & Ma); exact (proj1 (F c I) p ax Ma X)]. }
  destruct (C25_crossing_2d _ bbox cs maxdepth bucket v before G) as ((fx & Ex & Hx) & (fy & Ey & Hy)).
  split; [exists fx; split; [exact Ex|]|exists fy; split; [exact Ey|]]; intros c.
  - rewrite Hx. split; intros (I & H); (split; [exact I|]); destruct (M c I x2 (or_introl eq_refl)) as (M1 & M2); apply (cut_minmax x2 _ _ _ v M1 M2); exact H.
  - rewrite Hy. split; intros (I & H); (split; [exact I|]); destruct (M c I y2 (or_intror eq_refl)) as (M1 & M2); apply (cut_minmax y2 _ _ _ v M1 M2); exact H.
Qed.
