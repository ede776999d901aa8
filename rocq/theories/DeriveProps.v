(** Equality, hashing and ordering of values (C169, C170). [contract c nums] says that ==, partial_cmp and hash of [c] keep their
    contracts for values made of the doubles [nums]. *)
From Verif Require Import Base Num NumLemmas BBoxModel FilterModel KdModel LineModel NormalModel EditModel CloudModel CloudLemmas MeshModel HalfEdgeModel PlyModel GeomSpec SortSpec DeriveModel DeriveSpec DeriveLemmas DeriveLemmas2.
From Coq Require Import Floats.SpecFloat.



Lemma size_laws : laws size_vals eq (fun x => [x]).
Proof. apply (field_laws double_vals eq (fun x => [x]) (fun x => x)). exact double_laws. Qed.
Lemma pt2_laws : laws pt2_vals eq nums2.
Proof.
  apply (laws_ext _ (fun a b => x2 a = x2 b /\ y2 a = y2 b) _ (fun a => [x2 a] ++ [y2 a])).
  - intros [] []; cbn. split; [intros [-> ->]; reflexivity|intros E; injection E; auto].
  - reflexivity.
  - apply (more_laws _ _ _ _ _ _ _ (field_laws _ _ _ x2 double_laws) double_laws).
Qed.
Lemma pt3_laws : laws pt3_vals eq nums3.
Proof.
  apply (laws_ext _ (fun a b => (px a = px b /\ py a = py b) /\ pz a = pz b) _ (fun a => ([px a] ++ [py a]) ++ [pz a])).
  - intros [] []; cbn. split; [intros [[-> ->] ->]; reflexivity|intros E; injection E; auto].
  - reflexivity.
  - apply (more_laws _ _ _ _ _ _ _ (more_laws _ _ _ _ _ _ _ (field_laws _ _ _ px double_laws) double_laws) double_laws).
Qed.
Lemma two_fields {A B C} (ca : vals A) na (cb : vals B) nb (f : C -> A) (g : C -> B) : laws ca eq na -> laws cb eq nb ->
  (forall a b, f a = f b -> g a = g b -> a = b) -> contract (more (field ca f) cb g) (fun a => na (f a) ++ nb (g a)).
Proof.
  intros LA LB I. eapply laws_contract; [exact (more_laws _ _ _ _ _ _ g (field_laws _ _ _ f LA) LB)|]. cbn beta. intros a b [X Y]. auto.
Qed.
Lemma three_fields {A B C D} (ca : vals A) na (cb : vals B) nb (cd : vals D) nd (f : C -> A) (g : C -> B) (h : C -> D) :
  laws ca eq na -> laws cb eq nb -> laws cd eq nd ->
  (forall a b, f a = f b -> g a = g b -> h a = h b -> a = b) -> contract (more (more (field ca f) cb g) cd h) (fun a => (na (f a) ++ nb (g a)) ++ nd (h a)).
Proof.
  intros LA LB LD I. eapply laws_contract; [exact (more_laws _ _ _ _ _ _ h (more_laws _ _ _ _ _ _ g (field_laws _ _ _ f LA) LB) LD)|]. cbn beta. intros a b [[X Y] Z]. auto.
Qed.
Lemma four_fields {A B C D E} (ca : vals A) na (cb : vals B) nb (cd : vals D) nd (ce : vals E) ne (f : C -> A) (g : C -> B) (h : C -> D) (k : C -> E) :
  laws ca eq na -> laws cb eq nb -> laws cd eq nd -> laws ce eq ne ->
  (forall a b, f a = f b -> g a = g b -> h a = h b -> k a = k b -> a = b) ->
  contract (more (more (more (field ca f) cb g) cd h) ce k) (fun a => ((na (f a) ++ nb (g a)) ++ nd (h a)) ++ ne (k a)).
Proof.
  intros LA LB LD LE I. eapply laws_contract; [exact (more_laws _ _ _ _ _ _ k (more_laws _ _ _ _ _ _ h (more_laws _ _ _ _ _ _ g (field_laws _ _ _ f LA) LB) LD) LE)|].
  cbn beta. intros a b [[[X Y] Z] W]. auto.
Qed.
Ltac split_conj := repeat match goal with |- _ /\ _ => split end.
Ltac same := intros [] []; cbn; congruence.

(** ** Sizes, points and unit vectors *)
Theorem C169_points : contract size_vals (fun x => [x]) /\ contract pt2_vals nums2 /\ contract pt3_vals nums3.
Proof. split; [|split]; eapply laws_contract; [exact size_laws|auto|exact pt2_laws|auto|exact pt3_laws|auto]. Qed.
Print Assumptions C169_points.

(** ** Lines, rays, segments and planes *)
Theorem C169_lines :
  contract line2_vals (fun l => nums2 (anchor2 l) ++ nums2 (dir2 l)) /\
  contract line3_vals (fun l => nums3 (anchor l) ++ nums3 (dir l)) /\
  contract seg2_vals (fun s => nums2 (seg_start s) ++ nums2 (seg_end s)) /\
  contract seg3_vals (fun s => nums3 (seg_start s) ++ nums3 (seg_end s)) /\
  contract plane_vals (fun p => (nums3 (porigin p) ++ nums3 (pu p)) ++ nums3 (pv p)).
Proof.
  split_conj.
  - apply (two_fields _ nums2 _ nums2 anchor2 dir2 pt2_laws pt2_laws). same.
  - apply (two_fields _ nums3 _ nums3 (@anchor F64) (@dir F64) pt3_laws pt3_laws). same.
  - apply (two_fields _ nums2 _ nums2 seg_start seg_end pt2_laws pt2_laws). same.
  - apply (two_fields _ nums3 _ nums3 seg_start seg_end pt3_laws pt3_laws). same.
  - apply (three_fields _ nums3 _ nums3 _ nums3 (@porigin F64) (@pu F64) (@pv F64) pt3_laws pt3_laws pt3_laws). same.
Qed.
Print Assumptions C169_lines.

(** ** Bounding boxes, circles, spheres and boxes, also as filters *)
Theorem C169_shapes :
  contract bb2_vals (fun b => nums2 (min2 b) ++ nums2 (max2 b)) /\
  contract bb3_vals (fun b => nums3 (min3 b) ++ nums3 (max3 b)) /\
  contract circle_vals (fun c => nums2 (cir_center c) ++ [cir_radius c]) /\
  contract sphere_vals (fun s => nums3 (sph_center s) ++ [sph_radius s]) /\
  contract box2_vals (fun b => (nums2 (box2_center b) ++ [box2_sx b]) ++ [box2_sy b]) /\
  contract box3_vals (fun b => ((nums3 (box_center b) ++ [box_sx b]) ++ [box_sy b]) ++ [box_sz b]).
Proof.
  split_conj.
  - apply (two_fields _ nums2 _ nums2 min2 max2 pt2_laws pt2_laws). same.
  - apply (two_fields _ nums3 _ nums3 min3 max3 pt3_laws pt3_laws). same.
  - apply (two_fields _ nums2 _ (fun x => [x]) (@cir_center F64) (@cir_radius F64) pt2_laws size_laws). same.
  - apply (two_fields _ nums3 _ (fun x => [x]) sph_center sph_radius pt3_laws size_laws). same.
  - apply (three_fields _ nums2 _ (fun x => [x]) _ (fun x => [x]) (@box2_center F64) (@box2_sx F64) (@box2_sy F64) pt2_laws size_laws size_laws). same.
  - apply (four_fields _ nums3 _ (fun x => [x]) _ (fun x => [x]) _ (fun x => [x]) box_center box_sx box_sy box_sz pt3_laws size_laws size_laws size_laws). same.
Qed.
Print Assumptions C169_shapes.

(** ** Ids, faces, colors and half edges hold no doubles: their contracts hold without exception *)
Theorem C169_ids : contract id_vals (fun _ => []) /\ contract face_vals (fun _ => []) /\ contract rgb_vals (fun _ => []) /\
  contract halfedge_vals (fun _ => []).
Proof.
  assert (ID : laws id_vals eq (fun _ => [])) by (apply (field_laws _ _ _ (fun x : N => x) usize_laws)).
  assert (E : forall A (l : list A), flat_map (fun _ => [] : list (T F64)) l = []) by (induction l; auto).
  assert (TW : laws (vec_vals (option_vals id_vals)) eq (fun _ => [])).
  { eapply laws_ext; [| |apply vec_laws, option_laws, ID]; [tauto|]. intros l. induction l as [|[]]; auto. }
  assert (VS : laws (vec_vals usizes_vals) eq (fun _ => [])).
  { eapply laws_ext; [| |apply vec_laws, usizes_laws]; [tauto|]. apply E. }
  split_conj; [eapply laws_contract; [exact ID|auto]| | |].
  - apply (three_fields _ (fun _ => []) _ (fun _ => []) _ (fun _ => []) (fun '(a, _, _) => a) (fun '(_, b, _) => b) (fun '(_, _, c) => c) ID ID ID).
    intros [[a1 a2] a3] [[b1 b2] b3]. cbn. congruence.
  - apply (three_fields _ (fun _ => []) _ (fun _ => []) _ (fun _ => []) red green blue byte_laws byte_laws byte_laws). same.
  - apply (three_fields _ (fun _ => []) _ (fun _ => []) _ (fun _ => []) tails twins vse usizes_laws TW VS). same.
Qed.
Print Assumptions C169_ids.

(** ** Clouds, polygons, meshes and k-d trees of values that keep the contracts *)
Theorem C169_containers {P} (c : vals P) nums : contract c nums ->
  contract (cloud_vals c) (flat_map nums) /\
  contract (mesh_vals c) (fun m => flat_map nums (pc m)) /\
  contract (kd_vals c) (fun t => flat_map nums (stored t)).
Proof.
  intros C. apply contract_laws in C. split_conj.
  - eapply laws_contract; [apply (field_laws _ _ _ (fun l => l) (vec_laws _ _ C))|intros ? ? X; exact X].
  - apply (laws_contract _ (fun a b => pc a = pc b /\ topology a = topology b)).
    + apply (laws_ext _ _ _ (fun m => flat_map nums (pc m) ++ []) _ (fun a b => iff_refl _)); [intros a; apply app_nil_r|].
      exact (more_laws _ _ _ _ _ _ (@topology P) (field_laws _ _ _ (@pc P) (field_laws _ _ _ (fun l => l) (vec_laws _ _ C))) usizes_laws).
    + intros [] []; cbn; intuition congruence.
  - apply (laws_contract _ eq); [|auto]. apply (laws_ext _ eq eq (kd_nums nums) _ (fun a b => iff_refl _)); [|apply (kd_laws _ _ C)].
    induction a as [|l IHl v r IHr d]; cbn [kd_nums stored flat_map]; [reflexivity|]. rewrite !flat_map_app, IHl, IHr. cbn [flat_map]. rewrite app_nil_r. reflexivity.
Qed.
Print Assumptions C169_containers.

(** ** Equal positive sizes are hashed alike *)
Theorem C169_positive (a b : T F64) : flt (fz 0) a -> v_eq size_vals a b = true -> v_feed size_vals a = v_feed size_vals b.
Proof.
  intros A E. cbn in *. f_equal. f_equal. apply neqb_cmp in E. apply double_eq; [exact E| |]; intros ->; [vm_compute in A; discriminate A|].
  destruct a as [[]|[]| |[] m e]; try (vm_compute in A; discriminate A); vm_compute in E; discriminate E.
Qed.
Print Assumptions C169_positive.

(** ** Equal values may be hashed differently *)
Theorem C169_zeros_refuted : let z := fz 0 in let m := S754_zero true in
  (v_eq size_vals z m = true /\ v_feed size_vals z <> v_feed size_vals m) /\
  (exists a b, v_eq pt2_vals a b = true /\ v_feed pt2_vals a <> v_feed pt2_vals b) /\
  (exists a b, v_eq pt3_vals a b = true /\ v_feed pt3_vals a <> v_feed pt3_vals b) /\
  (exists a b, v_eq line2_vals a b = true /\ v_feed line2_vals a <> v_feed line2_vals b) /\
  (exists a b, v_eq plane_vals a b = true /\ v_feed plane_vals a <> v_feed plane_vals b) /\
  (exists a b, v_eq bb3_vals a b = true /\ v_feed bb3_vals a <> v_feed bb3_vals b) /\
  (exists a b, v_eq (cloud_vals pt3_vals) a b = true /\ v_feed (cloud_vals pt3_vals) a <> v_feed (cloud_vals pt3_vals) b) /\
  (exists a b, v_eq (mesh_vals pt3_vals) a b = true /\ v_feed (mesh_vals pt3_vals) a <> v_feed (mesh_vals pt3_vals) b).
Proof.
  intros z m. subst z m. set (p := fp3 0 1 2). set (q := mk3 (NM := F64) (S754_zero true) (fz 1) (fz 2)).
  split_conj.
  - vm_compute; reflexivity.
  - intros E; vm_compute in E; discriminate E.
  - exists (fp2 0 1), (mk2 (NM := F64) (S754_zero true) (fz 1)). split; [vm_compute; reflexivity|intros E; vm_compute in E; discriminate E].
  - exists p, q. split; [vm_compute; reflexivity|intros E; vm_compute in E; discriminate E].
  - exists (mkline2 (fp2 3 4) (fp2 0 1)), (mkline2 (fp2 3 4) (mk2 (NM := F64) (S754_zero true) (fz 1))). split; [vm_compute; reflexivity|intros E; vm_compute in E; discriminate E].
  - exists (mkPlane p (fp3 1 0 0) (fp3 0 1 0)), (mkPlane q (fp3 1 0 0) (fp3 0 1 0)). split; [vm_compute; reflexivity|intros E; vm_compute in E; discriminate E].
  - exists (mkbb3 p (fp3 5 5 5)), (mkbb3 q (fp3 5 5 5)). split; [vm_compute; reflexivity|intros E; vm_compute in E; discriminate E].
  - exists [p; p], [p; q]. split; [vm_compute; reflexivity|intros E; vm_compute in E; discriminate E].
  - exists (Mesh [p; p] [0; 1; 0]%N), (Mesh [p; q] [0; 1; 0]%N). split; [vm_compute; reflexivity|intros E; vm_compute in E; discriminate E].
Qed.
Print Assumptions C169_zeros_refuted.

(** Two meshes that are equal and made without negative zeros are identical and hashed alike; a third differs in an index only and
    is greater. *)
Example C169_case :
  let a := Mesh [fp3 0 1 2; fp3 3 4 5] [0; 1; 0]%N in let b := Mesh [fp3 0 1 2; fp3 3 4 5] [0; 1; 1]%N in
  contract pt3_vals nums3 /\ v_eq (mesh_vals pt3_vals) a a = true /\ v_eq (mesh_vals pt3_vals) a b = false /\
  v_pcmp (mesh_vals pt3_vals) a b = Some Lt /\ v_feed (mesh_vals pt3_vals) a <> v_feed (mesh_vals pt3_vals) b.
Proof.
  intros a b. split; [exact (proj2 (proj2 C169_points))|].
  split_conj; try (vm_compute; reflexivity). intros E; vm_compute in E; discriminate E.
Qed.

(** ** The total order of lines, rays, planes and bounding boxes is a preorder *)
Theorem C170_preorder :
  preorder_contract (fun l => nums2 (anchor2 l) ++ nums2 (dir2 l)) line2_cmp /\
  preorder_contract (fun l : line3 F64 => nums3 (anchor l) ++ nums3 (dir l)) line3_cmp /\
  preorder_contract (fun p : plane F64 => (nums3 (porigin p) ++ nums3 (pu p)) ++ nums3 (pv p)) plane_cmp /\
  preorder_contract (fun b => nums2 (min2 b) ++ nums2 (max2 b)) bb2_cmp /\
  preorder_contract (fun b => nums3 (min3 b) ++ nums3 (max3 b)) bb3_cmp.
Proof.
  pose proof pt2_olaws as L2. pose proof pt3_olaws as L3. unfold preorder_contract. split_conj; intros l F; revert l F; apply olaws_to.
  - apply (then_olaws (fun l => no_nan nums2 (anchor2 l)) (fun l => no_nan nums2 (dir2 l))); [intros a H; apply Forall_app in H; exact H|apply (field_olaws _ _ anchor2 _ (fun _ H => H) L2)|apply (field_olaws _ _ dir2 _ (fun _ H => H) L2)].
  - apply (then_olaws (fun l : line3 F64 => no_nan nums3 (anchor l)) (fun l => no_nan nums3 (dir l))); [intros a H; apply Forall_app in H; exact H|apply (field_olaws _ _ (@anchor F64) _ (fun _ H => H) L3)|apply (field_olaws _ _ (@dir F64) _ (fun _ H => H) L3)].
  - apply (then_olaws (fun l : plane F64 => no_nan nums3 (porigin l)) (fun l => no_nan nums3 (pu l) /\ no_nan nums3 (pv l))); [intros a H; apply Forall_app in H; destruct H as [H H2]; apply Forall_app in H; unfold no_nan; tauto|apply (field_olaws _ _ (@porigin F64) _ (fun _ H => H) L3)|].
    apply (then_olaws (fun l : plane F64 => no_nan nums3 (pu l)) (fun l => no_nan nums3 (pv l))); [tauto|apply (field_olaws _ _ (@pu F64) _ (fun _ H => H) L3)|apply (field_olaws _ _ (@pv F64) _ (fun _ H => H) L3)].
  - apply (then_olaws (fun l => no_nan nums2 (min2 l)) (fun l => no_nan nums2 (max2 l))); [intros a H; apply Forall_app in H; exact H|apply (field_olaws _ _ min2 _ (fun _ H => H) L2)|apply (field_olaws _ _ max2 _ (fun _ H => H) L2)].
  - apply (then_olaws (fun l => no_nan nums3 (min3 l)) (fun l => no_nan nums3 (max3 l))); [intros a H; apply Forall_app in H; exact H|apply (field_olaws _ _ min3 _ (fun _ H => H) L3)|apply (field_olaws _ _ max3 _ (fun _ H => H) L3)].
Qed.
Print Assumptions C170_preorder.

(** ** ... and so is that of clouds, polygons, meshes and k-d trees *)
Theorem C170_containers {P} (cmp : P -> P -> comparison) nums : preorder_contract nums cmp ->
  preorder_contract (flat_map nums) (cloud_cmp cmp) /\
  preorder_contract (fun m => flat_map nums (pc m)) (mesh_cmp cmp) /\
  preorder_contract (fun t => flat_map nums (stored t)) (kdtree_cmp cmp).
Proof.
  intros C. apply olaws_of in C.
  assert (FM : forall l : list P, Forall number (flat_map nums l) -> Forall (no_nan nums) l).
  { induction l as [|p l IH]; cbn [flat_map]; intros H; [constructor|]. apply Forall_app in H. constructor; [apply H|apply IH, H]. }
  assert (CL : olaws (fun l : list P => Forall number (flat_map nums l)) (cloud_cmp cmp)) by (apply (field_olaws _ _ (fun l => l) _ FM (list_olaws _ _ C))).
  unfold preorder_contract. split_conj; intros l F; revert l F; apply olaws_to.
  - exact CL.
  - apply (then_olaws (fun m : mesh P => Forall number (flat_map nums (pc m))) (fun m => Forall (fun _ => True) (topology m))).
    + intros a H. split; [exact H|apply Forall_forall; auto].
    + apply (field_olaws _ _ (@pc P) _ (fun _ H => H) CL).
    + apply (field_olaws _ _ (@topology P) _ (fun _ H => H) (list_olaws _ _ ncompare_olaws)).
  - refine (field_olaws _ _ (fun t => t) _ _ (kd_olaws _ _ C)). unfold no_nan at 1. induction a as [|l IHl v r IHr d]; cbn [stored kd_all]; [auto|].
    rewrite !flat_map_app, !Forall_app. cbn [flat_map]. rewrite app_nil_r. intros (H1 & H2 & H3). auto.
Qed.
Print Assumptions C170_containers.

(** ** The order of clouds is lexicographic with shorter clouds first, meshes compare points before indices, an empty tree is less than every other *)
Theorem C170_lexicographic {P} (cmp : P -> P -> comparison) :
  (forall a b, cloud_cmp cmp a b = Lt <-> exists n, Forall2 (fun p q => cmp p q = Eq) (firstn n a) (firstn n b) /\
     (length a = n /\ (n < length b)%nat \/ exists p q, nth_error a n = Some p /\ nth_error b n = Some q /\ cmp p q = Lt)) /\
  (forall a b, mesh_cmp cmp a b = Lt <-> cloud_cmp cmp (pc a) (pc b) = Lt \/ cloud_cmp cmp (pc a) (pc b) = Eq /\ cloud_cmp N.compare (topology a) (topology b) = Lt) /\
  (forall t, t <> KNone -> kdtree_cmp cmp KNone t = Lt /\ kdtree_cmp cmp t KNone = Gt).
Proof.
  split; [|split].
  - unfold cloud_cmp. induction a as [|p a IH]; intros [|q b]; cbn [list_cmp].
    + split; [discriminate|]. intros (n & _ & [[<- H]|(x & y & H & _)]); [inversion H|destruct n; discriminate].
    + split; [intros _|reflexivity]. exists 0%nat. split; [constructor|left; cbn; lia].
    + split; [discriminate|]. intros (n & _ & [[<- H]|(x & y & _ & H & _)]); [cbn in H; lia|destruct n; discriminate].
    + unfold then_cmp. destruct (cmp p q) eqn:C.
      * rewrite IH. split.
        -- intros (n & F & D). exists (S n). split; [constructor; assumption|]. destruct D as [[D1 D2]|D]; [left; cbn [length]; lia|right; exact D].
        -- intros ([|n] & F & D); [destruct D as [[D _]|(x & y & X & Y & D)]; [discriminate|cbn in X, Y; congruence]|].
           exists n. inversion F; subst. split; [assumption|]. destruct D as [[D1 D2]|D]; [left; cbn [length] in *; lia|right; exact D].
      * split; [intros _|reflexivity]. exists 0%nat. split; [constructor|right; exists p, q; auto].
      * split; [discriminate|]. intros ([|n] & F & D); [destruct D as [[D _]|(x & y & X & Y & D)]; [discriminate|cbn in X, Y; congruence]|]. inversion F; congruence.
  - intros a b. unfold mesh_cmp, then_cmp, cloud_cmp. destruct (list_cmp cmp (pc a) (pc b)); split; intros H; auto; try discriminate; destruct H as [H|[H H2]]; congruence.
  - intros [|l v r d] H; [congruence|split; reflexivity].
Qed.
Print Assumptions C170_lexicographic.

(** ** ... but it disagrees with == and with partial_cmp *)
Theorem C170_equal_refuted :
  (exists a b, line2_cmp a b = Eq /\ v_eq line2_vals a b = false) /\
  (exists a b, line3_cmp a b = Eq /\ v_eq line3_vals a b = false) /\
  (exists a b, bb3_cmp a b = Eq /\ v_eq bb3_vals a b = false) /\
  (exists a b, cloud_cmp pt3_cmp a b = Eq /\ v_eq (cloud_vals pt3_vals) a b = false) /\
  (exists a b, mesh_cmp pt3_cmp a b = Eq /\ v_eq (mesh_vals pt3_vals) a b = false).
Proof.
  split_conj.
  - exists (mkline2 (fp2 1 0) (fp2 1 0)), (mkline2 (fp2 0 1) (fp2 1 0)). split; vm_compute; reflexivity.
  - exists (mkline3 (fp3 1 0 0) (fp3 1 0 0)), (mkline3 (fp3 0 1 0) (fp3 1 0 0)). split; vm_compute; reflexivity.
  - exists (mkbb3 (fp3 1 0 0) (fp3 3 3 3)), (mkbb3 (fp3 0 1 0) (fp3 3 3 3)). split; vm_compute; reflexivity.
  - exists [fp3 1 0 0], [fp3 0 1 0]. split; vm_compute; reflexivity.
  - exists (Mesh [fp3 1 0 0] []), (Mesh [fp3 0 1 0] []). split; vm_compute; reflexivity.
Qed.
Print Assumptions C170_equal_refuted.
Theorem C170_partial_cmp_refuted :
  (exists a b, line2_cmp a b = Gt /\ v_pcmp line2_vals a b = Some Lt) /\
  (exists a b, line3_cmp a b = Gt /\ v_pcmp line3_vals a b = Some Lt) /\
  (exists a b, bb3_cmp a b = Gt /\ v_pcmp bb3_vals a b = Some Lt) /\
  (exists a b, cloud_cmp pt3_cmp a b = Gt /\ v_pcmp (cloud_vals pt3_vals) a b = Some Lt) /\
  (exists a b, mesh_cmp pt3_cmp a b = Gt /\ v_pcmp (mesh_vals pt3_vals) a b = Some Lt).
Proof.
  split_conj.
  - exists (mkline2 (fp2 (-3) 0) (fp2 1 0)), (mkline2 (fp2 1 0) (fp2 1 0)). split; vm_compute; reflexivity.
  - exists (mkline3 (fp3 (-3) 0 0) (fp3 1 0 0)), (mkline3 (fp3 1 0 0) (fp3 1 0 0)). split; vm_compute; reflexivity.
  - exists (mkbb3 (fp3 (-3) 0 0) (fp3 3 3 3)), (mkbb3 (fp3 1 0 0) (fp3 3 3 3)). split; vm_compute; reflexivity.
  - exists [fp3 (-3) 0 0], [fp3 1 0 0]. split; vm_compute; reflexivity.
  - exists (Mesh [fp3 (-3) 0 0] []), (Mesh [fp3 1 0 0] []). split; vm_compute; reflexivity.
Qed.
Print Assumptions C170_partial_cmp_refuted.

(** Three clouds in order, by the first point that differs, then by length. *)
Example C170_case : let a := [fp3 1 0 0; fp3 0 0 1] in let b := [fp3 1 0 0; fp3 0 2 0] in let c := [fp3 1 0 0; fp3 0 2 0; fp3 0 0 0] in
  preorder_contract nums3 pt3_cmp /\ Forall (no_nan (flat_map nums3)) [a; b; c] /\
  cloud_cmp pt3_cmp a b = Lt /\ cloud_cmp pt3_cmp b c = Lt /\ cloud_cmp pt3_cmp a c = Lt /\ cloud_cmp pt3_cmp c a = Gt.
Proof.
  intros a b c. split; [exact (olaws_to _ _ pt3_olaws)|]. split.
  - repeat (apply Forall_cons; [unfold no_nan; cbn [flat_map app nums3 a b c px py pz]; repeat (apply Forall_cons; [discriminate|]); apply Forall_nil|]). apply Forall_nil.
  - split_conj; vm_compute; reflexivity.
Qed.
