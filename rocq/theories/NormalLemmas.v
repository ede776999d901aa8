From Verif Require Import Base BaseLemmas Num NumLemmas GeomSpec FloatLemmas BBoxLemmas VecModel VecSpec VecLemmas ShapeModel ShapeLemmas
  MeshModel MeshSpec MeshAlgoModel MeshAlgoSpec MeshAlgoLemmas AngleLemmas NormalModel NormalSpec.
From Coq Require Import Floats.SpecFloat Reals Lra Psatz Lia ZifyNat ZifyN.
Local Open Scope R_scope.

(** ** planes *)
Lemma project_R (pl : plane RN) (p : pt3 RN) : project_point_on_plane pl p =
  @mk2 RN (rdot3 (pu pl) (conn (porigin pl) p)) (rdot3 (pv pl) (conn (porigin pl) p)).
Proof. reflexivity. Qed.
Lemma dist_split (o u v p : pt3 RN) s t : orthonormal u v ->
  let a := rdot3 u (conn o p) in let b := rdot3 v (conn o p) in
  rdist2 p (at_plane o u v s t) = rdist2 p (at_plane o u v a b) + (s - a) * (s - a) + (t - b) * (t - b).
Proof.
  intros (U & V & D) a b.
  assert (G : forall s t, rdist2 p (at_plane o u v s t) =
     rsq3 (conn o p) - 2 * s * a - 2 * t * b + s * s * rsq3 u + t * t * rsq3 v + 2 * s * t * rdot3 u v).
  { intros s' t'. unfold a, b, rdist2, at_plane, rsq3, rdot3, conn. destruct o, u, v, p. cbn. ring. }
  rewrite (G s t), (G a b), U, V, D. ring.
Qed.

Lemma sum_of_squares (d s t a b : R) : d <= d + (s - a) * (s - a) + (t - b) * (t - b) /\
  (d + (s - a) * (s - a) + (t - b) * (t - b) = d -> s = a /\ t = b).
Proof.
  pose proof (Rle_0_sqr (s - a)) as A. pose proof (Rle_0_sqr (t - b)) as B. unfold Rsqr in *. split; [lra|]. intros E.
  assert (X : (s - a) * (s - a) = 0) by lra. assert (Y : (t - b) * (t - b) = 0) by lra.
  apply Rmult_integral in X. apply Rmult_integral in Y. lra.
Qed.

(** ** unit vectors *)
Lemma unit_or_z_fun v : exists n, norm3_or_z v = Ok n /\ unit_or_z v n.
Proof.
  unfold norm3_or_z. destruct (norm3_new v) as [n|e|] eqn:E.
  - rewrite norm3_z_R'. exists n. split; [reflexivity|]. right. pose proof (norm3_unit _ _ E) as [U K]. split; [|split; assumption].
    intros Z. rewrite norm3_new_R in E. destruct (Req_EM_T (rsq3 v) 0); [discriminate|contradiction].
  - rewrite norm3_z_R'. exists (rp3 0 0 1). split; [reflexivity|]. left. split; [|reflexivity].
    rewrite norm3_new_R in E. destruct (Req_EM_T (rsq3 v) 0); [assumption|discriminate].
  - exfalso. rewrite norm3_new_R in E. destruct (Req_EM_T _ _); discriminate.
Qed.
Lemma pt3_ext (a b : pt3 RN) : px a = px b -> py a = py b -> pz a = pz b -> a = b.
Proof. destruct a, b. cbn. intros; subst; reflexivity. Qed.
Lemma unit_scale_unique (k l x y z a b c : R) : 0 < k -> 0 < l -> x*x+y*y+z*z = 1 -> a*a+b*b+c*c = 1 ->
  k * x = l * a -> k * y = l * b -> k * z = l * c -> x = a /\ y = b /\ z = c.
Proof.
  intros K L U V X Y Z. assert (Q : k * k = l * l).
  { transitivity ((k*x)*(k*x) + (k*y)*(k*y) + (k*z)*(k*z)).
    - transitivity (k * k * (x*x+y*y+z*z)); [rewrite U; ring|ring].
    - rewrite X, Y, Z. transitivity (l * l * (a*a+b*b+c*c)); [ring|rewrite V; ring]. }
  assert (k = l) by (apply sq_inj_pos; assumption). subst l.
  repeat split; apply Rmult_eq_reg_l with k; lra.
Qed.
Lemma unit_or_z_unique v n m : unit_or_z v n -> unit_or_z v m -> n = m.
Proof.
  intros [[A B]|(A & B & k & K & X & Y & Z)] [[C D]|(C & D & l & L & X' & Y' & Z')]; try contradiction.
  - congruence.
  - unfold rsq3, rdot3 in B, D.
    destruct (unit_scale_unique k l (px n) (py n) (pz n) (px m) (py m) (pz m)) as (E1 & E2 & E3); try assumption; try congruence.
    apply pt3_ext; assumption.
Qed.
Lemma cross_area (p q r : pt3 RN) : cross3 (conn p q) (conn p r) = area_vec p q r.
Proof. apply pt3_ext; destruct p, q, r; cbn; ring. Qed.

(** ** accumulating *)
Lemma add_at_ok (n : pt3 RN) v ns : (v < lenN ns)%N ->
  exists x ns', nthN ns v = Some x /\ add_at n v ns = Ok ns' /\ lenN ns' = lenN ns /\
    forall i, nthN ns' i = if N.eqb v i then Some (plus3 x n) else nthN ns i.
Proof.
  intros H. destruct (nthN_lt_Some ns v H) as [x Hx]. exists x, (setN ns v (plus3 x n)). unfold add_at. rewrite Hx.
  repeat split; auto; [apply setN_lenN|]. intros i. rewrite nthN_setN. destruct (N.eqb v i); [|reflexivity].
  apply N.ltb_lt in H. rewrite H. reflexivity.
Qed.
Lemma combine_snoc {A B} (l : list A) (k : list B) x y : length l = length k -> combine (l ++ [x]) (k ++ [y]) = combine l k ++ [(x, y)].
Proof. revert k. induction l as [|a l IH]; intros [|b k]; cbn; intros H; try discriminate; [reflexivity|]. rewrite IH by lia. reflexivity. Qed.
Lemma total_snoc l x : total3 (l ++ [x]) = plus3 (total3 l) x.
Proof. unfold total3. rewrite fold_left_app. reflexivity. Qed.
Lemma firstn_snoc {A} (l : list A) j x : nth_error l j = Some x -> firstn (S j) l = firstn j l ++ [x].
Proof.
  revert j. induction l as [|a l IH]; intros [|j] H; cbn in H |- *; try discriminate; [congruence|]. f_equal. apply IH, H.
Qed.
Lemma Forall2_len {A B} (R : A -> B -> Prop) l k : Forall2 R l k -> length l = length k.
Proof. induction 1; cbn; lia. Qed.
Definition at_vertex (fs : list face3) (fns : list (pt3 RN)) (i : N) : list (pt3 RN) :=
  map snd (filter (fun fn => uses i (fst fn)) (combine fs fns)).

Lemma normals_loop (m : mesh (pt3 RN)) (s : mspec (pt3 RN)) : shows m s -> faces_ok s -> (3 * N.of_nat (length (sfs s)) < 2 ^ 64)%N ->
  exists acc fns, for_range (N.to_nat (num_faces m)) 0%N (normals_face m) (repeat (@mk3 RN n0 n0 n0) (N.to_nat (num_vertices m))) = Ok acc /\
    Forall2 (face_normal s) (sfs s) fns /\ lenN acc = lenN (svs s) /\
    forall i x, nthN acc i = Some x -> x = total3 (normals_at s fns i).
Proof.
  intros Hs F L. pose proof Hs as (NV & _ & NF & _ & _).
  destruct (for_range_inv (fun j acc => lenN acc = lenN (svs s) /\ exists fns,
      Forall2 (face_normal s) (firstn (N.to_nat j) (sfs s)) fns /\
      forall i x, nthN acc i = Some x -> x = total3 (at_vertex (firstn (N.to_nat j) (sfs s)) fns i))
    (normals_face m) (N.to_nat (num_faces m)) 0%N (repeat (@mk3 RN n0 n0 n0) (N.to_nat (num_vertices m)))) as (acc & E & A & fns & B & C).
  - split; [unfold lenN; rewrite repeat_length, NV; lia|]. exists []. split; [constructor|]. intros i x H.
    rewrite nthN_nth_error in H. apply nth_error_In, repeat_spec in H. subst x. rewrite R_n0. reflexivity.
  - intros j acc Hj (A & fns & B & C).
    assert (Hn : (N.to_nat j < length (sfs s))%nat) by lia. 
    destruct (nth_error (sfs s) (N.to_nat j)) as [f|] eqn:Hf; [|apply nth_error_None in Hf; lia].
    destruct (shows_face m s j f Hs L Hf) as [D1 ([[p q] r] & D2 & D3)].
    destruct f as [[a b] c]. destruct (F a b c (nth_error_In _ _ Hf)) as (Ra & Rb & Rc & N1 & N2 & N3).
    unfold in_range in *. unfold normals_face. rewrite D1. cbn [obind]. rewrite D3. cbn [obind]. rewrite cross_area.
    destruct (unit_or_z_fun (area_vec p q r)) as (n & En & Un). rewrite En. cbn [obind].
    assert (La : (a < lenN acc)%N) by (rewrite A; unfold lenN; lia).
    destruct (add_at_ok n a acc La) as (xa & acc1 & Xa & -> & L1 & G1). cbn [obind].
    assert (Lb : (b < lenN acc1)%N) by (rewrite L1, A; unfold lenN; lia).
    destruct (add_at_ok n b acc1 Lb) as (xb & acc2 & Xb & -> & L2 & G2). cbn [obind].
    assert (Lc : (c < lenN acc2)%N) by (rewrite L2, L1, A; unfold lenN; lia).
    destruct (add_at_ok n c acc2 Lc) as (xc & acc3 & Xc & -> & L3 & G3).
    exists acc3. split; [reflexivity|]. split; [congruence|]. exists (fns ++ [n]).
    replace (N.to_nat (j + 1)) with (S (N.to_nat j)) by lia. rewrite (firstn_snoc _ _ _ Hf). split.
    { apply Forall2_app; [exact B|]. constructor; [|constructor]. exists p, q, r. split; assumption. }
    assert (Len : length (firstn (N.to_nat j) (sfs s)) = length fns) by (eapply Forall2_len; exact B).
    intros i x Hx. unfold at_vertex. rewrite combine_snoc by exact Len. rewrite filter_app, map_app. cbn [filter fst uses].
    fold (at_vertex (firstn (N.to_nat j) (sfs s)) fns i).
    rewrite G3 in Hx. rewrite G2 in Xc, Hx. rewrite G1 in Xb, Xc, Hx.
    destruct (N.eqb_spec c i) as [Ec|Ec].
    + subst i. rewrite N.eqb_refl, !orb_true_r. cbn [map snd]. rewrite total_snoc. injection Hx as <-. f_equal.
      apply C. destruct (N.eqb_spec b c); [congruence|]. destruct (N.eqb_spec a c); [congruence|]. exact Xc.
    + destruct (N.eqb_spec b i) as [Eb|Eb].
      * subst i. rewrite N.eqb_refl, orb_true_r, orb_true_l. cbn [map snd]. rewrite total_snoc. injection Hx as <-. f_equal.
        apply C. destruct (N.eqb_spec a b); [congruence|]. exact Xb.
      * destruct (N.eqb_spec a i) as [Ea|Ea].
        -- subst i. rewrite N.eqb_refl, !orb_true_l. cbn [map snd]. rewrite total_snoc. injection Hx as <-. f_equal. apply C. exact Xa.
        -- replace (i =? a)%N with false by (symmetry; apply N.eqb_neq; congruence).
           replace (i =? b)%N with false by (symmetry; apply N.eqb_neq; congruence).
           replace (i =? c)%N with false by (symmetry; apply N.eqb_neq; congruence). cbn [orb map]. rewrite app_nil_r. apply C, Hx.
  - rewrite E. exists acc, fns. split; [reflexivity|].
    replace (firstn (N.to_nat (0 + N.of_nat (N.to_nat (num_faces m)))) (sfs s)) with (sfs s) in * by (rewrite NF; symmetry; apply firstn_all2; lia).
    auto.
Qed.
Lemma normalize_all_ok (ns : list (pt3 RN)) : exists out, normalize_all ns = Ok out /\ Forall2 unit_or_z ns out.
Proof.
  induction ns as [|x r (out & E & F)]; [exists []; split; [reflexivity|constructor]|].
  destruct (unit_or_z_fun x) as (n & En & Un). exists (n :: out). cbn [normalize_all]. rewrite En. cbn [obind]. rewrite E. split; [reflexivity|].
  constructor; assumption.
Qed.
Lemma Forall2_nth {A B} (R : A -> B -> Prop) l k i y : Forall2 R l k -> nth_error k i = Some y -> exists x, nth_error l i = Some x /\ R x y.
Proof.
  intros H. revert i. induction H as [|a b l k Hab H IH]; intros [|i] E; cbn in *; try discriminate.
  - injection E as <-. eauto.
  - apply IH, E.
Qed.
Lemma normals_ok (m : mesh (pt3 RN)) (s : mspec (pt3 RN)) : shows m s -> faces_ok s -> (3 * N.of_nat (length (sfs s)) < 2 ^ 64)%N ->
  exists ns fns, normals_of_mesh m = Ok ns /\ length ns = length (svs s) /\ Forall2 (face_normal s) (sfs s) fns /\
    forall i n, nth_error ns i = Some n -> unit_or_z (total3 (normals_at s fns (N.of_nat i))) n.
Proof.
  intros Hs F L. destruct (normals_loop m s Hs F L) as (acc & fns & E & A & B & C).
  destruct (normalize_all_ok acc) as (out & G & H). exists out, fns. unfold normals_of_mesh. rewrite E. cbn [obind]. split; [exact G|].
  split; [|split; [exact A|]].
  - apply Forall2_len in H. unfold lenN in B. lia.
  - intros i n Hn. destruct (Forall2_nth _ _ _ _ _ H Hn) as (x & Hx & U). rewrite <- nthN_of_nat in Hx. rewrite <- (C _ _ Hx). exact U.
Qed.

(** ** flat meshes *)
Lemma total_const (w : pt3 RN) l : Forall (fun n => n = w) l ->
  total3 l = @mk3 RN (INR (length l) * px w) (INR (length l) * py w) (INR (length l) * pz w).
Proof.
  intros H. induction l as [|x l IH] using rev_ind; [apply pt3_ext; cbn; ring|].
  apply Forall_app in H. destruct H as [H1 H2]. inversion H2 as [|? ? -> _]; subst. rewrite total_snoc, IH, app_length by assumption.
  rewrite plus_INR. apply pt3_ext; cbn [px py pz plus3 length INR]; cbn; ring.
Qed.
Lemma unit_or_z_w v w : unit_or_z v w -> forall k, 0 < k -> rsq3 v <> 0 -> unit_or_z (@mk3 RN (k * px w) (k * py w) (k * pz w)) w.
Proof.
  intros [[A _]|(A & B & _)] k K V; [contradiction|]. right. split; [|split; [exact B|exists k; cbn; auto]].
  unfold rsq3, rdot3 in *. cbn [px py pz] in *. intros Z. assert (k * k * 1 = 0) by (rewrite <- B, <- Z; cbn; ring). nra.
Qed.
Lemma flat_ok (m : mesh (pt3 RN)) (s : mspec (pt3 RN)) (w : pt3 RN) :
  shows m s -> faces_ok s -> (3 * N.of_nat (length (sfs s)) < 2 ^ 64)%N -> rsq3 w = 1 ->
  (forall f p q r, In f (sfs s) -> corners s f = Some (p, q, r) ->
     exists k, 0 < k /\ area_vec p q r = @mk3 RN (k * px w) (k * py w) (k * pz w)) ->
  exists ns, normals_of_mesh m = Ok ns /\ length ns = length (svs s) /\
    forall i n, nth_error ns i = Some n ->
      (exists f, In f (sfs s) /\ uses (N.of_nat i) f = true) /\ n = w \/
      (forall f, In f (sfs s) -> uses (N.of_nat i) f = false) /\ n = rp3 0 0 1.
Proof.
  intros Hs F L W H. destruct (normals_ok m s Hs F L) as (ns & fns & E & Len & FN & U). exists ns. split; [exact E|]. split; [exact Len|].
  assert (UW : forall k, 0 < k -> unit_or_z (@mk3 RN (k * px w) (k * py w) (k * pz w)) w).
  { intros k K. right. split; [|split; [exact W|exists k; cbn; auto]].
    unfold rsq3, rdot3 in *. cbn [px py pz] in *. intros Z. assert (k * k * 1 = 0) by (rewrite <- W, <- Z; cbn; ring). nra. }
  assert (AW : forall fs fs' , Forall2 (face_normal s) fs fs' -> (forall f, In f fs -> In f (sfs s)) -> Forall (fun n => n = w) fs').
  { intros fs fs' G. induction G as [|f n fs fs' (p & q & r & C & D) G IH]; intros I; [constructor|]. constructor; [|apply IH; intros; apply I; right; assumption].
    destruct (H f p q r (I f (or_introl eq_refl)) C) as (k & K & Ak). rewrite Ak in D. exact (unit_or_z_unique _ _ _ D (UW k K)). }
  specialize (AW _ _ FN (fun f x => x)).
  intros i n Hn. specialize (U i n Hn).
  assert (Sel : Forall (fun n => n = w) (normals_at s fns (N.of_nat i))).
  { unfold normals_at. apply Forall_forall. intros x Hx. apply in_map_iff in Hx. destruct Hx as ([f y] & <- & Hy).
    apply filter_In in Hy. destruct Hy as [Hy _]. apply in_combine_r in Hy. rewrite Forall_forall in AW. apply AW, Hy. }
  rewrite (total_const w _ Sel) in U. 
  assert (Ex : forall i, normals_at s fns i = [] <-> forall f, In f (sfs s) -> uses i f = false).
  { clear -FN. intros i. unfold normals_at. generalize dependent fns. induction (sfs s) as [|f fs IH]; intros fns G; inversion G; subst; cbn.
    - split; [intros _ f []|reflexivity].
    - destruct (uses i f) eqn:Uf; cbn.
      + split; [discriminate|]. intros Q. rewrite (Q f (or_introl eq_refl)) in Uf. discriminate.
      + rewrite (IH _ H3). split; [intros Q g [<- |I]; auto|intros Q g I; apply Q; auto]. }
  destruct (normals_at s fns (N.of_nat i)) as [|x l] eqn:El.
  - right. split; [apply Ex, El|]. cbn [length INR] in U. apply unit_or_z_unique with (1 := U). left. split; [|reflexivity].
    unfold rsq3, rdot3. cbn. ring.
  - left. split.
    + unfold normals_at in El.
      destruct (filter (fun fn => uses (N.of_nat i) (fst fn)) (combine (sfs s) fns)) as [|[f y] t] eqn:Ef; [discriminate|].
      assert (I : In (f, y) (filter (fun fn => uses (N.of_nat i) (fst fn)) (combine (sfs s) fns))) by (rewrite Ef; left; reflexivity).
      apply filter_In in I. destruct I as [I1 I2]. exists f. split; [exact (in_combine_l _ _ _ _ I1)|exact I2].
    + apply (unit_or_z_unique _ _ _ U). apply UW. cbn [length]. apply lt_0_INR. lia.
Qed.

(** ** NaN *)
Lemma sub_nan_l (x : T F64) : nsub (S754_nan : T F64) x = S754_nan. Proof. destruct x; reflexivity. Qed.
Lemma sub_nan_r (x : T F64) : nsub x (S754_nan : T F64) = S754_nan. Proof. destruct x; reflexivity. Qed.
Lemma mul_nan_l (x : T F64) : nmul (S754_nan : T F64) x = S754_nan. Proof. destruct x; reflexivity. Qed.
Lemma mul_nan_r (x : T F64) : nmul x (S754_nan : T F64) = S754_nan. Proof. destruct x; reflexivity. Qed.
Lemma not_numbers3 (p : pt3 F64) : ~ numbers3 p <-> px p = S754_nan \/ py p = S754_nan \/ pz p = S754_nan.
Proof.
  unfold numbers3, number. split.
  - intros H. destruct (px p) eqn:A, (py p) eqn:B, (pz p) eqn:C; auto; exfalso; apply H; repeat split; discriminate.
  - intros [A|[A|A]] (X & Y & Z); congruence.
Qed.
Lemma cross_nan (p q r : pt3 F64) : ~ numbers3 p \/ ~ numbers3 q \/ ~ numbers3 r -> ~ numbers3 (cross3 (conn p q) (conn p r)).
Proof.
  rewrite !not_numbers3. destruct p as [p1 p2 p3], q as [q1 q2 q3], r as [r1 r2 r3]. unfold cross3, conn. cbn [px py pz].
  intros [[-> | [-> | ->]] | [[-> | [-> | ->]] | [-> | [-> | ->]]]];
    repeat first [rewrite sub_nan_l | rewrite sub_nan_r | rewrite mul_nan_l | rewrite mul_nan_r]; auto.
Qed.
Lemma norm3_or_z_nan (v : pt3 F64) : ~ numbers3 v -> norm3_or_z v = Panic.
Proof. intros H. unfold norm3_or_z, norm3_new. rewrite (abs3_nan v H). reflexivity. Qed.
Lemma norm3_z_F : exists z : pt3 F64, norm3_z = Ok z.
Proof. exists (fp3 0 0 1). vmeq. Qed.
Lemma norm3_or_z_no_err (v : pt3 F64) e : norm3_or_z v <> Err e.
Proof. destruct norm3_z_F as (z & Hz). unfold norm3_or_z. destruct (norm3_new v); rewrite ?Hz; discriminate. Qed.
Lemma for_range_panic {S} (f : N -> S -> res S) n : forall i s, (forall j s e, f j s <> Err e) ->
  (exists j, (i <= j < i + N.of_nat n)%N /\ forall s, f j s = Panic) -> for_range n i f s = Panic.
Proof.
  induction n as [|n IH]; intros i s NE (j & J & P); [lia|]. cbn [for_range].
  destruct (N.eq_dec i j) as [-> |D]; [rewrite P; reflexivity|].
  destruct (f i s) as [s'|e|] eqn:E; [|exfalso; exact (NE _ _ _ E)|reflexivity]. cbn [obind]. apply IH; [exact NE|]. exists j. split; [lia|exact P].
Qed.
Lemma nan_panics (m : mesh (pt3 F64)) (s : mspec (pt3 F64)) f p q r : shows m s -> (3 * N.of_nat (length (sfs s)) < 2 ^ 64)%N ->
  In f (sfs s) -> corners s f = Some (p, q, r) -> ~ numbers3 p \/ ~ numbers3 q \/ ~ numbers3 r -> normals_of_mesh m = Panic.
Proof.
  intros Hs L I C H. pose proof Hs as (_ & _ & NF & _). unfold normals_of_mesh. rewrite for_range_panic; [reflexivity| |].
  - intros j ns e. unfold normals_face. unfold face_vertices, face_vertex_ids.
    destruct (_ <=? _)%N; cbn [obind]; [discriminate|].
    destruct (nthN _ _) as [a|]; [|discriminate]. destruct (nthN _ _) as [b|]; [|discriminate]. destruct (nthN _ _) as [c|]; [|discriminate].
    cbn [obind]. destruct (vertex m a); [|discriminate]. destruct (vertex m b); [|discriminate]. destruct (vertex m c); [|discriminate]. cbn [obind].
    destruct (norm3_or_z _) as [n|e'|] eqn:E; [|exfalso; exact (norm3_or_z_no_err _ _ E)|discriminate]. cbn [obind].
    unfold add_at. destruct (nthN ns a); [|discriminate]. cbn [obind]. destruct (nthN _ b); [|discriminate]. cbn [obind]. destruct (nthN _ c); discriminate.
  - destruct (In_nth_error _ _ I) as [j Hj]. exists (N.of_nat j). assert (j < length (sfs s))%nat by (apply nth_error_Some; congruence).
    split; [lia|]. intros ns. rewrite <- (Nat2N.id j) in Hj. destruct (shows_face m s (N.of_nat j) f Hs L Hj) as [D1 (t & D2 & D3)].
    rewrite C in D2. injection D2 as <-. unfold normals_face. rewrite D1. cbn [obind]. destruct f as [[a b] c]. rewrite D3. cbn [obind].
    rewrite norm3_or_z_nan by (apply cross_nan; exact H). reflexivity.
Qed.

(** ** the default plane with doubles *)
From Verif Require Import FloatSpec FloatBridge.
From Verif Require CompressLemmas.
Notation ffin := f_finite.
Definition fine (x : T F64) (r : R) : Prop := is_double x /\ ffin x /\ fval x = r.
Lemma rounds_exact r (z : T F64) : rounds r z -> fmt r -> Rabs r < top -> ffin z /\ fval z = r.
Proof.
  intros H F B. rewrite <- (rnd_id r F) in B. unfold rounds in H. rewrite (rnd_id r F) in *.
  destruct H as [(_ & A & E)|[[A _]|[A _]]]; [auto| |]; exfalso; pose proof (Rle_abs r); pose proof (Rle_abs (- r)); rewrite Rabs_Ropp in *; lra.
Qed.
Lemma fine_fmt x r : fine x r -> fmt r /\ Rabs r < top.
Proof. intros (D & _ & <-). split; [apply fval_fmt, D|apply fval_bound, D]. Qed.
Lemma fine_sub x y r q : fine x r -> fine y q -> fmt (r - q) -> Rabs (r - q) < top -> fine (nsub x y) (r - q).
Proof.
  intros (D & F & V) (D' & F' & V') A B. split; [apply double_sub; assumption|]. subst. apply rounds_exact; auto. apply sub_val; assumption.
Qed.
Lemma fine_add x y r q : fine x r -> fine y q -> fmt (r + q) -> Rabs (r + q) < top -> fine (nadd x y) (r + q).
Proof.
  intros (D & F & V) (D' & F' & V') A B. split; [apply double_add; assumption|]. subst. apply rounds_exact; auto. apply add_val; assumption.
Qed.
Lemma fine_mul x y r q : fine x r -> fine y q -> fmt (r * q) -> Rabs (r * q) < top -> fine (nmul x y) (r * q).
Proof.
  intros (D & F & V) (D' & F' & V') A B. split; [apply double_mul; assumption|]. subst. apply rounds_exact; auto. apply mul_val; assumption.
Qed.
Lemma fine_0 : fine (fz 0) 0. Proof. repeat split. Qed.
Lemma fine_1 : fine (fz 1) 1.
Proof. split; [reflexivity|]. split; [exact I|]. vm_compute fz. apply CompressLemmas.fval_int; [lia|reflexivity]. Qed.
Lemma plane_default_F : @plane_default F64 = Ok (mkPlane (fp3 0 0 0) (fp3 1 0 0) (fp3 0 1 0)).
Proof. vmeq. Qed.
Lemma fine_dot x y z a b c : fine x a -> fine y b -> fine z c ->
  (forall u v w, fine u 1 -> fine v 0 -> fine w 0 -> fine (nadd (nadd (nmul u x) (nmul v y)) (nmul w z)) a) /\
  (forall u v w, fine u 0 -> fine v 1 -> fine w 0 -> fine (nadd (nadd (nmul u x) (nmul v y)) (nmul w z)) b).
Proof.
  intros X Y Z. destruct (fine_fmt _ _ X), (fine_fmt _ _ Y), (fine_fmt _ _ Z), (fine_fmt _ _ fine_0).
  assert (One : forall u x r, fine u 1 -> fine x r -> fine (nmul u x) r).
  { intros u x' r U X'. destruct (fine_fmt _ _ X'). replace r with (1 * r) by ring. apply fine_mul; auto; rewrite Rmult_1_l; auto. }
  assert (Zero : forall u x r, fine u 0 -> fine x r -> fine (nmul u x) 0).
  { intros u x' r U X'. replace 0 with (0 * r) by ring. apply fine_mul; auto; rewrite Rmult_0_l; auto. }
  assert (Pl : forall x y r, fine x r -> fine y 0 -> fine (nadd x y) r).
  { intros x' y' r X' Y'. destruct (fine_fmt _ _ X'). replace r with (r + 0) by ring. apply fine_add; auto; rewrite Rplus_0_r; auto. }
  assert (Pr : forall x y r, fine x 0 -> fine y r -> fine (nadd x y) r).
  { intros x' y' r X' Y'. destruct (fine_fmt _ _ Y'). replace r with (0 + r) by ring. apply fine_add; auto; rewrite Rplus_0_l; auto. }
  split; intros u v w U V W.
  - apply Pl; [apply Pl|]; eauto.
  - apply Pl; [apply Pr|]; eauto.
Qed.
Lemma project_default_F (p : pt3 F64) : (forall ax, axis3 ax -> is_double (ax p) /\ ffin (ax p)) ->
  exists pl, plane_default = Ok pl /\ feq (x2 (project_point_on_plane pl p)) (px p) /\ feq (y2 (project_point_on_plane pl p)) (py p).
Proof.
  intros H. exists (mkPlane (fp3 0 0 0) (fp3 1 0 0) (fp3 0 1 0)). split; [exact plane_default_F|].
  destruct (H px) as [A1 A2]; [unfold axis3; auto|]. destruct (H py) as [B1 B2]; [unfold axis3; auto|]. destruct (H pz) as [C1 C2]; [unfold axis3; auto|].
  assert (Rel : forall x, is_double x -> ffin x -> fine (nsub x (fz 0)) (fval x)).
  { intros x D F. assert (X : fine x (fval x)) by (repeat split; assumption). destruct (fine_fmt _ _ X).
    replace (fval x) with (fval x - 0) by ring. apply fine_sub; try rewrite Rminus_0_r; auto. exact fine_0. }
  destruct (fine_dot _ _ _ _ _ _ (Rel _ A1 A2) (Rel _ B1 B2) (Rel _ C1 C2)) as [Dx Dy].
  unfold project_point_on_plane, dot3, conn. cbn [porigin pu pv fp3 px py pz x2 y2].
  destruct (Dx (fz 1) (fz 0) (fz 0) fine_1 fine_0 fine_0) as (X1 & X2 & X3).
  destruct (Dy (fz 0) (fz 1) (fz 0) fine_0 fine_1 fine_0) as (Y1 & Y2 & Y3).
  split; apply feq_val; assumption.
Qed.
Lemma faces_okg {P} (s : mspec P) : (forallb (fun '(a, b, c) => (a <? lenN (svs s)) && (b <? lenN (svs s)) && (c <? lenN (svs s)) &&
  negb (a =? b) && negb (a =? c) && negb (b =? c)) (sfs s) = true)%N -> faces_ok s.
Proof.
  intros H a b c Hin. rewrite forallb_forall in H. specialize (H _ Hin). cbv beta iota in H.
  rewrite !andb_true_iff, !negb_true_iff, !N.ltb_lt, !N.eqb_neq in H. unfold in_range. unfold lenN in H. tauto.
Qed.
