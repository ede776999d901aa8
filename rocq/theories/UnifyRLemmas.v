From Verif Require Import Base BaseLemmas Num NumLemmas MeshModel MeshSpec MeshLemmas MeshAlgoModel MeshAlgoSpec MeshAlgoLemmas UnifyLemmas
  VecModel VecSpec VecLemmas UnifySpec.
From Coq Require Import Reals Lra Psatz Relations ZifyNat ZifyN.
Local Open Scope R_scope.

Definition opp3 (a b : pt3 RN) : bool := nltb (dot3 a b) n0.

Section U.
  Context (s : mspec (pt3 RN)).
  Notation nf := (lenN (sfs s)).
  Notation hn := (has_normal normal_of_face s).

  Lemma has_normal_R (F : faces_ok s) i : (i < nf)%N -> exists k, hn i k.
  Proof.
    intros Hi. destruct (nthN_lt_Some (sfs s) i Hi) as [f Ef].
    destruct (faces_corners s f F) as (p & q & r & C); [rewrite nthN_nth_error in Ef; eapply nth_error_In, Ef|].
    destruct (normal_of_face_R p q r) as (n & E & _). exists n, f, p, q, r. auto.
  Qed.

  Definition sgn (b : bool) : R := if b then -1 else 1.
  Lemma flip_area (p q r : pt3 RN) (b : bool) :
    area_vec p (if b then r else q) (if b then q else r) =
    mk3 (sgn b * px (area_vec p q r) : T RN) (sgn b * py (area_vec p q r) : T RN) (sgn b * pz (area_vec p q r) : T RN).
  Proof. destruct p, q, r, b; unfold area_vec, sgn; cbn; f_equal; toR; ring. Qed.

  Lemma facing_oriented fs b f : In f (sfs s) -> 
    facing (MSpec (svs s) fs) (oriented b f) =
    mk3 (sgn b * px (facing s f) : T RN) (sgn b * py (facing s f) : T RN) (sgn b * pz (facing s f) : T RN).
  Proof.
    intros _. destruct f as [[x y] z]. unfold facing, oriented. destruct b; cbn [corners svs].
    - destruct (nth_error (svs s) (N.to_nat x)) as [p|]; [|cbn; f_equal; toR; ring].
      destruct (nth_error (svs s) (N.to_nat z)) as [r|];
      destruct (nth_error (svs s) (N.to_nat y)) as [q|]; try (cbn; f_equal; toR; ring).
      exact (flip_area p q r true).
    - destruct (nth_error (svs s) (N.to_nat x)) as [p|]; [|cbn; f_equal; toR; ring].
      destruct (nth_error (svs s) (N.to_nat y)) as [q|]; [|cbn; f_equal; toR; ring].
      destruct (nth_error (svs s) (N.to_nat z)) as [r|]; [|cbn; f_equal; toR; ring].
      exact (flip_area p q r false).
  Qed.

  Lemma normal_facing i k f : hn i k -> nthN (sfs s) i = Some f ->
    rsq3 (facing s f) = 0 \/
    exists c, 0 < c /\ px (facing s f) = c * px k /\ py (facing s f) = c * py k /\ pz (facing s f) = c * pz k.
  Proof.
    intros (f' & p & q & r & E1 & E2 & E3) E. rewrite E1 in E. injection E as ->. unfold facing. rewrite E2.
    destruct (normal_of_face_R p q r) as (n & G & D). rewrite E3 in G. injection G as <-. exact D.
  Qed.

  Lemma nth_flipped fl i b f : nthN fl i = Some b -> nthN (sfs s) i = Some f -> nthN (flipped s fl) i = Some (oriented b f).
  Proof.
    unfold flipped. rewrite !nthN_nth_error. intros A B. rewrite nth_error_map.
    assert (G : nth_error (combine fl (sfs s)) (N.to_nat i) = Some (b, f)).
    { revert A B. generalize (N.to_nat i) as k. generalize (sfs s). clear. induction fl as [|y fl IH]; intros [|g l] [|k] A B; cbn in *; try discriminate.
      - injection A as ->. injection B as ->. reflexivity. - apply IH; assumption. }
    rewrite G. reflexivity.
  Qed.

  (** orientation follows an earlier neighbour *)
  Lemma step_side fl g i b ng ni fg fi : nthN (sfs s) g = Some fg -> nthN (sfs s) i = Some fi ->
    nthN fl g = Some b -> hn g ng -> hn i ni -> nthN fl i = Some (xorb b (opp3 ng ni)) ->
    0 <= rdot3 (facing (MSpec (svs s) (flipped s fl)) (oriented b fg)) (facing (MSpec (svs s) (flipped s fl)) (oriented (xorb b (opp3 ng ni)) fi)).
  Proof.
    intros Eg Ei Hb Ng Ni Hi.
    assert (Ig : In fg (sfs s)) by (rewrite nthN_nth_error in Eg; eapply nth_error_In, Eg).
    assert (Ii : In fi (sfs s)) by (rewrite nthN_nth_error in Ei; eapply nth_error_In, Ei).
    rewrite !facing_oriented by assumption. unfold rdot3. cbn [px py pz].
    destruct (normal_facing g ng fg Ng Eg) as [Z|(c & Hc & C1 & C2 & C3)].
    { apply rsq3_zero in Z as (-> & -> & ->). lra. }
    destruct (normal_facing i ni fi Ni Ei) as [Z|(d & Hd & D1 & D2 & D3)].
    { apply rsq3_zero in Z as (-> & -> & ->). lra. }
    rewrite C1, C2, C3, D1, D2, D3.
    set (k := rdot3 ng ni). assert (K : opp3 ng ni = true <-> k < 0).
    { unfold opp3. rewrite R_ltb, R_n0, dot3_R. reflexivity. }
    assert (Hcd : 0 < c * d) by (apply Rmult_lt_0_compat; assumption).
    assert (E : forall x y, x * (c * px ng) * (y * (d * px ni)) + x * (c * py ng) * (y * (d * py ni)) + x * (c * pz ng) * (y * (d * pz ni)) = (x * y) * ((c * d) * k)).
    { intros. unfold k, rdot3. toR. ring. }
    rewrite E. clear E. destruct (opp3 ng ni).
    - assert (k < 0) by (apply K; reflexivity). assert (sgn b * sgn (xorb b true) = -1) as -> by (destruct b; cbn; lra). nra.
    - assert (0 <= k) by (destruct (Rle_lt_dec 0 k) as [L|L]; [exact L|apply K in L; discriminate]).
      assert (sgn b * sgn (xorb b false) = 1) as -> by (destruct b; cbn; lra). nra.
  Qed.

  (** coplanar areas are multiples of the plane normal *)
  Lemma coplanar_area (n : pt3 RN) d p q r : rsq3 n <> 0 -> rdot3 n p = d -> rdot3 n q = d -> rdot3 n r = d ->
    let k := rdot3 n (area_vec p q r) / rsq3 n in
    px (area_vec p q r) = k * px n /\ py (area_vec p q r) = k * py n /\ pz (area_vec p q r) = k * pz n.
  Proof.
    intros Hn Hp Hq Hr k. unfold k.
    assert (U : rdot3 n (mk3 (px q - px p : T RN) (py q - py p : T RN) (pz q - pz p : T RN)) = 0) by (unfold rdot3 in *; cbn in *; lra).
    assert (W : rdot3 n (mk3 (px r - px q : T RN) (py r - py q : T RN) (pz r - pz q : T RN)) = 0) by (unfold rdot3 in *; cbn in *; lra).
    unfold area_vec, rdot3, rsq3, rdot3 in *. cbn [px py pz] in *.
    set (u1 := px q - px p) in *. set (u2 := py q - py p) in *. set (u3 := pz q - pz p) in *.
    set (w1 := px r - px q) in *. set (w2 := py r - py q) in *. set (w3 := pz r - pz q) in *.
    clearbody u1 u2 u3 w1 w2 w3. destruct n as [n1 n2 n3]. cbn [px py pz] in *. clear - Hn U W.
    cbn [T RN] in *.
    assert (forall x y, x * (n1 * n1 + n2 * n2 + n3 * n3) = y -> x = y / (n1 * n1 + n2 * n2 + n3 * n3)) as D by (intros x y <-; field; exact Hn).
    assert (N1 : n1 * u1 = - n2 * u2 - n3 * u3) by lra. assert (N2 : n1 * w1 = - n2 * w2 - n3 * w3) by lra.
    assert (M1 : n2 * u2 = - n1 * u1 - n3 * u3) by lra. assert (M2 : n2 * w2 = - n1 * w1 - n3 * w3) by lra.
    repeat split.
    - transitivity (n1 * (n1 * (u2 * w3 - u3 * w2) + n2 * (u3 * w1 - u1 * w3) + n3 * (u1 * w2 - u2 * w1)) / (n1 * n1 + n2 * n2 + n3 * n3)); [|field; exact Hn].
      apply D. 
      transitivity (n1 * (n1 * (u2 * w3 - u3 * w2) + n2 * (u3 * w1 - u1 * w3) + n3 * (u1 * w2 - u2 * w1))
        + n2 * (w3 * (n1 * u1 + n2 * u2 + n3 * u3) - u3 * (n1 * w1 + n2 * w2 + n3 * w3))
        + n3 * (u2 * (n1 * w1 + n2 * w2 + n3 * w3) - w2 * (n1 * u1 + n2 * u2 + n3 * u3))); [ring|]. rewrite U, W. ring.
    - transitivity (n2 * (n1 * (u2 * w3 - u3 * w2) + n2 * (u3 * w1 - u1 * w3) + n3 * (u1 * w2 - u2 * w1)) / (n1 * n1 + n2 * n2 + n3 * n3)); [|field; exact Hn].
      apply D. 
      transitivity (n2 * (n1 * (u2 * w3 - u3 * w2) + n2 * (u3 * w1 - u1 * w3) + n3 * (u1 * w2 - u2 * w1))
        + n3 * (w1 * (n1 * u1 + n2 * u2 + n3 * u3) - u1 * (n1 * w1 + n2 * w2 + n3 * w3))
        + n1 * (u3 * (n1 * w1 + n2 * w2 + n3 * w3) - w3 * (n1 * u1 + n2 * u2 + n3 * u3))); [ring|]. rewrite U, W. ring.
    - transitivity (n3 * (n1 * (u2 * w3 - u3 * w2) + n2 * (u3 * w1 - u1 * w3) + n3 * (u1 * w2 - u2 * w1)) / (n1 * n1 + n2 * n2 + n3 * n3)); [|field; exact Hn].
      apply D. 
      transitivity (n3 * (n1 * (u2 * w3 - u3 * w2) + n2 * (u3 * w1 - u1 * w3) + n3 * (u1 * w2 - u2 * w1))
        + n1 * (w2 * (n1 * u1 + n2 * u2 + n3 * u3) - u2 * (n1 * w1 + n2 * w2 + n3 * w3))
        + n2 * (u1 * (n1 * w1 + n2 * w2 + n3 * w3) - w1 * (n1 * u1 + n2 * u2 + n3 * u3))); [ring|]. rewrite U, W. ring.
  Qed.
End U.

Lemma snoc_split {A} (o : list A) x l i r : o ++ [x] = l ++ i :: r -> (r = [] /\ o = l /\ x = i) \/ exists r', r = r' ++ [x] /\ o = l ++ i :: r'.
Proof.
  intros H. destruct r as [|z r] using rev_ind.
  - left. apply app_inj_tail in H as [-> ->]. auto.
  - right. exists r. rewrite app_comm_cons, app_assoc in H. apply app_inj_tail in H as [-> ->]. auto.
Qed.

Section Reached.
  Context {V Nrm : Type} (normal : V -> V -> V -> res Nrm) (opposed : Nrm -> Nrm -> bool) (s : mspec V).
  Lemma reached_split fl ord : reached normal opposed s fl ord -> forall l i r, ord = l ++ i :: r ->
    (closed_under s l /\ nthN fl i = Some false) \/
    exists g b ng ni, In g l /\ touch s g i /\ nthN fl g = Some b /\ has_normal normal s g ng /\ has_normal normal s i ni /\
      nthN fl i = Some (xorb b (opposed ng ni)).
  Proof.
    induction 1 as [|o x R IH C E|o x g b ng ni R IH G T E N1 N2 E']; intros l i r Ho.
    - destruct l; discriminate.
    - apply snoc_split in Ho as [(-> & -> & ->)|(r' & -> & Ho)]; [left; auto|exact (IH _ _ _ Ho)].
    - apply snoc_split in Ho as [(-> & -> & ->)|(r' & -> & Ho)]; [|exact (IH _ _ _ Ho)].
      right. exists g, b, ng, ni. auto 8.
  Qed.
End Reached.

Lemma touch_at {V} (s : mspec V) i j : touch s i j <-> touching_at (sfs s) (N.to_nat i) (N.to_nat j).
Proof. unfold touch, touching_at. split; intros (f & g & A & B & C); exists f, g; rewrite !nthN_nth_error in *; auto. Qed.

Lemma flipped_len {V} (s : mspec V) fl : length fl = length (sfs s) -> length (flipped s fl) = length (sfs s).
Proof. intros H. unfold flipped. rewrite map_length, combine_length. lia. Qed.

Lemma Forall2_nth {A B} (R : A -> B -> Prop) l l' : length l = length l' ->
  (forall i x y, nth_error l i = Some x -> nth_error l' i = Some y -> R x y) -> Forall2 R l l'.
Proof.
  revert l'; induction l as [|a l IH]; intros [|b l'] E H; try discriminate; constructor.
  - apply (H 0%nat); reflexivity.
  - apply IH; [now injection E|]. intros i x y A1 A2. apply (H (S i)); assumption.
Qed.

Section Final.
  Context (m : mesh (pt3 RN)) (s : mspec (pt3 RN)) (Hs : shows m s) (F : faces_ok s)
    (L : (3 * N.of_nat (length (sfs s)) < 2 ^ 64)%N).

  Lemma unify_R fuel : (length (sfs s) <= fuel)%nat -> exists m' s' ord,
    unify_faces3 fuel m = Some (Ok m') /\ shows m' s' /\ faces_ok s' /\ svs s' = svs s /\
    Forall2 (fun f g => g = f \/ g = oriented true f) (sfs s) (sfs s') /\
    NoDup ord /\ (forall i, In i ord <-> (i < length (sfs s))%nat) /\
    forall l i r, ord = l ++ i :: r ->
      (nth_error (sfs s') i = nth_error (sfs s) i /\ (forall g h, In g l -> touching_at (sfs s) g h -> In h l)) \/
      exists g f f', In g l /\ touching_at (sfs s) g i /\ nth_error (sfs s') g = Some f /\ nth_error (sfs s') i = Some f' /\
        0 <= rdot3 (facing s' f) (facing s' f').
  Proof.
    intros Fu. destruct (unify_ok normal_of_face opp3 m s Hs F L (has_normal_R s F) fuel Fu) as (m' & fl & ord & E & Lf & Sh & Fo & Nd & In_ & Re).
    assert (G : forall i, (i < length (sfs s))%nat -> exists b f, nthN fl (N.of_nat i) = Some b /\ nthN (sfs s) (N.of_nat i) = Some f /\
       nthN (flipped s fl) (N.of_nat i) = Some (oriented b f)).
    { intros i Hi. destruct (nthN_lt_Some fl (N.of_nat i)) as [b Eb]; [unfold lenN; lia|].
      destruct (nthN_lt_Some (sfs s) (N.of_nat i)) as [f Ef]; [unfold lenN; lia|]. exists b, f. split; [exact Eb|]. split; [exact Ef|]. apply nth_flipped; assumption. }
    exists m', (MSpec (svs s) (flipped s fl)), (map N.to_nat ord). split; [exact E|]. split; [exact Sh|]. split; [exact Fo|]. split; [reflexivity|].
    cbn [sfs]. split; [|split; [|split]].
    - apply Forall2_nth; [symmetry; apply flipped_len, Lf|]. intros i x y A B.
      assert (Hi : (i < length (sfs s))%nat) by (apply nth_error_Some; congruence).
      destruct (G i Hi) as (b & f & G1 & G2 & G3). rewrite nthN_of_nat in G2, G3. rewrite A in G2. injection G2 as ->. rewrite B in G3. injection G3 as ->.
      destruct b; [right; reflexivity|left; destruct f as [[? ?] ?]; reflexivity].
    - apply FinFun.Injective_map_NoDup; [intros x y; apply N2Nat.inj|exact Nd].
    - intros i. rewrite in_map_iff. split.
      + intros (k & <- & Hk). apply In_ in Hk. unfold lenN in Hk. lia.
      + intros Hi. exists (N.of_nat i). split; [lia|]. apply In_. unfold lenN. lia.
    - intros l i r Ho. assert (exists l0 i0 r0, ord = l0 ++ i0 :: r0 /\ l = map N.to_nat l0 /\ i = N.to_nat i0) as (l0 & i0 & r0 & Eo & -> & ->).
      { clear - Ho. symmetry in Ho. revert ord Ho. induction l as [|x l IH]; intros [|y ord] Ho; try discriminate.
        - cbn in Ho. injection Ho as -> ->. exists [], y, ord. auto.
        - cbn in Ho. injection Ho as -> Ho. destruct (IH _ Ho) as (l0 & i0 & r0 & -> & -> & ->). exists (y :: l0), i0, r0. auto. }
      assert (Hi : (i0 < lenN (sfs s))%N) by (apply In_; rewrite Eo; apply in_or_app; right; left; reflexivity).
      destruct (reached_split _ _ _ _ _ Re _ _ _ Eo) as [[C Ei]|(g & b & ng & ni & Hg & T & Eg & N1 & N2 & Ei)].
      + left. destruct (nthN_lt_Some (sfs s) i0 Hi) as [f Ef]. pose proof (nth_flipped s fl i0 false f Ei Ef) as Z.
        rewrite nthN_nth_error in Z, Ef. split.
        * rewrite Z, Ef. destruct f as [[? ?] ?]; reflexivity.
        * intros g h Hg T. apply in_map_iff in Hg as (g0 & <- & Hg). apply in_map_iff. exists (N.of_nat h). split; [lia|].
          apply (C g0); [exact Hg|]. apply touch_at. rewrite Nat2N.id. exact T.
      + right. pose proof T as (fg & fi & Fg & Fi & _).
        exists (N.to_nat g), (oriented b fg), (oriented (xorb b (opp3 ng ni)) fi).
        split; [apply in_map, Hg|]. split; [apply touch_at, T|].
        pose proof (nth_flipped s fl _ _ _ Eg Fg) as Z1. pose proof (nth_flipped s fl _ _ _ Ei Fi) as Z2. rewrite nthN_nth_error in Z1, Z2.
        split; [exact Z1|]. split; [exact Z2|]. eapply step_side; eassumption.
  Qed.

  Lemma clos_closed (fs : list face3) (l : list nat) i j : (forall g h, In g l -> touching_at fs g h -> In h l) ->
    clos_refl_trans nat (touching_at fs) i j -> In i l -> In j l.
  Proof. intros C. induction 1; eauto. Qed.

  Lemma unify_planar fuel : (length (sfs s) <= fuel)%nat -> coplanar (svs s) -> vertex_connected (sfs s) ->
    (forall f, In f (sfs s) -> rsq3 (facing s f) <> 0) ->
    exists m' s', unify_faces3 fuel m = Some (Ok m') /\ shows m' s' /\ svs s' = svs s /\
    Forall2 (fun f g => g = f \/ g = oriented true f) (sfs s) (sfs s') /\
    forall f g, In f (sfs s') -> In g (sfs s') -> 0 < rdot3 (facing s' f) (facing s' g).
  Proof.
    intros Fu (n & d & Hn & Pl) Co Nd. destruct (unify_R fuel Fu) as (m' & s' & ord & E & Sh & Fo & Sv & Ff & ND & In_ & Re).
    exists m', s'. split; [exact E|]. split; [exact Sh|]. split; [exact Sv|]. split; [exact Ff|].
    (* signed size of a face along the plane normal *)
    set (a := fun f => rdot3 n (facing s' f)).
    assert (A : forall f g, In f (sfs s') -> In g (sfs s') -> rdot3 (facing s' f) (facing s' g) = a f * a g / rsq3 n /\ a f <> 0).
    { assert (K : forall f, In f (sfs s') -> rsq3 (facing s' f) <> 0 /\ exists k, k = a f / rsq3 n /\ px (facing s' f) = k * px n /\ py (facing s' f) = k * py n /\ pz (facing s' f) = k * pz n).
      { intros f Hf. split.
        - assert (exists f0 b, In f0 (sfs s) /\ f = oriented b f0) as (f0 & b & H0 & ->).
          { clear - Ff Hf. induction Ff as [|x y l l' Hxy _ IH]; [destruct Hf|]. destruct Hf as [<-|Hf].
            - exists x. destruct Hxy as [-> | ->]; [exists false|exists true]; (split; [left; reflexivity|]); destruct x as [[? ?] ?]; reflexivity.
            - destruct (IH Hf) as (f0 & b & H1 & H2). exists f0, b. split; [right; exact H1|exact H2]. }
          replace s' with (MSpec (svs s) (sfs s')) by (rewrite <- Sv; destruct s'; reflexivity).
          rewrite facing_oriented by exact H0. intros Z. apply rsq3_zero in Z as (Z1 & Z2 & Z3). cbn [px py pz] in *.
          apply (Nd f0 H0). apply rsq3_zero. unfold sgn in *. destruct b; repeat split; lra.
        - destruct (faces_corners s' f Fo Hf) as (p & q & r & C). exists (a f / rsq3 n). split; [reflexivity|]. unfold a, facing. rewrite C.
          destruct f as [[x y] z]. cbn in C. rewrite Sv in C.
          destruct (nth_error (svs s) (N.to_nat x)) as [p'|] eqn:Ex; [|discriminate]. destruct (nth_error (svs s) (N.to_nat y)) as [q'|] eqn:Ey; [|discriminate].
          destruct (nth_error (svs s) (N.to_nat z)) as [r'|] eqn:Ez; [|discriminate]. injection C as -> -> ->.
          apply (coplanar_area n d p q r Hn); apply Pl; eapply nth_error_In; eassumption. }
      intros f g Hf Hg. destruct (K f Hf) as (Zf & kf & Kf & F1 & F2 & F3). destruct (K g Hg) as (_ & kg & Kg & G1 & G2 & G3). split.
      - unfold rdot3 at 1. rewrite F1, F2, F3, G1, G2, G3.
        transitivity (kf * kg * rsq3 n); [unfold rsq3, rdot3; toR; ring|]. rewrite Kf, Kg. toR; field. exact Hn.
      - intros Z. apply Zf. apply rsq3_zero. rewrite F1, F2, F3, Kf, Z. unfold Rdiv. repeat split; toR; ring. }
    assert (Pn : 0 < rsq3 n) by (pose proof (rsq3_nonneg n); lra).
    assert (Q : forall f g, In f (sfs s') -> In g (sfs s') -> 0 <= rdot3 (facing s' f) (facing s' g) -> 0 < a f * a g).
    { intros f g Hf Hg H. destruct (A f g Hf Hg) as [Ez Z1]. destruct (A g f Hg Hf) as [_ Z2]. rewrite Ez in H.
      assert (0 <= a f * a g).
      { replace (a f * a g) with ((a f * a g / rsq3 n) * rsq3 n) by (field; exact Hn). apply Rmult_le_pos; lra. }
      assert (a f * a g <> 0) by (apply Rmult_integral_contrapositive_currified; assumption). lra. }
    assert (M : forall o rest, ord = o ++ rest -> forall i j f g, In i o -> In j o -> nth_error (sfs s') i = Some f -> nth_error (sfs s') j = Some g -> 0 < a f * a g).
    { induction o as [|x o IH] using rev_ind; intros rest Ho i j f g Hi Hj Ei Ej; [destruct Hi|].
      rewrite <- app_assoc in Ho. cbn [app] in Ho. pose proof (IH _ Ho) as IH'.
      assert (LL : length (sfs s') = length (sfs s)) by (symmetry; eapply Forall2_len, Ff).
      assert (SELF : forall k f, nth_error (sfs s') k = Some f -> 0 < a f * a f).
      { intros k f0 Ek. apply nth_error_In in Ek. destruct (A f0 f0 Ek Ek) as [_ Z]. nra. }
      assert (X : forall k fk fx, In k o -> nth_error (sfs s') k = Some fk -> nth_error (sfs s') x = Some fx -> 0 < a fk * a fx).
      { intros k fk fx Hk Ek Ex. destruct (Re _ _ _ Ho) as [[_ C]|(g0 & f0 & f1 & Hg & T & E0 & E1 & D)].
        - exfalso. assert (Hx : In x o).
          { apply (clos_closed (sfs s) o k x C); [|exact Hk]. apply Co; rewrite <- LL; apply nth_error_Some; congruence. }
          rewrite Ho in ND. apply NoDup_remove_2 in ND. apply ND. apply in_or_app; left; exact Hx.
        - rewrite Ex in E1. injection E1 as <-. pose proof (Q f0 fx (nth_error_In _ _ E0) (nth_error_In _ _ Ex) D) as P1.
          pose proof (IH' k g0 fk f0 Hk Hg Ek E0) as P2. clear - P1 P2. revert P1 P2. generalize (a fk) (a f0) (a fx). intros u v w P1 P2. nra. }
      apply in_app_or in Hi as [Hi|[<-|[]]]; apply in_app_or in Hj as [Hj|[<-|[]]].
      - exact (IH' i j f g Hi Hj Ei Ej).
      - exact (X i f g Hi Ei Ej).
      - rewrite Rmult_comm. exact (X j g f Hj Ej Ei).
      - rewrite Ei in Ej. injection Ej as <-. exact (SELF _ _ Ei). }
    intros f g Hf Hg. apply In_nth_error in Hf as [i Ei]. apply In_nth_error in Hg as [j Ej].
    assert (LL : length (sfs s') = length (sfs s)) by (symmetry; eapply Forall2_len, Ff).
    rewrite (proj1 (A f g (nth_error_In _ _ Ei) (nth_error_In _ _ Ej))).
    apply Rdiv_lt_0_compat; [|exact Pn].
    apply (M ord [] (eq_sym (app_nil_r _)) i j f g); try assumption; apply In_; rewrite <- LL; apply nth_error_Some; congruence.
  Qed.
End Final.
