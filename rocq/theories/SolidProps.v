(** C202: the triangles of a solid are loaded as a closed mesh. *)
From Verif Require Import Base BaseLemmas Num VecModel GeomSpec MeshModel MeshSpec MeshLemmas MeshAlgoModel MeshAlgoSpec MeshAlgoLemmas IoModel IoSpec ByteModel StlModel StlSpec StlLemmas StlProps StlAnyProps ClosedSpec ClosedProps SolidSpec.
Open Scope nat_scope.

Definition bit (b : bool) : nat := if b then 1 else 0.
Section Solid.
Context {P : Type} (same : P -> P -> bool).
Lemma pruns_cons t ts p q : pruns same (t :: ts) p q = let '(a, b, c) := t in
  bit (same a p && same b q) + bit (same b p && same c q) + bit (same c p && same a q) + pruns same ts p q.
Proof.
  destruct t as ((a, b), c). unfold pruns. cbn [flat_map psides app filter fst snd].
  destruct (same a p && same b q), (same b p && same c q), (same c p && same a q); cbn [length bit]; lia.
Qed.
Lemma pruns_split k ts p q : pruns same ts p q = pruns same (filter k ts) p q + pruns same (filter (fun t => negb (k t)) ts) p q.
Proof.
  induction ts as [|((a, b), c) ts IH]; [reflexivity|]. rewrite pruns_cons. cbn [filter]. destruct (k (a, b, c)); cbn [negb]; rewrite pruns_cons; lia.
Qed.
Lemma runs_cons a b c fs u v : runs ((a, b, c) :: fs) u v = one (a, b) (u, v) + one (b, c) (u, v) + one (c, a) (u, v) + runs fs u v.
Proof. unfold runs. cbn [flat_map sides app]. rewrite !cnt_cons. lia. Qed.
Context (ps : list P) (D : decides same ps).
Lemma flat_even ts p q : (forall x, In x (flat_map points ts) -> In x ps) -> (forall t, In t ts -> flat_face same t = true) -> pruns same ts p q = pruns same ts q p.
Proof.
  intros I F. induction ts as [|((a, b), c) ts IH]; [reflexivity|]. rewrite !pruns_cons.
  rewrite IH; [|intros x X; apply I; cbn [flat_map]; apply in_or_app; right; exact X|intros t T; apply F; right; exact T].
  assert (IA : In a ps) by (apply I; cbn; auto). assert (IB : In b ps) by (apply I; cbn; auto). assert (IC : In c ps) by (apply I; cbn; auto).
  specialize (F _ (or_introl eq_refl)). cbn [flat_face] in F.
  apply orb_true_iff in F as [F|F]; [apply orb_true_iff in F as [F|F]|]; apply D in F; try assumption; subst.
  - destruct (same b p), (same b q), (same c p), (same c q); reflexivity.
  - destruct (same c p), (same c q), (same b p), (same b q); reflexivity.
  - destruct (same c p), (same c q), (same a p), (same a q); reflexivity.
Qed.
Context (s : mspec P) (ND : NoDup (svs s)) (IN : forall x, In x (svs s) -> In x ps).
Lemma one_bit a b u v x y p q : nth_error (svs s) (N.to_nat a) = Some x -> nth_error (svs s) (N.to_nat b) = Some y ->
  nth_error (svs s) (N.to_nat u) = Some p -> nth_error (svs s) (N.to_nat v) = Some q -> one (a, b) (u, v) = bit (same x p && same y q).
Proof.
  intros A B U V.
  assert (W : forall i j z w, nth_error (svs s) (N.to_nat i) = Some z -> nth_error (svs s) (N.to_nat j) = Some w -> (i = j <-> same z w = true)).
  { intros i j z w I J. rewrite (D z w) by (apply IN; eapply nth_error_In; eassumption). split; [intros ->; congruence|]. intros ->.
    apply N2Nat.inj. apply (proj1 (NoDup_nth_error (svs s)) ND); [apply nth_error_Some; congruence|congruence]. }
  pose proof (W a u x p A U). pose proof (W b v y q B V). unfold one. destruct (side_dec (a, b) (u, v)) as [[= -> ->]|E].
  - rewrite (proj1 H eq_refl), (proj1 H0 eq_refl). reflexivity.
  - destruct (same x p) eqn:E1, (same y q) eqn:E2; try reflexivity. exfalso. apply E. f_equal; tauto.
Qed.
Lemma runs_pruns fs ts u v p q : Forall2 (face_at s) fs ts ->
  nth_error (svs s) (N.to_nat u) = Some p -> nth_error (svs s) (N.to_nat v) = Some q -> runs fs u v = pruns same ts p q.
Proof.
  intros F U V. induction F as [|((a, b), c) ((x, y), z) fs ts H _ IH]; [reflexivity|]. rewrite runs_cons, pruns_cons, IH.
  unfold face_at in H. apply HealTwiceProps.corners_inv in H as (A & B & C). rewrite !(one_bit _ _ _ _ _ _ _ _ A B U V), !(one_bit _ _ _ _ _ _ _ _ B C U V), !(one_bit _ _ _ _ _ _ _ _ C A U V). reflexivity.
Qed.
Lemma solid_closed ts : (forall x, In x (flat_map points ts) <-> In x ps) -> faces_ok s ->
  Forall2 (face_at s) (sfs s) (filter (fun t => negb (flat_face same t)) ts) -> solid same ts -> closed (sfs s).
Proof.
  intros I F K S u v.
  assert (Z : forall i j, nth_error (svs s) (N.to_nat i) = None \/ nth_error (svs s) (N.to_nat j) = None -> runs (sfs s) i j = 0).
  { intros i j H. apply count_occ_not_In. intros X. apply in_flat_map in X as (((a, b), c) & X & Y). apply F in X. unfold in_range in X. cbn [sides In] in Y.
    rewrite !nth_error_None in H. destruct Y as [[= <- <-]|[[= <- <-]|[[= <- <-]|[]]]]; lia. }
  destruct (nth_error (svs s) (N.to_nat u)) as [p|] eqn:U; [|rewrite !Z; auto]. destruct (nth_error (svs s) (N.to_nat v)) as [q|] eqn:V; [|rewrite !Z; auto].
  rewrite (runs_pruns _ _ u v p q K U V), (runs_pruns _ _ v u q p K V U).
  specialize (S p q ltac:(apply I, IN; eapply nth_error_In; eassumption) ltac:(apply I, IN; eapply nth_error_In; eassumption)).
  rewrite (pruns_split (fun t => negb (flat_face same t)) ts p q), (pruns_split (fun t => negb (flat_face same t)) ts q p) in S.
  rewrite (flat_even (filter (fun t => negb (negb (flat_face same t))) ts) p q) in S; [lia| |].
  - intros x X. apply I. apply in_flat_map in X as (t & T & X). apply filter_In in T as (T & _). apply in_flat_map. exists t. auto.
  - intros t T. apply filter_In in T as (_ & T). rewrite negb_involutive in T. exact T.
Qed.
End Solid.
Lemma firsts_nodup {P} (same : P -> P -> bool) l : (forall x, In x l -> same x x = true) -> NoDup (first_occurrences same l).
Proof.
  induction l as [|x r IH]; intros H; cbn [first_occurrences]; constructor.
  - intros I. apply filter_In in I as (_ & I). rewrite (H x (or_introl eq_refl)) in I. discriminate.
  - apply NoDup_filter, IH. intros z Z. apply H. right. exact Z.
Qed.
Lemma points_inj {P} (ts ts' : list (P * P * P)) : flat_map points ts = flat_map points ts' -> ts = ts'.
Proof.
  revert ts'. induction ts as [|((a, b), c) ts IH]; intros [|((a', b'), c') ts'] E; try discriminate; [reflexivity|]. cbn [flat_map points app] in E. injection E as -> -> -> E. f_equal. apply IH, E.
Qed.

Theorem C202_solid : forall ft k fmt file ts ns r same, load_stl_triplets ft k fmt file = Some (flat_map points ts, ns, r) ->
  decides same (flat_map points ts) -> solid same ts ->
  exists m ns' s, load_stl_mesh_unique ft same k fmt file mesh_empty [] = Some (m, ns', r) /\ shows m s /\ faces_ok s /\ closed (sfs s).
Proof.
  intros ft k fmt file ts ns r same H D S. destruct (unique_exact ft k fmt file _ ns r same H D) as (ts' & m & ns' & s & E & _ & L & _ & SH & F & V & K & _).
  apply points_inj in E. subst ts'. exists m, ns', s. split; [exact L|]. split; [exact SH|]. split; [exact F|].
  apply (solid_closed same (flat_map points ts) D s) with (ts := ts); [| |reflexivity|exact F|exact K|exact S].
  - rewrite V. apply firsts_nodup. intros x X. apply D; auto.
  - intros x X. rewrite V in X. apply (HealTwiceProps.firsts_in same _ _ X).
Qed.
Print Assumptions C202_solid.
(** Two triangles back to back and one without area; and a binary file of two triangles back to back. *)
Definition back_to_back : bytes :=
  let x := [0; 0; 128; 63]%N ++ repeat 0%N 8 in let y := repeat 0%N 4 ++ [0; 0; 128; 63]%N ++ repeat 0%N 4 in let o := repeat 0%N 12 in
  case_header 2 ++ map Ascii.ascii_of_N (o ++ o ++ x ++ y ++ [0; 0]%N ++ o ++ x ++ o ++ y ++ [0; 0]%N).
Example C202_case : solid N.eqb [(1, 2, 3); (2, 1, 3); (7, 7, 1)]%N /\ ~ solid N.eqb [(1, 2, 3); (1, 2, 3)]%N /\
  (let ts := [(fp3 0 0 0, fp3 1 0 0, fp3 0 1 0); (fp3 1 0 0, fp3 0 0 0, fp3 0 1 0)] in
   load_stl_triplets demo 100 StlAuto back_to_back = Some (flat_map points ts, [fp3 0 0 0; fp3 0 0 0], Ok tt) /\
   decides peq (flat_map points ts) /\ solid peq ts /\
   load_stl_mesh_unique demo peq 100 StlAuto back_to_back mesh_empty [] = Some (Mesh [fp3 0 0 0; fp3 1 0 0; fp3 0 1 0] [0; 1; 2; 1; 0; 2]%N, [fp3 0 0 0; fp3 0 0 0], Ok tt)).
Proof.
  split; [|split; [|cbv zeta; split; [|split; [|split]]]].
  - intros p q I J. cbn in I, J. repeat destruct I as [<-|I]; try destruct I; repeat destruct J as [<-|J]; try destruct J; reflexivity.
  - intros H. specialize (H 1%N 2%N ltac:(cbn; auto) ltac:(cbn; auto)). discriminate H.
  - vmeq.
  - intros x y _ _. apply peq_true.
  - intros p q I J. cbn [flat_map points app In] in I, J. repeat destruct I as [<-|I]; try destruct I; repeat destruct J as [<-|J]; try destruct J; vm_compute; reflexivity.
  - vmeq.
Qed.
