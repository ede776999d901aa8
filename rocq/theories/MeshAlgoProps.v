(** Properties of the mesh algorithms.  Meshes are given by what they show through their queries
    ([shows], MeshSpec); every mesh reachable through the editing calls is covered (C03). *)
From Verif Require Import Base BaseLemmas Num NumLemmas GeomSpec MeshModel MeshSpec MeshLemmas MeshAlgoModel MeshAlgoSpec MeshAlgoLemmas
  VecModel VecSpec VecLemmas UnifyLemmas UnifySpec UnifyRLemmas.
From Coq Require Import Reals Lra Relations.
Local Open Scope N_scope.

(** C35 *)
Theorem C35_pack_dupes_lossless {T} (same : T -> T -> bool) (l : list T) : equality same ->
  let '(packed, ids) := pack_dupes_indexed same l in
  packed = first_occurrences same l /\ no_two_same same packed /\
  Forall2 (fun x id => exists y, nth_error packed (N.to_nat id) = Some y /\ same y x = true) l ids.
Proof.
  intros Q. pose proof (pack_firsts same Q l) as E. destruct (pack_dupes_indexed same l) as [packed ids] eqn:Ep.
  destruct (pack_ok same l packed ids Ep) as (A & B & _). split; [exact E|]. split; [apply fresh_no_two; assumption|].
  clear - B Q. induction B as [|x id l ids (y & H1 & H2) _ IH]; constructor; [|exact IH].
  exists y. rewrite <- nthN_nth_error. split; [exact H1|]. destruct H2 as [->|H2]; [apply (eq_refl_b _ Q)|exact H2].
Qed.
Print Assumptions C35_pack_dupes_lossless.
(** No assumption on the equality: NaN never equals itself, yet nothing is lost. *)
Theorem C35_pack_dupes_any {T} (same : T -> T -> bool) (l : list T) :
  let '(packed, ids) := pack_dupes_indexed same l in
  Forall2 (fun x id => exists y, nth_error packed (N.to_nat id) = Some y /\ (y = x \/ same y x = true)) l ids /\
  (forall i j x y, nth_error packed i = Some x -> nth_error packed j = Some y -> (i < j)%nat -> same x y = false) /\
  (forall x, In x packed -> In x l).
Proof.
  destruct (pack_dupes_indexed same l) as [packed ids] eqn:Ep. destruct (pack_ok same l packed ids Ep) as (A & B & C).
  split; [|split; [exact A|exact C]]. clear - B. induction B as [|x id l ids (y & H1 & H2) _ IH]; constructor; [|exact IH].
  exists y. rewrite <- nthN_nth_error. auto.
Qed.
Print Assumptions C35_pack_dupes_any.
Lemma N_equality : equality N.eqb.
Proof.
  constructor; [apply N.eqb_refl| |].
  - intros x y H. rewrite N.eqb_sym. exact H.
  - intros x y z H1 H2. apply N.eqb_eq in H1, H2. subst. apply N.eqb_refl.
Qed.
Example C35_case : equality N.eqb /\ pack_dupes_indexed N.eqb [7; 3; 7; 9; 3] = ([7; 3; 9], [0; 1; 0; 2; 1]) /\
  pack_dupes_indexed (fun _ _ => false) [7; 3; 7] = ([7; 3; 7], [0; 1; 2]).
Proof. split; [exact N_equality|split; reflexivity]. Qed.

(** C36 *)
Theorem C36_heal_mesh {P} (same : P -> P -> bool) (m : mesh P) (s : mspec P) :
  equality same -> shows m s -> 3 * N.of_nat (length (sfs s)) < 2 ^ 64 ->
  exists m' s', heal_mesh same m = Ok m' /\ shows m' s' /\ faces_ok s' /\
    no_two_same same (svs s') /\ svs s' = first_occurrences same (all_corners s) /\
    (forall p, In p (svs s') -> exists f x y z, In f (sfs s) /\ corners s f = Some (x, y, z) /\ In p [x; y; z]) /\
    Forall2 (fun f g => same_corners same s f s' g) (filter (fun f => negb (collapsed same s f)) (sfs s)) (sfs s').
Proof.
  intros Q Hs L. destruct (heal_exact same Q m s Hs L) as (m' & s' & A & B & C & D & E & G & _ & FO).
  exists m', s'. split; [exact A|]. split; [exact B|]. split; [exact C|]. split; [exact D|]. split; [exact FO|]. split; [|exact G].
  intros p Hp. destruct (E p Hp) as (f & H1 & x & y & z & H2 & H3). exists f, x, y, z. auto.
Qed.
Print Assumptions C36_heal_mesh.
(** The vertices 10, 11, 12, 10, 11, 13 with three faces; the second one has the corners 10, 10, 12. *)
Definition heal_in : mspec N := MSpec [10; 11; 12; 10; 11; 13; 99] [(0, 1, 2); (0, 3, 2); (3, 4, 5)].
Definition heal_mi : mesh N := Mesh (svs heal_in) (flat (sfs heal_in)).
Lemma faces_okb (s : mspec N) : forallb (fun '(a, b, c) => (a <? lenN (svs s)) && (b <? lenN (svs s)) && (c <? lenN (svs s)) &&
  negb (a =? b) && negb (a =? c) && negb (b =? c)) (sfs s) = true -> faces_ok s.
Proof.
  intros H a b c Hin. rewrite forallb_forall in H. specialize (H _ Hin). cbv beta iota in H.
  rewrite !andb_true_iff, !negb_true_iff, !N.ltb_lt, !N.eqb_neq in H. unfold in_range. unfold lenN in H. tauto.
Qed.
Example C36_case : shows heal_mi heal_in /\ faces_ok heal_in /\ 3 * N.of_nat (length (sfs heal_in)) < 2 ^ 64 /\
  heal_mesh N.eqb heal_mi = Ok (Mesh [10; 11; 12; 13] [0; 1; 2; 0; 1; 3]).
Proof.
  assert (F : faces_ok heal_in) by (apply faces_okb; reflexivity).
  split; [apply abs_shows; [split; reflexivity|exact F]|]. split; [exact F|]. split; reflexivity.
Qed.

(** C37 *)
Theorem C37_heal_mesh_keeps_duplicates_refuted : exists (m m' : mesh N) (s s' : mspec N) (a b c : N),
  shows m s /\ faces_ok s /\ sfs s = [(a, b, c); (a, b, c)] /\
  heal_mesh N.eqb m = Ok m' /\ shows m' s' /\ sfs s' = [(a, b, c); (a, b, c)].
Proof.
  exists (Mesh [10; 11; 12] [0; 1; 2; 0; 1; 2]), (Mesh [10; 11; 12] [0; 1; 2; 0; 1; 2]),
    (MSpec [10; 11; 12] [(0, 1, 2); (0, 1, 2)]), (MSpec [10; 11; 12] [(0, 1, 2); (0, 1, 2)]), 0, 1, 2.
  assert (F : faces_ok (MSpec [10; 11; 12] [(0, 1, 2); (0, 1, 2)])) by (apply faces_okb; reflexivity).
  assert (S : shows (Mesh [10; 11; 12] [0; 1; 2; 0; 1; 2]) (MSpec [10; 11; 12] [(0, 1, 2); (0, 1, 2)])) by
    (apply abs_shows; [split; reflexivity|exact F]).
  split; [exact S|]. split; [exact F|]. split; [reflexivity|]. split; [reflexivity|]. split; [exact S|reflexivity].
Qed.
Print Assumptions C37_heal_mesh_keeps_duplicates_refuted.
(** Duplicates are never removed: as many faces as there are non-collapsed ones. *)
Theorem C37_heal_mesh_face_count {P} (same : P -> P -> bool) (m : mesh P) (s : mspec P) :
  equality same -> shows m s -> 3 * N.of_nat (length (sfs s)) < 2 ^ 64 ->
  exists m', heal_mesh same m = Ok m' /\
    num_faces m' = N.of_nat (length (filter (fun f => negb (collapsed same s f)) (sfs s))).
Proof.
  intros Q Hs L. destruct (heal_ok same Q m s Hs L) as (m' & s' & A & (_ & _ & B & _) & _ & _ & _ & G).
  exists m'. split; [exact A|]. rewrite B, (Forall2_len _ _ _ G). reflexivity.
Qed.
Print Assumptions C37_heal_mesh_face_count.
Example C37_case : equality N.eqb /\ shows heal_mi heal_in /\ faces_ok heal_in /\
  length (filter (fun f => negb (collapsed N.eqb heal_in f)) (sfs heal_in)) = 2%nat.
Proof. split; [exact N_equality|]. destruct C36_case as (A & B & _). auto. Qed.

(** C38 *)
Theorem C38_subdivide_linear {V} (mid : V -> V -> V) (m : mesh V) (s : mspec V) :
  shows m s -> faces_ok s -> 3 * N.of_nat (length (sfs s)) < 2 ^ 64 ->
  exists m' new mid_id, subdivide_linear mid m = Ok m' /\
    let s' := MSpec (svs s ++ new) (flat_map (quarters mid_id) (sfs s)) in
    shows m' s' /\ faces_ok s' /\
    (* every edge of a face has a midpoint vertex among the new ones *)
    (forall a b, face_edge (sfs s) a b -> mid_id a b = mid_id b a /\
       lenN (svs s) <= mid_id a b < lenN (svs s') /\
       exists p q c, nth_error (svs s) (N.to_nat a) = Some p /\ nth_error (svs s) (N.to_nat b) = Some q /\
         nth_error (svs s') (N.to_nat (mid_id a b)) = Some c /\ (c = mid p q \/ c = mid q p)) /\
    (* one per undirected edge *)
    (forall a b x y, face_edge (sfs s) a b -> face_edge (sfs s) x y -> mid_id a b = mid_id x y -> (a = x /\ b = y) \/ (a = y /\ b = x)) /\
    (* and no other new vertices *)
    (forall v, lenN (svs s) <= v < lenN (svs s') -> exists a b, face_edge (sfs s) a b /\ v = mid_id a b).
Proof.
  intros Hs F L. destruct (linear_ok mid s m Hs F L) as (m' & e & mids & E & I & K & Sh & Fo).
  assert (KE : forall a b, face_edge (sfs s) a b -> exists i, edge_get e (ekey a b) = Some i).
  { intros a b (x & y & z & Hin & H). pose proof (K _ Hin) as (K1 & K2 & K3).
    assert (G : forall u v, edge_get e (ekey u v) <> None -> (exists i, edge_get e (ekey u v) = Some i) /\ (exists i, edge_get e (ekey v u) = Some i)).
    { intros u v Hu. rewrite (ekey_sym v u). destruct (edge_get e (ekey u v)) as [i|]; [split; exists i; reflexivity|congruence]. }
    destruct (G _ _ K1), (G _ _ K2), (G _ _ K3).
    destruct H as [H|[H|[H|[H|[H|H]]]]]; injection H as -> ->; assumption. }
  exists m', mids, (eid e). split; [exact E|]. cbv zeta. split; [exact Sh|]. split; [exact Fo|]. cbn [svs]. rewrite lenN_app. split; [|split].
  - intros a b H. destruct (KE a b H) as [i Hi]. unfold eid at 1 2. rewrite (ekey_sym b a), Hi. split; [reflexivity|]. unfold eid. rewrite Hi.
    destruct (e_mid _ _ _ _ I a b i Hi) as (p & q & c & H1 & H2 & H3 & H4 & H5). split; [exact H5|]. exists p, q, c.
    rewrite nthN_nth_error in H3. auto.
  - intros a b x y H H' Q. destruct (KE a b H) as [i Hi]. destruct (KE x y H') as [j Hj]. unfold eid in Q. rewrite Hi, Hj in Q. subst j.
    pose proof (e_inj _ _ _ _ I a b x y i Hi Hj) as Z. unfold ekey in Z. injection Z as Z1 Z2. lia.
  - intros v Hv. destruct (e_all _ _ _ _ I v Hv) as (a & b & H1 & H2). exists a, b. split; [exact H2|]. unfold eid. rewrite H1. reflexivity.
Qed.
Print Assumptions C38_subdivide_linear.
(** The midpoint used for points is the midpoint (exact arithmetic) and does not depend on the direction of the edge. *)
Theorem C38_midpoint (p q : pt3 RN) : (center_nd3 p q = center_nd3 q p /\
  px (center_nd3 p q) = (px p + px q) / 2 /\ py (center_nd3 p q) = (py p + py q) / 2 /\ pz (center_nd3 p q) = (pz p + pz q) / 2)%R.
Proof.
  unfold center_nd3. cbn [px py pz]. rewrite R_nhalf. cbn [nadd nmul RN].
  split; [f_equal; toR; ring|]. repeat split; toR; lra.
Qed.
Print Assumptions C38_midpoint.
Definition sub_in : mspec N := MSpec [0; 100; 200; 300] [(0, 1, 2); (2, 1, 3)].
Example C38_case : shows (Mesh (svs sub_in) (flat (sfs sub_in))) sub_in /\ faces_ok sub_in /\
  subdivide_linear (fun a b => (a + b) / 2) (Mesh (svs sub_in) (flat (sfs sub_in))) =
  Ok (Mesh [0; 100; 200; 300; 50; 150; 100; 200; 250]
           [0; 4; 6;  4; 1; 5;  4; 5; 6;  6; 5; 2;   2; 5; 8;  5; 1; 7;  5; 7; 8;  8; 7; 3]).
Proof.
  assert (F : faces_ok sub_in) by (apply faces_okb; reflexivity).
  split; [apply abs_shows; [split; reflexivity|exact F]|]. split; [exact F|]. reflexivity.
Qed.

(** C39 *)
Theorem C39_unify_only_flips (NM : Num) (m : mesh (pt3 NM)) (s : mspec (pt3 NM)) (fuel : nat) :
  shows m s -> faces_ok s -> 3 * N.of_nat (length (sfs s)) < 2 ^ 64 ->
  (forall f p q r, In f (sfs s) -> corners s f = Some (p, q, r) -> exists n, normal_of_face p q r = Ok n) ->
  (length (sfs s) <= fuel)%nat ->
  exists m' s', unify_faces3 fuel m = Some (Ok m') /\ shows m' s' /\ faces_ok s' /\ svs s' = svs s /\
    Forall2 (fun f g => g = f \/ g = oriented true f) (sfs s) (sfs s').
Proof.
  intros Hs F L HN Fu.
  assert (HN' : forall i, i < lenN (sfs s) -> exists k, has_normal normal_of_face s i k).
  { intros i Hi. destruct (nthN_lt_Some (sfs s) i Hi) as [f Ef]. pose proof Ef as Ef'. rewrite nthN_nth_error in Ef'. apply nth_error_In in Ef'.
    destruct (faces_corners s f F Ef') as (p & q & r & C). destruct (HN f p q r Ef' C) as [n Hn]. exists n, f, p, q, r. auto. }
  destruct (unify_ok normal_of_face (fun a b => (dot3 a b < n0)%num) m s Hs F L HN' fuel Fu) as (m' & fl & ord & E & Lf & Sh & Fo & _).
  exists m', (MSpec (svs s) (flipped s fl)). split; [exact E|]. split; [exact Sh|]. split; [exact Fo|]. split; [reflexivity|].
  cbn [sfs]. unfold flipped. clear - Lf. revert Lf. generalize (sfs s) as l. induction fl as [|b fl IH]; intros [|f l] Lf; try discriminate; constructor.
  - destruct b; [right; reflexivity|left; destruct f as [[? ?] ?]; reflexivity].
  - apply IH. now injection Lf.
Qed.
Print Assumptions C39_unify_only_flips.

(** A unit square of two faces with opposite orientations, as f64 and as reals. *)
Definition square {NM : Num} : mspec (pt3 NM) :=
  MSpec [mk3 n0 n0 n0; mk3 n1 n0 n0; mk3 n0 n1 n0; mk3 n1 n1 n0] [(0, 1, 2); (1, 2, 3)].
Definition square_mesh {NM : Num} : mesh (pt3 NM) := Mesh (svs (@square NM)) (flat (sfs (@square NM))).
Lemma square_ok {NM} : faces_ok (@square NM).
Proof. intros a b c [H|[H|[]]]; injection H as <- <- <-; unfold in_range; cbn; repeat split; lia. Qed.
Lemma square_shows {NM} : shows (@square_mesh NM) square.
Proof. apply abs_shows; [split; reflexivity|exact square_ok]. Qed.
Definition is_ok {E A} (o : outcome E A) : bool := match o with Ok _ => true | _ => false end.
Example C39_case : shows (@square_mesh F64) square /\ faces_ok (@square F64) /\
  (forall f (p q r : pt3 F64), In f (sfs (@square F64)) -> corners (@square F64) f = Some (p, q, r) -> exists n, normal_of_face p q r = Ok n) /\
  match unify_faces3 2 (@square_mesh F64) with Some (Ok m') => topology m' | _ => [] end = [0; 1; 2; 1; 3; 2].
Proof.
  split; [exact square_shows|]. split; [exact square_ok|]. split.
  - intros f p q r [<-|[<-|[]]] C; injection C as <- <- <-.
    + match goal with |- exists n, ?e = Ok n => assert (K : is_ok e = true) by vmeq; destruct e as [n|er|]; [exists n; reflexivity|discriminate|discriminate] end.
    + match goal with |- exists n, ?e = Ok n => assert (K : is_ok e = true) by vmeq; destruct e as [n|er|]; [exists n; reflexivity|discriminate|discriminate] end.
  - vmeq.
Qed.

(** C82 *)
Theorem C82_unify_follows_neighbours (m : mesh (pt3 RN)) (s : mspec (pt3 RN)) (fuel : nat) :
  shows m s -> faces_ok s -> 3 * N.of_nat (length (sfs s)) < 2 ^ 64 -> (length (sfs s) <= fuel)%nat ->
  exists m' s' ord, unify_faces3 fuel m = Some (Ok m') /\ shows m' s' /\ svs s' = svs s /\
    Forall2 (fun f g => g = f \/ g = oriented true f) (sfs s) (sfs s') /\
    (* an order of all faces *)
    NoDup ord /\ (forall i, In i ord <-> (i < length (sfs s))%nat) /\
    forall l i r, ord = l ++ i :: r ->
      (* the face starts a new connected component and is kept, *)
      (nth_error (sfs s') i = nth_error (sfs s) i /\ (forall g h, In g l -> touching_at (sfs s) g h -> In h l)) \/
      (* or it faces the same way as an earlier face touching it *)
      exists g f f', In g l /\ touching_at (sfs s) g i /\ nth_error (sfs s') g = Some f /\ nth_error (sfs s') i = Some f' /\
        (0 <= rdot3 (facing s' f) (facing s' f'))%R.
Proof.
  intros Hs F L Fu. destruct (unify_R m s Hs F L fuel Fu) as (m' & s' & ord & A & B & _ & C).
  exists m', s', ord. auto.
Qed.
Print Assumptions C82_unify_follows_neighbours.
Example C82_case : shows (@square_mesh RN) square /\ faces_ok (@square RN) /\ 3 * N.of_nat (length (sfs (@square RN))) < 2 ^ 64.
Proof. split; [exact square_shows|]. split; [exact square_ok|reflexivity]. Qed.

(** C83 *)
Theorem C83_unify_planar (m : mesh (pt3 RN)) (s : mspec (pt3 RN)) (fuel : nat) :
  shows m s -> faces_ok s -> 3 * N.of_nat (length (sfs s)) < 2 ^ 64 -> (length (sfs s) <= fuel)%nat ->
  coplanar (svs s) -> vertex_connected (sfs s) -> (forall f, In f (sfs s) -> rsq3 (facing s f) <> 0%R) ->
  exists m' s', unify_faces3 fuel m = Some (Ok m') /\ shows m' s' /\ svs s' = svs s /\
    Forall2 (fun f g => g = f \/ g = oriented true f) (sfs s) (sfs s') /\
    forall f g, In f (sfs s') -> In g (sfs s') -> (0 < rdot3 (facing s' f) (facing s' g))%R.
Proof. intros Hs F L Fu. exact (unify_planar m s Hs F L fuel Fu). Qed.
Print Assumptions C83_unify_planar.
Lemma square_f1 : facing square (0, 1, 2) = mk3 (0%R : T RN) (0%R : T RN) (1%R : T RN).
Proof.
  unfold facing. change (corners square (0, 1, 2)) with (Some (@mk3 RN n0 n0 n0, @mk3 RN n1 n0 n0, @mk3 RN n0 n1 n0)).
  unfold area_vec. cbn [px py pz]. rewrite R_n0, R_n1. f_equal; toR; ring.
Qed.
Lemma square_f2 : facing square (1, 2, 3) = mk3 (0%R : T RN) (0%R : T RN) ((-1)%R : T RN).
Proof.
  unfold facing. change (corners square (1, 2, 3)) with (Some (@mk3 RN n1 n0 n0, @mk3 RN n0 n1 n0, @mk3 RN n1 n1 n0)).
  unfold area_vec. cbn [px py pz]. rewrite R_n0, R_n1. f_equal; toR; ring.
Qed.
Example C83_case : coplanar (svs (@square RN)) /\ vertex_connected (sfs (@square RN)) /\
  (forall f, In f (sfs (@square RN)) -> rsq3 (facing square f) <> 0%R) /\
  (rdot3 (facing square (0, 1, 2)%N) (facing square (1, 2, 3)%N) < 0)%R.
Proof.
  split; [|split; [|split]].
  - exists (mk3 (0%R : T RN) (0%R : T RN) (1%R : T RN)), 0%R. split; [unfold rsq3, rdot3; cbn; lra|].
    intros p [<-|[<-|[<-|[<-|[]]]]]; unfold rdot3; cbn [px py pz]; rewrite ?R_n0, ?R_n1; cbn; lra.
  - intros i j Hi Hj. cbn in Hi, Hj. 
    destruct (Nat.eq_dec i j) as [->|D]; [apply rt_refl|]. apply rt_step.
    assert ((i = 0 /\ j = 1) \/ (i = 1 /\ j = 0))%nat as [[-> ->]|[-> ->]] by lia.
    + exists (0, 1, 2), (1, 2, 3). split; [reflexivity|]. split; [reflexivity|]. exists 1. auto.
    + exists (1, 2, 3), (0, 1, 2). split; [reflexivity|]. split; [reflexivity|]. exists 1. auto.
  - intros f [<-|[<-|[]]]; rewrite ?square_f1, ?square_f2; unfold rsq3, rdot3; cbn [px py pz]; intros Z; cbn in Z; lra.
  - rewrite square_f1, square_f2. unfold rdot3; cbn; lra.
Qed.
