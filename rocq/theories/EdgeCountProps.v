(** C203: how many vertices subdividing adds. *)
From Coq Require Import Permutation.
From Verif Require Import Base BaseLemmas MeshModel MeshSpec MeshLemmas MeshAlgoModel MeshAlgoSpec MeshAlgoLemmas MeshAlgoProps ClosedSpec ClosedProps EdgeCountSpec.
Local Open Scope N_scope.

Lemma edge_side fs a b : face_edge fs a b -> In (a, b) (flat_map sides fs) \/ In (b, a) (flat_map sides fs).
Proof.
  intros (x & y & z & F & H). assert (I : forall e, In e (sides (x, y, z)) -> In e (flat_map sides fs)) by (intros e E; apply in_flat_map; exists (x, y, z); auto).
  cbn [sides In] in I. destruct H as [H|[H|[H|[H|[H|H]]]]]; [left|left|left|right|right|right]; apply I; auto.
Qed.
Lemma edge_of_cases a b : edge_of (a, b) = (a, b) /\ a <= b \/ edge_of (a, b) = (b, a) /\ b <= a.
Proof. unfold edge_of. cbn [fst snd]. destruct (N.le_ge_cases a b); [left|right]; (split; [f_equal|assumption]); lia. Qed.
Lemma edges_in fs a b : In (a, b) (edges_of fs) <-> face_edge fs a b /\ a <= b.
Proof.
  unfold edges_of. rewrite nodup_In, in_map_iff. split.
  - intros ((x, y) & E & I). apply side_edge in I. destruct (edge_of_cases x y) as [(E' & L)|(E' & L)]; rewrite E' in E; injection E as <- <-; split; auto. apply edge_turn. exact I.
  - intros (F & L). apply edge_side in F as [F|F].
    + exists (a, b). split; [|exact F]. destruct (edge_of_cases a b) as [(E & _)|(E & L')]; [exact E|]. rewrite E. f_equal; lia.
    + exists (b, a). split; [|exact F]. destruct (edge_of_cases b a) as [(E & L')|(E & _)]; [|exact E]. rewrite E. f_equal; lia.
Qed.

Theorem C203_new_vertices {V} (mid : V -> V -> V) (m : mesh V) (s : mspec V) :
  shows m s -> faces_ok s -> 3 * N.of_nat (length (sfs s)) < 2 ^ 64 ->
  exists m', subdivide_linear mid m = Ok m' /\ num_vertices m' = num_vertices m + lenN (edges_of (sfs s)) /\ num_faces m' = 4 * num_faces m.
Proof.
  intros S F L. destruct (C38_subdivide_linear mid m s S F L) as (m' & new & mid_id & E & S' & F' & M & INJ & ALL). cbv zeta in *. exists m'. split; [exact E|].
  destruct S as (NV & _ & NF & _), S' as (NV' & _ & NF' & _). rewrite NV, NV', NF, NF'. cbn [svs sfs] in *. split.
  2: { clear. induction (sfs s) as [|((a, b), c) l IH]; [reflexivity|]. cbn [flat_map]. rewrite app_length. cbn [quarters length]. lia. }
  rewrite app_length. unfold lenN in *. rewrite app_length in *.
  assert (P : Permutation (map (fun e => N.to_nat (mid_id (fst e) (snd e))) (edges_of (sfs s))) (seq (length (svs s)) (length new))).
  { apply NoDup_Permutation; [|apply seq_NoDup|].
    - assert (H : forall l, NoDup l -> (forall a b, In (a, b) l -> face_edge (sfs s) a b /\ a <= b) -> NoDup (map (fun e => N.to_nat (mid_id (fst e) (snd e))) l)).
      { induction l as [|(a, b) l IH]; intros ND H; [constructor|]. inversion ND as [|? ? N1 N2]; subst. cbn [map fst snd]. constructor; [|apply IH; [exact N2|intros; apply H; right; assumption]].
        intros I. apply in_map_iff in I as ((x, y) & I & J). cbn [fst snd] in I. apply N2Nat.inj in I. destruct (H a b (or_introl eq_refl)) as (F1 & L1), (H x y (or_intror J)) as (F2 & L2).
        destruct (INJ _ _ _ _ F2 F1 I) as [(-> & ->)|(-> & ->)]; [exact (N1 J)|]. assert (a = b) by lia. subst. exact (N1 J). }
      apply H; [apply NoDup_nodup|]. intros a b I. apply edges_in. exact I.
    - intros v. rewrite in_map_iff, in_seq. split.
      + intros ((a, b) & <- & I). cbn [fst snd]. apply edges_in in I as (I & _). apply M in I as (_ & I & _). lia.
      + intros I. destruct (ALL (N.of_nat v) ltac:(lia)) as (a & b & FE & EV). destruct (N.le_ge_cases a b) as [O|O].
        * exists (a, b). cbn [fst snd]. split; [rewrite <- EV; apply Nat2N.id|]. apply edges_in. auto.
        * exists (b, a). cbn [fst snd]. destruct (M a b FE) as (SY & _). split; [rewrite <- SY, <- EV; apply Nat2N.id|]. apply edges_in. split; [apply edge_turn; exact FE|exact O]. }
  apply Permutation_length in P. rewrite map_length, seq_length in P. lia.
Qed.
Print Assumptions C203_new_vertices.

Theorem C203_surface_edges {V} (s : mspec V) : faces_ok s -> surface (sfs s) -> 2 * lenN (edges_of (sfs s)) = 3 * lenN (sfs s).
Proof.
  intros F (C & O). assert (NE : forall a b, face_edge (sfs s) a b -> a <> b).
  { intros a b (x & y & z & I & H). pose proof (F x y z I). intuition congruence. }
  assert (T : forall a b, In (a, b) (flat_map sides (sfs s)) -> In (b, a) (flat_map sides (sfs s))).
  { intros a b I. apply (count_occ_In side_dec) in I. apply (count_occ_In side_dec). pose proof (C a b) as CC. unfold runs in CC. lia. }
  assert (P : Permutation (flat_map sides (sfs s)) (edges_of (sfs s) ++ map turn (edges_of (sfs s)))).
  { apply NoDup_Permutation.
    - apply (NoDup_count_occ side_dec). intros (a, b). apply (O a b).
    - assert (G : forall l k : list (N * N), NoDup l -> NoDup k -> (forall x, In x l -> ~ In x k) -> NoDup (l ++ k)).
      { induction l as [|x l IH]; intros k A B D; [exact B|]. inversion A as [|? ? A1 A2]; subst. cbn [app]. constructor.
        - intros I. apply in_app_or in I as [I|I]; [exact (A1 I)|exact (D x (or_introl eq_refl) I)].
        - apply IH; [exact A2|exact B|]. intros y Y. apply D. right. exact Y. }
      apply G; [apply NoDup_nodup| |].
      + apply FinFun.Injective_map_NoDup; [intros x y E; rewrite <- (turn_turn x), <- (turn_turn y), E; reflexivity|apply NoDup_nodup].
      + intros (a, b) I J. apply edges_in in I as (I & L1). apply in_map_iff in J as ((x, y) & J & K). unfold turn in J. cbn [fst snd] in J. injection J as -> ->.
        apply edges_in in K as (K & L2). apply (NE a b I). lia.
    - intros (a, b). rewrite in_app_iff, in_map_iff, edges_in. split.
      + intros I. destruct (N.le_ge_cases a b) as [L|L]; [left; split; [apply side_edge; exact I|exact L]|right].
        exists (b, a). split; [reflexivity|]. apply edges_in. split; [apply edge_turn, side_edge; exact I|exact L].
      + intros [(I & _)|((x, y) & J & I)].
        * apply edge_side in I as [I|I]; [exact I|exact (T _ _ I)].
        * unfold turn in J. cbn [fst snd] in J. injection J as -> ->. apply edges_in in I as (I & _). apply edge_side in I as [I|I]; [exact (T _ _ I)|exact I]. }
  apply Permutation_length in P. rewrite app_length, map_length in P.
  assert (LS : forall l, length (flat_map sides l) = (3 * length l)%nat) by (induction l as [|((a, b), c) l IH]; [reflexivity|]; cbn [flat_map sides app length]; rewrite IH; lia).
  rewrite LS in P. unfold lenN. lia.
Qed.
Print Assumptions C203_surface_edges.

(** The tetrahedron of C201_case is a surface with six edges. *)
Example C203_case : faces_ok (MSpec [10; 20; 30; 40] tetra) /\ surface tetra /\ lenN (edges_of tetra) = 6 /\
  (exists m', subdivide_linear (fun a b => (a + b) / 2) (Mesh [10; 20; 30; 40] (flat tetra)) = Ok m' /\ num_vertices m' = 10 /\ num_faces m' = 16) /\
  lenN (edges_of [(0, 1, 2); (2, 1, 3)]) = 5.
Proof.
  split; [apply faces_okb; reflexivity|]. split; [split; [exact tetra_closed|]|].
  - intros a b. apply (NoDup_count_occ side_dec). cbn [tetra flat_map sides app]. repeat (constructor; [cbn [In]; intuition discriminate|]). constructor.
  - split; [reflexivity|]. split; [|reflexivity]. eexists. split; [vm_compute; reflexivity|]. split; reflexivity.
Qed.
