(** Proofs about the las format. *)
From Verif Require Import Base BaseLemmas Num GeomSpec VecModel MatrixModel IoModel IoSpec IoLemmas ByteModel ByteSpec ByteLemmas MeshModel PlyModel PlySpec PlyLemmas PlyTotalLemmas ScanModel ScanSpec ScanLemmas ObjOffLemmas GcodeLemmas ScannerModel ScannerSpec ScannerLemmas.
From Coq Require Import Lia ZifyBool ZifyNat ZifyN.
Local Open Scope nat_scope.

Lemma field_num file a n v : num_at file a n v -> a + n <= 375 -> las_field (firstn 375 file) a n = v.
Proof.
  intros (L & E) B. unfold las_field. rewrite skipn_firstn_comm, firstn_firstn, Nat.min_l by lia. exact (encodes_unique _ _ _ _ (le_encodes _) E).
Qed.
Lemma num_field file a n : a + n <= 375 -> 375 <= length file -> num_at file a n (las_field (firstn 375 file) a n).
Proof. intros B L. split; [lia|]. unfold las_field. rewrite skipn_firstn_comm, firstn_firstn, Nat.min_l by lia. apply le_encodes. Qed.
Lemma take_long {n} (s : bytes) : n <= length s -> take_bytes n s = Some (firstn n s, skipn n s).
Proof. intros L. rewrite <- (firstn_skipn n s) at 1. apply take_app. rewrite firstn_length. lia. Qed.
Lemma las_exists file : 375 <= length file -> exists i, las_says file i.
Proof.
  intros L. set (b := firstn 375 file).
  exists (mkli (las_field b 24 1) (las_field b 25 1) (las_field b 96 4) (las_field b 104 1) (las_field b 105 2) (las_field b 107 4) (las_field b 247 8)
    (mk3 (f64_of_bits (las_field b 131 8)) (f64_of_bits (las_field b 139 8)) (f64_of_bits (las_field b 147 8))) (mk3 (f64_of_bits (las_field b 155 8)) (f64_of_bits (las_field b 163 8)) (f64_of_bits (las_field b 171 8)))).
  unfold las_says. cbn [li_major li_minor li_offset li_format li_length li_legacy li_long li_scale li_shift px py pz]. split; [exact L|].
  repeat (split; [first [apply num_field; [lia|exact L]|eexists; split; [apply num_field; [|exact L]; lia|reflexivity]]|]). eexists. split; [apply num_field; [|exact L]; lia|reflexivity].
Qed.
Definition las_head_of (i : las_info) : las_header :=
  mklh (li_offset i) (li_length i) (las_count i) (px (li_scale i)) (py (li_scale i)) (pz (li_scale i)) (px (li_shift i)) (py (li_shift i)) (pz (li_shift i)).
Lemma las_header_ok file i : las_says file i ->
  obind (las_load_header file) las_header_of = (if (1 <? li_major i)%N || (4 <? li_minor i)%N then Err LasUnsupportedVersion else if (10 <? li_format i)%N then Err LasUnknownPointFormat else Ok (las_head_of i)).
Proof.
  intros (L & H1 & H2 & H3 & H4 & H5 & H6 & H7 & (s1 & S1 & E1) & (s2 & S2 & E2) & (s3 & S3 & E3) & (o1 & O1 & E4) & (o2 & O2 & E5) & (o3 & O3 & E6)). unfold las_load_header. rewrite (take_long file L). cbn [obind].
  rewrite (field_num _ _ _ _ H1), (field_num _ _ _ _ H2), (field_num _ _ _ _ H3), (field_num _ _ _ _ H4), (field_num _ _ _ _ H5), (field_num _ _ _ _ H6), (field_num _ _ _ _ H7),
    (field_num _ _ _ _ S1), (field_num _ _ _ _ S2), (field_num _ _ _ _ S3), (field_num _ _ _ _ O1), (field_num _ _ _ _ O2), (field_num _ _ _ _ O3) by lia.
  unfold las_header_of, las_head_of, las_count. cbn [raw_major raw_minor raw_offset raw_format raw_length raw_legacy_n raw_sx raw_sy raw_sz raw_ox raw_oy raw_oz raw_n]. rewrite <- E1, <- E2, <- E3, <- E4, <- E5, <- E6. reflexivity.
Qed.
Lemma las_short file : length file < 375 -> obind (las_load_header file) las_header_of = Err LasAccessFile.
Proof. intros L. unfold las_load_header. rewrite (take_short 375 file L). reflexivity. Qed.

(** ** records *)
(** What is read after [j] records. *)
Definition las_rest (file : bytes) (i : las_info) (j : N) : bytes := skipn (N.to_nat (li_offset i + j * li_length i)) file.
Definition las_at (file : bytes) (i : las_info) (j : N) : las_state := mklas (las_rest file i j) false j (Some (las_head_of i)).
Lemma skipn_add {A} a b (l : list A) : skipn b (skipn a l) = skipn (a + b) l.
Proof. revert l. induction a as [|a IH]; intros l; [reflexivity|]. destruct l as [|x l]; [rewrite !skipn_nil; reflexivity|]. cbn [skipn plus]. apply IH. Qed.
Lemma las_take_ok file i j : las_present file i j -> take_bytes (N.to_nat (li_length i)) (las_rest file i j) = Some (firstn (N.to_nat (li_length i)) (las_rest file i j), las_rest file i (j + 1)).
Proof.
  intros P. unfold las_present, lenN in P. rewrite take_long by (unfold las_rest; rewrite skipn_length; lia). unfold las_rest. rewrite skipn_add. do 2 apply f_equal. f_equal. lia.
Qed.
Lemma las_take_no file i j : ~ las_present file i j -> li_length i <> 0%N -> take_bytes (N.to_nat (li_length i)) (las_rest file i j) = None.
Proof. intros P Z. unfold las_present, lenN in P. apply take_short. unfold las_rest. rewrite skipn_length. lia. Qed.
(** The coordinates of a record. *)
Definition las_point (file : bytes) (i : las_info) (j : N) : pt3 F64 :=
  let b := firstn (N.to_nat (li_length i)) (las_rest file i j) in
  mk3 (las_coord b 0 (px (li_shift i)) (px (li_scale i))) (las_coord b 4 (py (li_shift i)) (py (li_scale i))) (las_coord b 8 (pz (li_shift i)) (pz (li_scale i))).
Lemma i32_field b : length b = 4 -> i32_bytes b (to_signed 4 (le_value b)).
Proof.
  intros L. pose proof (le_encodes b) as E. pose proof (le_bound b) as B. rewrite L in B. split; [exact L|]. unfold to_signed. change (2 ^ (8 * N.of_nat 4 - 1))%N with 2147483648%N. change (2 ^ (8 * Z.of_nat 4))%Z with 4294967296%Z. change (256 ^ N.of_nat 4)%N with 4294967296%N in B. change (2 ^ 32)%Z with 4294967296%Z. change (2 ^ 31)%Z with 2147483648%Z.
  destruct (N.ltb_spec (le_value b) 2147483648) as [LT|GE].
  - split; [lia|]. rewrite Z.mod_small by lia. rewrite N2Z.id. exact E.
  - split; [lia|]. replace (Z.to_N ((Z.of_N (le_value b) - 4294967296) mod 4294967296)) with (le_value b); [exact E|]. rewrite <- (Z_mod_plus_full _ 1), Z.mul_1_l, Z.sub_add, Z.mod_small by lia. symmetry. apply N2Z.id.
Qed.
Lemma las_point_spec file i j : las_present file i j -> (12 <= li_length i)%N -> las_point_at file i j (las_point file i j).
Proof.
  intros P L. unfold las_present, lenN in P. unfold las_point_at, las_point, las_coord, las_field. set (o := N.to_nat (li_offset i + j * li_length i)).
  assert (F : forall a, a <= 8 -> firstn 4 (skipn a (firstn (N.to_nat (li_length i)) (las_rest file i j))) = firstn 4 (skipn (o + a) file)).
  { intros a A. rewrite skipn_firstn_comm, firstn_firstn, Nat.min_l by lia. unfold las_rest. rewrite skipn_add. reflexivity. }
  rewrite !F by lia. assert (G : forall a, a <= 8 -> length (firstn 4 (skipn (o + a) file)) = 4) by (intros a A; rewrite firstn_length, skipn_length; subst o; lia).
  do 3 eexists. split; [rewrite <- (Nat.add_0_r o) at 1; apply i32_field, G; lia|]. split; [apply i32_field, G; lia|]. split; [apply i32_field, G; lia|]. reflexivity.
Qed.
Lemma las_next_ok file i j : las_present file i j -> (12 <= li_length i)%N -> (j < las_count i)%N -> las_next file (las_at file i j) = (Some (Ok (DData (las_point file i j))), las_at file i (j + 1)).
Proof.
  intros P L C. unfold las_next, las_at, las_fetch. cbn [las_head_of lh_n lh_length lh_ox lh_oy lh_oz lh_sx lh_sy lh_sz]. destruct (N.ltb_spec j (las_count i)); [|lia]. rewrite (las_take_ok file i j P). destruct (N.ltb_spec (li_length i) 12); [lia|]. reflexivity.
Qed.
Lemma las_next_end file i j : (las_count i <= j)%N -> fst (las_next file (las_at file i j)) = None.
Proof. intros C. unfold las_next, las_at. cbn [las_head_of lh_n]. destruct (N.ltb_spec j (las_count i)); [lia|]. reflexivity. Qed.
Lemma las_next_cut file i j : ~ las_present file i j -> li_length i <> 0%N -> (j < las_count i)%N -> fst (las_next file (las_at file i j)) = Some (Err LasAccessFile).
Proof. intros P Z C. unfold las_next, las_at, las_fetch. cbn [las_head_of lh_n lh_length]. destruct (N.ltb_spec j (las_count i)); [|lia]. rewrite (las_take_no file i j P Z). reflexivity. Qed.
Lemma las_next_panic file i j : las_present file i j \/ li_length i = 0%N -> (li_length i < 12)%N -> (j < las_count i)%N -> fst (las_next file (las_at file i j)) = Some Panic.
Proof.
  intros P L C. unfold las_next, las_at, las_fetch. cbn [las_head_of lh_n lh_length]. destruct (N.ltb_spec j (las_count i)); [|lia].
  assert (E : exists b r, take_bytes (N.to_nat (li_length i)) (las_rest file i j) = Some (b, r)) by (destruct P as [P| ->]; [eexists; eexists; exact (las_take_ok file i j P)|eexists; eexists; reflexivity]).
  destruct E as (b & r & ->). destruct (N.ltb_spec (li_length i) 12); [|lia]. reflexivity.
Qed.
(** The records from 0 to [n]. *)
Fixpoint las_points (file : bytes) (i : las_info) (j : N) (n : nat) : list (pt3 F64) := match n with O => [] | Datatypes.S n => las_point file i j :: las_points file i (j + 1) n end.
Lemma las_yields file i n : (12 <= li_length i)%N -> forall j, (forall l, (j <= l < j + N.of_nat n)%N -> las_present file i l) -> (j + N.of_nat n <= las_count i)%N ->
  yields (las_next file) (las_at file i j) (map DData (las_points file i j n)) (las_at file i (j + N.of_nat n)).
Proof.
  intros L. induction n as [|n IH]; intros j P C; [cbn [las_points map]; replace (j + N.of_nat 0)%N with j by lia; constructor|]. cbn [las_points map]. eapply YCons; [apply las_next_ok; [apply P; lia|exact L|lia]|].
  replace (j + N.of_nat (Datatypes.S n))%N with (j + 1 + N.of_nat n)%N by lia. apply IH; [intros l LL; apply P; lia|lia].
Qed.
Lemma las_points_len file i n : forall j, length (las_points file i j n) = n. Proof. induction n as [|n IH]; intros j; [reflexivity|]. cbn [las_points length]. rewrite IH. reflexivity. Qed.
Lemma las_points_nth file i n : forall j l p, nth_error (las_points file i j n) l = Some p -> p = las_point file i (j + N.of_nat l).
Proof.
  induction n as [|n IH]; intros j l p; [destruct l; discriminate|]. cbn [las_points]. destruct l as [|l]; cbn [nth_error]; [intros X; injection X as <-; f_equal; lia|]. intros X. apply IH in X. rewrite X. f_equal. lia.
Qed.
Lemma las_start file i : las_says file i -> las_supported i -> las_next file (las_new file) = (Some (Ok (DReserve (las_count i))), las_at file i 0).
Proof.
  intros S (V & M & F). unfold las_next, las_new. rewrite (las_header_ok file i S). destruct (N.ltb_spec 1 (li_major i)); [lia|]. destruct (N.ltb_spec 4 (li_minor i)); [lia|]. destruct (N.ltb_spec 10 (li_format i)); [lia|]. cbn [orb].
  unfold las_at, las_rest. cbn [las_head_of lh_offset lh_n]. replace (li_offset i + 0 * li_length i)%N with (li_offset i) by lia. reflexivity.
Qed.
(** Reading [n] records and what comes then. *)
Lemma las_load file i n k r : las_says file i -> las_supported i -> (24 * las_count i < 2 ^ 63)%N -> (12 <= li_length i)%N -> (forall l, (l < N.of_nat n)%N -> las_present file i l) -> (N.of_nat n <= las_count i)%N ->
  (match fst (las_next file (las_at file i (N.of_nat n))) with None => r = Ok tt | Some (Err e) => r = Err e | Some Panic => r = Panic | Some (Ok _) => False end) -> n + 2 <= k ->
  load_las k file = Some (las_points file i 0 n, r).
Proof.
  intros S SU SZ L P C E K. unfold load_las. destruct k as [|k]; [lia|]. cbn [fold_loop]. rewrite (las_start file i S SU). rewrite (push_reserve [] (las_count i) ltac:(exact SZ)).
  pose proof (las_yields file i n L 0%N ltac:(intros l LL; apply P; lia) ltac:(lia)) as Y. rewrite N.add_0_l in Y.
  assert (LY : length (map (@DData (pt3 F64)) (las_points file i 0 n)) = n) by (rewrite map_length; apply las_points_len).
  replace k with (length (map (@DData (pt3 F64)) (las_points file i 0 n)) + Datatypes.S (k - n - 1)) by lia. rewrite (yields_fold _ _ _ _ _ Y [] (las_points file i 0 n) _ (push_datas _ [])). cbn [fold_loop].
  destruct (las_next file (las_at file i (N.of_nat n))) as [[[a|e|]|] s']; cbn [fst] in E; [contradiction|subst r; reflexivity..].
Qed.
Lemma present_count file i n : (12 <= li_length i)%N -> las_says file i -> (forall l, (l < N.of_nat n)%N -> las_present file i l) -> n + 2 <= length file.
Proof.
  intros L (B & _) P. destruct n as [|n]; [lia|]. specialize (P (N.of_nat n) ltac:(lia)). unfold las_present, lenN in P. assert ((N.of_nat n + 1) * 12 <= N.of_nat (length file))%N by nia. lia.
Qed.
