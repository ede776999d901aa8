(** Theorems about the psl and ptx formats. *)
From Verif Require Import Base BaseLemmas Num GeomSpec VecModel MatrixModel MatrixLemmas IoModel IoSpec IoLemmas ByteModel ByteSpec ByteLemmas MeshModel PlyModel PlySpec PlyLemmas PlyTotalLemmas ScanModel ScanSpec ScanLemmas ObjOffLemmas GcodeLemmas ScannerModel ScannerSpec ScannerLemmas ScanProps.
From Coq Require Import Lia ZifyBool ZifyNat ZifyN.
Local Open Scope nat_scope.

(** Tactics and helpers for the concrete cases. *)
Definition zeros (n : nat) : bytes := repeat (ascii_of_N 0) n.
Definition le4 (n : N) : bytes := map ascii_of_N [n mod 256; n / 256 mod 256; n / 65536 mod 256; n / 16777216 mod 256]%N.
Ltac encodes_now := match goal with |- encodes Little ?b ?v => replace v with (le_value b) by (vm_compute; reflexivity); apply le_encodes end.
Ltac i32_now := split; [reflexivity|split; [cbn; lia|encodes_now]].
Ltac f32_now := split; [reflexivity|]; eexists; split; [apply le_encodes|vmeq].

(** ** C67 psl *)
(** Whatever the file, there is at most one point. *)
Theorem C67_at_most_one : forall file, exists ps r, length ps <= 1 /\ r <> Panic /\ forall k, 2 <= k -> load_psl k file = Some (ps, r).
Proof.
  intros file. unfold load_psl. pose proof (psl_next_np (psl_new file)) as NP. destruct (psl_next (psl_new file)) as [[[p|e|]|] s] eqn:N.
  - destruct (psl_first file p s N) as (I & C). pose proof (psl_next_np s) as NP2. destruct (psl_next s) as [[[p2|e|]|] s'] eqn:N2.
    + destruct (psl_second s I C p2 s' N2).
    + exists [p], (Err e). split; [cbn; lia|]. split; [discriminate|]. intros [|[|k]] K; [lia|lia|]. cbn [load_loop]. rewrite N. cbn [load_loop]. rewrite N2. reflexivity.
    + destruct (NP2 eq_refl).
    + exists [p], (Ok tt). split; [cbn; lia|]. split; [discriminate|]. intros [|[|k]] K; [lia|lia|]. cbn [load_loop]. rewrite N. cbn [load_loop]. rewrite N2. reflexivity.
  - exists [], (Err e). split; [cbn; lia|]. split; [discriminate|]. intros [|k] K; [lia|]. cbn [load_loop]. rewrite N. reflexivity.
  - destruct (NP eq_refl).
  - exists [], (Ok tt). split; [cbn; lia|]. split; [discriminate|]. intros [|k] K; [lia|]. cbn [load_loop]. rewrite N. reflexivity.
Qed.
Print Assumptions C67_at_most_one.
(** A file of passes of lines of points: only the very first point is returned, and the result is a success. *)
Theorem C67_file : forall file passes more k, psl_file_bytes file passes -> 2 <= k -> load_psl k (file ++ more) = Some (first_point passes, Ok tt).
Proof.
  intros file passes more k (h & n & m & bs & -> & H & NB & M & F) K. destruct k as [|[|k]]; [lia|lia|]. unfold load_psl, psl_new. cbn [load_loop]. unfold psl_next at 1. cbn [psl_done psl_init psl_read psl_lines psl_points].
  rewrite <- !app_assoc, (psl_header_ok h n m _ _ H NB M). cbn [obind]. unfold psl_counts at 1. change (0 =? 0)%Z with true. cbn [andb].
  inversion F as [|b1 pass bs1 passes1 P F1 E1 E2]; subst; [reflexivity|]. destruct (Z.gtb_spec (Z.of_nat (length (pass :: passes1))) 0) as [_|X]; [|cbn [length] in X; lia].
  destruct P as (pn & pm & lbs & -> & PN & PM & PL). cbn [concat]. rewrite <- !app_assoc, (psl_pass_ok pn pm _ _ PN PM). cbn [obind].
  inversion PL as [|b2 line lbs1 pass1 L PL1 E1 E2]; subst; [reflexivity|]. destruct (Z.gtb_spec (Z.of_nat (length (line :: pass1))) 0) as [_|X]; [|cbn [length] in X; lia].
  destruct L as (ln & lm & pbs & -> & LN & LM & PP). cbn [concat]. rewrite <- !app_assoc, (psl_line_ok ln lm _ _ LN LM). cbn [obind].
  inversion PP as [|b3 p pbs1 line1 Q PP1 E1 E2]; subst; [reflexivity|]. cbn [psl_points]. destruct (Z.eqb_spec (Z.of_nat (length (p :: line1))) 0) as [X|_]; [cbn [length] in X; lia|].
  unfold psl_reduce at 1. destruct (Z.gtb_spec (Z.of_nat (length (p :: line1))) 0) as [_|X]; [|cbn [length] in X; lia]. cbn [psl_read psl_reduce concat]. rewrite <- !app_assoc, (read_point _ p _ Q). cbn [app first_point].
  unfold psl_next. cbn [psl_done psl_init psl_reduce psl_passes psl_lines psl_points]. unfold psl_counts. destruct (Z.gtb_spec (Z.of_nat (length (p :: line1))) 0) as [_|X]; [|cbn [length] in X; lia]. cbn [psl_lines psl_passes psl_points psl_init].
  destruct (Z.eqb_spec (Z.of_nat (length ((p :: line1) :: pass1))) 0) as [X|_]; [cbn [length] in X; lia|]. cbn [andb obind]. change (0 >? 0)%Z with false. rewrite Bool.andb_false_r. reflexivity.
Qed.
Print Assumptions C67_file.
Definition f32_1 : bytes := le4 1065353216. Definition f32_2 : bytes := le4 1073741824. Definition f32_3 : bytes := le4 1077936128.
Definition psl_example : bytes := zeros 136 ++ le4 1 ++ zeros 372 ++ (le4 1 ++ zeros 60 ++ (le4 2 ++ zeros 60 ++ ((f32_1 ++ f32_2 ++ f32_3) ++ (f32_3 ++ f32_3 ++ f32_3) ++ []) ) ++ []) ++ [].
(** The file has two points, one is returned, and there is no error. *)
Theorem C67_refuted : exists file, psl_file_bytes file [[[fp3 1 2 3; fp3 3 3 3]]] /\ load_psl 9 file = Some ([fp3 1 2 3], Ok tt).
Proof.
  exists psl_example. split; [|vmeq]. exists (zeros 136), (le4 1), (zeros 372), [le4 1 ++ zeros 60 ++ (le4 2 ++ zeros 60 ++ ((f32_1 ++ f32_2 ++ f32_3) ++ (f32_3 ++ f32_3 ++ f32_3) ++ [])) ++ []].
  split; [reflexivity|]. split; [reflexivity|]. split; [i32_now|]. split; [reflexivity|]. constructor; [|constructor].
  exists (le4 1), (zeros 60), [le4 2 ++ zeros 60 ++ ((f32_1 ++ f32_2 ++ f32_3) ++ (f32_3 ++ f32_3 ++ f32_3) ++ [])]. split; [reflexivity|]. split; [i32_now|]. split; [reflexivity|]. constructor; [|constructor].
  exists (le4 2), (zeros 60), [f32_1 ++ f32_2 ++ f32_3; f32_3 ++ f32_3 ++ f32_3]. split; [reflexivity|]. split; [i32_now|]. split; [reflexivity|].
  constructor; [exists f32_1, f32_2, f32_3; split; [reflexivity|split; [f32_now|split; f32_now]]|]. constructor; [exists f32_3, f32_3, f32_3; split; [reflexivity|split; [f32_now|split; f32_now]]|constructor].
Qed.
Print Assumptions C67_refuted.
Example C67_case : load_psl 3 (psl_example ++ zeros 5) = Some ([fp3 1 2 3], Ok tt) /\ load_psl 3 (firstn 200 psl_example) = Some ([], Err PslAccessFile).
Proof. split; vmeq. Qed.

(** ** C108 ptx *)
(** Complete blocks one after the other: all points, each placed by the matrix of its block. *)
Theorem C108_blocks : forall ft ls ts bs pss k, Forall2 line_of ls ts -> ts = concat bs -> Forall2 (ptx_block ft) bs pss -> (24 * lenN (concat pss) < 2 ^ 63)%N -> length (unlines ls) < k ->
  load_ptx ft k (unlines ls) = Some (concat pss, Ok tt).
Proof.
  intros ft ls ts bs pss k L E B SZ K. destruct (ptx_after ft ls ts bs pss [] k L ltac:(rewrite app_nil_r; exact E) B SZ K) as (k' & raws & u & mu & LK & M & ->). destruct raws; [|discriminate]. destruct k'; [cbn in LK; lia|]. reflexivity.
Qed.
Print Assumptions C108_blocks.
(** A file that ends inside of the points of a block: an error after all points that are there. *)
Lemma ptx_points_then ft ls ts bs pss hs columns rows m vs qs rest k : Forall2 line_of ls ts -> ts = concat bs ++ hs ++ vs ++ rest -> Forall2 (ptx_block ft) bs pss -> ptx_head ft hs columns rows m -> Forall2 (point_text ft) vs qs ->
  (lenN qs < rows * columns)%N -> (24 * (lenN (concat pss) + rows * columns) < 2 ^ 63)%N -> length (unlines ls) < k ->
  exists k' raws, length raws < k' /\ map trim_line raws = rest /\ load_ptx ft k (unlines ls) = fold_loop (ptx_next ft) push_data k' (mkptx raws false (lenN (concat bs ++ hs ++ vs)) (rows * columns - lenN qs) (negb (m4_eqb m m4_identity)) m) (concat pss ++ map (placed m) qs).
Proof.
  intros L E B H V Q SZ K. destruct (ptx_after ft ls ts bs pss _ k L E B ltac:(lia) K) as (k' & raws & u & mu & LK & M & EQ). destruct (map_eq_app _ _ _ _ M) as (rh & rr & -> & MH & M2). destruct (map_eq_app _ _ _ _ M2) as (rv & rs & -> & MV & MR).
  assert (W : w64 (rows * columns) = (rows * columns)%N) by (unfold w64; apply N.mod_small; lia). pose proof (ptx_header_next ft rh hs columns rows m (rv ++ rs) (lenN (concat bs)) u mu MH H) as HN. rewrite W in HN.
  pose proof (ptx_points ft m qs rv vs MV V rs (lenN (concat bs) + lenN rh) (rows * columns) ltac:(lia)) as Y. rewrite !app_length in LK. assert (LV : length rv = length qs) by (rewrite <- (same_length _ _ _ V), <- MV, map_length; reflexivity).
  assert (LH : length rh = length hs) by (rewrite <- MH, map_length; reflexivity). assert (LVS : length rv = length vs) by (rewrite <- MV, map_length; reflexivity). assert (H1 : 1 <= length hs) by (destruct H as (c & r & l1 & l2 & l3 & l4 & t1 & t2 & t3 & t4 & -> & _); cbn; lia).
  exists (k' - 1 - length qs), rs. split; [lia|]. split; [exact MR|]. rewrite EQ. destruct k' as [|k']; [lia|]. cbn [fold_loop]. rewrite HN, push_reserve by exact SZ.
  replace k' with (length (map (@DData (pt3 F64)) (map (placed m) qs)) + (Datatypes.S k' - 1 - length qs)) at 1 by (rewrite !map_length; lia). rewrite (yields_fold _ _ _ _ _ Y _ _ _ (push_datas (map (placed m) qs) (concat pss))).
  replace (lenN (concat bs ++ hs ++ vs)) with (lenN (concat bs) + lenN rh + lenN rv)%N by (rewrite !lenN_app; unfold lenN; lia). reflexivity.
Qed.
Theorem C108_truncated : forall ft ls ts bs pss hs columns rows m vs qs k, Forall2 line_of ls ts -> ts = concat bs ++ hs ++ vs -> Forall2 (ptx_block ft) bs pss -> ptx_head ft hs columns rows m -> Forall2 (point_text ft) vs qs ->
  (lenN qs < rows * columns)%N -> (24 * (lenN (concat pss) + rows * columns) < 2 ^ 63)%N -> length (unlines ls) < k ->
  load_ptx ft k (unlines ls) = Some (concat pss ++ map (placed m) qs, Err (WIndex (lenN ls) PtxLoadFileEndReached)).
Proof.
  intros ft ls ts bs pss hs columns rows m vs qs k L E B H V Q SZ K. destruct (ptx_points_then ft ls ts bs pss hs columns rows m vs qs [] k L ltac:(rewrite app_nil_r; exact E) B H V Q SZ K) as (k' & raws & LK & M & ->). destruct raws; [|discriminate]. destruct k' as [|k']; [cbn in LK; lia|]. cbn [fold_loop].
  unfold ptx_next. destruct (N.eqb_spec (rows * columns - lenN qs) 0); [lia|]. cbn [ptx_fetch next_line]. rewrite <- E. unfold lenN. rewrite (same_length _ _ _ L). reflexivity.
Qed.
Print Assumptions C108_truncated.
(** A line that is not a point where there should be one: an error with the number and the text of the line. *)
Theorem C108_point : forall ft ls ts bs pss hs columns rows m vs qs t rest k, Forall2 line_of ls ts -> ts = concat bs ++ hs ++ vs ++ t :: rest -> Forall2 (ptx_block ft) bs pss -> ptx_head ft hs columns rows m -> Forall2 (point_text ft) vs qs ->
  (lenN qs < rows * columns)%N -> (forall p, ~ point_text ft t p) -> (24 * (lenN (concat pss) + rows * columns) < 2 ^ 63)%N -> length (unlines ls) < k ->
  load_ptx ft k (unlines ls) = Some (concat pss ++ map (placed m) qs, Err (WLine (lenN (concat bs ++ hs ++ vs) + 1) t PtxPoint)).
Proof.
  intros ft ls ts bs pss hs columns rows m vs qs t rest k L E B H V Q NP SZ K. destruct (ptx_points_then ft ls ts bs pss hs columns rows m vs qs (t :: rest) k L E B H V Q SZ K) as (k' & raws & LK & M & ->). destruct raws as [|raw raws]; [discriminate|]. injection M as M1 M2. destruct k' as [|k']; [cbn in LK; lia|]. cbn [fold_loop].
  unfold ptx_next. destruct (N.eqb_spec (rows * columns - lenN qs) 0); [lia|]. rewrite fetch_cons. cbv beta iota. unfold ptx_point. rewrite M1, (point_err ft PtxPoint t NP). reflexivity.
Qed.
Print Assumptions C108_point.
(** After complete blocks a line that is not a number, for example an empty line at the end, is an error, though all points have been read. *)
Theorem C108_trailing : forall ft ls ts bs pss t rest k, Forall2 line_of ls ts -> ts = concat bs ++ t :: rest -> Forall2 (ptx_block ft) bs pss -> usize_of t = None -> (24 * lenN (concat pss) < 2 ^ 63)%N -> length (unlines ls) < k ->
  load_ptx ft k (unlines ls) = Some (concat pss, Err (WIndex (lenN (concat bs) + 1) PtxColumns)).
Proof.
  intros ft ls ts bs pss t rest k L E B U SZ K. destruct (ptx_after ft ls ts bs pss (t :: rest) k L E B SZ K) as (k' & raws & u & mu & LK & M & ->). destruct raws as [|raw raws]; [discriminate|]. injection M as M1 M2. destruct k' as [|k']; [cbn in LK; lia|]. cbn [fold_loop].
  unfold ptx_next. change (0 =? 0)%N with true. cbn [next_line]. rewrite M1, U. reflexivity.
Qed.
Print Assumptions C108_trailing.
(** The second line of a block is not a number. *)
Theorem C108_rows : forall ft ls ts bs pss c columns t rest k, Forall2 line_of ls ts -> ts = concat bs ++ c :: t :: rest -> Forall2 (ptx_block ft) bs pss -> usize_of c = Some columns -> usize_of t = None -> (24 * lenN (concat pss) < 2 ^ 63)%N -> length (unlines ls) < k ->
  load_ptx ft k (unlines ls) = Some (concat pss, Err (WLine (lenN (concat bs) + 2) t PtxRows)).
Proof.
  intros ft ls ts bs pss c columns t rest k L E B C U SZ K. destruct (ptx_after ft ls ts bs pss (c :: t :: rest) k L E B SZ K) as (k' & raws & u & mu & LK & M & ->). destruct raws as [|raw [|raw2 raws]]; [discriminate..|]. injection M as M1 M2 M3. destruct k' as [|k']; [cbn in LK; lia|]. cbn [fold_loop].
  unfold ptx_next. change (0 =? 0)%N with true. cbn [next_line]. rewrite M1, C. cbn [obind]. unfold ptx_header. rewrite fetch_cons. cbn [obind]. rewrite M2, U. cbn [ok_or at_line obind]. replace (lenN (concat bs) + 1 + 1)%N with (lenN (concat bs) + 2)%N by lia. reflexivity.
Qed.
Print Assumptions C108_rows.
(** A row of the matrix has less than four numbers. *)
Theorem C108_matrix : forall ft ls ts bs pss c r l1 l2 l3 l4 good t rest columns rows k, Forall2 line_of ls ts -> ts = concat bs ++ [c; r; l1; l2; l3; l4] ++ good ++ t :: rest -> Forall2 (ptx_block ft) bs pss -> usize_of c = Some columns -> usize_of r = Some rows ->
  length good < 4 -> Forall (fun g => exists x, row_text ft g x) good -> (forall x, ~ row_text ft t x) -> (24 * lenN (concat pss) < 2 ^ 63)%N -> length (unlines ls) < k ->
  load_ptx ft k (unlines ls) = Some (concat pss, Err (WLine (lenN (concat bs) + 7 + lenN good) t PtxMatrix)).
Proof.
  intros ft ls ts bs pss c r l1 l2 l3 l4 good t rest columns rows k L E B C R GL G NT SZ K. destruct (ptx_after ft ls ts bs pss _ k L E B SZ K) as (k' & raws & u & mu & LK & M & ->).
  destruct raws as [|w1 [|w2 [|w3 [|w4 [|w5 [|w6 raws]]]]]]; try discriminate M. cbn [map app] in M. injection M as M1 M2 M3 M4 M5 M6 M7. destruct k' as [|k']; [cbn in LK; lia|]. cbn [fold_loop].
  unfold ptx_next. change (0 =? 0)%N with true. cbn [next_line]. rewrite M1, C. cbn [obind]. unfold ptx_header. rewrite fetch_cons. cbn [obind]. rewrite M2, R. cbn [ok_or at_line obind]. rewrite fetch_cons. cbn [obind]. rewrite fetch_cons. cbn [obind]. rewrite fetch_cons. cbn [obind]. rewrite fetch_cons. cbn [obind].
  assert (BAD : forall i raw raws', trim_line raw = t -> ptx_matrix_line ft i (raw :: raws') = Err (WLine (i + 1) t PtxMatrix)).
  { intros i raw raws' T. unfold ptx_matrix_line. rewrite fetch_cons. cbn [obind]. rewrite T, (row_err ft t NT). reflexivity. }
  assert (FINE : forall i raw raws' g, trim_line raw = g -> (exists x, row_text ft g x) -> exists a b c d, ptx_matrix_line ft i (raw :: raws') = Ok ((a, b, c, d), raws')).
  { intros i raw raws' g T ((((a, b'), c'), d) & X). exists a, b', c', d. apply matrix_line_ok. rewrite T. exact X. }
  set (j := lenN (concat bs)). destruct good as [|g1 good]; [|inversion G as [|? ? G1 G']; subst; destruct raws as [|x1 raws]; [discriminate|]; cbn [map app] in M7; injection M7 as T1 M7; destruct (FINE (j + 1 + 5)%N x1 raws g1 T1 G1) as (a1 & b1 & c1 & d1 & ->); cbn [obind]].
  { destruct raws as [|x raws]; [discriminate|]. injection M7 as T0 _. rewrite (BAD _ _ _ T0). cbn [obind]. unfold lenN. cbn [length]. replace (j + 1 + 5 + 1)%N with (j + 7 + N.of_nat 0)%N by lia. reflexivity. }
  destruct good as [|g2 good]; [|inversion G' as [|? ? G2 G'']; subst; destruct raws as [|x2 raws]; [discriminate|]; cbn [map app] in M7; injection M7 as T2 M7; destruct (FINE (j + 1 + 6)%N x2 raws g2 T2 G2) as (a2 & b2 & c2 & d2 & ->); cbn [obind]].
  { destruct raws as [|x raws]; [discriminate|]. injection M7 as T0 _. rewrite (BAD _ _ _ T0). cbn [obind]. unfold lenN. cbn [length]. replace (j + 1 + 6 + 1)%N with (j + 7 + N.of_nat 1)%N by lia. reflexivity. }
  destruct good as [|g3 good]; [|inversion G'' as [|? ? G3 G3']; subst; destruct raws as [|x3 raws]; [discriminate|]; cbn [map app] in M7; injection M7 as T3 M7; destruct (FINE (j + 1 + 7)%N x3 raws g3 T3 G3) as (a3 & b3 & c3 & d3 & ->); cbn [obind]].
  { destruct raws as [|x raws]; [discriminate|]. injection M7 as T0 _. rewrite (BAD _ _ _ T0). cbn [obind]. unfold lenN. cbn [length]. replace (j + 1 + 7 + 1)%N with (j + 7 + N.of_nat 2)%N by lia. reflexivity. }
  destruct good as [|g4 good]; [|cbn [length] in GL; lia].
  destruct raws as [|x raws]; [discriminate|]. injection M7 as T0 _. rewrite (BAD _ _ _ T0). cbn [obind]. unfold lenN. cbn [length]. replace (j + 1 + 8 + 1)%N with (j + 7 + N.of_nat 3)%N by lia. reflexivity.
Qed.
Print Assumptions C108_matrix.
(** The file ends inside of the first ten lines of a block. *)
Theorem C108_header : forall ft ls ts bs pss hs more columns rows m k, Forall2 line_of ls ts -> ts = concat bs ++ hs -> Forall2 (ptx_block ft) bs pss -> ptx_head ft (hs ++ more) columns rows m -> hs <> [] -> more <> [] -> (24 * lenN (concat pss) < 2 ^ 63)%N -> length (unlines ls) < k ->
  load_ptx ft k (unlines ls) = Some (concat pss, Err (WIndex (lenN ls) PtxLoadFileEndReached)).
Proof.
  intros ft ls ts bs pss hs more columns rows m k L E B H N1 N2 SZ K. destruct (ptx_after ft ls ts bs pss hs k L E B SZ K) as (k' & raws & u & mu & LK & M & ->). assert (LL : lenN ls = (lenN (concat bs) + lenN hs)%N) by (rewrite <- lenN_app, <- E; unfold lenN; rewrite (same_length _ _ _ L); reflexivity). rewrite LL.
  destruct k' as [|k']; [cbn in LK; lia|]. cbn [fold_loop]. set (j := lenN (concat bs)). unfold ptx_next. change (0 =? 0)%N with true. cbv beta iota.
  destruct H as (c & r & l1 & l2 & l3 & l4 & t1 & t2 & t3 & t4 & HE & C & R & T1 & T2 & T3 & T4).
  destruct hs as [|h0 hs]; [destruct (N1 eq_refl)|]. injection HE as -> HE. destruct raws as [|w0 raws]; [discriminate|]. injection M as M0 M. cbn [next_line]. rewrite M0, C. cbn [obind]. unfold ptx_header.
  Ltac cut_here L := unfold lenN; cbn [length]; match goal with |- Some (_, Err (WIndex ?x _)) = _ => match L with ?y => replace x with y by lia end end; reflexivity.
  destruct hs as [|h1 hs]; [destruct raws; [|discriminate]; cbn [ptx_fetch next_line obind]; cut_here (j + N.of_nat 1)%N|]. injection HE as -> HE. destruct raws as [|w1 raws]; [discriminate|]. injection M as M1 M. rewrite fetch_cons. cbn [obind]. rewrite M1, R. cbn [ok_or at_line obind].
  destruct hs as [|h2 hs]; [destruct raws; [|discriminate]; cbn [ptx_fetch next_line obind]; cut_here (j + N.of_nat 2)%N|]. injection HE as -> HE. destruct raws as [|w2 raws]; [discriminate|]. injection M as M2 M. rewrite fetch_cons. cbn [obind].
  destruct hs as [|h3 hs]; [destruct raws; [|discriminate]; cbn [ptx_fetch next_line obind]; cut_here (j + N.of_nat 3)%N|]. injection HE as -> HE. destruct raws as [|w3 raws]; [discriminate|]. injection M as M3 M. rewrite fetch_cons. cbn [obind].
  destruct hs as [|h4 hs]; [destruct raws; [|discriminate]; cbn [ptx_fetch next_line obind]; cut_here (j + N.of_nat 4)%N|]. injection HE as -> HE. destruct raws as [|w4 raws]; [discriminate|]. injection M as M4 M. rewrite fetch_cons. cbn [obind].
  destruct hs as [|h5 hs]; [destruct raws; [|discriminate]; cbn [ptx_fetch next_line obind]; cut_here (j + N.of_nat 5)%N|]. injection HE as -> HE. destruct raws as [|w5 raws]; [discriminate|]. injection M as M5 M. rewrite fetch_cons. cbn [obind].
  destruct hs as [|h6 hs]; [destruct raws; [|discriminate]; cbn [ptx_matrix_line ptx_fetch next_line obind]; cut_here (j + N.of_nat 6)%N|]. injection HE as -> HE. destruct raws as [|w6 raws]; [discriminate|]. injection M as M6 M. rewrite (matrix_line_ok ft _ w6 raws _ ltac:(rewrite M6; exact T1)). cbn [obind].
  destruct hs as [|h7 hs]; [destruct raws; [|discriminate]; cbn [ptx_matrix_line ptx_fetch next_line obind]; cut_here (j + N.of_nat 7)%N|]. injection HE as -> HE. destruct raws as [|w7 raws]; [discriminate|]. injection M as M7 M. rewrite (matrix_line_ok ft _ w7 raws _ ltac:(rewrite M7; exact T2)). cbn [obind].
  destruct hs as [|h8 hs]; [destruct raws; [|discriminate]; cbn [ptx_matrix_line ptx_fetch next_line obind]; cut_here (j + N.of_nat 8)%N|]. injection HE as -> HE. destruct raws as [|w8 raws]; [discriminate|]. injection M as M8 M. rewrite (matrix_line_ok ft _ w8 raws _ ltac:(rewrite M8; exact T3)). cbn [obind].
  destruct hs as [|h9 hs]; [destruct raws; [|discriminate]; cbn [ptx_matrix_line ptx_fetch next_line obind]; cut_here (j + N.of_nat 9)%N|]. destruct hs; [|discriminate]. cbn [app] in HE. injection HE as _ HE. destruct (N2 HE).
Qed.
Print Assumptions C108_header.
Definition ptx_example (last : String.string) : list bytes := map str ["2"; "1"; "0 0 0"; "1 0 0"; "0 1 0"; "0 0 1"; "1 0 0 5"; "0 1 0 0"; "0 0 1 0"; last; "1 2 3 0.5"; "	4 5 6"]%string.
Ltac row_now := eexists _, _, _, _, _; split; [apply blank_words; reflexivity|]; repeat split; vmeq.
Ltac lines_now := repeat apply Forall2_cons; [..|apply Forall2_nil]; is_line_now.
Definition ptx_shift : mat4 F64 := mkm4 (fz 1) (fz 0) (fz 0) (fz 5) (fz 0) (fz 1) (fz 0) (fz 0) (fz 0) (fz 0) (fz 1) (fz 0) (fz 0) (fz 0) (fz 0) (fz 1).
Example C108_case : Forall2 line_of (ptx_example "0 0 0 1") (ptx_example "0 0 0 1") /\ ptx_block demo (ptx_example "0 0 0 1") [fp3 6 2 3; fp3 9 5 6] /\ load_ptx demo 200 (unlines (ptx_example "0 0 0 1")) = Some ([fp3 6 2 3; fp3 9 5 6], Ok tt) /\
  load_ptx demo 200 (unlines (firstn 11 (ptx_example "0 0 0 1"))) = Some ([fp3 6 2 3], Err (WIndex 11 PtxLoadFileEndReached)) /\ load_ptx demo 200 (unlines (firstn 7 (ptx_example "0 0 0 1"))) = Some ([], Err (WIndex 7 PtxLoadFileEndReached)) /\
  load_ptx demo 200 (unlines (ptx_example "0 0 0 1" ++ [[]])) = Some ([fp3 6 2 3; fp3 9 5 6], Err (WIndex 13 PtxColumns)) /\ load_ptx demo 200 (unlines (ptx_example "0 0 0")) = Some ([], Err (WLine 10 (str "0 0 0") PtxMatrix)) /\
  load_ptx demo 200 (unlines (firstn 11 (ptx_example "0 0 0 1") ++ [str "4 5"])) = Some ([fp3 6 2 3], Err (WLine 12 (str "4 5") PtxPoint)) /\ load_ptx demo 200 (unlines [str "7"; str "x"]) = Some ([], Err (WLine 2 (str "x") PtxRows)).
Proof.
  split; [unfold ptx_example; lines_now|]. split; [|repeat split; vmeq].
  exists (firstn 10 (ptx_example "0 0 0 1")), (skipn 10 (ptx_example "0 0 0 1")), 2%N, 1%N, ptx_shift, [fp3 1 2 3; fp3 4 5 6]. split; [reflexivity|]. split; [|split; [constructor; [point_now|constructor; [point_now|constructor]]|split; [reflexivity|vmeq]]].
  do 10 eexists. split; [reflexivity|]. split; [reflexivity|]. split; [reflexivity|]. split; [row_now|]. split; [row_now|]. split; row_now.
Qed.

(** ** C109 the fourth row *)
Definition same_rows (m m' : mat4 F64) : Prop :=
  m4_00 m = m4_00 m' /\ m4_01 m = m4_01 m' /\ m4_02 m = m4_02 m' /\ m4_03 m = m4_03 m' /\ m4_10 m = m4_10 m' /\ m4_11 m = m4_11 m' /\ m4_12 m = m4_12 m' /\ m4_13 m = m4_13 m' /\
  m4_20 m = m4_20 m' /\ m4_21 m = m4_21 m' /\ m4_22 m = m4_22 m' /\ m4_23 m = m4_23 m'.
Lemma same_placed m m' p : same_rows m m' -> pt3_multiply_m p m = pt3_multiply_m p m'.
Proof. destruct m, m'. intros (E1 & E2 & E3 & E4 & E5 & E6 & E7 & E8 & E9 & E10 & E11 & E12). cbn in *. subst. reflexivity. Qed.
Lemma same_next ft ls d i todo u m m' : same_rows m m' -> fst (ptx_next ft (mkptx ls d i todo u m)) = fst (ptx_next ft (mkptx ls d i todo u m')) /\
  exists ls' d' i' todo' u' x x', snd (ptx_next ft (mkptx ls d i todo u m)) = mkptx ls' d' i' todo' u' x /\ snd (ptx_next ft (mkptx ls d i todo u m')) = mkptx ls' d' i' todo' u' x' /\ same_rows x x'.
Proof.
  intros SR. unfold ptx_next. destruct d; [split; [reflexivity|]; do 7 eexists; split; [reflexivity|]; split; [reflexivity|exact SR]|]. destruct (todo =? 0)%N.
  - destruct (next_line ls) as [(l, r)|]; [|split; [reflexivity|]; do 7 eexists; split; [reflexivity|]; split; [reflexivity|exact SR]]. destruct (obind _ _) as [s|e|]; (split; [reflexivity|]).
    + destruct s. cbn [snd]. do 7 eexists. split; [reflexivity|]. split; [reflexivity|]. unfold same_rows. auto 20.
    + do 7 eexists. split; [reflexivity|]. split; [reflexivity|exact SR].
    + do 7 eexists. split; [reflexivity|]. split; [reflexivity|exact SR].
  - destruct (ptx_fetch i ls) as [(l, r)|e|]; cbn [fst snd]; (split; [|do 7 eexists; split; [reflexivity|]; split; [reflexivity|exact SR]]); [|reflexivity..].
    unfold ptx_point. destruct (three_f64 ft PtxPoint (to_words l)); cbn [obind]; [|reflexivity..]. rewrite (same_placed m m' _ SR). reflexivity.
Qed.
Lemma same_fold ft k : forall ls d i todo u m m' acc, same_rows m m' -> fold_loop (ptx_next ft) (push_data (E := with_line PtxError)) k (mkptx ls d i todo u m) acc = fold_loop (ptx_next ft) push_data k (mkptx ls d i todo u m') acc.
Proof.
  induction k as [|k IH]; intros ls d i todo u m m' acc SR; [reflexivity|]. cbn [fold_loop]. destruct (same_next ft ls d i todo u m m' SR) as (F & ls' & d' & i' & todo' & u' & x & x' & E1 & E2 & SR').
  destruct (ptx_next ft (mkptx ls d i todo u m)) as (a, s1). destruct (ptx_next ft (mkptx ls d i todo u m')) as (a', s2). cbn [fst snd] in *. subst. destruct a' as [[a|e|]|]; [|reflexivity..]. destruct (push_data acc a) as (acc', [[]|e|]); [|reflexivity..]. apply IH, SR'.
Qed.
(** Unless the matrix is the identity, the result does not depend on its last row, where the format has the translation. *)
Theorem C109_fourth_row : forall ft l10 l10' t10 t10' ls ts bs pss h9 columns rows m m' rest k, Forall2 line_of ls ts -> ts = concat bs ++ h9 -> Forall2 (ptx_block ft) bs pss ->
  line_of l10 t10 -> line_of l10' t10' -> ptx_head ft (h9 ++ [t10]) columns rows m -> ptx_head ft (h9 ++ [t10']) columns rows m' -> unity m = false -> unity m' = false -> Forall is_line rest -> (24 * lenN (concat pss) < 2 ^ 63)%N ->
  length (unlines (ls ++ l10 :: rest)) < k -> length (unlines (ls ++ l10' :: rest)) < k -> load_ptx ft k (unlines (ls ++ l10 :: rest)) = load_ptx ft k (unlines (ls ++ l10' :: rest)).
Proof.
  intros ft l10 l10' t10 t10' ls ts bs pss h9 columns rows m m' rest k L E B L10 L10' H H' U U' R SZ K K'.
  assert (SR : same_rows m m').
  { destruct H as (c & r & l1 & l2 & l3 & l4 & t1 & t2 & t3 & t4 & HE & C & RW & T1 & T2 & T3 & T4). destruct H' as (c' & r' & l1' & l2' & l3' & l4' & t1' & t2' & t3' & t4' & HE' & C' & RW' & T1' & T2' & T3' & T4').
    change [c; r; l1; l2; l3; l4; t1; t2; t3; t4] with ([c; r; l1; l2; l3; l4; t1; t2; t3] ++ [t4]) in HE. change [c'; r'; l1'; l2'; l3'; l4'; t1'; t2'; t3'; t4'] with ([c'; r'; l1'; l2'; l3'; l4'; t1'; t2'; t3'] ++ [t4']) in HE'.
    apply app_inj_tail in HE as (-> & _). apply app_inj_tail in HE' as (HE' & _). injection HE' as -> -> -> -> -> -> -> -> ->. apply row_ok in T1, T2, T3, T1', T2', T3'. rewrite T1 in T1'. rewrite T2 in T2'. rewrite T3 in T3'. injection T1' as ? ? ? ?. injection T2' as ? ? ? ?. injection T3' as ? ? ? ?. unfold same_rows. auto 20. }
  assert (G : forall l t x, line_of l t -> ptx_head ft (h9 ++ [t]) columns rows x -> unity x = false -> load_ptx ft k (unlines (ls ++ l :: rest)) =
    fold_loop (ptx_next ft) push_data k (mkptx (map (fun l => l ++ [nl]) (ls ++ l :: rest)) false 0 0 false m4_identity) []).
  { intros l t x LT HX UX. unfold load_ptx, ptx_new. rewrite unlines_raw; [reflexivity|]. apply Forall_app. split; [exact (proj1 (lines_trim ls ts L))|constructor; [apply LT|exact R]]. }
  rewrite (G l10 t10 m L10 H U), (G l10' t10' m' L10' H' U'). destruct (lines_trim ls ts L) as (_ & TR & _). rewrite E in TR. destruct (map_eq_app _ _ _ _ TR) as (rb & rh & EQ & MB & MH).
  assert (MA : forall l, map (fun l => l ++ [nl]) (ls ++ l :: rest) = rb ++ rh ++ (l ++ [nl]) :: map (fun l => l ++ [nl]) rest) by (intros l; rewrite map_app; etransitivity; [apply f_equal2; [exact EQ|reflexivity]|symmetry; apply app_assoc]). rewrite (MA l10), (MA l10').
  destruct (ptx_blocks_run ft bs pss B SZ rb (rh ++ (l10 ++ [nl]) :: map (fun l => l ++ [nl]) rest) 0%N false m4_identity MB) as (u & mu & Y). destruct (ptx_blocks_run ft bs pss B SZ rb (rh ++ (l10' ++ [nl]) :: map (fun l => l ++ [nl]) rest) 0%N false m4_identity MB) as (u' & mu' & Y').
  pose proof (block_items ft bs pss B) as BI. assert (LB : length rb = length (concat bs)) by (rewrite <- MB, map_length; reflexivity). assert (LT : length rb <= length ls) by (apply (f_equal (@length _)) in EQ; rewrite map_length, app_length in EQ; unfold bytes in *; lia).
  assert (LU : length (ls ++ l10 :: rest) <= length (unlines (ls ++ l10 :: rest))).
  { pose proof (raw_count (unlines (ls ++ l10 :: rest))) as RC. rewrite unlines_raw in RC; [rewrite map_length in RC; exact RC|]. apply Forall_app. split; [exact (proj1 (lines_trim ls ts L))|constructor; [apply L10|exact R]]. }
  rewrite app_length in LU. cbn [length] in LU. set (items := flat_map (fun ps : list (pt3 F64) => DReserve (lenN ps) :: map DData ps) pss) in *. replace k with (length items + Datatypes.S (k - 1 - length items)) by lia.
  rewrite (yields_fold _ _ _ _ _ Y [] (concat pss) _ (pts_folds pss [] ltac:(exact SZ))), (yields_fold _ _ _ _ _ Y' [] (concat pss) _ (pts_folds pss [] ltac:(exact SZ))). cbn [fold_loop].
  assert (AP : forall x rs, rh ++ x :: rs = (rh ++ [x]) ++ rs) by (intros; rewrite <- app_assoc; reflexivity). rewrite (AP (l10 ++ [nl])), (AP (l10' ++ [nl])).
  rewrite (ptx_header_next ft (rh ++ [l10 ++ [nl]]) (h9 ++ [t10]) columns rows m) by (first [exact H|rewrite map_app; cbn [map]; rewrite (line_trim _ _ L10), MH; reflexivity]).
  rewrite (ptx_header_next ft (rh ++ [l10' ++ [nl]]) (h9 ++ [t10']) columns rows m') by (first [exact H'|rewrite map_app; cbn [map]; rewrite (line_trim _ _ L10'), MH; reflexivity]).
  rewrite !unity_eqb, U, U'. destruct (push_data (concat pss) (DReserve (w64 (rows * columns)))) as (acc, [[]|e|]); [|reflexivity..].
  replace (lenN (rh ++ [l10' ++ [nl]])) with (lenN (rh ++ [l10 ++ [nl]])) by (rewrite !lenN_app; reflexivity). apply same_fold, SR.
Qed.
Print Assumptions C109_fourth_row.
(** A scan moved by (10, 20, 30): the matrix has the translation in the last row, as the format wants it, and the points are not moved. *)
Theorem C109_refuted : exists ls, ls = map str ["2"; "1"; "10 20 30"; "1 0 0"; "0 1 0"; "0 0 1"; "1 0 0 0"; "0 1 0 0"; "0 0 1 0"; "10 20 30 1"; "1 2 3 0.5"; "4 5 6 0.5"]%string /\ load_ptx demo 200 (unlines ls) = Some ([fp3 1 2 3; fp3 4 5 6], Ok tt).
Proof. eexists. split; [reflexivity|vmeq]. Qed.
Print Assumptions C109_refuted.
Example C109_case : unity ptx_shift = false /\ load_ptx demo 200 (unlines (ptx_example "0 0 0 1")) = Some ([fp3 6 2 3; fp3 9 5 6], Ok tt) /\ load_ptx demo 200 (unlines (ptx_example "7 8 9 0")) = Some ([fp3 6 2 3; fp3 9 5 6], Ok tt).
Proof. split; [vmeq|split; vmeq]. Qed.

(** ** C110 any file *)
Theorem C110_total : forall ft file, exists ps r, (forall k, length file < k -> load_ptx ft k file = Some (ps, r)) /\
  (r = Panic -> exists l1 a b l2 columns rows, raw_lines file = l1 ++ a :: b :: l2 /\ usize_of (trim_line a) = Some columns /\ usize_of (trim_line b) = Some rows /\ (2 ^ 63 <= 24 * (lenN ps + w64 (rows * columns)))%N).
Proof.
  intros ft file. set (P := fun a : data_reserve (pt3 F64) => forall n, a = DReserve n -> exists c r, counts_in (raw_lines file) c r /\ n = w64 (r * c)).
  destruct (fold_total2 (ptx_next ft) (push_data (E := with_line PtxError)) (fun s => length (ptx_read s)) (fun s => ends_with (ptx_read s) (raw_lines file)) (fun _ => True) P
    ltac:(intros s a s' N; exact (proj1 (ptx_next_inv ft (ptx_read s) s a s' ltac:(exists []; reflexivity) N))) (ptx_next_np ft) ltac:(intros s a s' J N; exact (proj2 (ptx_next_inv ft _ s a s' J N))) ltac:(auto)
    (length file) (ptx_new file) [] (raw_count file) I ltac:(exists []; reflexivity)) as (ps & r & _ & NP & H).
  exists ps, r. split; [exact H|]. intros X. destruct (NP X) as (a & m1 & Pa & _ & B). destruct a as [n|p]; [|discriminate B]. destruct (Pa n eq_refl) as (c & rr & (l1 & a & b & l2 & E & U1 & U2) & ->). cbn [push_data] in B. destruct (reserve 24 _) eqn:RS; [discriminate|]. injection B as <-.
  exists l1, a, b, l2, c, rr. split; [exact E|]. split; [exact U1|]. split; [exact U2|]. exact (not_reserve _ _ RS).
Qed.
Print Assumptions C110_total.
(** The product of the counts is taken modulo 2^64: here it is 2^64, and the block counts as empty. *)
Theorem C110_refuted : exists ls, ls = map str ["4294967296"; "4294967296"; "0 0 0"; "1 0 0"; "0 1 0"; "0 0 1"; "1 0 0 0"; "0 1 0 0"; "0 0 1 0"; "0 0 0 1"]%string /\ load_ptx demo 200 (unlines ls) = Some ([], Ok tt).
Proof. eexists. split; [reflexivity|vmeq]. Qed.
Print Assumptions C110_refuted.
Example C110_case : load_ptx demo 300 (unlines (map str ["4294967295"; "4294967295"; "0 0 0"; "1 0 0"; "0 1 0"; "0 0 1"; "1 0 0 0"; "0 1 0 0"; "0 0 1 0"; "0 0 0 1"; "1 2 3"]%string)) = Some ([], Panic).
Proof. vmeq. Qed.

(** ** C111 after an error *)
Lemma answers_yields {S E A} (next : S -> option (outcome E A) * S) s l s' : yields next s l s' -> forall k, answers next (length l + k) s = map (fun a => Some (Ok a)) l ++ answers next k s'.
Proof. induction 1 as [|s a s1 l s2 N Y IH]; intros k; [reflexivity|]. cbn [length plus answers map app]. rewrite N, IH. reflexivity. Qed.
Lemma answers_done {S A} (next : S -> option A * S) s : next s = (None, s) -> forall n, answers next n s = repeat None n.
Proof. intros N. induction n as [|n IH]; [reflexivity|]. cbn [answers repeat]. rewrite N, IH. reflexivity. Qed.
(** The iterator over a ptx file goes on after a line that is not a point: the other points still come, then the end. *)
Theorem C111_continues : forall ft ls ts hs columns rows m vs qs t vs' qs', Forall2 line_of ls ts -> ts = hs ++ vs ++ t :: vs' -> ptx_head ft hs columns rows m -> Forall2 (point_text ft) vs qs -> (forall p, ~ point_text ft t p) -> Forall2 (point_text ft) vs' qs' ->
  (lenN qs + 1 + lenN qs' = rows * columns)%N -> (rows * columns < 2 ^ 64)%N -> forall n,
  answers (ptx_next ft) (length qs + length qs' + 2 + n) (ptx_new (unlines ls)) =
    Some (Ok (DReserve (rows * columns))) :: map (fun p => Some (Ok (DData (placed m p)))) qs ++ Some (Err (WLine (lenN hs + lenN vs + 1) t PtxPoint)) :: map (fun p => Some (Ok (DData (placed m p)))) qs' ++ repeat None n.
Proof.
  intros ft ls ts hs columns rows m vs qs t vs' qs' L E H V NP V' Q SZ n. destruct (lines_trim ls ts L) as (_ & TR & RL). rewrite E in TR. unfold ptx_new. rewrite RL. revert TR. generalize (map (fun l : list Ascii.ascii => l ++ [nl]) ls). clear ls ts L E RL. intros raws TR.
  destruct (map_eq_app _ _ _ _ TR) as (rh & r1 & -> & MH & M1). destruct (map_eq_app _ _ _ _ M1) as (rv & r2 & -> & MV & M2). destruct r2 as [|raw rv']; [discriminate|]. injection M2 as MT MV'.
  assert (W : w64 (rows * columns) = (rows * columns)%N) by (unfold w64; apply N.mod_small; lia).
  replace (length qs + length qs' + 2 + n) with (Datatypes.S (length qs + Datatypes.S (length qs' + n))) by lia. cbn [answers]. rewrite (ptx_header_next ft rh hs columns rows m (rv ++ raw :: rv') 0 false m4_identity MH H), W. apply f_equal.
  pose proof (ptx_points ft m qs rv vs MV V (raw :: rv') (0 + lenN rh) (rows * columns) ltac:(lia)) as Y. pose proof (answers_yields _ _ _ _ Y (Datatypes.S (length qs' + n))) as A. rewrite !map_length in A. rewrite A, !map_map. apply f_equal. cbn [answers].
  unfold ptx_next at 1. destruct (N.eqb_spec (rows * columns - lenN qs) 0); [lia|]. rewrite fetch_cons. cbv beta iota. unfold ptx_point. rewrite MT, (point_err ft PtxPoint t NP). cbn [obind omap at_line].
  replace (0 + lenN rh + lenN rv)%N with (lenN hs + lenN vs)%N by (rewrite <- MH, <- MV; unfold lenN; rewrite !map_length; lia). apply f_equal.
  pose proof (ptx_points ft m qs' rv' vs' MV' V' [] (lenN hs + lenN vs + 1) (rows * columns - lenN qs - 1) ltac:(lia)) as Y'. rewrite app_nil_r in Y'. pose proof (answers_yields _ _ _ _ Y' n) as A'. rewrite !map_length in A'. rewrite A', !map_map. apply f_equal.
  replace (rows * columns - lenN qs - 1 - lenN qs')%N with 0%N by lia. destruct n as [|n]; [reflexivity|]. cbn [answers repeat]. unfold ptx_next at 1. change (0 =? 0)%N with true. cbn [next_line]. apply f_equal. apply answers_done. reflexivity.
Qed.
Print Assumptions C111_continues.
(** After the end and after every other error there is nothing more. *)
Theorem C111_ptx : forall ft s a s', ptx_next ft s = (a, s') -> a = None \/ (exists e, a = Some (Err e) /\ forall i t, e <> WLine i t PtxPoint) -> forall n, answers (ptx_next ft) n s' = repeat None n.
Proof.
  intros ft s a s' N D. apply answers_done. assert (X : ptx_done s' = true); [|destruct s' as [ls d i todo u m]; cbn [ptx_done] in X; subst d; reflexivity].
  destruct s as [ls d i todo u m]. unfold ptx_next in N. destruct d; [injection N as _ <-; reflexivity|]. destruct (todo =? 0)%N.
  - destruct (next_line ls) as [(l, r)|]; [|injection N as _ <-; reflexivity]. destruct (obind _ _) as [s1|e|]; [|injection N as _ <-; reflexivity..]. injection N as <- _. destruct D as [D|(e & D & _)]; discriminate.
  - destruct (ptx_fetch i ls) as [(l, r)|e|]; [|injection N as _ <-; reflexivity..]. injection N as <- <-. destruct D as [D|(e & D & NP)]; [discriminate|]. injection D as D. unfold ptx_point in D.
    unfold three_f64 in D.
    assert (F : forall ws, next_f64 ft PtxPoint ws = Err PtxPoint \/ exists x, next_f64 ft PtxPoint ws = Ok x) by (intros [|w ws]; cbn [next_f64]; [auto|destruct (f64_of ft w); [right; eexists; reflexivity|auto]]).
    destruct (F (to_words l)) as [F1|((x, w1) & F1)]; rewrite F1 in D; cbn [obind omap at_line] in D; [injection D as <-; destruct (NP _ _ eq_refl)|].
    destruct (F w1) as [F2|((y, w2) & F2)]; rewrite F2 in D; cbn [obind omap at_line] in D; [injection D as <-; destruct (NP _ _ eq_refl)|].
    destruct (F w2) as [F3|((z, w3) & F3)]; rewrite F3 in D; cbn [obind omap at_line] in D; [injection D as <-; destruct (NP _ _ eq_refl)|discriminate].
Qed.
Print Assumptions C111_ptx.
Theorem C111_psl : forall s a s', psl_next s = (a, s') -> a = None \/ (exists e, a = Some (Err e)) -> forall n, answers psl_next n s' = repeat None n.
Proof.
  intros s a s' N D. apply answers_done. assert (X : psl_done s' = true); [|unfold psl_next; rewrite X; reflexivity]. unfold psl_next in N. destruct (psl_done s) eqn:DN; [injection N as _ <-; exact DN|].
  destruct (if psl_init s then _ else _) as [s1|e|]; [|injection N as _ <-; reflexivity..]. destruct (psl_counts s1) as [s2|e|]; [|injection N as _ <-; reflexivity..]. destruct (_ =? 0)%Z; [injection N as _ <-; reflexivity|].
  destruct (psl_point _) as [(p, r)|e|]; [|injection N as _ <-; reflexivity..]. injection N as <- _. destruct D as [D|(e & D)]; discriminate.
Qed.
Print Assumptions C111_psl.
Example C111_case : answers (ptx_next demo) 5 (ptx_new (unlines (firstn 10 (ptx_example "0 0 0 1") ++ [str "1 2"; str "4 5 6"]))) =
  [Some (Ok (DReserve 2)); Some (Err (WLine 11 (str "1 2") PtxPoint)); Some (Ok (DData (fp3 9 5 6))); None; None] /\ answers psl_next 3 (psl_new [nl]) = [Some (Err PslAccessFile); None; None].
Proof. split; vmeq. Qed.
