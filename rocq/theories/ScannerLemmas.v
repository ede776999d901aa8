(** Proofs about the formats of scanners. *)
From Verif Require Import Base BaseLemmas Num GeomSpec VecModel MatrixModel MatrixLemmas IoModel IoSpec IoLemmas ByteModel ByteSpec ByteLemmas MeshModel PlyModel PlySpec PlyLemmas PlyTotalLemmas ScanModel ScanSpec ScanLemmas ObjOffLemmas GcodeLemmas ScannerModel ScannerSpec.
From Coq Require Import Lia ZifyBool ZifyNat ZifyN.
Ltac Zify.zify_post_hook ::= Z.div_mod_to_equations.
Local Open Scope nat_scope.

(** ** numbers *)
Lemma signed_bytes b z : i32_bytes b z -> to_signed 4 (le_value b) = z.
Proof.
  intros (L & R & E). rewrite (encodes_unique _ _ _ _ (le_encodes b) E). unfold to_signed. change (2 ^ (8 * N.of_nat 4 - 1))%N with 2147483648%N. change (2 ^ (8 * Z.of_nat 4))%Z with 4294967296%Z. change (2 ^ 32)%Z with 4294967296%Z in *. change (2 ^ 31)%Z with 2147483648%Z in *.
  destruct (N.ltb_spec (Z.to_N (z mod 4294967296)) 2147483648); lia.
Qed.
Lemma read_i32 b z r : i32_bytes b z -> psl_i32 (b ++ r) = Ok (z, r).
Proof. intros B. pose proof (signed_bytes b z B) as S. destruct B as (L & _). unfold psl_i32, read_signed. rewrite (read_uint_app Little 4 b r L), S. reflexivity. Qed.
Lemma skip_app n b r : length b = n -> psl_skip n (b ++ r) = Ok r.
Proof. intros L. unfold psl_skip. rewrite (take_app n b r L). reflexivity. Qed.
Lemma read_f32_bytes b x r : f32_bytes b x -> psl_f32 (b ++ r) = Ok (x, r).
Proof. intros (L & v & E & ->). unfold psl_f32, read_f32. rewrite (read_uint_app Little 4 b r L), (encodes_unique _ _ _ _ (le_encodes b) E). reflexivity. Qed.
Lemma read_point b p r : point_bytes b p -> psl_point (b ++ r) = Ok (p, r).
Proof.
  intros (bx & by_ & bz & -> & X & Y & Z). unfold psl_point. rewrite <- !app_assoc, (read_f32_bytes _ _ _ X). cbn [obind]. rewrite (read_f32_bytes _ _ _ Y). cbn [obind]. rewrite (read_f32_bytes _ _ _ Z). destruct p. reflexivity.
Qed.
(** a skipped part in pieces *)
Lemma cut {A} n m (l : list A) : length l = n + m -> exists a b, l = a ++ b /\ length a = n /\ length b = m.
Proof. intros L. exists (firstn n l), (skipn n l). rewrite firstn_skipn, firstn_length, skipn_length. split; [reflexivity|lia]. Qed.

(** ** psl *)
Lemma psl_header_ok h n m z r : length h = 136 -> i32_bytes n z -> length m = 372 -> psl_header (h ++ n ++ m ++ r) = Ok (z, r).
Proof.
  intros H N M. destruct (cut 4 132 h H) as (h1 & h' & -> & H1 & H'). destruct (cut 4 128 h' H') as (h2 & h3 & -> & H2 & H3). destruct (cut 4 368 m M) as (m1 & m2 & -> & M1 & M2).
  unfold psl_header. rewrite <- !app_assoc, (skip_app 4) by exact H1. cbn [obind].
  assert (G : forall b s, length b = 4 -> exists z, psl_i32 (b ++ s) = Ok (z, s)) by (intros b s L; unfold psl_i32, read_signed; rewrite (read_uint_app Little 4 b s L); eexists; reflexivity).
  destruct (G h2 (h3 ++ n ++ m1 ++ m2 ++ r) H2) as (z1 & ->). cbn [obind]. rewrite (skip_app 128) by exact H3. cbn [obind]. rewrite (read_i32 n z _ N). cbn [obind]. destruct (G m1 (m2 ++ r) M1) as (z2 & ->). cbn [obind]. rewrite (skip_app 368) by exact M2. reflexivity.
Qed.
Lemma psl_pass_ok n m z r : i32_bytes n z -> length m = 60 -> psl_pass (n ++ m ++ r) = Ok (z, r).
Proof.
  intros N M. destruct (cut 4 56 m M) as (m1 & m2 & -> & M1 & M2). unfold psl_pass. rewrite <- !app_assoc, (read_i32 n z _ N). cbn [obind].
  unfold psl_i32, read_signed. rewrite (read_uint_app Little 4 m1 _ M1). cbn [ok_or obind]. rewrite (skip_app 56) by exact M2. reflexivity.
Qed.
Lemma psl_line_ok n m z r : i32_bytes n z -> length m = 60 -> psl_line (n ++ m ++ r) = Ok (z, r).
Proof.
  intros N M. destruct (cut 12 48 m M) as (m1 & m2 & -> & M1 & M2). unfold psl_line. rewrite <- !app_assoc, (read_i32 n z _ N). cbn [obind]. rewrite (skip_app 12) by exact M1. cbn [obind]. rewrite (skip_app 48) by exact M2. reflexivity.
Qed.
Lemma psl_skip_np n s : psl_skip n s <> Panic. Proof. unfold psl_skip. destruct (take_bytes n s) as [(a, b)|]; discriminate. Qed.
Lemma psl_i32_np s : psl_i32 s <> Panic. Proof. unfold psl_i32. destruct (read_signed Little 4 s); discriminate. Qed.
Lemma psl_header_np s : psl_header s <> Panic.
Proof. unfold psl_header. apply obind_np; [apply psl_skip_np|]. intros a. apply obind_np; [apply psl_i32_np|]. intros (b, c). apply obind_np; [apply psl_skip_np|]. intros d. apply obind_np; [apply psl_i32_np|]. intros (e, f). apply obind_np; [apply psl_i32_np|]. intros (g, h). apply obind_np; [apply psl_skip_np|]. discriminate. Qed.
Lemma psl_pass_np s : psl_pass s <> Panic.
Proof. unfold psl_pass. apply obind_np; [apply psl_i32_np|]. intros (b, c). apply obind_np; [apply psl_i32_np|]. intros (e, f). apply obind_np; [apply psl_skip_np|]. discriminate. Qed.
Lemma psl_line_np s : psl_line s <> Panic.
Proof. unfold psl_line. apply obind_np; [apply psl_i32_np|]. intros (b, c). apply obind_np; [apply psl_skip_np|]. intros d. apply obind_np; [apply psl_skip_np|]. discriminate. Qed.
Lemma psl_f32_np s : psl_f32 s <> Panic. Proof. unfold psl_f32. apply obind_np; [destruct (read_f32 Little s); discriminate|]. intros (x, r). discriminate. Qed.
Lemma psl_point_np s : psl_point s <> Panic.
Proof. unfold psl_point. apply obind_np; [apply psl_f32_np|]. intros (x, r). apply obind_np; [apply psl_f32_np|]. intros (y, r1). apply obind_np; [apply psl_f32_np|]. intros (z, r2). discriminate. Qed.
Lemma psl_counts_np s : psl_counts s <> Panic.
Proof.
  destruct s as [read d i passes lines points]. unfold psl_counts. apply obind_np; [destruct (_ && _); [apply psl_pass_np|discriminate]|]. intros (l, r). apply obind_np; [destruct (_ && _); [apply psl_line_np|discriminate]|]. intros (p, r1). discriminate.
Qed.
Lemma psl_next_np s : fst (psl_next s) <> Some Panic.
Proof.
  unfold psl_next. destruct (psl_done s); [discriminate|]. destruct (if psl_init s then _ else _) as [s1|e|] eqn:H.
  - pose proof (psl_counts_np s1). destruct (psl_counts s1) as [s2|e|]; [|discriminate|congruence]. destruct (_ =? 0)%Z; [discriminate|]. pose proof (psl_point_np (psl_read (psl_reduce s2))). destruct (psl_point _) as [(p, r)|e|]; [discriminate|discriminate|congruence].
  - discriminate.
  - destruct (psl_init s); [discriminate|]. pose proof (psl_header_np (psl_read s)). destruct (psl_header (psl_read s)) as [(n, r)|e|]; [discriminate|discriminate|congruence].
Qed.
(** after a point *)
Lemma psl_second s : psl_init s = true -> (0 < psl_lines s)%Z \/ psl_points s <> 0%Z -> forall p s', psl_next s <> (Some (Ok p), s').
Proof.
  intros I H p s'. unfold psl_next. destruct (psl_done s); [discriminate|]. rewrite I. destruct s as [read d i passes lines points]. cbn [psl_lines psl_points] in H. unfold psl_counts.
  destruct ((lines =? 0)%Z && (passes >? 0)%Z) eqn:C.
  - assert (PN : points <> 0%Z) by lia. destruct (psl_pass read) as [(l, r)|e|]; cbn [obind]; [|discriminate|discriminate]. destruct (points =? 0)%Z eqn:E; [lia|]. cbn [andb obind psl_points]. discriminate.
  - cbn [obind]. replace (0 >? 0)%Z with false by reflexivity. rewrite Bool.andb_false_r. cbn [obind psl_points]. discriminate.
Qed.
Lemma psl_first file p s : psl_next (psl_new file) = (Some (Ok p), s) -> psl_init s = true /\ ((0 < psl_lines s)%Z \/ psl_points s <> 0%Z).
Proof.
  unfold psl_next, psl_new. cbn [psl_done psl_init psl_read psl_lines psl_points]. destruct (psl_header file) as [(n, r)|e|]; cbn [obind]; [|discriminate|discriminate]. unfold psl_counts. change (0 =? 0)%Z with true. cbn [andb].
  destruct (if (n >? 0)%Z then psl_pass r else Ok (0%Z, r)) as [(l, r1)|e|]; cbn [obind]; [|discriminate|discriminate].
  destruct (l >? 0)%Z eqn:L; [|cbn [obind psl_points]; discriminate]. destruct (psl_line r1) as [(q, r2)|e|]; cbn [obind psl_points]; [|discriminate|discriminate].
  destruct (q =? 0)%Z eqn:Q; [discriminate|]. destruct (psl_point (psl_read (psl_reduce _))) as [(p', r3)|e|]; [|discriminate|discriminate]. intros X. injection X as _ <-. unfold psl_reduce.
  destruct (q >? 0)%Z eqn:Q2; [cbn; split; [reflexivity|left; lia]|]. rewrite L. cbn. split; [reflexivity|]. right. lia.
Qed.

(** ** ptx *)
Lemma unity_eqb m : m4_eqb m m4_identity = unity m.
Proof. destruct m. unfold m4_eqb, unity. cbn -[neqb n0 n1]. rewrite Bool.andb_true_r, !Bool.andb_assoc. reflexivity. Qed.
Lemma placed_model m p : (if negb (m4_eqb m m4_identity) then pt3_multiply_m p m else p) = placed m p.
Proof. rewrite unity_eqb. unfold placed. destruct (unity m); reflexivity. Qed.
Lemma row_ok ft t r : row_text ft t r -> ptx_row ft t = Ok r.
Proof.
  destruct r as (((a, b), c), d). intros (wa & wb & wc & wd & rest & Sp & A & B & C & D). apply blank_words in Sp. unfold ptx_row. rewrite Sp. cbn [next_f64]. rewrite A. cbn [obind next_f64]. rewrite B. cbn [obind next_f64]. rewrite C. cbn [obind next_f64]. rewrite D. reflexivity.
Qed.
Lemma ptx_row_np ft t : ptx_row ft t <> Panic.
Proof. unfold ptx_row. apply obind_np; [apply f64_np|]. intros (a, w). apply obind_np; [apply f64_np|]. intros (b, w1). apply obind_np; [apply f64_np|]. intros (c, w2). apply obind_np; [apply f64_np|]. intros (d, w3). discriminate. Qed.
Lemma row_err ft t : (forall r, ~ row_text ft t r) -> ptx_row ft t = Err PtxMatrix.
Proof.
  intros N. unfold ptx_row. pose proof (proj2 (blank_words t _) eq_refl) as Sp. destruct (to_words t) as [|wa ws]; [reflexivity|]. cbn [next_f64]. destruct (f64_of ft wa) as [a|] eqn:A; [|reflexivity]. cbn [obind]. destruct ws as [|wb ws]; [reflexivity|]. cbn [next_f64].
  destruct (f64_of ft wb) as [b|] eqn:B; [|reflexivity]. cbn [obind]. destruct ws as [|wc ws]; [reflexivity|]. cbn [next_f64]. destruct (f64_of ft wc) as [c|] eqn:C; [|reflexivity]. cbn [obind]. destruct ws as [|wd ws]; [reflexivity|]. cbn [next_f64].
  destruct (f64_of ft wd) as [d|] eqn:D; [|reflexivity]. destruct (N (a, b, c, d)). exists wa, wb, wc, wd, ws. repeat (split; [assumption|]). assumption.
Qed.
Lemma fetch_cons i raw ls : ptx_fetch i (raw :: ls) = Ok (trim_line raw, ls). Proof. reflexivity. Qed.
Lemma matrix_line_ok ft i raw ls r : row_text ft (trim_line raw) r -> ptx_matrix_line ft i (raw :: ls) = Ok (r, ls).
Proof. intros R. unfold ptx_matrix_line. rewrite fetch_cons. cbn [obind]. rewrite (row_ok ft _ r R). reflexivity. Qed.
(** a header *)
Lemma ptx_header_next ft raws hs columns rows m ls i u mu : map trim_line raws = hs -> ptx_head ft hs columns rows m ->
  ptx_next ft (mkptx (raws ++ ls) false i 0 u mu) = (Some (Ok (DReserve (w64 (rows * columns)))), mkptx ls false (i + lenN raws) (w64 (rows * columns)) (negb (m4_eqb m m4_identity)) m).
Proof.
  intros M (c & r & l1 & l2 & l3 & l4 & t1 & t2 & t3 & t4 & -> & C & R & T1 & T2 & T3 & T4).
  destruct raws as [|rc [|rr [|r1 [|r2 [|r3 [|r4 [|r5 [|r6 [|r7 [|r8 [|r9 raws]]]]]]]]]]]; try discriminate M. injection M as E1 E2 _ _ _ _ E3 E4 E5 E6. cbn [app].
  unfold ptx_next. change (0 =? 0)%N with true. cbn [next_line]. rewrite E1, C. cbn [obind]. unfold ptx_header. rewrite fetch_cons. cbn [obind]. rewrite E2, R. cbn [ok_or at_line obind]. rewrite !fetch_cons. cbn [obind]. rewrite !fetch_cons. cbn [obind]. rewrite !fetch_cons. cbn [obind]. rewrite !fetch_cons. cbn [obind].
  rewrite (matrix_line_ok ft _ r5 _ _ ltac:(rewrite E3; exact T1)). cbn [obind]. rewrite (matrix_line_ok ft _ r6 _ _ ltac:(rewrite E4; exact T2)). cbn [obind].
  rewrite (matrix_line_ok ft _ r7 _ _ ltac:(rewrite E5; exact T3)). cbn [obind]. rewrite (matrix_line_ok ft _ r8 _ _ ltac:(rewrite E6; exact T4)). cbn [obind ptx_left]. destruct m. cbn. 
  replace (i + 1 + 9)%N with (i + 10)%N by lia. reflexivity.
Qed.
(** points *)
Lemma ptx_points ft m qs : forall raws vs, map trim_line raws = vs -> Forall2 (point_text ft) vs qs -> forall ls i n, (lenN qs <= n)%N ->
  yields (ptx_next ft) (mkptx (raws ++ ls) false i n (negb (m4_eqb m m4_identity)) m) (map DData (map (placed m) qs)) (mkptx ls false (i + lenN raws) (n - lenN qs) (negb (m4_eqb m m4_identity)) m).
Proof.
  induction qs as [|q qs IH]; intros raws vs M F ls i n L.
  - inversion F; subst. destruct raws; [|discriminate]. unfold lenN. cbn [length app map]. rewrite N.add_0_r, N.sub_0_r. constructor.
  - inversion F as [|v ? vs' ? V F' E1 E2]; subst. destruct raws as [|raw raws]; [discriminate|]. cbn [map] in E1. injection E1 as -> ->. cbn [map app]. assert (LE : lenN (q :: qs) = (lenN qs + 1)%N) by (unfold lenN; cbn [length]; lia). rewrite LE in *. eapply YCons.
    + unfold ptx_next. destruct (N.eqb_spec n 0); [lia|]. rewrite fetch_cons. cbv beta iota. unfold ptx_point. rewrite (point_ok ft PtxPoint _ q V). cbn [obind omap at_line]. rewrite placed_model. reflexivity.
    + replace (i + lenN (raw :: raws))%N with (i + 1 + lenN raws)%N by (unfold lenN; cbn [length]; lia). replace (n - (lenN qs + 1))%N with (n - 1 - lenN qs)%N by lia. apply (IH raws (map trim_line raws)); [reflexivity|exact F'|lia].
Qed.
Lemma ptx_block_run ft raws b ps ls i u mu : map trim_line raws = b -> ptx_block ft b ps -> (24 * lenN ps < 2 ^ 63)%N ->
  exists u' mu', yields (ptx_next ft) (mkptx (raws ++ ls) false i 0 u mu) (DReserve (lenN ps) :: map DData ps) (mkptx ls false (i + lenN raws) 0 u' mu').
Proof.
  intros M (hs & vs & columns & rows & m & qs & -> & H & V & Q & ->) SZ. destruct (map_eq_app _ _ _ _ M) as (rh & rv & -> & MH & MV).
  assert (LQ : lenN (map (placed m) qs) = (rows * columns)%N) by (rewrite <- Q; unfold lenN; rewrite map_length; reflexivity). rewrite LQ in *. assert (W : w64 (rows * columns) = (rows * columns)%N) by (unfold w64; apply N.mod_small; lia).
  exists (negb (m4_eqb m m4_identity)), m. eapply YCons; [rewrite <- app_assoc; rewrite (ptx_header_next ft rh hs columns rows m (rv ++ ls) i u mu MH H), W; reflexivity|].
  pose proof (ptx_points ft m qs rv vs MV V ls (i + lenN rh) (rows * columns) ltac:(lia)) as Y. rewrite Q, N.sub_diag in Y. rewrite lenN_app, N.add_assoc. exact Y.
Qed.
Lemma ptx_blocks_run ft bs pss : Forall2 (ptx_block ft) bs pss -> (24 * lenN (concat pss) < 2 ^ 63)%N -> forall raws ls i u mu, map trim_line raws = concat bs ->
  exists u' mu', yields (ptx_next ft) (mkptx (raws ++ ls) false i 0 u mu) (flat_map (fun ps => DReserve (lenN ps) :: map DData ps) pss) (mkptx ls false (i + lenN raws) 0 u' mu').
Proof.
  induction 1 as [|b ps bs pss B F IH]; intros SZ raws ls i u mu M.
  - destruct raws; [|discriminate]. exists u, mu. cbn [app flat_map]. unfold lenN. cbn [length]. rewrite N.add_0_r. constructor.
  - cbn [concat] in *. destruct (map_eq_app _ _ _ _ M) as (rb & rs & -> & MB & MS). rewrite lenN_app in SZ. destruct (ptx_block_run ft rb b ps (rs ++ ls) i u mu MB B ltac:(lia)) as (u1 & m1 & Y1). destruct (IH ltac:(lia) rs ls (i + lenN rb)%N u1 m1 MS) as (u2 & m2 & Y2).
    exists u2, m2. cbn [flat_map]. rewrite <- app_assoc. rewrite lenN_app, N.add_assoc. eapply yields_app; eassumption.
Qed.
Lemma same_length {A B} (R : A -> B -> Prop) l l' : Forall2 R l l' -> length l = length l'. Proof. induction 1; cbn [length]; congruence. Qed.
Lemma block_items ft bs pss : Forall2 (ptx_block ft) bs pss -> length (flat_map (fun ps => DReserve (lenN ps) :: map DData ps) pss) <= length (concat bs).
Proof.
  induction 1 as [|b ps bs pss (hs & vs & columns & rows & m & qs & -> & H & V & Q & ->) F IH]; [cbn; lia|]. cbn [flat_map concat]. rewrite !app_length. cbn [length]. rewrite !map_length. rewrite (same_length _ _ _ V).
  destruct H as (c & r & l1 & l2 & l3 & l4 & t1 & t2 & t3 & t4 & -> & _). cbn [length]. lia.
Qed.
(** After complete blocks. *)
Lemma ptx_after ft ls ts bs pss rest k : Forall2 line_of ls ts -> ts = concat bs ++ rest -> Forall2 (ptx_block ft) bs pss -> (24 * lenN (concat pss) < 2 ^ 63)%N -> length (unlines ls) < k ->
  exists k' raws u mu, length raws < k' /\ map trim_line raws = rest /\ load_ptx ft k (unlines ls) = fold_loop (ptx_next ft) push_data k' (mkptx raws false (lenN (concat bs)) 0 u mu) (concat pss).
Proof.
  intros L E B SZ K. destruct (lines_trim ls ts L) as (IL & TR & RL). rewrite E in TR. destruct (map_eq_app _ _ _ _ TR) as (rb & rr & EQ & MB & MR).
  destruct (ptx_blocks_run ft bs pss B SZ rb rr 0%N false m4_identity MB) as (u & mu & Y).
  pose proof (block_items ft bs pss B) as BI. pose proof (raw_count (unlines ls)) as RC. rewrite RL, EQ, app_length in RC. assert (LB : length rb = length (concat bs)) by (rewrite <- MB, map_length; reflexivity).
  exists (k - length (flat_map (fun ps => DReserve (lenN ps) :: map DData ps) pss)), rr, u, mu. split; [lia|]. split; [exact MR|]. unfold load_ptx, ptx_new. rewrite RL, EQ.
  replace k with (length (flat_map (fun ps : list (pt3 F64) => DReserve (lenN ps) :: map DData ps) pss) + (k - length (flat_map (fun ps : list (pt3 F64) => DReserve (lenN ps) :: map DData ps) pss))) at 1 by lia.
  rewrite (yields_fold _ _ _ _ _ Y [] (concat pss) _ (pts_folds pss [] ltac:(exact SZ))). unfold lenN. rewrite LB. rewrite N.add_0_l. reflexivity.
Qed.
Lemma ptx_fetch_np i ls : ptx_fetch i ls <> Panic. Proof. unfold ptx_fetch. destruct (next_line ls) as [(x, y)|]; discriminate. Qed.
Lemma ptx_matrix_np ft i ls : ptx_matrix_line ft i ls <> Panic.
Proof. unfold ptx_matrix_line. apply obind_np; [apply ptx_fetch_np|]. intros (l, r). apply obind_np; [|discriminate]. pose proof (ptx_row_np ft l). destruct (ptx_row ft l); cbn [at_line]; congruence. Qed.
Lemma ptx_header_np ft c i ls : ptx_header ft c i ls <> Panic.
Proof.
  unfold ptx_header. apply obind_np; [apply ptx_fetch_np|]. intros (l0, r0). apply obind_np; [destruct (usize_of l0); discriminate|]. intros rows.
  do 4 (apply obind_np; [apply ptx_fetch_np|]; intros (?, ?)). do 4 (apply obind_np; [apply ptx_matrix_np|]; intros ((((?, ?), ?), ?), ?)). discriminate.
Qed.
Lemma ptx_point_np ft l u m : ptx_point ft l u m <> Panic.
Proof. unfold ptx_point. apply obind_np; [|discriminate]. unfold three_f64. apply obind_np; [apply f64_np|]. intros (a, w). apply obind_np; [apply f64_np|]. intros (b, w1). apply obind_np; [apply f64_np|]. intros (c, w2). discriminate. Qed.
Lemma ptx_next_np ft s : fst (ptx_next ft s) <> Some Panic.
Proof.
  destruct s as [ls d i todo u m]. unfold ptx_next. destruct d; [discriminate|]. destruct (todo =? 0)%N.
  - destruct (next_line ls) as [(l, r)|]; [|discriminate]. destruct (usize_of l) as [c|]; cbn [obind]; [|discriminate]. pose proof (ptx_header_np ft c (i + 1) r). destruct (ptx_header ft c (i + 1) r); [discriminate|discriminate|congruence].
  - pose proof (ptx_fetch_np i ls). destruct (ptx_fetch i ls) as [(l, r)|e|]; [|discriminate|congruence]. cbn [fst]. pose proof (ptx_point_np ft l u m). destruct (ptx_point ft l u m); cbn [omap at_line]; congruence.
Qed.
Lemma next_line_less ls l r : next_line ls = Some (l, r) -> exists raw, ls = raw :: r /\ l = trim_line raw.
Proof. unfold next_line. destruct ls as [|raw ls]; [discriminate|]. intros X. injection X as <- <-. exists raw. auto. Qed.
Lemma ptx_fetch_ok i ls l r : ptx_fetch i ls = Ok (l, r) -> exists raw, ls = raw :: r /\ l = trim_line raw.
Proof. unfold ptx_fetch. destruct (next_line ls) as [(l', r')|] eqn:N; [|discriminate]. intros X. injection X as -> ->. exact (next_line_less _ _ _ N). Qed.
Lemma ptx_matrix_ok ft i ls x r : ptx_matrix_line ft i ls = Ok (x, r) -> exists raw, ls = raw :: r.
Proof. unfold ptx_matrix_line. destruct (ptx_fetch i ls) as [(l, r')|e|] eqn:F; cbn [obind]; [|discriminate|discriminate]. destruct (at_line _ _ _); cbn [obind]; [|discriminate|discriminate]. intros X. injection X as _ ->. destruct (ptx_fetch_ok _ _ _ _ F) as (raw & -> & _). exists raw. reflexivity. Qed.
(** What a header that is accepted says. *)
Lemma ptx_header_inv ft c i ls s : ptx_header ft c i ls = Ok s -> exists raw rows more, ls = raw :: more ++ ptx_read s /\ length more = 8 /\ usize_of (trim_line raw) = Some rows /\ ptx_left s = w64 (rows * c).
Proof.
  unfold ptx_header. intros H.
  destruct (ptx_fetch i ls) as [(l0, r0)|e|] eqn:F0; cbn [obind] in H; [|discriminate|discriminate]. apply ptx_fetch_ok in F0 as (raw & -> & ->).
  destruct (usize_of (trim_line raw)) as [rows|] eqn:U; cbn [ok_or at_line obind] in H; [|discriminate].
  destruct (ptx_fetch _ r0) as [(l1, r1)|e|] eqn:F1; cbn [obind] in H; [|discriminate|discriminate]. apply ptx_fetch_ok in F1 as (w1 & -> & _).
  destruct (ptx_fetch _ r1) as [(l2, r2)|e|] eqn:F2; cbn [obind] in H; [|discriminate|discriminate]. apply ptx_fetch_ok in F2 as (w2 & -> & _).
  destruct (ptx_fetch _ r2) as [(l3, r3)|e|] eqn:F3; cbn [obind] in H; [|discriminate|discriminate]. apply ptx_fetch_ok in F3 as (w3 & -> & _).
  destruct (ptx_fetch _ r3) as [(l4, r4)|e|] eqn:F4; cbn [obind] in H; [|discriminate|discriminate]. apply ptx_fetch_ok in F4 as (w4 & -> & _).
  destruct (ptx_matrix_line ft _ r4) as [((((?, ?), ?), ?), r5)|e|] eqn:F5; cbn [obind] in H; [|discriminate|discriminate]. apply ptx_matrix_ok in F5 as (w5 & ->).
  destruct (ptx_matrix_line ft _ r5) as [((((?, ?), ?), ?), r6)|e|] eqn:F6; cbn [obind] in H; [|discriminate|discriminate]. apply ptx_matrix_ok in F6 as (w6 & ->).
  destruct (ptx_matrix_line ft _ r6) as [((((?, ?), ?), ?), r7)|e|] eqn:F7; cbn [obind] in H; [|discriminate|discriminate]. apply ptx_matrix_ok in F7 as (w7 & ->).
  destruct (ptx_matrix_line ft _ r7) as [((((?, ?), ?), ?), r8)|e|] eqn:F8; cbn [obind] in H; [|discriminate|discriminate]. apply ptx_matrix_ok in F8 as (w8 & ->).
  injection H as <-. cbn [ptx_read ptx_left]. exists raw, rows, [w1; w2; w3; w4; w5; w6; w7; w8]. cbn [app length]. auto.
Qed.
(** Two lines of a list of lines that follow each other and are the counts. *)
Definition counts_in (ls : list bytes) (c r : N) : Prop := exists l1 a b l2, ls = l1 ++ a :: b :: l2 /\ usize_of (trim_line a) = Some c /\ usize_of (trim_line b) = Some r.
Definition ends_with (ls raws : list bytes) : Prop := exists l, raws = l ++ ls.
Lemma ends_later a b raws : ends_with (a ++ b) raws -> ends_with b raws. Proof. intros (l & ->). exists (l ++ a). rewrite app_assoc. reflexivity. Qed.
Lemma ptx_next_inv ft raws s a s' : ends_with (ptx_read s) raws -> ptx_next ft s = (Some (Ok a), s') ->
  length (ptx_read s') < length (ptx_read s) /\ ends_with (ptx_read s') raws /\ (forall n, a = DReserve n -> exists c r, counts_in raws c r /\ n = w64 (r * c)).
Proof.
  destruct s as [ls d i todo u m]. cbn [ptx_read]. unfold ptx_next. intros EW. destruct d; [discriminate|]. destruct (todo =? 0)%N.
  - destruct (next_line ls) as [(l, r)|] eqn:N; [|discriminate]. apply next_line_less in N as (raw & -> & ->). destruct (usize_of (trim_line raw)) as [c|] eqn:U; cbn [obind]; [|discriminate].
    destruct (ptx_header ft c (i + 1) r) as [s1|e|] eqn:H; [|discriminate|discriminate]. intros X. injection X as <- <-. destruct (ptx_header_inv _ _ _ _ _ H) as (rr & rows & more & -> & LM & UR & LE).
    cbn [length]. rewrite app_length. split; [lia|]. split; [apply (ends_later (raw :: rr :: more)); exact EW|]. intros n X. injection X as <-. exists c, rows. split; [|exact LE]. destruct EW as (l & ->). exists l, raw, rr, (more ++ ptx_read s1). auto.
  - destruct (ptx_fetch i ls) as [(l, r)|e|] eqn:F; [|discriminate|discriminate]. apply ptx_fetch_ok in F as (raw & -> & ->). destruct (ptx_point ft (trim_line raw) u m) as [p|e|]; cbn [omap at_line]; [|discriminate|discriminate].
    intros X. injection X as <- <-. cbn [ptx_read length]. split; [lia|]. split; [apply (ends_later [raw]); exact EW|discriminate].
Qed.
