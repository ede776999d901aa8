(** Theorems about the las format. *)
From Verif Require Import Base BaseLemmas Num GeomSpec VecModel MatrixModel MatrixLemmas IoModel IoSpec IoLemmas ByteModel ByteSpec ByteLemmas MeshModel PlyModel PlySpec PlyLemmas PlyTotalLemmas ScanModel ScanSpec ScanLemmas ObjOffLemmas GcodeLemmas ScannerModel ScannerSpec ScannerLemmas ScannerProps LasLemmas.
From Coq Require Import Lia ZifyBool ZifyNat ZifyN.
Local Open Scope nat_scope.

(** ** C112 complete files *)
(** Every record gives its point, in order. *)
Theorem C112_points : forall file i k, las_says file i -> las_supported i -> (12 <= li_length i)%N -> (24 * las_count i < 2 ^ 63)%N -> (forall j, (j < las_count i)%N -> las_present file i j) -> length file < k ->
  exists ps, load_las k file = Some (ps, Ok tt) /\ lenN ps = las_count i /\ forall j p, nth_error ps (N.to_nat j) = Some p -> las_point_at file i j p.
Proof.
  intros file i k S SU L SZ P K. set (n := N.to_nat (las_count i)). assert (EN : N.of_nat n = las_count i) by (subst n; lia). pose proof (present_count file i n L S ltac:(intros l LL; apply P; lia)) as PC.
  exists (las_points file i 0 n). split; [|split].
  - apply (las_load file i n k); [exact S|exact SU|exact SZ|exact L|intros l LL; apply P; lia|lia| |lia]. rewrite las_next_end by lia. reflexivity.
  - unfold lenN. rewrite las_points_len. exact EN.
  - intros j p H. pose proof (proj1 (nth_error_Some _ _) (eq_ind_r (fun x => x <> None) (fun X => eq_ind (Some p) (fun x => match x with None => False | _ => True end) I None X) H)) as LT. rewrite las_points_len in LT.
    apply las_points_nth in H. subst p. replace (0 + N.of_nat (N.to_nat j))%N with j by lia. apply las_point_spec; [apply P; lia|exact L].
Qed.
Print Assumptions C112_points.
(** A file with two points, in which the numbers start with 1, 2, 3 and 100, 0, -1; scale 0.5, offsets 10, 20, 30. *)
Definition le8 (n : N) : bytes := le4 (n mod 4294967296) ++ le4 (n / 4294967296).
Definition las_example (major minor length legacy long : N) (tail : bytes) : bytes :=
  str "LASF" ++ zeros 20 ++ map ascii_of_N [major; minor] ++ zeros 70 ++ le4 375 ++ zeros 4 ++ map ascii_of_N [0%N] ++ map ascii_of_N [length mod 256; length / 256]%N ++ le4 legacy ++ zeros 20 ++
  le8 4602678819172646912 ++ le8 4602678819172646912 ++ le8 4602678819172646912 ++ le8 4621819117588971520 ++ le8 4626322717216342016 ++ le8 4629137466983448576 ++ zeros 68 ++ le8 long ++ zeros 120 ++ tail.
Definition las_records : bytes := le4 1 ++ le4 2 ++ le4 3 ++ zeros 2 ++ le4 100 ++ le4 0 ++ le4 4294967295 ++ zeros 2.
Definition las_content (length legacy long : N) : las_info := mkli 1 4 375 0 length legacy long (mk3 (lit 1 (-1)) (lit 1 (-1)) (lit 1 (-1))) (fp3 10 20 30).
Ltac num_now := split; [cbn; lia|encodes_now].
Ltac f64_now := eexists; split; [split; [cbn; lia|apply le_encodes]|vmeq].
Ltac says_now := split; [cbn; lia|]; do 7 (split; [num_now|]); do 5 (split; [f64_now|]); f64_now.
Example C112_case : las_says (las_example 1 4 14 2 0 las_records) (las_content 14 2 0) /\ las_supported (las_content 14 2 0) /\ (forall j, (j < las_count (las_content 14 2 0))%N -> las_present (las_example 1 4 14 2 0 las_records) (las_content 14 2 0) j) /\
  load_las 500 (las_example 1 4 14 2 0 las_records) = Some ([mk3 (lit 21 (-1)) (fz 21) (lit 63 (-1)); mk3 (fz 60) (fz 20) (lit 59 (-1))], Ok tt) /\
  load_las 500 (las_example 1 4 14 0 2 las_records) = Some ([mk3 (lit 21 (-1)) (fz 21) (lit 63 (-1)); mk3 (fz 60) (fz 20) (lit 59 (-1))], Ok tt).
Proof.
  split; [says_now|]. split; [cbv; intuition discriminate|]. split; [|split; vmeq]. intros j J. assert (J' : (j < 2)%N) by exact J. unfold las_present.
  replace (lenN (las_example 1 4 14 2 0 las_records)) with 403%N by (vm_compute; reflexivity). change (375 + (j + 1) * 14 <= 403)%N. lia.
Qed.

(** ** C113 the header *)
(** Files of less than 375 bytes, of versions after 1.4 and of unknown point formats all give the same error. *)
Theorem C113_header : forall file k, length file < 375 \/ (exists i, las_says file i /\ ~ las_supported i) -> 1 <= k -> load_las k file = Some ([], Err LasHeader).
Proof.
  intros file k D K. destruct k as [|k]; [lia|]. unfold load_las, las_new. cbn [fold_loop]. unfold las_next. destruct D as [S|(i & S & NS)].
  - rewrite (las_short file S). reflexivity.
  - rewrite (las_header_ok file i S). unfold las_supported in NS. destruct (N.ltb_spec 1 (li_major i)); [reflexivity|]. destruct (N.ltb_spec 4 (li_minor i)); [reflexivity|]. destruct (N.ltb_spec 10 (li_format i)); [reflexivity|]. destruct NS. lia.
Qed.
Print Assumptions C113_header.
(** The header alone decides: with a supported header of 375 bytes there is no such error. *)
Theorem C113_iff : forall file k, length file + 2 < k -> (exists ps, load_las k file = Some (ps, Err LasHeader)) <-> length file < 375 \/ (exists i, las_says file i /\ ~ las_supported i).
Proof.
  intros file k K. split; [|intros H; exists []; apply C113_header; [exact H|lia]]. intros (ps & E). destruct (Nat.lt_ge_cases (length file) 375) as [S|B]; [left; exact S|]. destruct (las_exists file B) as (i & S). right. exists i. split; [exact S|]. intros SU.
  destruct k as [|k]; [lia|]. unfold load_las in E. cbn [fold_loop] in E. rewrite (las_start file i S SU) in E. cbn [push_data] in E. destruct (reserve _ _); [|discriminate].
  assert (G : forall k s acc, las_head s <> None -> fold_loop (las_next file) push_data k s acc <> Some (ps, Err LasHeader)).
  { clear. induction k as [|k IH]; intros [read d c h] acc H; [discriminate|]. cbn [fold_loop]. unfold las_next. destruct d; [discriminate|]. destruct h as [h|]; [|destruct (H eq_refl)]. destruct (c <? lh_n h)%N; [|discriminate].
    unfold las_fetch. destruct (take_bytes _ _) as [(b, r)|]; [|discriminate]. destruct (lh_length h <? 12)%N; [discriminate|]. cbn [push_data]. apply IH. discriminate. }
  refine (G k _ [] _ E). discriminate.
Qed.
Print Assumptions C113_iff.
(** A complete file of version 1.2 with two points: its header has 227 bytes, the whole file less than 375. *)
Theorem C113_refuted : exists file i, length file = 267 /\ num_at file 24 1 1 /\ num_at file 25 1 2 /\ num_at file 94 2 227 /\ num_at file 96 4 227 /\ num_at file 104 1 0 /\ num_at file 105 2 20 /\ num_at file 107 4 2 /\
  li_offset i = 227%N /\ li_length i = 20%N /\ (forall j, (j < 2)%N -> las_present file i j) /\ load_las 500 file = Some ([], Err LasHeader).
Proof.
  exists (str "LASF" ++ zeros 20 ++ map ascii_of_N [1; 2]%N ++ zeros 68 ++ map ascii_of_N [227; 0]%N ++ le4 227 ++ zeros 4 ++ map ascii_of_N [0; 20; 0]%N ++ le4 2 ++ zeros 20 ++ zeros 24 ++ zeros 24 ++ zeros 48 ++ zeros 40), (mkli 1 2 227 0 20 2 0 (fp3 0 0 0) (fp3 0 0 0)).
  split; [reflexivity|]. do 7 (split; [num_now|]). split; [reflexivity|]. split; [reflexivity|]. split; [|vmeq]. intros j J. unfold las_present. cbn [li_offset li_length].
  match goal with |- (_ <= lenN ?f)%N => replace (lenN f) with 267%N by (vm_compute; reflexivity) end. lia.
Qed.
Print Assumptions C113_refuted.
Example C113_case : las_says (las_example 2 0 14 2 0 las_records) (mkli 2 0 375 0 14 2 0 (mk3 (lit 1 (-1)) (lit 1 (-1)) (lit 1 (-1))) (fp3 10 20 30)) /\ load_las 500 (las_example 2 0 14 2 0 las_records) = Some ([], Err LasHeader) /\
  load_las 500 (firstn 374 (las_example 1 4 14 0 0 [])) = Some ([], Err LasHeader) /\ load_las 500 (las_example 1 4 14 0 0 []) = Some ([], Ok tt).
Proof. split; [says_now|]. split; [vmeq|]. split; vmeq. Qed.

(** ** C114 truncated files *)
(** The points before the first record that is not completely there, and an error. *)
Theorem C114_truncated : forall file i n k, las_says file i -> las_supported i -> (12 <= li_length i)%N -> (24 * las_count i < 2 ^ 63)%N -> (forall j, (j < n)%N -> las_present file i j) -> ~ las_present file i n -> (n < las_count i)%N -> length file < k ->
  exists ps, load_las k file = Some (ps, Err LasAccessFile) /\ lenN ps = n /\ forall j p, nth_error ps (N.to_nat j) = Some p -> las_point_at file i j p.
Proof.
  intros file i n0 k S SU L SZ P NP C K. set (n := N.to_nat n0). assert (EN : N.of_nat n = n0) by (subst n; lia). pose proof (present_count file i n L S ltac:(intros l LL; apply P; lia)) as PC.
  exists (las_points file i 0 n). split; [|split].
  - apply (las_load file i n k); [exact S|exact SU|exact SZ|exact L|intros l LL; apply P; lia|lia| |lia]. rewrite las_next_cut by (first [rewrite EN; exact NP|lia]). reflexivity.
  - unfold lenN. rewrite las_points_len. exact EN.
  - intros j p H. assert (LT : N.to_nat j < length (las_points file i 0 n)) by (apply nth_error_Some; rewrite H; discriminate). rewrite las_points_len in LT.
    apply las_points_nth in H. subst p. replace (0 + N.of_nat (N.to_nat j))%N with j by lia. apply las_point_spec; [apply P; lia|exact L].
Qed.
Print Assumptions C114_truncated.
Example C114_case : load_las 500 (las_example 1 4 14 2 0 (firstn 27 las_records)) = Some ([mk3 (lit 21 (-1)) (fz 21) (lit 63 (-1))], Err LasAccessFile) /\ ~ las_present (las_example 1 4 14 2 0 (firstn 27 las_records)) (las_content 14 2 0) 1.
Proof. split; [vmeq|]. unfold las_present. match goal with |- ~ (_ <= lenN ?f)%N => replace (lenN f) with 402%N by (vm_compute; reflexivity) end. cbn [las_content li_offset li_length]. lia. Qed.

(** ** C115 panics *)
(** With room for the points, reading panics exactly if there is a point to read, the records are too short for three coordinates, and the first one is there. *)
Theorem C115_iff : forall file i k, las_says file i -> las_supported i -> (24 * las_count i < 2 ^ 63)%N -> length file < k ->
  (exists ps, load_las k file = Some (ps, Panic)) <-> (0 < las_count i)%N /\ (li_length i < 12)%N /\ (las_present file i 0 \/ li_length i = 0%N).
Proof.
  intros file i k S SU SZ K.
  assert (SH : (li_length i < 12)%N -> load_las k file = match fst (las_next file (las_at file i 0)) with None => Some ([], Ok tt) | Some (Err e) => Some ([], Err e) | Some Panic => Some ([], Panic) | Some (Ok _) => None end).
  { intros L. destruct S as (B & S). pose proof (conj B S : las_says file i) as SS. destruct k as [|[|k]]; [lia|lia|]. unfold load_las. cbn [fold_loop]. rewrite (las_start file i SS SU), (push_reserve [] (las_count i) ltac:(exact SZ)).
    destruct (las_next file (las_at file i 0)) as [[[a|e|]|] s'] eqn:N; cbn [fst]; [|reflexivity..]. unfold las_next, las_at in N. cbn [las_head_of lh_n lh_length] in N. destruct (0 <? las_count i)%N; [|discriminate]. unfold las_fetch in N. cbn [las_head_of lh_length] in N. destruct (take_bytes _ _) as [(b, r)|]; [|discriminate].
    destruct (N.ltb_spec (li_length i) 12); [discriminate|lia]. }
  split.
  - intros (ps & E). destruct (N.lt_ge_cases (li_length i) 12) as [L|L].
    + rewrite (SH L) in E. assert (C : (0 < las_count i)%N) by (destruct (N.lt_ge_cases 0 (las_count i)) as [X|X]; [exact X|rewrite las_next_end in E by lia; discriminate]). split; [exact C|]. split; [exact L|].
      destruct (N.eq_dec (li_length i) 0) as [Z|NZ]; [right; exact Z|left]. unfold las_present. destruct (N.le_gt_cases (li_offset i + (0 + 1) * li_length i) (lenN file)) as [Y|Y]; [exact Y|]. rewrite las_next_cut in E by (first [unfold las_present; lia|lia]). discriminate.
    + exfalso. assert (H : forall n, (forall l, (l < N.of_nat n)%N -> las_present file i l) -> (N.of_nat n <= las_count i)%N -> False).
      2: { apply (H 0); intros; lia. }
      assert (BD : forall n, (forall l, (l < N.of_nat n)%N -> las_present file i l) -> n <= length file) by (intros n P; pose proof (present_count file i n L S P); lia).
      assert (G : forall d n, length file - n <= d -> (forall l, (l < N.of_nat n)%N -> las_present file i l) -> (N.of_nat n <= las_count i)%N -> False); [|intros n; apply (G (length file - n) n); lia].
      induction d as [|d IH]; intros n D P C; pose proof (present_count file i n L S P) as PC; destruct (N.eq_dec (N.of_nat n) (las_count i)) as [X|X].
      * rewrite (las_load file i n k (Ok tt)) in E; [discriminate|exact S|exact SU|exact SZ|exact L|exact P|lia|rewrite las_next_end by lia; reflexivity|lia].
      * lia.
      * rewrite (las_load file i n k (Ok tt)) in E; [discriminate|exact S|exact SU|exact SZ|exact L|exact P|lia|rewrite las_next_end by lia; reflexivity|lia].
      * destruct (N.le_gt_cases (li_offset i + (N.of_nat n + 1) * li_length i) (lenN file)) as [Y|Y].
        -- apply (IH (Datatypes.S n)); [lia| |lia]. intros l LL. destruct (N.eq_dec l (N.of_nat n)) as [->|NE]; [exact Y|apply P; lia].
        -- rewrite (las_load file i n k (Err LasAccessFile)) in E; [discriminate|exact S|exact SU|exact SZ|exact L|exact P|lia|rewrite las_next_cut by (first [unfold las_present; lia|lia]); reflexivity|lia].
  - intros (C & L & P). exists []. rewrite (SH L), las_next_panic by (first [exact P|assumption]). reflexivity.
Qed.
Print Assumptions C115_iff.
(** Any bytes at all: an end, and a panic only for short records or a number of points that no vector can hold. *)
Theorem C115_total : forall file, exists ps r, (forall k, length file + 2 < k -> load_las k file = Some (ps, r)) /\
  (r = Panic -> ps = [] /\ exists i, las_says file i /\ las_supported i /\ ((li_length i < 12)%N \/ (2 ^ 63 <= 24 * las_count i)%N)) /\ (forall e, r = Err e -> e = LasHeader \/ e = LasAccessFile).
Proof.
  intros file. destruct (Nat.lt_ge_cases (length file) 375) as [SM|B]; [exists [], (Err LasHeader); split; [intros k K; apply C113_header; [left; exact SM|lia]|split; [discriminate|intros e X; injection X as <-; left; reflexivity]]|]. destruct (las_exists file B) as (i & S).
  assert (DS : las_supported i \/ ~ las_supported i) by (unfold las_supported; lia). destruct DS as [SU|NS]; [|exists [], (Err LasHeader); split; [intros k K; apply C113_header; [right; exists i; auto|lia]|split; [discriminate|intros e X; injection X as <-; left; reflexivity]]].
  destruct (N.lt_ge_cases (24 * las_count i) (2 ^ 63)) as [SZ|SZ].
  2: { exists [], Panic. split; [|split; [intros _; split; [reflexivity|]; exists i; auto|discriminate]]. intros [|k] K; [lia|]. unfold load_las. cbn [fold_loop]. rewrite (las_start file i S SU). cbn [push_data]. unfold reserve. change (lenN (@nil (pt3 F64))) with 0%N. rewrite N.add_0_l.
       destruct (N.ltb_spec (24 * las_count i) (2 ^ 63)); [lia|reflexivity]. }
  destruct (N.lt_ge_cases (li_length i) 12) as [L|L].
  - destruct (las_next file (las_at file i 0)) as [[[a|e|]|] s'] eqn:N.
    + exfalso. unfold las_next, las_at in N. cbn [las_head_of lh_n lh_length] in N. destruct (0 <? las_count i)%N; [|discriminate]. unfold las_fetch in N. cbn [las_head_of lh_length] in N. destruct (take_bytes _ _) as [(b, r)|]; [|discriminate]. destruct (N.ltb_spec (li_length i) 12); [discriminate|lia].
    + exists [], (Err e). split; [intros [|[|k]] K; [lia|lia|]; unfold load_las; cbn [fold_loop]; rewrite (las_start file i S SU), (push_reserve [] (las_count i) ltac:(exact SZ)), N; reflexivity|]. split; [discriminate|]. intros e' X. injection X as <-. right.
      unfold las_next, las_at in N. cbn [las_head_of lh_n lh_length] in N. destruct (0 <? las_count i)%N; [|discriminate]. unfold las_fetch in N. cbn [las_head_of lh_length] in N. destruct (take_bytes _ _) as [(b, r)|]; [destruct (N.ltb_spec (li_length i) 12); [discriminate|lia]|]. injection N as <- _. reflexivity.
    + exists [], Panic. split; [intros [|[|k]] K; [lia|lia|]; unfold load_las; cbn [fold_loop]; rewrite (las_start file i S SU), (push_reserve [] (las_count i) ltac:(exact SZ)), N; reflexivity|]. split; [intros _; split; [reflexivity|exists i; auto]|discriminate].
    + exists [], (Ok tt). split; [intros [|[|k]] K; [lia|lia|]; unfold load_las; cbn [fold_loop]; rewrite (las_start file i S SU), (push_reserve [] (las_count i) ltac:(exact SZ)), N; reflexivity|]. split; discriminate.
  - assert (G : forall d n, length file - n <= d -> (forall l, (l < N.of_nat n)%N -> las_present file i l) -> (N.of_nat n <= las_count i)%N ->
      exists ps r, (forall k, length file + 2 < k -> load_las k file = Some (ps, r)) /\ (r = Ok tt \/ r = Err LasAccessFile)).
    { induction d as [|d IH]; intros n D P C; pose proof (present_count file i n L S P) as PC; [lia|]. destruct (N.eq_dec (N.of_nat n) (las_count i)) as [X|X].
      - exists (las_points file i 0 n), (Ok tt). split; [|auto]. intros k K. apply (las_load file i n k); [exact S|exact SU|exact SZ|exact L|exact P|lia|rewrite las_next_end by lia; reflexivity|lia].
      - destruct (N.le_gt_cases (li_offset i + (N.of_nat n + 1) * li_length i) (lenN file)) as [Y|Y].
        + apply (IH (Datatypes.S n)); [lia| |lia]. intros l LL. destruct (N.eq_dec l (N.of_nat n)) as [->|NE]; [exact Y|apply P; lia].
        + exists (las_points file i 0 n), (Err LasAccessFile). split; [|auto]. intros k K. apply (las_load file i n k); [exact S|exact SU|exact SZ|exact L|exact P|lia|rewrite las_next_cut by (first [unfold las_present; lia|lia]); reflexivity|lia]. }
    destruct (G (length file) 0 ltac:(lia) ltac:(intros; lia) ltac:(lia)) as (ps & r & H & [->| ->]); exists ps; eexists; (split; [exact H|]); (split; [discriminate|]); [discriminate|]. intros e X. injection X as <-. right. reflexivity.
Qed.
Print Assumptions C115_total.
Example C115_case : las_says (las_example 1 4 11 2 0 las_records) (las_content 11 2 0) /\ load_las 500 (las_example 1 4 11 2 0 las_records) = Some ([], Panic) /\ load_las 500 (las_example 1 4 11 2 0 []) = Some ([], Err LasAccessFile) /\
  load_las 500 (las_example 1 4 14 0 (2 ^ 60) las_records) = Some ([], Panic).
Proof. split; [says_now|]. split; [vmeq|]. split; vmeq. Qed.

(** ** C116 what is not checked *)
(** The first 24 bytes, and so the signature "LASF", have no influence. *)
Theorem C116_signature : forall a a' b i k, length a = 24 -> length a' = 24 -> las_says (a ++ b) i -> (24 <= li_offset i)%N -> load_las k (a' ++ b) = load_las k (a ++ b).
Proof.
  intros a a' b i k LA LA' S O. destruct k as [|k]; [reflexivity|].
  assert (SK : forall n, 24 <= n -> skipn n (a' ++ b) = skipn n (a ++ b)) by (intros n L; rewrite !skipn_app, LA, LA', (skipn_all2 a), (skipn_all2 a') by lia; reflexivity).
  assert (NA : forall n l v, 24 <= n -> num_at (a ++ b) n l v -> num_at (a' ++ b) n l v) by (intros n l v L (B & E); split; [rewrite app_length in *; lia|rewrite SK by exact L; exact E]).
  assert (S' : las_says (a' ++ b) i).
  { destruct S as (L & H1 & H2 & H3 & H4 & H5 & H6 & H7 & (s1 & S1 & E1) & (s2 & S2 & E2) & (s3 & S3 & E3) & (o1 & O1 & E4) & (o2 & O2 & E5) & (o3 & O3 & E6)). split; [rewrite app_length in *; lia|]. do 7 (split; [apply NA; [lia|assumption]|]).
    split; [exists s1; split; [apply NA; [lia|assumption]|exact E1]|]. split; [exists s2; split; [apply NA; [lia|assumption]|exact E2]|]. split; [exists s3; split; [apply NA; [lia|assumption]|exact E3]|].
    split; [exists o1; split; [apply NA; [lia|assumption]|exact E4]|]. split; [exists o2; split; [apply NA; [lia|assumption]|exact E5]|]. exists o3; split; [apply NA; [lia|assumption]|exact E6]. }
  assert (DS : las_supported i \/ ~ las_supported i) by (unfold las_supported; lia). destruct DS as [SU|NS]; [|rewrite !C113_header by (first [lia|right; exists i; auto]); reflexivity].
  unfold load_las. cbn [fold_loop]. rewrite (las_start _ i S SU), (las_start _ i S' SU). destruct (push_data [] _) as (acc, [[]|e|]); [|reflexivity..].
  replace (las_at (a' ++ b) i 0) with (las_at (a ++ b) i 0) by (unfold las_at, las_rest; rewrite SK by lia; reflexivity). assert (HN : las_head (las_at (a ++ b) i 0) <> None) by discriminate. revert HN. generalize (las_at (a ++ b) i 0). revert acc.
  induction k as [|k IH]; intros acc [read d c h] HN; [reflexivity|]. cbn [fold_loop]. cbn [las_head] in HN. destruct h as [h|]; [|destruct (HN eq_refl)]. unfold las_next at 1 3. destruct d; [reflexivity|]. destruct (c <? lh_n h)%N; [|reflexivity]. destruct (las_fetch h read) as [(p, r)|e|]; [|reflexivity..].
  destruct (push_data acc (DData p)) as (acc', [[]|e|]); [|reflexivity..]. apply IH. discriminate.
Qed.
Print Assumptions C116_signature.
(** A file of version 1.2 that says it has no points: the number is taken from the bytes 247 to 254, which are behind the header of such files, here from other data, and a point comes out. *)
Theorem C116_refuted : exists file i, las_says file i /\ li_major i = 1%N /\ li_minor i = 2%N /\ num_at file 94 2 227 /\ li_offset i = 375%N /\ li_legacy i = 0%N /\ load_las 500 file = Some ([fp3 0 0 0], Ok tt).
Proof.
  exists (str "LASF" ++ zeros 20 ++ map ascii_of_N [1; 2]%N ++ zeros 68 ++ map ascii_of_N [227; 0]%N ++ le4 375 ++ zeros 4 ++ map ascii_of_N [0; 20; 0]%N ++ le4 0 ++ zeros 136 ++ le8 1 ++ zeros 120 ++ zeros 20), (mkli 1 2 375 0 20 0 1 (fp3 0 0 0) (fp3 0 0 0)).
  split; [says_now|]. split; [reflexivity|]. split; [reflexivity|]. split; [num_now|]. split; [reflexivity|]. split; [reflexivity|vmeq].
Qed.
Print Assumptions C116_refuted.
(** After the end and after an error there is nothing more. *)
Theorem C111_las : forall file s a s', las_next file s = (a, s') -> a = None \/ (exists e, a = Some (Err e)) -> forall n, answers (las_next file) n s' = repeat None n.
Proof.
  intros file [read d c h] a s' N D. apply answers_done. assert (X : las_done s' = true); [|destruct s' as [r1 d1 c1 h1]; cbn [las_done] in X; subst d1; reflexivity]. unfold las_next in N. destruct d; [injection N as _ <-; reflexivity|].
  destruct h as [h|].
  - destruct (c <? lh_n h)%N; [|injection N as _ <-; reflexivity]. destruct (las_fetch h read) as [(p, r)|e|]; injection N as <- <-; [|reflexivity|]; destruct D as [D|(e & D)]; discriminate.
  - destruct (obind _ _) as [h|e|]; injection N as <- <-; [|reflexivity..]. destruct D as [D|(e & D)]; discriminate.
Qed.
Print Assumptions C111_las.
Example C116_case : load_las 500 (str "nope" ++ skipn 4 (las_example 1 4 14 2 0 las_records)) = Some ([mk3 (lit 21 (-1)) (fz 21) (lit 63 (-1)); mk3 (fz 60) (fz 20) (lit 59 (-1))], Ok tt).
Proof. vmeq. Qed.
