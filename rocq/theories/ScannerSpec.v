(** Vocabulary for the formats of scanners. *)
From Verif Require Import Base Num VecModel MatrixModel IoModel IoSpec ByteModel ByteSpec ScanSpec.

(** ** Numbers in little endian *)
Definition i32_bytes (b : bytes) (z : Z) : Prop := length b = 4%nat /\ (- 2 ^ 31 <= z < 2 ^ 31)%Z /\ encodes Little b (Z.to_N (z mod 2 ^ 32)).
Definition f32_bytes (b : bytes) (x : T F64) : Prop := length b = 4%nat /\ exists v, encodes Little b v /\ x = widen (f32_of_bits v).
Definition point_bytes (b : bytes) (p : pt3 F64) : Prop := exists bx by_ bz, b = bx ++ by_ ++ bz /\ f32_bytes bx (px p) /\ f32_bytes by_ (py p) /\ f32_bytes bz (pz p).

(** ** psl *)
(** A file consists of passes, a pass of lines and a line of points, each with a header that starts with
    the number of parts (in the file header it comes after 136 other bytes). *)
Definition psl_line_bytes (b : bytes) (ps : list (pt3 F64)) : Prop := exists n m bs, b = n ++ m ++ concat bs /\ i32_bytes n (Z.of_nat (length ps)) /\ length m = 60%nat /\ Forall2 point_bytes bs ps.
Definition psl_pass_bytes (b : bytes) (ls : list (list (pt3 F64))) : Prop := exists n m bs, b = n ++ m ++ concat bs /\ i32_bytes n (Z.of_nat (length ls)) /\ length m = 60%nat /\ Forall2 psl_line_bytes bs ls.
Definition psl_file_bytes (b : bytes) (passes : list (list (list (pt3 F64)))) : Prop :=
  exists h n m bs, b = h ++ n ++ m ++ concat bs /\ length h = 136%nat /\ i32_bytes n (Z.of_nat (length passes)) /\ length m = 372%nat /\ Forall2 psl_pass_bytes bs passes.
(** The first point of the first line of the first pass. *)
Definition first_point (passes : list (list (list (pt3 F64)))) : list (pt3 F64) := match passes with ((p :: _) :: _) :: _ => [p] | _ => [] end.

(** ** ptx *)
Definition row_text (ft : FText) (t : bytes) (r : T F64 * T F64 * T F64 * T F64) : Prop :=
  let '(a, b, c, d) := r in exists wa wb wc wd rest, spells blank t (wa :: wb :: wc :: wd :: rest) /\ f64_of ft wa = Some a /\ f64_of ft wb = Some b /\ f64_of ft wc = Some c /\ f64_of ft wd = Some d.
(** The entries of a matrix in reading order, and what the entries of the identity are. *)
Definition entries (m : mat4 F64) : list (T F64) :=
  [m4_00 m; m4_01 m; m4_02 m; m4_03 m; m4_10 m; m4_11 m; m4_12 m; m4_13 m; m4_20 m; m4_21 m; m4_22 m; m4_23 m; m4_30 m; m4_31 m; m4_32 m; m4_33 m].
Definition identity_entries : list (T F64) := [n1; n0; n0; n0; n0; n1; n0; n0; n0; n0; n1; n0; n0; n0; n0; n1].
Definition unity (m : mat4 F64) : bool := forallb (fun '(a, b) => neqb a b) (combine (entries m) identity_entries).
(** What becomes of a point: unless the matrix is the identity, its first three rows are applied with the
    fourth entry as translation. *)
Definition placed (m : mat4 F64) (p : pt3 F64) : pt3 F64 :=
  if unity m then p
  else let row a b c d := nadd (nadd (nadd (nmul (px p) a) (nmul (py p) b)) (nmul (pz p) c)) d in
       mk3 (row (m4_00 m) (m4_01 m) (m4_02 m) (m4_03 m)) (row (m4_10 m) (m4_11 m) (m4_12 m) (m4_13 m)) (row (m4_20 m) (m4_21 m) (m4_22 m) (m4_23 m)).
(** The lines before the points: the two counts, four lines about the scanner, the matrix. *)
Definition ptx_head (ft : FText) (hs : list bytes) (columns rows : N) (m : mat4 F64) : Prop :=
  exists c r l1 l2 l3 l4 t1 t2 t3 t4, hs = [c; r; l1; l2; l3; l4; t1; t2; t3; t4] /\ usize_of c = Some columns /\ usize_of r = Some rows /\
    row_text ft t1 (m4_00 m, m4_01 m, m4_02 m, m4_03 m) /\ row_text ft t2 (m4_10 m, m4_11 m, m4_12 m, m4_13 m) /\
    row_text ft t3 (m4_20 m, m4_21 m, m4_22 m, m4_23 m) /\ row_text ft t4 (m4_30 m, m4_31 m, m4_32 m, m4_33 m).
Definition ptx_block (ft : FText) (b : list bytes) (ps : list (pt3 F64)) : Prop :=
  exists hs vs columns rows m qs, b = hs ++ vs /\ ptx_head ft hs columns rows m /\ Forall2 (point_text ft) vs qs /\ lenN qs = (rows * columns)%N /\ ps = map (placed m) qs.

(** ** las *)
(** The [n] bytes from the position [i] on are a number. *)
Definition num_at (file : bytes) (i n : nat) (v : N) : Prop := (i + n <= length file)%nat /\ encodes Little (firstn n (skipn i file)) v.
Definition f64_at (file : bytes) (i : nat) (x : T F64) : Prop := exists v, num_at file i 8 v /\ x = f64_of_bits v.
Definition i32_at (file : bytes) (i : nat) (z : Z) : Prop := i32_bytes (firstn 4 (skipn i file)) z.
(** The contents of the header. *)
Record las_info : Type := mkli { li_major : N; li_minor : N; li_offset : N; li_format : N; li_length : N; li_legacy : N; li_long : N; li_scale : pt3 F64; li_shift : pt3 F64 }.
Definition las_says (file : bytes) (i : las_info) : Prop :=
  (375 <= length file)%nat /\ num_at file 24 1 (li_major i) /\ num_at file 25 1 (li_minor i) /\ num_at file 96 4 (li_offset i) /\ num_at file 104 1 (li_format i) /\ num_at file 105 2 (li_length i) /\
  num_at file 107 4 (li_legacy i) /\ num_at file 247 8 (li_long i) /\
  f64_at file 131 (px (li_scale i)) /\ f64_at file 139 (py (li_scale i)) /\ f64_at file 147 (pz (li_scale i)) /\
  f64_at file 155 (px (li_shift i)) /\ f64_at file 163 (py (li_shift i)) /\ f64_at file 171 (pz (li_shift i)).
Definition las_supported (i : las_info) : Prop := (li_major i <= 1 /\ li_minor i <= 4 /\ li_format i <= 10)%N.
Definition las_count (i : las_info) : N := if (li_legacy i =? 0)%N then li_long i else li_legacy i.
(** The point number [j]. *)
Definition las_point_at (file : bytes) (i : las_info) (j : N) (p : pt3 F64) : Prop :=
  let o := N.to_nat (li_offset i + j * li_length i) in
  exists x y z, i32_at file o x /\ i32_at file (o + 4) y /\ i32_at file (o + 8) z /\
    p = mk3 (nadd (px (li_shift i)) (nmul (lit x 0) (px (li_scale i)))) (nadd (py (li_shift i)) (nmul (lit y 0) (py (li_scale i)))) (nadd (pz (li_shift i)) (nmul (lit z 0) (pz (li_scale i)))).
(** The record number [j] is in the file. *)
Definition las_present (file : bytes) (i : las_info) (j : N) : Prop := (li_offset i + (j + 1) * li_length i <= lenN file)%N.

(** ** Iterators *)
(** The first [n] answers of an iterator. *)
Fixpoint answers {S A} (next : S -> option A * S) (n : nat) (s : S) : list (option A) :=
  match n with O => [] | Datatypes.S n => let '(a, s) := next s in a :: answers next n s end.
