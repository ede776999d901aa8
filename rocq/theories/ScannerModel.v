(** Model of the formats of scanners .psl, .ptx and .las, src/io/psl.rs, src/io/ptx.rs, src/io/las/load.rs
    and src/io/las/types.rs. *)
From Verif Require Import Base Num VecModel MatrixModel IoModel ByteModel MeshModel PlyModel ScanModel.

(** ** psl *)
(** Models PslError, src/io/psl.rs:262-264. *)
Inductive PslError : Type := PslAccessFile.
(** `read.read_exact(&mut buffer)?` of a buffer of [n] bytes that is not used, e.g. src/io/psl.rs:176-177. *)
Definition psl_skip (n : nat) (s : bytes) : outcome PslError bytes := match take_bytes n s with Some (_, r) => Ok r | None => Err PslAccessFile end.
(** `LittleReader::read_i32(read)?`, e.g. src/io/psl.rs:180. *)
Definition psl_i32 (s : bytes) : outcome PslError (Z * bytes) := ok_or (read_signed Little 4 s) PslAccessFile.
(** Models fetch_header_return_n_passes, src/io/psl.rs:170-199. *)
Definition psl_header (s : bytes) : outcome PslError (Z * bytes) :=
  obind (psl_skip 4 s) (fun s => obind (psl_i32 s) (fun '(_, s) => obind (psl_skip 128 s) (fun s => obind (psl_i32 s) (fun '(n_passes, s) =>
  obind (psl_i32 s) (fun '(_, s) => obind (psl_skip 368 s) (fun s => Ok (n_passes, s))))))).
(** Models fetch_pass_header_return_n_lines, src/io/psl.rs:204-218. *)
Definition psl_pass (s : bytes) : outcome PslError (Z * bytes) :=
  obind (psl_i32 s) (fun '(n_lines, s) => obind (psl_i32 s) (fun '(_, s) => obind (psl_skip 56 s) (fun s => Ok (n_lines, s)))).
(** Models fetch_line_header_return_n_points, src/io/psl.rs:223-242. *)
Definition psl_line (s : bytes) : outcome PslError (Z * bytes) :=
  obind (psl_i32 s) (fun '(n_points, s) => obind (psl_skip 12 s) (fun s => obind (psl_skip 48 s) (fun s => Ok (n_points, s)))).
(** `LittleReader::read_f32(read)?` `as f64`, src/io/psl.rs:252,256. *)
Definition psl_f32 (s : bytes) : outcome PslError (T F64 * bytes) := obind (ok_or (read_f32 Little s) PslAccessFile) (fun '(x, s) => Ok (widen x, s)).
(** Models fetch_point, src/io/psl.rs:247-257. *)
Definition psl_point (s : bytes) : outcome PslError (pt3 F64 * bytes) :=
  obind (psl_f32 s) (fun '(x, s) => obind (psl_f32 s) (fun '(y, s) => obind (psl_f32 s) (fun '(z, s) => Ok (mk3 x y z, s)))).
(** Models PslIterator, src/io/psl.rs:38-50. *)
Record psl_state : Type := mkpsl { psl_read : bytes; psl_done : bool; psl_init : bool; psl_passes : Z; psl_lines : Z; psl_points : Z }.
(** Models PslIterator::new, src/io/psl.rs:57-67. *)
Definition psl_new (file : bytes) : psl_state := mkpsl file false false 0 0 0.
(** Models fetch_counts, src/io/psl.rs:74-86. *)
Definition psl_counts (s : psl_state) : outcome PslError psl_state :=
  let '(mkpsl read d i passes lines points) := s in
  obind (if (lines =? 0)%Z && (passes >? 0)%Z then psl_pass read else Ok (0%Z, read)) (fun '(lines, read) =>
  obind (if (points =? 0)%Z && (lines >? 0)%Z then psl_line read else Ok (0%Z, read)) (fun '(points, read) =>
  Ok (mkpsl read d i passes lines points))).
(** Models reduce_count, src/io/psl.rs:88-100. *)
Definition psl_reduce (s : psl_state) : psl_state :=
  let '(mkpsl read d i passes lines points) := s in
  if (points >? 0)%Z then mkpsl read d i passes lines (points - 1)
  else if (lines >? 0)%Z then mkpsl read d i passes (lines - 1) points
  else if (passes >? 0)%Z then mkpsl read d i (passes - 1) lines points
  else s.
(** Setting is_done, e.g. src/io/psl.rs:118. *)
Definition psl_end (s : psl_state) : psl_state := mkpsl (psl_read s) true (psl_init s) (psl_passes s) (psl_lines s) (psl_points s).
(** Models PslIterator::next, src/io/psl.rs:110-139, with initialize, 69-72. *)
Definition psl_next (s : psl_state) : option (outcome PslError (pt3 F64)) * psl_state :=
  if psl_done s then (None, s)
  else
  match (if psl_init s then Ok s
         else obind (psl_header (psl_read s)) (fun '(n, r) => Ok (mkpsl r false true n (psl_lines s) (psl_points s)))) with
  | Ok s =>
      match psl_counts s with
      | Ok s =>
          if (psl_points s =? 0)%Z then (None, psl_end s)
          else let s := psl_reduce s in
               match psl_point (psl_read s) with
               | Ok (p, r) => (Some (Ok p), mkpsl r false (psl_init s) (psl_passes s) (psl_lines s) (psl_points s))
               | Err e => (Some (Err e), psl_end s)
               | Panic => (Some Panic, psl_end s)
               end
      | Err e => (Some (Err e), psl_end s)
      | Panic => (Some Panic, psl_end s)
      end
  | Err e => (Some (Err e), psl_end s)
  | Panic => (Some Panic, psl_end s)
  end.
(** Models load_psl, src/io/psl.rs:152-165, into an empty container. *)
Definition load_psl (k : nat) (file : bytes) : option (list (pt3 F64) * outcome PslError unit) := load_loop psl_next k (psl_new file) [].

(** ** ptx *)
(** Models PtxError, src/io/ptx.rs:262-269. *)
Inductive PtxError : Type := PtxLoadFileEndReached | PtxAccessFile | PtxColumns | PtxRows | PtxMatrix | PtxPoint.
(** Models PtxIterator, src/io/ptx.rs:39-52, without the line buffer. *)
Record ptx_state : Type := mkptx { ptx_read : list bytes; ptx_done : bool; ptx_line : N; ptx_left : N; ptx_must : bool; ptx_matrix : mat4 F64 }.
(** Models PtxIterator::new, src/io/ptx.rs:59-70. *)
Definition ptx_new (file : bytes) : ptx_state := mkptx (raw_lines file) false 0 0 false m4_identity.
(** Models fetch_one, src/io/ptx.rs:73-96. *)
Definition ptx_point (ft : FText) (line : bytes) (must : bool) (m : mat4 F64) : outcome PtxError (pt3 F64) :=
  obind (three_f64 ft PtxPoint (to_words line)) (fun p => Ok (if must then pt3_multiply_m p m else p)).
(** Models read_matrix_row, src/io/ptx.rs:248-257. *)
Definition ptx_row (ft : FText) (line : bytes) : outcome PtxError (T F64 * T F64 * T F64 * T F64) :=
  obind (next_f64 ft PtxMatrix (to_words line)) (fun '(a, ws) => obind (next_f64 ft PtxMatrix ws) (fun '(b, ws) => obind (next_f64 ft PtxMatrix ws) (fun '(c, ws) =>
  obind (next_f64 ft PtxMatrix ws) (fun '(d, ws) => Ok (a, b, c, d))))).
(** `fetch_line(..).index(self.i_line)?`, e.g. src/io/ptx.rs:100, with the conversion of the error, 306-318. *)
Definition ptx_fetch (i : N) (ls : list bytes) : outcome (with_line PtxError) (bytes * list bytes) :=
  match next_line ls with Some (line, ls) => Ok (line, ls) | None => Err (WIndex i PtxLoadFileEndReached) end.
(** A line of the matrix, e.g. src/io/ptx.rs:123-127; the four numbers, the lines left. *)
Definition ptx_matrix_line (ft : FText) (i : N) (ls : list bytes) : outcome (with_line PtxError) ((T F64 * T F64 * T F64 * T F64) * list bytes) :=
  obind (ptx_fetch i ls) (fun '(line, ls) => obind (at_line (i + 1) line (ptx_row ft line)) (fun r => Ok (r, ls))).
(** `!=` of Matrix4 (derived PartialEq, src/matrix4.rs:31) in src/io/ptx.rs:156. *)
Definition m4_eqb (a b : mat4 F64) : bool :=
  neqb (m4_00 a) (m4_00 b) && neqb (m4_01 a) (m4_01 b) && neqb (m4_02 a) (m4_02 b) && neqb (m4_03 a) (m4_03 b) &&
  neqb (m4_10 a) (m4_10 b) && neqb (m4_11 a) (m4_11 b) && neqb (m4_12 a) (m4_12 b) && neqb (m4_13 a) (m4_13 b) &&
  neqb (m4_20 a) (m4_20 b) && neqb (m4_21 a) (m4_21 b) && neqb (m4_22 a) (m4_22 b) && neqb (m4_23 a) (m4_23 b) &&
  neqb (m4_30 a) (m4_30 b) && neqb (m4_31 a) (m4_31 b) && neqb (m4_32 a) (m4_32 b) && neqb (m4_33 a) (m4_33 b).
(** Models fetch_header, src/io/ptx.rs:99-161; [i] is the number of lines read.  The product of rows and
    columns wraps (release build). *)
Definition ptx_header (ft : FText) (columns : N) (i : N) (ls : list bytes) : outcome (with_line PtxError) ptx_state :=
  obind (ptx_fetch i ls) (fun '(line, ls) =>
  obind (at_line (i + 1) line (ok_or (usize_of line) PtxRows)) (fun rows =>
  obind (ptx_fetch (i + 1) ls) (fun '(_, ls) => obind (ptx_fetch (i + 2) ls) (fun '(_, ls) => obind (ptx_fetch (i + 3) ls) (fun '(_, ls) => obind (ptx_fetch (i + 4) ls) (fun '(_, ls) =>
  obind (ptx_matrix_line ft (i + 5) ls) (fun '((m11, m12, m13, m14), ls) =>
  obind (ptx_matrix_line ft (i + 6) ls) (fun '((m21, m22, m23, m24), ls) =>
  obind (ptx_matrix_line ft (i + 7) ls) (fun '((m31, m32, m33, m34), ls) =>
  obind (ptx_matrix_line ft (i + 8) ls) (fun '((m41, m42, m43, m44), ls) =>
  let m := mkm4 m11 m12 m13 m14 m21 m22 m23 m24 m31 m32 m33 m34 m41 m42 m43 m44 in
  Ok (mkptx ls false (i + 9) (w64 (rows * columns)) (negb (m4_eqb m m4_identity)) m))))))))))).
(** Models PtxIterator::next, src/io/ptx.rs:171-214; after an error in the header only is_done matters. *)
Definition ptx_next (ft : FText) (s : ptx_state) : option (outcome (with_line PtxError) (data_reserve (pt3 F64))) * ptx_state :=
  let '(mkptx ls d i todo must m) := s in
  if d then (None, s)
  else if (todo =? 0)%N then
    match next_line ls with
    | None => (None, mkptx ls true i todo must m)
    | Some (line, ls) =>
        match obind (match usize_of line with Some columns => Ok columns | None => Err (WIndex (i + 1) PtxColumns) end) (fun columns => ptx_header ft columns (i + 1) ls) with
        | Ok s => (Some (Ok (DReserve (ptx_left s))), s)
        | Err e => (Some (Err e), mkptx ls true i todo must m)
        | Panic => (Some Panic, mkptx ls true i todo must m)
        end
    end
  else
    match ptx_fetch i ls with
    | Ok (line, ls) => (Some (at_line (i + 1) line (omap DData (ptx_point ft line must m))), mkptx ls false (i + 1) (todo - 1) must m)
    | Err e => (Some (Err e), mkptx ls true i (todo - 1) must m)
    | Panic => (Some Panic, mkptx ls true i (todo - 1) must m)
    end.
(** Models load_ptx, src/io/ptx.rs:227-243, into an empty container. *)
Definition load_ptx (ft : FText) (k : nat) (file : bytes) : option (list (pt3 F64) * outcome (with_line PtxError) unit) :=
  fold_loop (ptx_next ft) push_data k (ptx_new file) [].

(** ** las *)
(** Models LasError, src/io/las/types.rs:149-155. *)
Inductive LasError : Type := LasAccessFile | LasBinaryData | LasUnknownPointFormat | LasUnsupportedVersion | LasHeader.
(** The fields of HeaderRaw, src/io/las/types.rs:85-124, that are used; the others are read and dropped. *)
Record las_raw : Type := mkraw { raw_major : N; raw_minor : N; raw_offset : N; raw_format : N; raw_length : N; raw_legacy_n : N;
  raw_sx : T F64; raw_sy : T F64; raw_sz : T F64; raw_ox : T F64; raw_oy : T F64; raw_oz : T F64; raw_n : N }.
(** Models Header, src/io/las/types.rs:36-46. *)
Record las_header : Type := mklh { lh_offset : N; lh_length : N; lh_n : N; lh_sx : T F64; lh_sy : T F64; lh_sz : T F64; lh_ox : T F64; lh_oy : T F64; lh_oz : T F64 }.
(** `u32::from_le_bytes(buffer[96..100].try_into()?)` and the like, e.g. src/io/las/load.rs:184: [n] bytes from [i]. *)
Definition las_field (b : bytes) (i n : nat) : N := le_value (firstn n (skipn i b)).
(** Models load_header, src/io/las/load.rs:162-208; the conversions of slices of fixed lengths cannot fail. *)
Definition las_load_header (file : bytes) : outcome LasError las_raw :=
  match take_bytes 375 file with
  | None => Err LasAccessFile
  | Some (b, _) =>
      Ok (mkraw (las_field b 24 1) (las_field b 25 1) (las_field b 96 4) (las_field b 104 1) (las_field b 105 2) (las_field b 107 4)
        (f64_of_bits (las_field b 131 8)) (f64_of_bits (las_field b 139 8)) (f64_of_bits (las_field b 147 8))
        (f64_of_bits (las_field b 155 8)) (f64_of_bits (las_field b 163 8)) (f64_of_bits (las_field b 171 8)) (las_field b 247 8))
  end.
(** Models Header::try_from, src/io/las/types.rs:51-78. *)
Definition las_header_of (x : las_raw) : outcome LasError las_header :=
  if (1 <? raw_major x)%N || (4 <? raw_minor x)%N then Err LasUnsupportedVersion
  else
  let n := if (raw_legacy_n x =? 0)%N then raw_n x else raw_legacy_n x in
  if (10 <? raw_format x)%N then Err LasUnknownPointFormat
  else Ok (mklh (raw_offset x) (raw_length x) n (raw_sx x) (raw_sy x) (raw_sz x) (raw_ox x) (raw_oy x) (raw_oz x)).
(** Models LasIterator, src/io/las/load.rs:41-52, without the buffer, whose length is that of a record. *)
Record las_state : Type := mklas { las_read : bytes; las_done : bool; las_current : N; las_head : option las_header }.
(** Models LasIterator::new, src/io/las/load.rs:59-68. *)
Definition las_new (file : bytes) : las_state := mklas file false 0 None.
(** A coordinate, src/io/las/load.rs:77, with PointData::from_bytes, src/io/las/types.rs:136-143. *)
Definition las_coord (b : bytes) (i : nat) (offset scale : T F64) : T F64 :=
  nadd offset (nmul (lit (to_signed 4 (las_field b i 4)) 0) scale).
(** Models fetch_one, src/io/las/load.rs:71-85: `self.buffer[0..12]` panics if the records are shorter. *)
Definition las_fetch (h : las_header) (s : bytes) : outcome LasError (pt3 F64 * bytes) :=
  match take_bytes (N.to_nat (lh_length h)) s with
  | None => Err LasAccessFile
  | Some (b, r) =>
      if (lh_length h <? 12)%N then Panic
      else Ok (mk3 (las_coord b 0 (lh_ox h) (lh_sx h)) (las_coord b 4 (lh_oy h) (lh_sy h)) (las_coord b 8 (lh_oz h) (lh_sz h)), r)
  end.
(** Models LasIterator::next, src/io/las/load.rs:95-129, reading [file] from its start; seeking always
    succeeds, also behind the end. *)
Definition las_next (file : bytes) (s : las_state) : option (outcome LasError (data_reserve (pt3 F64))) * las_state :=
  let '(mklas read d current head) := s in
  if d then (None, s)
  else match head with
  | None =>
      match obind (las_load_header read) las_header_of with
      | Ok h => (Some (Ok (DReserve (lh_n h))), mklas (skipn (N.to_nat (lh_offset h)) file) false current (Some h))
      | _ => (Some (Err LasHeader), mklas read true current None)
      end
  | Some h =>
      if (current <? lh_n h)%N then
        match las_fetch h read with
        | Ok (p, r) => (Some (Ok (DData p)), mklas r false (current + 1) head)
        | Err e => (Some (Err e), mklas read true (current + 1) head)
        | Panic => (Some Panic, mklas read false (current + 1) head)
        end
      else (None, mklas read true current head)
  end.
(** Models load_las, src/io/las/load.rs:142-158, into an empty container. *)
Definition load_las (k : nat) (file : bytes) : option (list (pt3 F64) * outcome LasError unit) :=
  fold_loop (las_next file) push_data k (las_new file) [].
