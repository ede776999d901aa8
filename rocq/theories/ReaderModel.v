(** Model of the text loaders on readers that hand over their data in pieces and that can fail: the loops
    of IoModel.v, ScanModel.v, ScannerModel.v, StlModel.v and PlyModel.v once more, with the reader in the
    place of the list of lines.  What is done with a line is shared with these files. *)
From Verif Require Import Base Num MatrixModel IoModel ByteModel MeshModel StlModel PlyModel ScanModel ScannerModel.

(** ** Readers *)
(** What a call of `fill_buf` or `read` of the reader does, src/io/utils.rs:97: hand over bytes (none at the
    end), fail with ErrorKind::Interrupted or fail otherwise. *)
Inductive event : Type := Chunk (b : bytes) | Interrupted | Failure.
(** A reader (`R: BufRead`, src/io/utils.rs:94) as what its calls will do; it is at its end afterwards. *)
Definition reader : Type := list event.
(** `consume`, used by read_until in src/io/utils.rs:97: what is left of a chunk stays in the buffer. *)
Definition put_back (b : bytes) (r : reader) : reader := match b with [] => r | _ => Chunk b :: r end.
(** The search of the newline in the buffer, for src/io/utils.rs:97: the bytes with it and those behind it. *)
Fixpoint until_nl (b : bytes) : option (bytes * bytes) :=
  match b with
  | [] => None
  | c :: b => if Ascii.eqb c nl then Some ([c], b) else match until_nl b with Some (l, r) => Some (c :: l, r) | None => None end
  end.
(** `read_until(b'\n', ..)` of the standard library, src/io/utils.rs:97: interrupted calls are repeated,
    any other error ends it; None is the error. *)
Fixpoint read_until_from (acc : bytes) (r : reader) : option bytes * reader :=
  match r with
  | [] => (Some acc, [])
  | Interrupted :: r => read_until_from acc r
  | Failure :: r => (None, r)
  | Chunk [] :: r => (Some acc, r)
  | Chunk b :: r => match until_nl b with
                    | Some (l, rest) => (Some (acc ++ l), put_back rest r)
                    | None => read_until_from (acc ++ b) r
                    end
  end.
(** Models fetch_line, src/io/utils.rs:92-114, with the conversion of the error, 130-134; None is
    FetchLineError. *)
Definition fetch_from (r : reader) : option bytes * reader :=
  match read_until_from [] r with
  | (None, r) | (Some [], r) => (None, r)
  | (Some l, r) => (Some (trim_line l), r)
  end.
(** `read_exact(..)` of the standard library for [n] bytes, e.g. src/io/stl.rs:474; None is the error. *)
Fixpoint read_exact_from (n : nat) (acc : bytes) (r : reader) : option bytes * reader :=
  match n with
  | O => (Some acc, r)
  | _ => match r with
         | [] => (None, [])
         | Interrupted :: r => read_exact_from n acc r
         | Failure :: r => (None, r)
         | Chunk [] :: r => (None, r)
         | Chunk b :: r => if (n <=? length b)%nat then (Some (acc ++ firstn n b), put_back (skipn n b) r)
                           else read_exact_from (n - length b) (acc ++ b) r
         end
  end.
(** A number of calls of fetch_line that is not exceeded, for loops over src/io/utils.rs:92: every call
    that gives a line takes a byte. *)
Definition calls_left (r : reader) : nat :=
  S (fold_right (fun e n => match e with Chunk b => length b + n | _ => n end)%nat 0%nat r).

(** ** xy and xyz *)
(** XyIterator and XyzIterator, src/io/xy.rs:39-51 and src/io/xyz.rs:39-51, see [xy_state]. *)
Record xy_reader : Type := mkxyr { xyr_read : reader; xyr_done : bool; xyr_line : N; xyr_delim : option ascii }.
(** next, src/io/xy.rs:71-119 and src/io/xyz.rs:71-124, see [xy_next]. *)
Definition xy_next_from {A} (minimum : nat) (point : ascii -> bytes -> outcome XyError A) (s : xy_reader)
  : option (outcome (with_line XyError) A) * xy_reader :=
  if xyr_done s then (None, s)
  else match fetch_from (xyr_read s) with
  | (None, read) => (None, mkxyr read true (xyr_line s) (xyr_delim s))
  | (Some line, read) =>
      let i := (xyr_line s + 1)%N in
      match xy_delimiter minimum (xyr_delim s) line with
      | Ok d =>
          match point d line with
          | Ok p => (Some (Ok p), mkxyr read false i (Some d))
          | r => (Some (at_line i line r), mkxyr read true i (Some d))
          end
      | Err e => (Some (Err (WLine i line e)), mkxyr read true i None)
      | Panic => (Some Panic, mkxyr read true i None)
      end
  end.
(** load_xy, src/io/xy.rs:147-160. *)
Definition load_xy_from (ft : FText) (k : nat) (r : reader) : option (list (pt2 F64) * outcome (with_line XyError) unit) :=
  load_loop (xy_next_from 1 (xy_point ft)) k (mkxyr r false 0 None) [].
(** load_xyz, src/io/xyz.rs:162-175. *)
Definition load_xyz_from (ft : FText) (k : nat) (r : reader) : option (list (pt3 F64) * outcome (with_line XyError) unit) :=
  load_loop (xy_next_from 2 (xyz_point ft)) k (mkxyr r false 0 None) [].

(** ** obj, off, pts and gcode *)
(** The fields of the iterators, e.g. src/io/obj.rs:39-49, see [line_state]. *)
Record line_reader (S : Type) : Type := mklr { lr_read : reader; lr_done : bool; lr_line : N; lr_own : S }.
Arguments mklr {S}. Arguments lr_read {S}. Arguments lr_done {S}. Arguments lr_line {S}. Arguments lr_own {S}.
(** The loop over the lines, src/io/obj.rs:78-91,144-172, src/io/off.rs:85-136,238-289,
    src/io/pts.rs:104-166, src/io/gcode.rs:88-180, see [line_loop]; at most [n] calls of fetch_line. *)
Fixpoint line_loop_from {S E A} (step : S -> bytes -> line_step S E A) (n : nat) (read : reader) (i : N) (s : S) : option (outcome (with_line E) A) * line_reader S :=
  match n with
  | O => (None, mklr read true i s)
  | Datatypes.S n =>
      match fetch_from read with
      | (None, read) => (None, mklr read true i s)
      | (Some line, read) =>
          let i := (i + 1)%N in
          match step s line with
          | LSkip s => line_loop_from step n read i s
          | LItem r s => (Some (at_line i line r), mklr read (match r with Ok _ => false | _ => true end) i s)
          | LStop s => (None, mklr read true i s)
          end
      end
  end.
(** The next functions, src/io/obj.rs:74-92,140-173, src/io/off.rs:80-137,234-290, src/io/pts.rs:100-167,
    src/io/gcode.rs:84-181. *)
Definition line_next_from {S E A} (step : S -> bytes -> line_step S E A) (s : line_reader S) : option (outcome (with_line E) A) * line_reader S :=
  if lr_done s then (None, s) else line_loop_from step (calls_left (lr_read s)) (lr_read s) (lr_line s) (lr_own s).
(** load_obj_mesh, src/io/obj.rs:186-208. *)
Definition load_obj_mesh_from (ft : FText) (k : nat) (r : reader) : option (mesh (pt3 F64) * outcome (with_line ObjError) unit) :=
  fold_loop (line_next_from (obj_mesh_step ft)) (mesh_add ObjInvalidMeshIndices) k (mklr r false 0 tt) mesh_empty.
(** load_obj_points, src/io/obj.rs:211-224. *)
Definition load_obj_points_from (ft : FText) (k : nat) (r : reader) : option (list (pt3 F64) * outcome (with_line ObjError) unit) :=
  load_loop (line_next_from (obj_points_step ft)) k (mklr r false 0 tt) [].
(** load_off_mesh, src/io/off.rs:303-329. *)
Definition load_off_mesh_from (ft : FText) (k : nat) (r : reader) : option (mesh (pt3 F64) * outcome (with_line OffError) unit) :=
  fold_loop (line_next_from (off_mesh_step ft)) off_add k (mklr r false 0 off_start) mesh_empty.
(** load_off_points, src/io/off.rs:332-348. *)
Definition load_off_points_from (ft : FText) (k : nat) (r : reader) : option (list (pt3 F64) * outcome (with_line OffError) unit) :=
  fold_loop (line_next_from (off_points_step ft)) push_data k (mklr r false 0 off_start) [].
(** load_pts, src/io/pts.rs:178-194. *)
Definition load_pts_from (ft : FText) (k : nat) (r : reader) : option (list (pt3 F64) * outcome (with_line PtsError) unit) :=
  fold_loop (line_next_from (pts_step ft)) push_data k (mklr r false 0 (mkpts None 0)) [].
(** load_gcode_points, src/io/gcode.rs:194-207. *)
Definition load_gcode_points_from (ft : FText) (k : nat) (r : reader) : option (list (pt3 F64) * outcome (with_line GcodeError) unit) :=
  load_loop (line_next_from (gcode_step ft)) k (mklr r false 0 gcode_start) [].

(** ** ptx *)
(** PtxIterator, src/io/ptx.rs:39-52, see [ptx_state]. *)
Record ptx_reader : Type := mkptxr { ptxr_read : reader; ptxr_done : bool; ptxr_line : N; ptxr_left : N; ptxr_must : bool; ptxr_matrix : mat4 F64 }.
(** `fetch_line(..).index(self.i_line)?`, e.g. src/io/ptx.rs:100, with the conversion of the error, 306-318:
    the reader afterwards and the line. *)
Definition ptx_fetch_from (i : N) (r : reader) : outcome (with_line PtxError) (bytes * reader) :=
  match fetch_from r with (Some line, r) => Ok (line, r) | (None, _) => Err (WIndex i PtxLoadFileEndReached) end.
(** A line of the matrix, e.g. src/io/ptx.rs:123-127. *)
Definition ptx_matrix_line_from (ft : FText) (i : N) (r : reader) : outcome (with_line PtxError) ((T F64 * T F64 * T F64 * T F64) * reader) :=
  obind (ptx_fetch_from i r) (fun '(line, r) => obind (at_line (i + 1) line (ptx_row ft line)) (fun m => Ok (m, r))).
(** fetch_header, src/io/ptx.rs:99-161, see [ptx_header]. *)
Definition ptx_header_from (ft : FText) (columns : N) (i : N) (r : reader) : outcome (with_line PtxError) ptx_reader :=
  obind (ptx_fetch_from i r) (fun '(line, r) =>
  obind (at_line (i + 1) line (ok_or (usize_of line) PtxRows)) (fun rows =>
  obind (ptx_fetch_from (i + 1) r) (fun '(_, r) => obind (ptx_fetch_from (i + 2) r) (fun '(_, r) => obind (ptx_fetch_from (i + 3) r) (fun '(_, r) => obind (ptx_fetch_from (i + 4) r) (fun '(_, r) =>
  obind (ptx_matrix_line_from ft (i + 5) r) (fun '((m11, m12, m13, m14), r) =>
  obind (ptx_matrix_line_from ft (i + 6) r) (fun '((m21, m22, m23, m24), r) =>
  obind (ptx_matrix_line_from ft (i + 7) r) (fun '((m31, m32, m33, m34), r) =>
  obind (ptx_matrix_line_from ft (i + 8) r) (fun '((m41, m42, m43, m44), r) =>
  let m := mkm4 m11 m12 m13 m14 m21 m22 m23 m24 m31 m32 m33 m34 m41 m42 m43 m44 in
  Ok (mkptxr r false (i + 9) (w64 (rows * columns)) (negb (m4_eqb m m4_identity)) m))))))))))).
(** PtxIterator::next, src/io/ptx.rs:171-214, see [ptx_next]; after an error only is_done matters. *)
Definition ptx_next_from (ft : FText) (s : ptx_reader) : option (outcome (with_line PtxError) (data_reserve (pt3 F64))) * ptx_reader :=
  let '(mkptxr r d i todo must m) := s in
  if d then (None, s)
  else if (todo =? 0)%N then
    match fetch_from r with
    | (None, r) => (None, mkptxr r true i todo must m)
    | (Some line, r) =>
        match obind (match usize_of line with Some columns => Ok columns | None => Err (WIndex (i + 1) PtxColumns) end) (fun columns => ptx_header_from ft columns (i + 1) r) with
        | Ok s => (Some (Ok (DReserve (ptxr_left s))), s)
        | Err e => (Some (Err e), mkptxr r true i todo must m)
        | Panic => (Some Panic, mkptxr r true i todo must m)
        end
    end
  else
    match ptx_fetch_from i r with
    | Ok (line, r) => (Some (at_line (i + 1) line (omap DData (ptx_point ft line must m))), mkptxr r false (i + 1) (todo - 1) must m)
    | Err e => (Some (Err e), mkptxr r true i (todo - 1) must m)
    | Panic => (Some Panic, mkptxr r true i (todo - 1) must m)
    end.
(** load_ptx, src/io/ptx.rs:227-243. *)
Definition load_ptx_from (ft : FText) (k : nat) (r : reader) : option (list (pt3 F64) * outcome (with_line PtxError) unit) :=
  fold_loop (ptx_next_from ft) push_data k (mkptxr r false 0 0 false m4_identity) [].

(** ** Binary values *)
(** `read.read_exact(&mut buffer)?` for [n] bytes, e.g. src/io/psl.rs:176-177. *)
Definition exact_from {E} (e : E) (n : nat) (r : reader) : outcome E (bytes * reader) :=
  match read_exact_from n [] r with (Some b, r) => Ok (b, r) | (None, _) => Err e end.
(** A number of [n] bytes, e.g. `LittleReader::read_i32(read)?`, src/io/psl.rs:180: read_exact and the value
    of the bytes, see ByteModel.v. *)
Definition value_from {E A} (e : E) (n : nat) (value : bytes -> outcome E (A * bytes)) (r : reader) : outcome E (A * reader) :=
  obind (exact_from e n r) (fun '(b, r) => obind (value b) (fun '(a, _) => Ok (a, r))).

(** ** psl *)
(** fetch_header_return_n_passes, src/io/psl.rs:170-199. *)
Definition psl_header_from (r : reader) : outcome PslError (Z * reader) :=
  obind (exact_from PslAccessFile 4 r) (fun '(_, r) => obind (value_from PslAccessFile 4 psl_i32 r) (fun '(_, r) => obind (exact_from PslAccessFile 128 r) (fun '(_, r) => obind (value_from PslAccessFile 4 psl_i32 r) (fun '(n_passes, r) =>
  obind (value_from PslAccessFile 4 psl_i32 r) (fun '(_, r) => obind (exact_from PslAccessFile 368 r) (fun '(_, r) => Ok (n_passes, r))))))).
(** fetch_pass_header_return_n_lines, src/io/psl.rs:204-218. *)
Definition psl_pass_from (r : reader) : outcome PslError (Z * reader) :=
  obind (value_from PslAccessFile 4 psl_i32 r) (fun '(n_lines, r) => obind (value_from PslAccessFile 4 psl_i32 r) (fun '(_, r) => obind (exact_from PslAccessFile 56 r) (fun '(_, r) => Ok (n_lines, r)))).
(** fetch_line_header_return_n_points, src/io/psl.rs:223-242. *)
Definition psl_line_from (r : reader) : outcome PslError (Z * reader) :=
  obind (value_from PslAccessFile 4 psl_i32 r) (fun '(n_points, r) => obind (exact_from PslAccessFile 12 r) (fun '(_, r) => obind (exact_from PslAccessFile 48 r) (fun '(_, r) => Ok (n_points, r)))).
(** fetch_point, src/io/psl.rs:247-257. *)
Definition psl_point_from (r : reader) : outcome PslError (pt3 F64 * reader) :=
  obind (value_from PslAccessFile 4 psl_f32 r) (fun '(x, r) => obind (value_from PslAccessFile 4 psl_f32 r) (fun '(y, r) => obind (value_from PslAccessFile 4 psl_f32 r) (fun '(z, r) => Ok (mk3 x y z, r)))).
(** PslIterator, src/io/psl.rs:38-50. *)
Record psl_reader : Type := mkpslr { pslr_read : reader; pslr_done : bool; pslr_init : bool; pslr_passes : Z; pslr_lines : Z; pslr_points : Z }.
(** fetch_counts, src/io/psl.rs:74-86. *)
Definition psl_counts_from (s : psl_reader) : outcome PslError psl_reader :=
  let '(mkpslr read d i passes lines points) := s in
  obind (if (lines =? 0)%Z && (passes >? 0)%Z then psl_pass_from read else Ok (0%Z, read)) (fun '(lines, read) =>
  obind (if (points =? 0)%Z && (lines >? 0)%Z then psl_line_from read else Ok (0%Z, read)) (fun '(points, read) =>
  Ok (mkpslr read d i passes lines points))).
(** reduce_count, src/io/psl.rs:88-100. *)
Definition psl_reduce_from (s : psl_reader) : psl_reader :=
  let '(mkpslr read d i passes lines points) := s in
  if (points >? 0)%Z then mkpslr read d i passes lines (points - 1)
  else if (lines >? 0)%Z then mkpslr read d i passes (lines - 1) points
  else if (passes >? 0)%Z then mkpslr read d i (passes - 1) lines points
  else s.
(** Setting is_done, e.g. src/io/psl.rs:118; the rest of the state does not matter then. *)
Definition psl_end_from (s : psl_reader) : psl_reader := mkpslr (pslr_read s) true (pslr_init s) (pslr_passes s) (pslr_lines s) (pslr_points s).
(** PslIterator::next, src/io/psl.rs:110-139, see [psl_next]. *)
Definition psl_next_from (s : psl_reader) : option (outcome PslError (pt3 F64)) * psl_reader :=
  if pslr_done s then (None, s)
  else
  match (if pslr_init s then Ok s
         else obind (psl_header_from (pslr_read s)) (fun '(n, r) => Ok (mkpslr r false true n (pslr_lines s) (pslr_points s)))) with
  | Ok s =>
      match psl_counts_from s with
      | Ok s =>
          if (pslr_points s =? 0)%Z then (None, psl_end_from s)
          else let s := psl_reduce_from s in
               match psl_point_from (pslr_read s) with
               | Ok (p, r) => (Some (Ok p), mkpslr r false (pslr_init s) (pslr_passes s) (pslr_lines s) (pslr_points s))
               | Err e => (Some (Err e), psl_end_from s)
               | Panic => (Some Panic, psl_end_from s)
               end
      | Err e => (Some (Err e), psl_end_from s)
      | Panic => (Some Panic, psl_end_from s)
      end
  | Err e => (Some (Err e), psl_end_from s)
  | Panic => (Some Panic, psl_end_from s)
  end.
(** load_psl, src/io/psl.rs:152-165. *)
Definition load_psl_from (k : nat) (r : reader) : option (list (pt3 F64) * outcome PslError unit) := load_loop psl_next_from k (mkpslr r false false 0 0 0) [].

(** ** stl *)
(** fetch_line with its line index, then counting the line, src/io/stl.rs:528-529. *)
Definition stl_line_from (i : N) (r : reader) : outcome (with_line StlError) (bytes * reader * N) :=
  match fetch_from r with
  | (Some l, r) => Ok (l, r, i + 1)%N
  | (None, _) => Err (WIndex i LoadFileEndReached)
  end.
(** The lines that must start with a keyword, src/io/stl.rs:541-546,569-574,576-581. *)
Definition stl_keyword_from (word : string) (e : StlError) (i : N) (r : reader) : outcome (with_line StlError) (unit * reader * N) :=
  obind (stl_line_from i r) (fun '(l, r, i) =>
  let line := trim_start l in
  if starts_with (str word) line then Ok (tt, r, i) else Err (WLine i line e)).
(** The vertex lines, src/io/stl.rs:548-553,555-560,562-567. *)
Definition stl_vertex_line_from (ft : FText) (i : N) (r : reader) : outcome (with_line StlError) (pt3 F64 * reader * N) :=
  obind (stl_line_from i r) (fun '(line, r, i) =>
  obind (at_line i line (ok_or (read_stl_vertex ft line) StlVertex)) (fun p => Ok (p, r, i))).
(** read_stl_facet, src/io/stl.rs:517-584. *)
Definition read_stl_facet_from (ft : FText) (i : N) (r : reader) : outcome (with_line StlError) (stl_face * reader * N) :=
  obind (stl_line_from i r) (fun '(l, r, i) =>
  let line := trim_start l in
  if starts_with (str "endsolid") line then Err (WLine i line LoadFileEndReached)
  else if negb (starts_with (str "facet") line) then Err (WLine i line Facet)
  else
  let n := match read_stl_normal ft line with Some n => n | None => default_normal end in
  obind (stl_keyword_from "outer loop" Loop i r) (fun '(_, r, i) =>
  obind (stl_vertex_line_from ft i r) (fun '(a, r, i) =>
  obind (stl_vertex_line_from ft i r) (fun '(b, r, i) =>
  obind (stl_vertex_line_from ft i r) (fun '(c, r, i) =>
  obind (stl_keyword_from "endloop" EndLoop i r) (fun '(_, r, i) =>
  obind (stl_keyword_from "endfacet" EndFacet i r) (fun '(_, r, i) =>
  Ok (mkface a b c n, r, i)))))))).
(** StlAsciiIterator, src/io/stl.rs:254-265. *)
Record stl_ascii_reader : Type := mksar { sar_read : reader; sar_done : bool; sar_header : bool; sar_line : N }.
(** StlAsciiIterator::next, src/io/stl.rs:291-323: an error while skipping the first line is reported (698-702). *)
Definition stl_ascii_next_from (ft : FText) (s : stl_ascii_reader) : option (outcome (with_line StlError) (StlModel.data_reserve stl_face)) * stl_ascii_reader :=
  if sar_done s then (None, s)
  else
  match (if sar_header s then Ok s
         else match read_until_from [] (sar_read s) with
              | (Some _, r) => Ok (mksar r false true (sar_line s + 1))
              | (None, r) => Err (WIndex (sar_line s) StlAccessFile)
              end) with
  | Ok s =>
      match read_stl_facet_from ft (sar_line s) (sar_read s) with
      | Ok (f, r, i) => (Some (Ok (StlModel.Data f)), mksar r false true i)
      | Err w => match info_error w with
                 | LoadFileEndReached => (None, mksar (sar_read s) true true (sar_line s))
                 | _ => (Some (Err w), mksar (sar_read s) true true (sar_line s))
                 end
      | Panic => (Some Panic, s)
      end
  | Err e => (Some (Err e), mksar (sar_read s) true true (sar_line s))
  | Panic => (Some Panic, s)
  end.
(** StlBinaryIterator, src/io/stl.rs:152-163. *)
Record stl_binary_reader : Type := mksbr { sbr_read : reader; sbr_done : bool; sbr_header : bool; sbr_n : N; sbr_current : N }.
(** StlBinaryIterator::next, src/io/stl.rs:189-242, see [stl_binary_next]. *)
Definition stl_binary_next_from (s : stl_binary_reader) : option (outcome (with_line StlError) (StlModel.data_reserve stl_face)) * stl_binary_reader :=
  if sbr_done s then (None, s)
  else if negb (sbr_header s) then
    match obind (exact_from StlAccessFile 75 (sbr_read s)) (fun '(_, r) => value_from StlAccessFile 4 (fun b => ok_or (read_unsigned Little 4 b) StlAccessFile) r) with
    | Ok (n, r) =>
        if (max_triangles <? n)%N then (Some (Err (WNone InvalidFaceCount)), mksbr r true true (sbr_n s) (sbr_current s))
        else (Some (Ok (StlModel.Reserve n)), mksbr r false true n (sbr_current s))
    | Err e => (Some (Err (WNone e)), mksbr (sbr_read s) true true (sbr_n s) (sbr_current s))
    | Panic => (Some Panic, s)
    end
  else if (sbr_current s <? sbr_n s)%N then
    match value_from StlAccessFile 50 read_stl_triangle (sbr_read s) with
    | Ok (f, r) => (Some (Ok (StlModel.Data f)), mksbr r false true (sbr_n s) (sbr_current s + 1))
    | Err e => (Some (Err (WNone e)), mksbr (sbr_read s) true true (sbr_n s) (sbr_current s + 1))
    | Panic => (Some Panic, s)
    end
  else (None, mksbr (sbr_read s) true true (sbr_n s) (sbr_current s)).
(** is_ascii, src/io/stl.rs:465-487. *)
Definition stl_is_ascii_from (fmt : StlFormat) (r : reader) : outcome StlError (bool * reader) :=
  obind (exact_from StlAccessFile 5 r) (fun '(buffer, r) =>
  Ok (match fmt with StlAscii => true | StlBinary => false | StlAuto => bytes_eqb buffer (str "solid") end, r)).
(** StlIterator with the loop over it, src/io/stl.rs:104-130,348-351, see [stl_items]. *)
Definition stl_items_from (ft : FText) (k : nat) (fmt : StlFormat) (r : reader) : option (list (StlModel.data_reserve stl_face) * outcome (with_line StlError) unit) :=
  match simple (stl_is_ascii_from fmt r) with
  | Ok (true, r) => load_loop (stl_ascii_next_from ft) k (mksar r false false 0) []
  | Ok (false, r) => load_loop stl_binary_next_from k (mksbr r false false 0 0) []
  | Err e => Some ([], Err e)
  | Panic => Some ([], Panic)
  end.
(** load_stl_mesh_duped, src/io/stl.rs:336-364. *)
Definition load_stl_mesh_duped_from (ft : FText) (k : nat) (fmt : StlFormat) (r : reader) (m : mesh (pt3 F64)) (normals : list (pt3 F64))
  : option (mesh (pt3 F64) * list (pt3 F64) * outcome (with_line StlError) unit) :=
  match stl_items_from ft k fmt r with
  | None => None
  | Some (items, r) => Some (fold_left duped_step items (m, normals), r)
  end.
(** load_stl_mesh_unique, src/io/stl.rs:369-424. *)
Definition load_stl_mesh_unique_from (ft : FText) (same : pt3 F64 -> pt3 F64 -> bool) (k : nat) (fmt : StlFormat) (r : reader) (m : mesh (pt3 F64)) (normals : list (pt3 F64))
  : option (mesh (pt3 F64) * list (pt3 F64) * outcome (with_line StlError) unit) :=
  match stl_items_from ft k fmt r with
  | None => None
  | Some (items, r) => let '(m, _, normals) := fold_left (unique_step same) items (m, [], normals) in Some (m, normals, r)
  end.
(** load_stl_triplets, src/io/stl.rs:429-459. *)
Definition load_stl_triplets_from (ft : FText) (k : nat) (fmt : StlFormat) (r : reader)
  : option (list (pt3 F64) * list (pt3 F64) * outcome (with_line StlError) unit) :=
  match stl_items_from ft k fmt r with
  | None => None
  | Some (items, r) =>
      Some (flat_map (fun x => match x with StlModel.Data f => [sf_a f; sf_b f; sf_c f] | StlModel.Reserve _ => [] end) items,
            flat_map (fun x => match x with StlModel.Data f => [sf_n f] | StlModel.Reserve _ => [] end) items, r)
  end.

(** ** ply *)
(** load_header, src/io/ply/header.rs:36-274, see [load_header]; at most [n] calls of fetch_line. *)
Fixpoint load_header_from (n : nat) (h : hstate) (i : N) (r : reader) : outcome (with_line PlyError) (header * reader * N) :=
  match n with
  | O => Err (WNone LoadHeaderInvalid)
  | S n =>
      match fetch_from r with
      | (None, _) => Err (WNone LoadHeaderInvalid)
      | (Some line, r) =>
          match at_line (i + 1) line (header_line h line) with
          | Ok (More h) => load_header_from n h (i + 1) r
          | Ok (Found hd) => Ok (hd, r, i + 1)%N
          | Err e => Err e
          | Panic => Panic
          end
      end
  end.
(** PlyAsciiPointsIterator and PlyAsciiFacesIterator, src/io/ply/iterators_internal.rs:298-310,414-424. *)
Record ascii_reader : Type := mkar { ar_read : reader; ar_done : bool; ar_current : N; ar_line : N }.
(** PlyAsciiPointsIterator::next, src/io/ply/iterators_internal.rs:376-402, see [ascii_points_next]. *)
Definition ascii_points_next_from (ft : FText) (v : vertex_data) (s : ascii_reader) : option (outcome (with_line PlyError) (pt3 F64)) * ascii_reader :=
  if ar_done s then (None, s)
  else
  let rest current read :=
    let s := mkar read true current (ar_line s) in
    if negb (current =? vd_count v)%N then (Some (Err (WNone LoadVertexCountIncorrect)), s) else (None, s) in
  if (ar_current s <? vd_count v)%N then
    match fetch_from (ar_read s) with
    | (Some line, read) =>
        let i := (ar_line s + 1)%N in
        match ascii_vertex ft v line with
        | Ok p => (Some (Ok p), mkar read false (ar_current s + 1) i)
        | r => (Some (at_line i line r), mkar read true (ar_current s + 1) i)
        end
    | (None, read) => rest (ar_current s + 1)%N read
    end
  else rest (ar_current s) (ar_read s).
(** PlyAsciiFacesIterator::next, src/io/ply/iterators_internal.rs:448-471, see [ascii_faces_next]. *)
Definition ascii_faces_next_from (f : face_data) (s : ascii_reader) : option (outcome (with_line PlyError) face3) * ascii_reader :=
  if ar_done s then (None, s)
  else
  let rest current read := (None, mkar read true current (ar_line s)) in
  if (ar_current s <? fd_count f)%N then
    match fetch_from (ar_read s) with
    | (Some line, read) =>
        let i := (ar_line s + 1)%N in
        match collect_index_line line with
        | Some t => (Some (Ok t), mkar read false (ar_current s + 1) i)
        | None => (Some (Err (WLine i line FaceStructure)), mkar read true (ar_current s + 1) i)
        end
    | (None, read) => rest (ar_current s + 1)%N read
    end
  else rest (ar_current s) (ar_read s).
(** skip_bytes, src/io/utils.rs:35-45: one byte after the other. *)
Fixpoint skip_bytes_from (n : nat) (r : reader) : outcome PlyError (unit * reader) :=
  match n with O => Ok (tt, r) | S n => obind (exact_from PlyAccessFile 1 r) (fun '(_, r) => skip_bytes_from n r) end.
(** read_vertex_type, src/io/ply/utils.rs:71-80. *)
Definition vertex_type_from (en : endian) (t : VertexType) (r : reader) : outcome PlyError (T F64 * reader) :=
  value_from PlyAccessFile (match t with VFloat => 4 | VDouble => 8 end) (read_vertex_type en t) r.
(** read_face_type, src/io/ply/utils.rs:53-66. *)
Definition face_type_from (en : endian) (t : PType) (r : reader) : outcome PlyError (N * reader) :=
  value_from PlyAccessFile (match t with PChar | PUChar => 1 | PShort | PUShort => 2 | _ => 4 end) (read_face_type en t) r.
(** PlyBinaryPointsIterator::fetch_one, src/io/ply/iterators_internal.rs:233-260. *)
Definition binary_vertex_from (en : endian) (v : vertex_data) (r : reader) : outcome PlyError (pt3 F64 * reader) :=
  obind (skip_bytes_from (N.to_nat (bw_bytes (vd_before v))) r) (fun '(_, r) => obind (vertex_type_from en (vd_first v) r) (fun '(first, r) =>
  obind (skip_bytes_from (N.to_nat (bw_bytes (vd_between1 v))) r) (fun '(_, r) => obind (vertex_type_from en (vd_snd v) r) (fun '(snd, r) =>
  obind (skip_bytes_from (N.to_nat (bw_bytes (vd_between2 v))) r) (fun '(_, r) => obind (vertex_type_from en (vd_third v) r) (fun '(third, r) =>
  obind (skip_bytes_from (N.to_nat (bw_bytes (vd_after v))) r) (fun '(_, r) => Ok (point_with_order first snd third (vd_order v), r)))))))).
(** PlyBinaryFacesIterator::fetch_one, src/io/ply/iterators_internal.rs:506-522. *)
Definition binary_face_from (en : endian) (f : face_data) (r : reader) : outcome PlyError (face3 * reader) :=
  obind (skip_bytes_from (N.to_nat (bw_bytes (fd_before f))) r) (fun '(_, r) => obind (face_type_from en (fd_ctype f) r) (fun '(n, r) =>
  if negb (n =? 3)%N then Err FaceStructure else
  obind (face_type_from en (fd_itype f) r) (fun '(a, r) => obind (face_type_from en (fd_itype f) r) (fun '(b, r) => obind (face_type_from en (fd_itype f) r) (fun '(c, r) =>
  obind (skip_bytes_from (N.to_nat (bw_bytes (fd_after f))) r) (fun '(_, r) => Ok ((a, b, c), r))))))).
(** PlyBinaryPointsIterator and PlyBinaryFacesIterator, src/io/ply/iterators_internal.rs:197-209,478-488. *)
Record binary_reader : Type := mkbr { br_read : reader; br_done : bool; br_current : N }.
(** The two next functions, src/io/ply/iterators_internal.rs:271-285,532-546, see [binary_next].
    Simplified: after an error the reader is left before the element, while the code has consumed a part of it.  Only
    PlyMeshIterator reads on after an error (of a point), so what it gives there is not modelled for binary files. *)
Definition binary_next_from {A} (count : N) (fetch : reader -> outcome PlyError (A * reader)) (s : binary_reader) : option (outcome PlyError A) * binary_reader :=
  if br_done s then (None, s)
  else if (br_current s <? count)%N then
    match fetch (br_read s) with
    | Ok (a, r) => (Some (Ok a), mkbr r false (br_current s + 1))
    | Err e => (Some (Err e), mkbr (br_read s) true (br_current s + 1))
    | Panic => (Some Panic, s)
    end
  else (None, mkbr (br_read s) true (br_current s)).
(** PlyAsciiMeshIterator::next, src/io/ply/iterators_internal.rs:71-94. *)
Definition ascii_mesh_next_from (ft : FText) (v : vertex_data) (f : face_data) :=
  mesh_next (ascii_points_next_from ft v) (ascii_faces_next_from f) (fun s => mkar (ar_read s) false 0 (ar_line s)).
(** PlyBinaryMeshIterator::next, src/io/ply/iterators_internal.rs:141-160. *)
Definition binary_mesh_next_from (en : endian) (v : vertex_data) (f : face_data) :=
  mesh_next (binary_next_from (vd_count v) (binary_vertex_from en v)) (binary_next_from (fd_count f) (binary_face_from en f)) (fun s => mkbr (br_read s) false 0).
(** load_ply_mesh, src/io/ply/load.rs:86-112, with PlyMeshIterator, src/io/ply/iterators.rs:50-107. *)
Definition load_ply_mesh_from (ft : FText) (k : nat) (r : reader) : option (mesh (pt3 F64) * outcome (with_line PlyError) unit) :=
  match load_header_from (calls_left r) h_start 0 r with
  | Ok (mkheader fmt v (Some f), r, i) =>
      if reserve 24 (vd_count v) && reserve 8 (w64 (3 * fd_count f)) then
        let body m x := let (m, r) := add_item m x in (m, simple r) in
        match fmt with
        | FAscii => fold_loop (ascii_mesh_next_from ft v f) body k (IPoints (mkar r false 0 i)) mesh_empty
        | FBinary en => fold_loop (simple_next (binary_mesh_next_from en v f)) body k (IPoints (mkbr r false 0)) mesh_empty
        end
      else Some (mesh_empty, Panic)
  | Ok (mkheader _ _ None, _, _) => Some (mesh_empty, Err (WNone LoadHeaderInvalid))
  | Err e => Some (mesh_empty, Err e)
  | Panic => Some (mesh_empty, Panic)
  end.
(** load_ply_points, src/io/ply/load.rs:117-133, with PlyPointsIterator, src/io/ply/iterators.rs:133-177. *)
Definition load_ply_points_from (ft : FText) (k : nat) (r : reader) : option (list (pt3 F64) * outcome (with_line PlyError) unit) :=
  match load_header_from (calls_left r) h_start 0 r with
  | Ok (mkheader fmt v _, r, i) =>
      if reserve 24 (vd_count v) then
        match fmt with
        | FAscii => load_loop (ascii_points_next_from ft v) k (mkar r false 0 i) []
        | FBinary en => load_loop (simple_next (binary_next_from (vd_count v) (binary_vertex_from en v))) k (mkbr r false 0) []
        end
      else Some ([], Panic)
  | Err e => Some ([], Err e)
  | Panic => Some ([], Panic)
  end.
