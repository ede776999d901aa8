(** The .stl format: src/io/stl.rs.  The mesh is a Mesh3D<Point3D>; the readers and writers are those
    of IoModel.v. *)
From Verif Require Import Base Num VecModel MeshModel MeshAlgoModel IoModel ByteModel.
Local Open Scope N_scope.

(** Models StlError, src/io/stl.rs:653-663. *)
Inductive StlError : Type :=
  LoadFileEndReached | StlAccessFile | StlBinaryData | InvalidFaceCount | Facet | EndFacet | StlVertex | Loop | EndLoop.
(** Models StlFormat, src/io/stl.rs:638-642. *)
Inductive StlFormat : Type := StlAscii | StlBinary | StlAuto.
(** Models StlFace<P>, src/io/stl.rs:46-51. *)
Record stl_face : Type := mkface { sf_a : pt3 F64; sf_b : pt3 F64; sf_c : pt3 F64; sf_n : pt3 F64 }.
(** Models DataReserve, src/io/types.rs:41-44. *)
Inductive data_reserve (A : Type) : Type := Reserve (n : N) | Data (a : A).
Arguments Reserve {A}. Arguments Data {A}.

(** ** Saving *)
(** Models str_exp, src/io/stl.rs:627-632. *)
Definition str_exp (ft : FText) (p : pt3 F64) : bytes :=
  fprint_e ft (px p) ++ [space] ++ fprint_e ft (py p) ++ [space] ++ fprint_e ft (pz p).
(** The text of one facet, src/io/stl.rs:67-81. *)
Definition facet_text (ft : FText) (v1 v2 v3 n : pt3 F64) : bytes :=
  str "facet normal " ++ str_exp ft n ++ [nl] ++ str "    outer loop" ++ [nl] ++
  str "        vertex " ++ str_exp ft v1 ++ [nl] ++
  str "        vertex " ++ str_exp ft v2 ++ [nl] ++
  str "        vertex " ++ str_exp ft v3 ++ [nl] ++
  str "    endloop" ++ [nl] ++ str "endfacet" ++ [nl].
(** `unwrap` of a Result holding an Option (face_vertices maps None to an error), src/io/stl.rs:65. *)
Definition unwrap_opt {A} (r : res (option A)) : res A := match r with Ok (Some a) => Ok a | _ => Panic end.
(** What face_normal makes of the three vertices, src/is_mesh_3d.rs:40-45. *)
Definition corners_normal {NM : Num} (v1 v2 v3 : pt3 NM) : res (pt3 NM) := norm3_new (cross3 (conn v1 v2) (conn v2 v3)).
(** Models IsMesh3D::face_normal, src/is_mesh_3d.rs:35-46; unlike normal_of_face it fails without a direction. *)
Definition mesh_face_normal {NM : Num} (m : mesh (pt3 NM)) (i : N) : res (pt3 NM) :=
  obind (face_vertices m i) (fun o => match o with Some (v1, v2, v3) => corners_normal v1 v2 v3 | None => Err IncorrectFaceID end).
(** Models save_stl_ascii, src/io/stl.rs:56-86. *)
Definition save_stl_ascii (ft : FText) (m : mesh (pt3 F64)) : res bytes :=
  obind (for_range (N.to_nat (num_faces m)) 0 (fun i out =>
    obind (unwrap_opt (face_vertices m i)) (fun '(v1, v2, v3) =>
    obind (unwrap_res (mesh_face_normal m i)) (fun n =>
    Ok (out ++ facet_text ft v1 v2 v3 n)))) (str "solid STL generated by rust-3d" ++ [nl]))
  (fun out => Ok (out ++ str "endsolid STL generated by rust-3d" ++ [nl])).

(** ** The ASCII iterator *)
(** Three numbers from the words, src/io/stl.rs:597-601,618-622. *)
Definition words_point (ft : FText) (ws : list bytes) : option (pt3 F64) :=
  match ws with
  | a :: b :: c :: _ =>
      match f64_of ft a, f64_of ft b, f64_of ft c with
      | Some x, Some y, Some z => Some (mk3 x y z)
      | _, _, _ => None
      end
  | _ => None
  end.
(** Models read_stl_vertex, src/io/stl.rs:588-602. *)
Definition read_stl_vertex (ft : FText) (line : bytes) : option (pt3 F64) :=
  match to_words line with _ :: ws => words_point ft ws | [] => None end.
(** Models read_stl_normal, src/io/stl.rs:606-623. *)
Definition read_stl_normal (ft : FText) (line : bytes) : option (pt3 F64) :=
  match to_words line with _ :: _ :: ws => words_point ft ws | _ => None end.
(** fetch_line with its line index, then counting the line, src/io/stl.rs:528-529: the line, the lines left
    and the new line counter. *)
Definition stl_line (i : N) (ls : list bytes) : outcome (with_line StlError) (bytes * list bytes * N) :=
  match next_line ls with
  | Some (l, ls) => Ok (l, ls, i + 1)
  | None => Err (WIndex i LoadFileEndReached)
  end.
(** The lines that must start with a keyword, src/io/stl.rs:541-546,569-574,576-581. *)
Definition stl_keyword (word : string) (e : StlError) (i : N) (ls : list bytes) : outcome (with_line StlError) (unit * list bytes * N) :=
  obind (stl_line i ls) (fun '(l, ls, i) =>
  let line := trim_start l in
  if starts_with (str word) line then Ok (tt, ls, i) else Err (WLine i line e)).
(** The vertex lines, src/io/stl.rs:548-553,555-560,562-567. *)
Definition stl_vertex_line (ft : FText) (i : N) (ls : list bytes) : outcome (with_line StlError) (pt3 F64 * list bytes * N) :=
  obind (stl_line i ls) (fun '(line, ls, i) =>
  obind (at_line i line (ok_or (read_stl_vertex ft line) StlVertex)) (fun p => Ok (p, ls, i))).
(** The default normal, src/io/stl.rs:539. *)
Definition default_normal : pt3 F64 := mk3 n0 n0 n1.
(** Models read_stl_facet, src/io/stl.rs:517-584. *)
Definition read_stl_facet (ft : FText) (i : N) (ls : list bytes) : outcome (with_line StlError) (stl_face * list bytes * N) :=
  obind (stl_line i ls) (fun '(l, ls, i) =>
  let line := trim_start l in
  if starts_with (str "endsolid") line then Err (WLine i line LoadFileEndReached)
  else if negb (starts_with (str "facet") line) then Err (WLine i line Facet)
  else
  let n := match read_stl_normal ft line with Some n => n | None => default_normal end in
  obind (stl_keyword "outer loop" Loop i ls) (fun '(_, ls, i) =>
  obind (stl_vertex_line ft i ls) (fun '(a, ls, i) =>
  obind (stl_vertex_line ft i ls) (fun '(b, ls, i) =>
  obind (stl_vertex_line ft i ls) (fun '(c, ls, i) =>
  obind (stl_keyword "endloop" EndLoop i ls) (fun '(_, ls, i) =>
  obind (stl_keyword "endfacet" EndFacet i ls) (fun '(_, ls, i) =>
  Ok (mkface a b c n, ls, i)))))))).
(** The error in a WithLineInfo, for the patterns in src/io/stl.rs:312-314. *)
Definition info_error {E} (w : with_line E) : E := match w with WNone e | WIndex _ e | WLine _ _ e => e end.
(** Models StlAsciiIterator, src/io/stl.rs:254-265, without the line buffer. *)
Record stl_ascii : Type := mksa { sa_read : list bytes; sa_done : bool; sa_header : bool; sa_line : N }.
(** Models StlAsciiIterator::next, src/io/stl.rs:291-323.  The first line is skipped with read_until. *)
Definition stl_ascii_next (ft : FText) (s : stl_ascii) : option (outcome (with_line StlError) (data_reserve stl_face)) * stl_ascii :=
  if sa_done s then (None, s)
  else
  let s := if sa_header s then s else mksa (tl (sa_read s)) false true (sa_line s + 1) in
  match read_stl_facet ft (sa_line s) (sa_read s) with
  | Ok (f, ls, i) => (Some (Ok (Data f)), mksa ls false true i)
  | Err w => match info_error w with
             | LoadFileEndReached => (None, mksa (sa_read s) true true (sa_line s))
             | _ => (Some (Err w), mksa (sa_read s) true true (sa_line s))
             end
  | Panic => (Some Panic, s)
  end.

(** ** The binary iterator *)
(** MAX_TRIANGLES_BINARY, src/io/stl.rs:42. *)
Definition max_triangles : N := 1000000000.
(** A point of three f32 values as f64, src/io/stl.rs:230-233; [vs] are the bits of an array. *)
Definition f32_point (vs : list N) : outcome StlError (pt3 F64) :=
  match vs with [x; y; z] => Ok (mk3 (widen (f32_of_bits x)) (widen (f32_of_bits y)) (widen (f32_of_bits z))) | _ => Panic end.
(** `array_from_bytes_le!(f32, 3, &buffer[i..j])?`, src/io/stl.rs:508-511: every FromBytesError becomes
    BinaryData (728-732). *)
Definition stl_array (buffer : bytes) (i j : nat) : outcome StlError (pt3 F64) :=
  match obind (slice buffer i j) (array_from_bytes Little 4 3) with Ok vs => f32_point vs | Err _ => Err StlBinaryData | Panic => Panic end.
(** Models read_stl_triangle, src/io/stl.rs:499-513, with the conversion to f64 of 229-235. *)
Definition read_stl_triangle (s : bytes) : outcome StlError (stl_face * bytes) :=
  match take_bytes 50 s with
  | None => Err StlAccessFile
  | Some (buffer, r) =>
      obind (stl_array buffer 0 12) (fun n => obind (stl_array buffer 12 24) (fun a =>
      obind (stl_array buffer 24 36) (fun b => obind (stl_array buffer 36 48) (fun c => Ok (mkface a b c n, r)))))
  end.
(** Models StlBinaryIterator, src/io/stl.rs:152-163. *)
Record stl_binary : Type := mksb { sb_read : bytes; sb_done : bool; sb_header : bool; sb_n : N; sb_current : N }.
(** Models StlBinaryIterator::next, src/io/stl.rs:189-242. *)
Definition stl_binary_next (s : stl_binary) : option (outcome (with_line StlError) (data_reserve stl_face)) * stl_binary :=
  if sb_done s then (None, s)
  else if negb (sb_header s) then
    match take_bytes 75 (sb_read s) with
    | None => (Some (Err (WNone StlAccessFile)), mksb (sb_read s) true true (sb_n s) (sb_current s))
    | Some (_, r) =>
        match read_unsigned Little 4 r with
        | None => (Some (Err (WNone StlAccessFile)), mksb r true true (sb_n s) (sb_current s))
        | Some (n, r) =>
            if max_triangles <? n then (Some (Err (WNone InvalidFaceCount)), mksb r true true (sb_n s) (sb_current s))
            else (Some (Ok (Reserve n)), mksb r false true n (sb_current s))
        end
    end
  else if sb_current s <? sb_n s then
    match read_stl_triangle (sb_read s) with
    | Ok (f, r) => (Some (Ok (Data f)), mksb r false true (sb_n s) (sb_current s + 1))
    | Err e => (Some (Err (WNone e)), mksb (sb_read s) true true (sb_n s) (sb_current s + 1))
    | Panic => (Some Panic, s)
    end
  else (None, mksb (sb_read s) true true (sb_n s) (sb_current s)).

(** ** Loading *)
(** Models is_ascii, src/io/stl.rs:465-487: the decision and the bytes left. *)
Definition stl_is_ascii (fmt : StlFormat) (file : bytes) : outcome StlError (bool * bytes) :=
  match take_bytes 5 file with
  | None => Err StlAccessFile
  | Some (buffer, r) => Ok (match fmt with StlAscii => true | StlBinary => false | StlAuto => bytes_eqb buffer (str "solid") end, r)
  end.
(** Models StlIterator, new and next with the loop over it, src/io/stl.rs:104-130,348-351: all items and
    the result. *)
Definition stl_items (ft : FText) (k : nat) (fmt : StlFormat) (file : bytes) : option (list (data_reserve stl_face) * outcome (with_line StlError) unit) :=
  match simple (stl_is_ascii fmt file) with
  | Ok (true, r) => load_loop (stl_ascii_next ft) k (mksa (raw_lines r) false false 0) []
  | Ok (false, r) => load_loop stl_binary_next k (mksb r false false 0 0) []
  | Err e => Some ([], Err e)
  | Panic => Some ([], Panic)
  end.
(** The body of the loop, src/io/stl.rs:351-360. *)
Definition duped_step (s : mesh (pt3 F64) * list (pt3 F64)) (x : data_reserve stl_face) : mesh (pt3 F64) * list (pt3 F64) :=
  match x with
  | Reserve _ => s
  | Data f => (fst (add_face (fst s) (sf_a f) (sf_b f) (sf_c f)), snd s ++ [sf_n f])
  end.
(** Models load_stl_mesh_duped, src/io/stl.rs:336-364: the mesh and the normals afterwards, and the result. *)
Definition load_stl_mesh_duped (ft : FText) (k : nat) (fmt : StlFormat) (file : bytes) (m : mesh (pt3 F64)) (normals : list (pt3 F64))
  : option (mesh (pt3 F64) * list (pt3 F64) * outcome (with_line StlError) unit) :=
  match stl_items ft k fmt file with
  | None => None
  | Some (items, r) => Some (fold_left duped_step items (m, normals), r)
  end.
(** `map.entry(p).or_insert_with(..)`, src/io/stl.rs:393-397; [same] is how the map compares keys. *)
Definition unique_vertex (same : pt3 F64 -> pt3 F64 -> bool) (s : mesh (pt3 F64) * list (pt3 F64 * N)) (p : pt3 F64) : N * (mesh (pt3 F64) * list (pt3 F64 * N)) :=
  let (m, map) := s in
  match map_get same map p with
  | Some id => (id, s)
  | None => let value := num_vertices m in (value, (fst (add_vertex m p), (p, value) :: map))
  end.
(** The body of the loop, src/io/stl.rs:385-420. *)
Definition unique_step (same : pt3 F64 -> pt3 F64 -> bool) (s : mesh (pt3 F64) * list (pt3 F64 * N) * list (pt3 F64)) (x : data_reserve stl_face)
  : mesh (pt3 F64) * list (pt3 F64 * N) * list (pt3 F64) :=
  match x with
  | Reserve _ => s
  | Data f =>
      let (mm, normals) := s in
      let (ida, mm) := unique_vertex same mm (sf_a f) in
      let (idb, mm) := unique_vertex same mm (sf_b f) in
      let (idc, mm) := unique_vertex same mm (sf_c f) in
      let (m, map) := mm in
      match try_add_connection m ida idb idc with
      | (m, Ok _) => (m, map, normals ++ [sf_n f])
      | (m, _) => (m, map, normals)
      end
  end.
(** Models load_stl_mesh_unique, src/io/stl.rs:369-424. *)
Definition load_stl_mesh_unique (ft : FText) (same : pt3 F64 -> pt3 F64 -> bool) (k : nat) (fmt : StlFormat) (file : bytes) (m : mesh (pt3 F64)) (normals : list (pt3 F64))
  : option (mesh (pt3 F64) * list (pt3 F64) * outcome (with_line StlError) unit) :=
  match stl_items ft k fmt file with
  | None => None
  | Some (items, r) => let '(m, _, normals) := fold_left (unique_step same) items (m, [], normals) in Some (m, normals, r)
  end.
(** Models load_stl_triplets, src/io/stl.rs:429-459, into empty containers. *)
Definition load_stl_triplets (ft : FText) (k : nat) (fmt : StlFormat) (file : bytes)
  : option (list (pt3 F64) * list (pt3 F64) * outcome (with_line StlError) unit) :=
  match stl_items ft k fmt file with
  | None => None
  | Some (items, r) =>
      Some (flat_map (fun x => match x with Data f => [sf_a f; sf_b f; sf_c f] | Reserve _ => [] end) items,
            flat_map (fun x => match x with Data f => [sf_n f] | Reserve _ => [] end) items, r)
  end.
