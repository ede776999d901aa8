(** Model of the .ply format, src/io/ply/.  Meshes are Mesh3D with points of f64 and an empty mesh is
    loaded into. *)
From Verif Require Import Base Num MeshModel MeshAlgoModel IoModel ByteModel StlModel.
From Coq Require Import Floats.SpecFloat.

(** ** Types *)
(** Models Type, src/io/ply/types.rs:34-43. *)
Inductive PType : Type := PChar | PUChar | PShort | PUShort | PInt | PUInt | PFloat | PDouble.
(** Models PlyError, src/io/ply/types.rs:285-304; InvalidType without the text of the type. *)
Inductive PlyError : Type :=
  LoadStartNotFound | LoadFormatNotFound | LoadHeaderInvalid | LoadVertexCountIncorrect | PlyAccessFile | ColorArrayIncorrectLength
  | VertexElement | FaceElement | InvalidType | InvalidVertexType (t : PType) | InvalidFaceType (t : PType) | PlyInvalidMeshIndices
  | InvalidProperty | InvalidVertex | PropertyLineLocation | FaceStructure | InvalidVertexDimensionDefinition.
(** Models Type::size_bytes, src/io/ply/types.rs:47-58. *)
Definition size_bytes (t : PType) : N :=
  match t with PChar | PUChar => 1 | PShort | PUShort => 2 | PInt | PUInt | PFloat => 4 | PDouble => 8 end.
(** One of the words. `b"char" | b"int8"`, src/io/ply/types.rs:72. *)
Definition is_word (w : bytes) (a b : string) : bool := bytes_eqb w (str a) || bytes_eqb w (str b).
(** Models Type::try_from, src/io/ply/types.rs:70-84. *)
Definition type_of (w : bytes) : outcome PlyError PType :=
  if is_word w "char" "int8" then Ok PChar else if is_word w "uchar" "uint8" then Ok PUChar
  else if is_word w "short" "int16" then Ok PShort else if is_word w "ushort" "uint16" then Ok PUShort
  else if is_word w "int" "int32" then Ok PInt else if is_word w "uint" "uint32" then Ok PUInt
  else if is_word w "float" "float32" then Ok PFloat else if is_word w "double" "float64" then Ok PDouble
  else Err InvalidType.
(** Models Xyz, src/io/ply/types.rs:97-101. *)
Inductive Xyz : Type := CX | CY | CZ.
(** Models VertexOrder, src/io/ply/types.rs:106-113. *)
Inductive VertexOrder : Type := OXyz | OXzy | OYxz | OYzx | OZxy | OZyx.
(** Models VertexOrder::try_from, src/io/ply/types.rs:118-128. *)
Definition order_of (x : list Xyz) : outcome PlyError VertexOrder :=
  match x with
  | [CX; CY; CZ] => Ok OXyz
  | [CX; CZ; CY] => Ok OXzy
  | [CY; CX; CZ] => Ok OYxz
  | [CY; CZ; CX] => Ok OYzx
  | [CZ; CX; CY] => Ok OZxy
  | [CZ; CY; CX] => Ok OZyx
  | _ => Err InvalidVertexDimensionDefinition
  end.
(** Models VertexType and its try_from, src/io/ply/types.rs:142-157. *)
Inductive VertexType : Type := VFloat | VDouble.
(** Models VertexType::try_from, src/io/ply/types.rs:150-156. *)
Definition vertex_type (t : PType) : outcome PlyError VertexType :=
  match t with PFloat => Ok VFloat | PDouble => Ok VDouble | t => Err (InvalidVertexType t) end.
(** Models FaceType::try_from, src/io/ply/types.rs:174-184; a FaceType is a Type other than Float and
    Double. *)
Definition face_type (t : PType) : outcome PlyError PType :=
  match t with PFloat | PDouble => Err (InvalidFaceType t) | t => Ok t end.
(** Models Format, src/io/ply/types.rs:214-218. *)
Inductive PlyFormat : Type := FAscii | FBinary (en : endian).
(** Models HeaderReadState, src/io/ply/types.rs:223-227. *)
Inductive read_state : Type := SMeta | SVertex | SFace.
(** Models BytesWords, src/io/ply/types.rs:134-137. *)
Record bytes_words : Type := mkbw { bw_bytes : N; bw_words : N }.
(** BytesWords::default, src/io/ply/types.rs:133 (derive Default). *)
Definition bw0 : bytes_words := mkbw 0 0.
(** `bytes += t.size_bytes(); words += 1`, e.g. src/io/ply/header.rs:163-164; the sums are taken not to
    overflow. *)
Definition bw_add (b : bytes_words) (t : PType) : bytes_words := mkbw (bw_bytes b + size_bytes t) (bw_words b + 1).
(** Models VertexFormat and VertexData, src/io/ply/types.rs:190-199,232-235. *)
Record vertex_data : Type := mkvd { vd_count : N; vd_order : VertexOrder; vd_first : VertexType; vd_snd : VertexType; vd_third : VertexType;
  vd_before : bytes_words; vd_between1 : bytes_words; vd_between2 : bytes_words; vd_after : bytes_words }.
(** Models FaceFormat and FaceData, src/io/ply/types.rs:204-209,238-241. *)
Record face_data : Type := mkfd { fd_count : N; fd_ctype : PType; fd_itype : PType; fd_before : bytes_words; fd_after : bytes_words }.
(** Models Header, FullHeader and PartialHeader, src/io/ply/types.rs:246-262: partial if there is no
    face data. *)
Record header : Type := mkheader { hd_format : PlyFormat; hd_vertex : vertex_data; hd_face : option face_data }.

(** ** The header *)
(** The variables of load_header, src/io/ply/header.rs:44-65.  n_types_found and i_vertex_order are
    always equal and kept as one number. *)
Record hstate : Type := mkh { h_order : list Xyz; h_found : N; h_ply : bool; h_state : read_state; h_format : option PlyFormat; h_nv : option N; h_nf : option N;
  h_x : option VertexType; h_y : option VertexType; h_z : option VertexType; h_before : bytes_words; h_between1 : bytes_words; h_between2 : bytes_words; h_after : bytes_words;
  h_ctype : option PType; h_itype : option PType; h_fbefore : bytes_words; h_fafter : bytes_words }.
(** The initial values, src/io/ply/header.rs:44-65. *)
Definition h_start : hstate := mkh [CX; CX; CX] 0 false SMeta None None None None None None bw0 bw0 bw0 bw0 None None bw0 bw0.
(** What the body of the loop does: `continue` (e.g. src/io/ply/header.rs:71) or return a header (248). *)
Inductive hstep : Type := More (h : hstate) | Found (h : header).
(** `words.nth(2).and_then(|w| from_ascii(w)).ok_or(..)`, src/io/ply/header.rs:102-105. *)
Definition element_count (e : PlyError) (line : bytes) : outcome PlyError N :=
  match nth_error (to_words line) 2 with Some w => ok_or (usize_of w) e | None => Err e end.
(** Writing `vertex_order[i_vertex_order]`, src/io/ply/header.rs:150; panics out of range. *)
Definition set_order (h : hstate) (c : Xyz) : outcome PlyError (list Xyz) :=
  if (h_found h <? lenN (h_order h))%N then Ok (setN (h_order h) (h_found h) c) else Panic.
(** A property of a vertex, src/io/ply/header.rs:134-175. *)
Definition vertex_property (h : hstate) (line : bytes) : outcome PlyError hstate :=
  let ws := tl (to_words line) in
  obind (match ws with [] => Err InvalidProperty | w :: _ => type_of w end) (fun t =>
  match nth_error ws 1 with
  | None => Err InvalidProperty
  | Some id =>
      let '(mkh o n p s f nv nf x y z b b1 b2 a ct it fb fa) := h in
      if bytes_eqb id (str "x") then obind (vertex_type t) (fun v => obind (set_order h CX) (fun o => Ok (mkh o (n + 1) p s f nv nf (Some v) y z b b1 b2 a ct it fb fa)))
      else if bytes_eqb id (str "y") then obind (vertex_type t) (fun v => obind (set_order h CY) (fun o => Ok (mkh o (n + 1) p s f nv nf x (Some v) z b b1 b2 a ct it fb fa)))
      else if bytes_eqb id (str "z") then obind (vertex_type t) (fun v => obind (set_order h CZ) (fun o => Ok (mkh o (n + 1) p s f nv nf x y (Some v) b b1 b2 a ct it fb fa)))
      else if (n =? 0)%N then Ok (mkh o n p s f nv nf x y z (bw_add b t) b1 b2 a ct it fb fa)
      else if (n =? 1)%N then Ok (mkh o n p s f nv nf x y z b (bw_add b1 t) b2 a ct it fb fa)
      else if (n =? 2)%N then Ok (mkh o n p s f nv nf x y z b b1 (bw_add b2 t) a ct it fb fa)
      else Ok (mkh o n p s f nv nf x y z b b1 b2 (bw_add a t) ct it fb fa)
  end).
(** Models contains, src/utils.rs:58-63, for a needle that is not empty. *)
Fixpoint contains (haystack needle : bytes) : bool :=
  match haystack with [] => false | _ :: r => starts_with needle haystack || contains r needle end.
(** A property of a face, src/io/ply/header.rs:176-214. *)
Definition face_property (h : hstate) (line : bytes) : outcome PlyError hstate :=
  let '(mkh o n p s f nv nf x y z b b1 b2 a ct it fb fa) := h in
  if starts_with (str "property list") line then
    if contains line (str "vertex_indices") || contains line (str "vertex_index") then
      let ws := tl (tl (to_words line)) in
      obind (match ws with [] => Err InvalidProperty | w :: _ => obind (type_of w) face_type end) (fun tc =>
      obind (match tl ws with [] => Err InvalidProperty | w :: _ => obind (type_of w) face_type end) (fun ti =>
      Ok (mkh o n p s f nv nf x y z b b1 b2 a (Some tc) (Some ti) fb fa)))
    else Ok h
  else
    obind (match tl (to_words line) with [] => Err InvalidProperty | w :: _ => type_of w end) (fun t =>
    match ct with
    | Some _ => Ok (mkh o n p s f nv nf x y z b b1 b2 a ct it fb (bw_add fa t))
    | None => Ok (mkh o n p s f nv nf x y z b b1 b2 a ct it (bw_add fb t) fa)
    end).
(** The format line, src/io/ply/header.rs:87-92. *)
Definition format_of (line : bytes) : outcome PlyError PlyFormat :=
  if bytes_eqb line (str "format ascii 1.0") then Ok FAscii
  else if bytes_eqb line (str "format binary_little_endian 1.0") then Ok (FBinary Little)
  else if bytes_eqb line (str "format binary_big_endian 1.0") then Ok (FBinary Big)
  else Err LoadFormatNotFound.
(** The end of the header, src/io/ply/header.rs:224-267; None if something is missing. *)
Definition finish (h : hstate) : outcome PlyError (option header) :=
  match h_format h, h_nv h, h_x h, h_y h, h_z h with
  | Some f, Some nv, Some x, Some y, Some z =>
      obind (order_of (h_order h)) (fun o =>
      let v := mkvd nv o x y z (h_before h) (h_between1 h) (h_between2 h) (h_after h) in
      Ok (Some (mkheader f v (match h_nf h, h_ctype h, h_itype h with
                              | Some nf, Some ct, Some it => Some (mkfd nf ct it (h_fbefore h) (h_fafter h))
                              | _, _, _ => None
                              end))))
  | _, _, _, _, _ => Ok None
  end.
(** The body of the loop, src/io/ply/header.rs:70-270. *)
Definition header_line (h : hstate) (line : bytes) : outcome PlyError hstep :=
  let '(mkh o n p s f nv nf x y z b b1 b2 a ct it fb fa) := h in
  if starts_with (str "comment") line || starts_with (str "obj_info") line then Ok (More h)
  else if negb p then
    if bytes_eqb line (str "ply") then Ok (More (mkh o n true s f nv nf x y z b b1 b2 a ct it fb fa)) else Err LoadStartNotFound
  else match f with
  | None => obind (format_of line) (fun f => Ok (More (mkh o n p s (Some f) nv nf x y z b b1 b2 a ct it fb fa)))
  | Some _ =>
      if match nv with None => starts_with (str "element vertex") line | Some _ => false end then
        obind (element_count VertexElement line) (fun c => Ok (More (mkh o n p SVertex f (Some c) nf x y z b b1 b2 a ct it fb fa)))
      else if match nf with None => starts_with (str "element face") line | Some _ => false end then
        obind (element_count FaceElement line) (fun c => Ok (More (mkh o n p SFace f nv (Some c) x y z b b1 b2 a ct it fb fa)))
      else if starts_with (str "property") line then
        match s with
        | SVertex => obind (vertex_property h line) (fun h => Ok (More h))
        | SFace => obind (face_property h line) (fun h => Ok (More h))
        | SMeta => Err PropertyLineLocation
        end
      else if bytes_eqb line (str "end_header") then
        obind (finish h) (fun r => match r with Some hd => Ok (Found hd) | None => Err LoadHeaderInvalid end)
      else Err LoadHeaderInvalid
  end.
(** Models load_header, src/io/ply/header.rs:36-274: the header, the lines left and the line number. *)
Fixpoint load_header (h : hstate) (i : N) (ls : list bytes) : outcome (with_line PlyError) (header * list bytes * N) :=
  match ls with
  | [] => Err (WNone LoadHeaderInvalid)
  | l :: ls =>
      let line := trim_line l in
      match at_line (i + 1) line (header_line h line) with
      | Ok (More h) => load_header h (i + 1) ls
      | Ok (Found hd) => Ok (hd, ls, i + 1)%N
      | Err e => Err e
      | Panic => Panic
      end
  end.

(** ** Records *)
(** Models point_with_order, src/io/ply/utils.rs:85-97. *)
Definition point_with_order (fst snd third : T F64) (o : VertexOrder) : pt3 F64 :=
  match o with
  | OXyz => mk3 fst snd third
  | OXzy => mk3 fst third snd
  | OYxz => mk3 snd fst third
  | OYzx => mk3 snd third fst
  | OZxy => mk3 third fst snd
  | OZyx => mk3 third snd fst
  end.
(** skip_n, src/io/utils.rs:49-56, on the words of a line. *)
Definition skip_words (n : N) (ws : list bytes) : list bytes := skipn (N.to_nat n) ws.
(** Models PlyAsciiPointsIterator::fetch_one, src/io/ply/iterators_internal.rs:334-366. *)
Definition ascii_vertex (ft : FText) (v : vertex_data) (line : bytes) : outcome PlyError (pt3 F64) :=
  let ws := to_words line in
  obind (next_f64 ft InvalidVertex (skip_words (bw_words (vd_before v)) ws)) (fun '(first, ws) =>
  obind (next_f64 ft InvalidVertex (skip_words (bw_words (vd_between1 v)) ws)) (fun '(snd, ws) =>
  obind (next_f64 ft InvalidVertex (skip_words (bw_words (vd_between2 v)) ws)) (fun '(third, ws) =>
  Ok (point_with_order first snd third (vd_order v))))).
(** `from_ascii(words.next()?)?` for usize, src/io/ply/utils.rs:43-45. *)
Definition next_usize (ws : list bytes) : option (N * list bytes) :=
  match ws with [] => None | w :: ws => match usize_of w with Some n => Some (n, ws) | None => None end end.
(** Models collect_index_line, src/io/ply/utils.rs:37-48. *)
Definition collect_index_line (line : bytes) : option face3 :=
  match to_words line with
  | w :: ws =>
      if bytes_eqb w (str "3") then
        match next_usize ws with
        | Some (a, ws) => match next_usize ws with
                          | Some (b, ws) => match next_usize ws with Some (c, ws) => Some (a, b, c) | None => None end
                          | None => None end
        | None => None end
      else None
  | [] => None
  end.
(** Models skip_bytes, src/io/utils.rs:35-45. *)
Definition skip_bytes (n : N) (s : bytes) : outcome PlyError bytes :=
  match take_bytes (N.to_nat n) s with Some (_, r) => Ok r | None => Err PlyAccessFile end.
(** Models read_vertex_type, src/io/ply/utils.rs:71-80. *)
Definition read_vertex_type (en : endian) (t : VertexType) (s : bytes) : outcome PlyError (T F64 * bytes) :=
  match t with
  | VFloat => match read_f32 en s with Some (x, r) => Ok (widen x, r) | None => Err PlyAccessFile end
  | VDouble => match read_f64 en s with Some (x, r) => Ok (x, r) | None => Err PlyAccessFile end
  end.
(** `as usize` of a signed number, src/io/ply/utils.rs:59. *)
Definition signed_usize (z : Z) : N := Z.to_N (z mod 2 ^ 64).
(** Models read_face_type, src/io/ply/utils.rs:53-66. *)
Definition read_face_type (en : endian) (t : PType) (s : bytes) : outcome PlyError (N * bytes) :=
  let signed n := match read_signed en n s with Some (z, r) => Ok (signed_usize z, r) | None => Err PlyAccessFile end in
  let unsigned n := match read_unsigned en n s with Some (v, r) => Ok (v, r) | None => Err PlyAccessFile end in
  match t with
  | PChar => signed 1%nat | PUChar => unsigned 1%nat | PShort => signed 2%nat | PUShort => unsigned 2%nat | PInt => signed 4%nat | _ => unsigned 4%nat
  end.
(** Models PlyBinaryPointsIterator::fetch_one, src/io/ply/iterators_internal.rs:233-260. *)
Definition binary_vertex (en : endian) (v : vertex_data) (s : bytes) : outcome PlyError (pt3 F64 * bytes) :=
  obind (skip_bytes (bw_bytes (vd_before v)) s) (fun s => obind (read_vertex_type en (vd_first v) s) (fun '(first, s) =>
  obind (skip_bytes (bw_bytes (vd_between1 v)) s) (fun s => obind (read_vertex_type en (vd_snd v) s) (fun '(snd, s) =>
  obind (skip_bytes (bw_bytes (vd_between2 v)) s) (fun s => obind (read_vertex_type en (vd_third v) s) (fun '(third, s) =>
  obind (skip_bytes (bw_bytes (vd_after v)) s) (fun s => Ok (point_with_order first snd third (vd_order v), s)))))))).
(** Models PlyBinaryFacesIterator::fetch_one, src/io/ply/iterators_internal.rs:506-522. *)
Definition binary_face (en : endian) (f : face_data) (s : bytes) : outcome PlyError (face3 * bytes) :=
  obind (skip_bytes (bw_bytes (fd_before f)) s) (fun s => obind (read_face_type en (fd_ctype f) s) (fun '(n, s) =>
  if negb (n =? 3)%N then Err FaceStructure else
  obind (read_face_type en (fd_itype f) s) (fun '(a, s) => obind (read_face_type en (fd_itype f) s) (fun '(b, s) => obind (read_face_type en (fd_itype f) s) (fun '(c, s) =>
  obind (skip_bytes (bw_bytes (fd_after f)) s) (fun s => Ok ((a, b, c), s))))))).

(** ** Iterators *)
(** Models PlyAsciiPointsIterator and PlyAsciiFacesIterator, src/io/ply/iterators_internal.rs:298-310,414-424,
    without header and line buffer. *)
Record ascii_state : Type := mkas { as_read : list bytes; as_done : bool; as_current : N; as_line : N }.
(** Models PlyAsciiPointsIterator::next, src/io/ply/iterators_internal.rs:376-402. *)
Definition ascii_points_next (ft : FText) (v : vertex_data) (s : ascii_state) : option (outcome (with_line PlyError) (pt3 F64)) * ascii_state :=
  if as_done s then (None, s)
  else
  let rest current :=
    let s := mkas (as_read s) true current (as_line s) in
    if negb (current =? vd_count v)%N then (Some (Err (WNone LoadVertexCountIncorrect)), s) else (None, s) in
  if (as_current s <? vd_count v)%N then
    match next_line (as_read s) with
    | Some (line, ls) =>
        let i := (as_line s + 1)%N in
        match ascii_vertex ft v line with
        | Ok p => (Some (Ok p), mkas ls false (as_current s + 1) i)
        | r => (Some (at_line i line r), mkas ls true (as_current s + 1) i)
        end
    | None => rest (as_current s + 1)%N
    end
  else rest (as_current s).
(** Models PlyAsciiFacesIterator::next, src/io/ply/iterators_internal.rs:448-471. *)
Definition ascii_faces_next (f : face_data) (s : ascii_state) : option (outcome (with_line PlyError) face3) * ascii_state :=
  if as_done s then (None, s)
  else
  let rest current := (None, mkas (as_read s) true current (as_line s)) in
  if (as_current s <? fd_count f)%N then
    match next_line (as_read s) with
    | Some (line, ls) =>
        let i := (as_line s + 1)%N in
        match collect_index_line line with
        | Some t => (Some (Ok t), mkas ls false (as_current s + 1) i)
        | None => (Some (Err (WLine i line FaceStructure)), mkas ls true (as_current s + 1) i)
        end
    | None => rest (as_current s + 1)%N
    end
  else rest (as_current s).
(** Models PlyBinaryPointsIterator and PlyBinaryFacesIterator, src/io/ply/iterators_internal.rs:197-209,478-488,
    without header. *)
Record binary_state : Type := mkbs { bs_read : bytes; bs_done : bool; bs_current : N }.
(** Models the two next functions, src/io/ply/iterators_internal.rs:271-285,532-546, for the function
    reading one element.  Simplified: after an error the file is left before the element (see binary_next_from in
    ReaderModel.v); the loaders stop there. *)
Definition binary_next {A} (count : N) (fetch : bytes -> outcome PlyError (A * bytes)) (s : binary_state) : option (outcome PlyError A) * binary_state :=
  if bs_done s then (None, s)
  else if (bs_current s <? count)%N then
    match fetch (bs_read s) with
    | Ok (a, r) => (Some (Ok a), mkbs r false (bs_current s + 1))
    | Err e => (Some (Err e), mkbs (bs_read s) true (bs_current s + 1))
    | Panic => (Some Panic, s)
    end
  else (None, mkbs (bs_read s) true (bs_current s)).
(** Models io::types::FaceData, src/io/types.rs:49-52. *)
Inductive mesh_item : Type := MPoint (p : pt3 F64) | MFace (f : face3).
(** Mapping the result. `x.map(|x| x.map(..))`, src/io/ply/iterators_internal.rs:74,93. *)
Definition map_item {E A B} (f : A -> B) (r : option (outcome E A)) : option (outcome E B) :=
  match r with None => None | Some (Ok a) => Some (Ok (f a)) | Some (Err e) => Some (Err e) | Some Panic => Some Panic end.
(** Models PlyAsciiMeshIterator and PlyBinaryMeshIterator, src/io/ply/iterators_internal.rs:39-47,106-115:
    the point iterator or the face iterator. *)
Inductive mesh_iter (S : Type) : Type := IPoints (s : S) | IFaces (s : S).
Arguments IPoints {S}. Arguments IFaces {S}.
(** Models the two next functions, src/io/ply/iterators_internal.rs:71-94,141-160; [switch] is destruct
    with the construction of the face iterator. *)
Definition mesh_next {S E} (points : S -> option (outcome E (pt3 F64)) * S) (faces : S -> option (outcome E face3) * S) (switch : S -> S) (s : mesh_iter S)
  : option (outcome E mesh_item) * mesh_iter S :=
  let go f := let (r, f) := faces f in (map_item MFace r, IFaces f) in
  match s with
  | IPoints p => match points p with (Some r, p) => (map_item MPoint (Some r), IPoints p) | (None, p) => go (switch p) end
  | IFaces f => go f
  end.
(** Models PlyAsciiMeshIterator::next, src/io/ply/iterators_internal.rs:71-94. *)
Definition ascii_mesh_next (ft : FText) (v : vertex_data) (f : face_data) := mesh_next (ascii_points_next ft v) (ascii_faces_next f) (fun s => mkas (as_read s) false 0 (as_line s)).
(** Models PlyBinaryMeshIterator::next, src/io/ply/iterators_internal.rs:141-160. *)
Definition binary_mesh_next (en : endian) (v : vertex_data) (f : face_data) :=
  mesh_next (binary_next (vd_count v) (binary_vertex en v)) (binary_next (fd_count f) (binary_face en f)) (fun s => mkbs (bs_read s) false 0).

(** ** Loading *)
(** Vec::reserve of an empty vector of elements of [size] bytes, src/point_cloud_3d.rs:118,
    src/mesh_3d.rs:118: panics if the capacity exceeds isize::MAX bytes; the allocation is taken to succeed. *)
Definition reserve (size n : N) : bool := (size * n <? 2 ^ 63)%N.
(** The loop over an iterator with a body that can fail, e.g. src/io/ply/load.rs:94-109; None if more
    than [k] calls of next are needed. *)
Fixpoint fold_loop {S E A M} (next : S -> option (outcome E A) * S) (body : M -> A -> M * outcome E unit) (k : nat) (s : S) (m : M) : option (M * outcome E unit) :=
  match k with
  | O => None
  | Datatypes.S k =>
      match next s with
      | (None, _) => Some (m, Ok tt)
      | (Some (Ok a), s) => match body m a with (m, Ok _) => fold_loop next body k s m | (m, r) => Some (m, r) end
      | (Some (Err e), _) => Some (m, Err e)
      | (Some Panic, _) => Some (m, Panic)
      end
  end.
(** The body of the loop, src/io/ply/load.rs:95-108, for points and faces. *)
Definition add_item (m : mesh (pt3 F64)) (x : mesh_item) : mesh (pt3 F64) * outcome PlyError unit :=
  match x with
  | MPoint p => (fst (add_vertex m p), Ok tt)
  | MFace (a, b, c) => match try_add_connection m a b c with (m, Ok _) => (m, Ok tt) | (m, _) => (m, Err PlyInvalidMeshIndices) end
  end.
(** An iterator whose errors carry no line. `.simple()`, src/io/ply/iterators.rs:99. *)
Definition simple_next {S E A} (next : S -> option (outcome E A) * S) (s : S) : option (outcome (with_line E) A) * S :=
  let (r, s) := next s in (match r with None => None | Some r => Some (simple r) end, s).
(** Models load_ply_mesh, src/io/ply/load.rs:86-112, with PlyMeshIterator, src/io/ply/iterators.rs:50-107,
    into an empty Mesh3D.  reserve_faces multiplies by 3 (src/mesh_3d.rs:118), which wraps. *)
Definition load_ply_mesh (ft : FText) (k : nat) (file : bytes) : option (mesh (pt3 F64) * outcome (with_line PlyError) unit) :=
  match load_header h_start 0 (raw_lines file) with
  | Ok (mkheader fmt v (Some f), ls, i) =>
      if reserve 24 (vd_count v) && reserve 8 (w64 (3 * fd_count f)) then
        let body m x := let (m, r) := add_item m x in (m, simple r) in
        match fmt with
        | FAscii => fold_loop (ascii_mesh_next ft v f) body k (IPoints (mkas ls false 0 i)) mesh_empty
        | FBinary en => fold_loop (simple_next (binary_mesh_next en v f)) body k (IPoints (mkbs (concat ls) false 0)) mesh_empty
        end
      else Some (mesh_empty, Panic)
  | Ok (mkheader _ _ None, _, _) => Some (mesh_empty, Err (WNone LoadHeaderInvalid))
  | Err e => Some (mesh_empty, Err e)
  | Panic => Some (mesh_empty, Panic)
  end.
(** Models load_ply_points, src/io/ply/load.rs:117-133, with PlyPointsIterator, src/io/ply/iterators.rs:133-177,
    into an empty container of points (PointCloud3D::reserve, src/point_cloud_3d.rs:187-189). *)
Definition load_ply_points (ft : FText) (k : nat) (file : bytes) : option (list (pt3 F64) * outcome (with_line PlyError) unit) :=
  match load_header h_start 0 (raw_lines file) with
  | Ok (mkheader fmt v _, ls, i) =>
      if reserve 24 (vd_count v) then
        match fmt with
        | FAscii => load_loop (ascii_points_next ft v) k (mkas ls false 0 i) []
        | FBinary en => load_loop (simple_next (binary_next (vd_count v) (binary_vertex en v))) k (mkbs (concat ls) false 0) []
        end
      else Some ([], Panic)
  | Err e => Some ([], Err e)
  | Panic => Some ([], Panic)
  end.

(** ** Saving *)
(** A call of `write_all` (src/io/ply/save.rs:54) or of `write` (195) on the writer. *)
Inductive write_call : Type := WriteAll (b : bytes) | WriteOnce (b : bytes).
(** The bytes handed over, e.g. src/io/ply/save.rs:54. *)
Definition call_bytes (c : write_call) : bytes := match c with WriteAll b | WriteOnce b => b end.
(** `Write::write_all`, src/io/ply/save.rs:54, on a writer that takes at most [accept i] bytes in its
    call number [i]: what was written, the next call number and whether it succeeded; [k] is at least
    the number of bytes. *)
Fixpoint write_all (accept : nat -> nat) (k : nat) (i : nat) (b : bytes) (out : bytes) : bytes * nat * bool :=
  match b, k with
  | [], _ => (out, i, true)
  | _, O => (out, i, false)
  | _, S k => if (accept i =? 0)%nat then (out, S i, false) else write_all accept k (S i) (skipn (accept i) b) (out ++ firstn (accept i) b)
  end.
(** The calls of a save function in order, src/io/ply/save.rs:189-217: what the writer received and the
    result.  The number returned by `write` is ignored (195). *)
Fixpoint run_writes (accept : nat -> nat) (i : nat) (calls : list write_call) (out : bytes) : bytes * outcome PlyError unit :=
  match calls with
  | [] => (out, Ok tt)
  | WriteAll b :: calls => match write_all accept (length b) i b out with
                           | (out, i, true) => run_writes accept i calls out
                           | (out, _, false) => (out, Err PlyAccessFile)
                           end
  | WriteOnce b :: calls => run_writes accept (S i) calls (out ++ firstn (accept i) b)
  end.
(** Models Precision, src/enums.rs:26-29. *)
Inductive Precision : Type := P32 | P64.
(** Models Rgb, src/rgb.rs:27-31; the values are below 256. *)
Record rgb : Type := mkrgb { red : N; green : N; blue : N }.
(** The header, src/io/ply/save.rs:40-53,93-109,154-187,243-282: the varying parts are the format, the
    type of the coordinates, the types of the indices and whether there are colors. *)
Definition header_text (format coord list_types : string) (colored : bool) (nv nf : N) : bytes :=
  str "ply" ++ [nl] ++ str "format " ++ str format ++ str " 1.0" ++ [nl] ++ str "comment Created by rust-3d" ++ [nl]
  ++ str "element vertex " ++ print_usize nv ++ [nl]
  ++ str "property " ++ str coord ++ str " x" ++ [nl] ++ str "property " ++ str coord ++ str " y" ++ [nl] ++ str "property " ++ str coord ++ str " z" ++ [nl]
  ++ (if colored then str "property uchar red" ++ [nl] ++ str "property uchar green" ++ [nl] ++ str "property uchar blue" ++ [nl] else [])
  ++ str "element face " ++ print_usize nf ++ [nl] ++ str "property list " ++ str list_types ++ str " vertex_indices" ++ [nl] ++ str "end_header" ++ [nl].
(** The lines of a vertex, src/io/ply/save.rs:58 (Is3D::to_str, src/is_3d.rs:77-83) and 116-124. *)
Definition vertex_line_text (ft : FText) (p : pt3 F64) (color : option rgb) : bytes :=
  fprint ft (px p) ++ [space] ++ fprint ft (py p) ++ [space] ++ fprint ft (pz p)
  ++ match color with Some c => [space] ++ print_usize (red c) ++ [space] ++ print_usize (green c) ++ [space] ++ print_usize (blue c) | None => [] end ++ [nl].
(** The line of a face, src/io/ply/save.rs:64-70,132-138. *)
Definition face_line_text (f : face3) : bytes :=
  let '(a, b, c) := f in str "3 " ++ print_usize a ++ [space] ++ print_usize b ++ [space] ++ print_usize c ++ [nl].
(** `for i in 0..n` collecting what is written, e.g. src/io/ply/save.rs:56-59. *)
Fixpoint collect_range {A} (n : nat) (i : N) (f : N -> outcome PlyError (list A)) : outcome PlyError (list A) :=
  match n with O => Ok [] | S n => obind (f i) (fun x => obind (collect_range n (i + 1) f) (fun r => Ok (x ++ r))) end.
(** `mesh.vertex(VId(i)).unwrap()`, src/io/ply/save.rs:57. *)
Definition get_vertex (m : mesh (pt3 F64)) (i : N) : outcome PlyError (pt3 F64) := match vertex m i with Some p => Ok p | None => Panic end.
(** `mesh.face_vertex_ids(FId(i)).unwrap()`, src/io/ply/save.rs:62. *)
Definition get_face (m : mesh (pt3 F64)) (i : N) : outcome PlyError face3 := match face_vertex_ids m i with Ok (Some f) => Ok f | _ => Panic end.
(** `&colors[i]`, src/io/ply/save.rs:114. *)
Definition get_color (colors : option (list rgb)) (i : N) : outcome PlyError (option rgb) :=
  match colors with None => Ok None | Some cs => match nthN cs i with Some c => Ok (Some c) | None => Panic end end.
(** The check of the colors, src/io/ply/save.rs:89-91,239-241. *)
Definition colors_fit (m : mesh (pt3 F64)) (colors : option (list rgb)) : bool :=
  match colors with None => true | Some cs => (num_vertices m =? lenN cs)%N end.
(** Whether there are colors, src/io/ply/save.rs:34,80. *)
Definition is_colored (colors : option (list rgb)) : bool := match colors with None => false | Some _ => true end.
(** Models save_ply_ascii and save_ply_ascii_colored, src/io/ply/save.rs:34-75,80-143: the calls of the
    writer. *)
Definition save_ply_ascii (ft : FText) (m : mesh (pt3 F64)) (colors : option (list rgb)) : outcome PlyError (list write_call) :=
  if negb (colors_fit m colors) then Err ColorArrayIncorrectLength else
  obind (collect_range (N.to_nat (num_vertices m)) 0 (fun i => obind (get_vertex m i) (fun p => obind (get_color colors i) (fun c => Ok [WriteAll (vertex_line_text ft p c)])))) (fun vs =>
  obind (collect_range (N.to_nat (num_faces m)) 0 (fun i => obind (get_face m i) (fun f => Ok [WriteAll (face_line_text f)]))) (fun fs =>
  Ok (WriteAll (header_text "ascii" "float" "uchar uint" (is_colored colors) (num_vertices m) (num_faces m)) :: vs ++ fs))).
(** The bytes of a coordinate, src/io/ply/save.rs:195,204. *)
Definition coord_bytes (p : Precision) (x : T F64) : bytes := match p with P32 => be_bytes 4 (f32_bits (narrow x)) | P64 => be_bytes 8 (f64_bits x) end.
(** `.. as u32` to bytes, src/io/ply/save.rs:214. *)
Definition id_bytes (v : N) : bytes := be_bytes 4 (v mod 2 ^ 32).
(** Models save_ply_binary and save_ply_binary_colored, src/io/ply/save.rs:148-220,225-323: the calls of
    the writer. *)
Definition save_ply_binary (pr : Precision) (m : mesh (pt3 F64)) (colors : option (list rgb)) : outcome PlyError (list write_call) :=
  if negb (colors_fit m colors) then Err ColorArrayIncorrectLength else
  obind (collect_range (N.to_nat (num_vertices m)) 0 (fun i => obind (get_vertex m i) (fun p => obind (get_color colors i) (fun c =>
    Ok ([WriteOnce (coord_bytes pr (px p)); WriteOnce (coord_bytes pr (py p)); WriteOnce (coord_bytes pr (pz p))]
        ++ match c with Some c => [WriteOnce (be_bytes 1 (red c)); WriteOnce (be_bytes 1 (green c)); WriteOnce (be_bytes 1 (blue c))] | None => [] end))))) (fun vs =>
  obind (collect_range (N.to_nat (num_faces m)) 0 (fun i => obind (get_face m i) (fun '(a, b, c) =>
    Ok [WriteOnce (be_bytes 1 3); WriteOnce (id_bytes a); WriteOnce (id_bytes b); WriteOnce (id_bytes c)]))) (fun fs =>
  Ok (WriteAll (header_text "binary_big_endian" (match pr with P32 => "float" | P64 => "double" end) "uint8 uint32" (is_colored colors) (num_vertices m) (num_faces m)) :: vs ++ fs))).
(** Models MeshOrPoints, src/io/ply/types.rs:89-92. *)
Inductive mesh_or_points : Type := IsMesh | IsPoints.
(** Models load_ply_either, src/io/ply/load.rs:36-83, with load_mesh_ascii, load_mesh_binary,
    load_points_ascii and load_points_binary, src/io/ply/load.rs:141-238, into an empty Mesh3D and an empty
    container of points. *)
Definition load_ply_either (ft : FText) (k : nat) (file : bytes) : option (mesh (pt3 F64) * list (pt3 F64) * outcome (with_line PlyError) mesh_or_points) :=
  let answer {A} (a : A) (r : outcome (with_line PlyError) unit) := match r with Ok _ => Ok a | Err e => Err e | Panic => Panic end in
  match load_header h_start 0 (raw_lines file) with
  | Ok (mkheader fmt v (Some f), ls, i) =>
      if reserve 24 (vd_count v) && reserve 8 (w64 (3 * fd_count f)) then
        match
          match fmt with
          | FAscii => fold_loop (ascii_mesh_next ft v f) (fun m x => let (m, r) := add_item m x in (m, simple r)) k (IPoints (mkas ls false 0 i)) mesh_empty
          | FBinary en => match fold_loop (binary_mesh_next en v f) add_item k (IPoints (mkbs (concat ls) false 0)) mesh_empty with Some (m, r) => Some (m, simple r) | None => None end
          end
        with Some (m, r) => Some (m, [], answer IsMesh r) | None => None end
      else Some (mesh_empty, [], Panic)
  | Ok (mkheader fmt v None, ls, i) =>
      if reserve 24 (vd_count v) then
        match
          match fmt with
          | FAscii => load_loop (ascii_points_next ft v) k (mkas ls false 0 i) []
          | FBinary en => match load_loop (binary_next (vd_count v) (binary_vertex en v)) k (mkbs (concat ls) false 0) [] with Some (ps, r) => Some (ps, simple r) | None => None end
          end
        with Some (ps, r) => Some (mesh_empty, ps, answer IsPoints r) | None => None end
      else Some (mesh_empty, [], Panic)
  | Err e => Some (mesh_empty, [], Err e)
  | Panic => Some (mesh_empty, [], Panic)
  end.
