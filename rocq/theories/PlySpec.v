(** Vocabulary for the .ply format. *)
From Verif Require Import Base Num GeomSpec FloatSpec MeshModel MeshSpec IoModel IoSpec ByteModel ByteSpec PlyModel.

(** ** Files *)
(** How the types are written. *)
Definition spelled (t : PType) (w : bytes) : Prop :=
  In w (map str match t with
                | PChar => ["char"; "int8"] | PUChar => ["uchar"; "uint8"] | PShort => ["short"; "int16"] | PUShort => ["ushort"; "uint16"]
                | PInt => ["int"; "int32"] | PUInt => ["uint"; "uint32"] | PFloat => ["float"; "float32"] | PDouble => ["double"; "float64"]
                end)%string.
(** A word: not empty, no whitespace. *)
Definition word (w : bytes) : Prop := w <> [] /\ Forall (fun c => is_whitespace c = false) w.
(** A property of an element: type, the word it is written with, name. *)
Record prop : Type := mkprop { p_type : PType; p_word : bytes; p_name : bytes }.
Definition prop_ok (p : prop) : Prop := spelled (p_type p) (p_word p) /\ word (p_name p).
Definition prop_line (p : prop) : bytes := str "property " ++ p_word p ++ [space] ++ p_name p.
(** The names of the coordinates in the order of their columns. *)
Definition is_coord (n : bytes) : bool := bytes_eqb n (str "x") || bytes_eqb n (str "y") || bytes_eqb n (str "z").
Definition coord_order (ps : list prop) : list bytes := filter is_coord (map p_name ps).
(** The types of the coordinates are those of floating point numbers. *)
Definition float_coords (ps : list prop) : Prop := forall p, In p ps -> is_coord (p_name p) = true -> p_type p = PFloat \/ p_type p = PDouble.
(** The declaration of the faces: the properties before the list of indices, its types and name, the
    properties after it. *)
Record face_decl : Type := mkdecl { d_count : N; d_before : list prop; d_ctype : PType; d_cword : bytes; d_itype : PType; d_iword : bytes; d_name : bytes; d_after : list prop }.
Definition integer_type (t : PType) : Prop := t <> PFloat /\ t <> PDouble.
Definition decl_ok (d : face_decl) : Prop :=
  (d_count d < 2 ^ 64)%N /\ Forall prop_ok (d_before d) /\ Forall prop_ok (d_after d) /\ spelled (d_ctype d) (d_cword d) /\ spelled (d_itype d) (d_iword d) /\
  integer_type (d_ctype d) /\ integer_type (d_itype d) /\ (d_name d = str "vertex_indices" \/ d_name d = str "vertex_index").
Definition decl_lines (d : face_decl) : list bytes :=
  (str "element face " ++ print_usize (d_count d)) :: map prop_line (d_before d) ++
  (str "property list " ++ d_cword d ++ [space] ++ d_iword d ++ [space] ++ d_name d) :: map prop_line (d_after d).
Definition decl_list (d : option face_decl) : list bytes := match d with Some d => decl_lines d | None => [] end.
Definition format_line (f : PlyFormat) : bytes := str match f with FAscii => "format ascii 1.0" | FBinary Little => "format binary_little_endian 1.0" | FBinary Big => "format binary_big_endian 1.0" end.
(** Comments, which may follow the format line. *)
Definition comment (l : bytes) : Prop := is_line l /\ exists r, l = str "comment" ++ r \/ l = str "obj_info" ++ r.
Definition header_lines (f : PlyFormat) (comments : list bytes) (nv : N) (ps : list prop) (d : option face_decl) : list bytes :=
  [str "ply"; format_line f] ++ comments ++ (str "element vertex " ++ print_usize nv) :: map prop_line ps ++ decl_list d ++ [str "end_header"].
(** A header that is accepted: the coordinates in the order [cs]. *)
Definition header_ok (comments : list bytes) (nv : N) (ps : list prop) (d : option face_decl) : Prop :=
  Forall comment comments /\ (nv < 2 ^ 64)%N /\ Forall prop_ok ps /\ float_coords ps /\ match d with Some d => decl_ok d | None => True end.

(** ** Rows *)
(** [w] is the entry of the column named [n] in a row of a table. *)
Definition cell (ps : list prop) (row : list bytes) (n : bytes) (w : bytes) : Prop :=
  exists i p, nth_error ps i = Some p /\ p_name p = n /\ nth_error row i = Some w.
(** The words of a line, separated by single spaces. *)
Fixpoint join (ws : list bytes) : bytes := match ws with [] => [] | [w] => w | w :: ws => w ++ space :: join ws end.
(** A row in text form of the point [p]: the columns x, y and z read as its coordinates. *)
Definition text_row (ft : FText) (ps : list prop) (row : list bytes) (p : pt3 F64) : Prop :=
  length row = length ps /\ Forall word row /\ exists x y z, cell ps row (str "x") x /\ cell ps row (str "y") y /\ cell ps row (str "z") z /\
    f64_of ft x = Some (px p) /\ f64_of ft y = Some (py p) /\ f64_of ft z = Some (pz p).
(** The number in binary form in the bytes [b]. *)
Definition binary_float (en : endian) (t : PType) (b : bytes) (x : T F64) : Prop :=
  exists v, encodes en b v /\ x = match t with PFloat => widen (f32_of_bits v) | _ => f64_of_bits v end.
(** The entry of the column named [n] is the number [x]. *)
Definition binary_cell (en : endian) (ps : list prop) (row : list bytes) (n : bytes) (x : T F64) : Prop :=
  exists i p b, nth_error ps i = Some p /\ p_name p = n /\ nth_error row i = Some b /\ binary_float en (p_type p) b x.
Definition binary_row (en : endian) (ps : list prop) (row : list bytes) (p : pt3 F64) : Prop :=
  Forall2 (fun q b => lenN b = size_bytes (p_type q)) ps row /\
  binary_cell en ps row (str "x") (px p) /\ binary_cell en ps row (str "y") (py p) /\ binary_cell en ps row (str "z") (pz p).
(** The orders of the columns that are read correctly, and what comes out for the two others. *)
Definition straight (cs : list bytes) : Prop :=
  cs = [str "x"; str "y"; str "z"] \/ cs = [str "x"; str "z"; str "y"] \/ cs = [str "y"; str "x"; str "z"] \/ cs = [str "z"; str "y"; str "x"].
(** All coordinates have the same type. *)
Definition one_type (ps : list prop) : Prop := exists t, forall p, In p ps -> is_coord (p_name p) = true -> p_type p = t.
(** A face line. *)
Definition face_text (f : face3) : bytes := let '(a, b, c) := f in join [str "3"; print_usize a; print_usize b; print_usize c].
(** An integer in binary form, read as an index. *)
Definition binary_index (en : endian) (t : PType) (b : bytes) (v : N) : Prop :=
  lenN b = size_bytes t /\ encodes en b v /\ match t with PChar | PShort | PInt => (2 * v < 256 ^ lenN b)%N | _ => True end.
(** A binary face: the bytes of the other properties, a count of three and three indices. *)
Definition binary_face_row (en : endian) (d : face_decl) (f : face3) (row : bytes) : Prop :=
  let '(a, b, c) := f in exists before n i j k after, row = before ++ n ++ i ++ j ++ k ++ after /\
    lenN before = fold_right N.add 0%N (map (fun p => size_bytes (p_type p)) (d_before d)) /\ lenN after = fold_right N.add 0%N (map (fun p => size_bytes (p_type p)) (d_after d)) /\
    binary_index en (d_ctype d) n 3 /\ binary_index en (d_itype d) i a /\ binary_index en (d_itype d) j b /\ binary_index en (d_itype d) k c.
(** The counts for which the announced space can be reserved: less than 2^63 bytes. *)
Definition fits (nv nf : N) : Prop := (24 * nv < 2 ^ 63 /\ 24 * nf < 2 ^ 63)%N.

(** What makes the loaders panic: a line is a property line of a coordinate; a line announces [n] elements. *)
Definition coord_line (l : bytes) : bool := match to_words (trim_line l) with _ :: _ :: n :: _ => is_coord n | _ => false end.
Definition announces (what : string) (l : bytes) (n : N) : Prop :=
  starts_with (str what) (trim_line l) = true /\ exists w, nth_error (to_words (trim_line l)) 2 = Some w /\ usize_of w = Some n.
Definition excessive (file : bytes) : Prop :=
  4 <= length (filter coord_line (raw_lines file)) \/
  (exists l n, In l (raw_lines file) /\ announces "element vertex" l n /\ (2 ^ 63 <= 24 * n)%N) \/
  (exists l n, In l (raw_lines file) /\ announces "element face" l n /\ (2 ^ 63 <= 8 * ((3 * n) mod 2 ^ 64))%N).

(** ** Saving *)
(** Everything handed to the writer. *)
Definition all_bytes (calls : list write_call) : bytes := flat_map call_bytes calls.
(** A writer that takes at least one byte in every call. *)
Definition progressing (accept : nat -> nat) : Prop := forall i, 0 < accept i.
(** A writer that takes everything. *)
Definition greedy (accept : nat -> nat) (calls : list write_call) : Prop := forall i c, In c calls -> length (call_bytes c) <= accept i /\ 0 < accept i.
(** One color for every vertex, or no colors. *)
Definition colors_ok (s : mspec (pt3 F64)) (colors : option (list rgb)) : Prop := match colors with None => True | Some cs => length cs = length (svs s) end.
(** A coordinate after saving with a precision: the nearest f32, or itself. *)
Definition stored (pr : Precision) (x : T F64) : T F64 := match pr with P32 => widen (narrow x) | P64 => x end.
Definition stored3 (pr : Precision) (p : pt3 F64) : pt3 F64 := mk3 (stored pr (px p)) (stored pr (py p)) (stored pr (pz p)).
Definition double3 (p : pt3 F64) : Prop := is_double (px p) /\ is_double (py p) /\ is_double (pz p).
