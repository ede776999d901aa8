(** Model of the line based formats .obj, .off, .pts and gcode, src/io/obj.rs, src/io/off.rs,
    src/io/pts.rs and src/io/gcode.rs. *)
From Verif Require Import Base Num VecModel MeshModel IoModel PlyModel.

(** ** Reading line by line *)
(** What the body of `while let Ok(line) = fetch_line(..)` does with a line, e.g. src/io/obj.rs:78-87: go
    on with the next line, return an element or an error, or end the iteration. *)
Inductive line_step (S E A : Type) : Type := LSkip (s : S) | LItem (r : outcome E A) (s : S) | LStop (s : S).
Arguments LSkip {S E A}. Arguments LItem {S E A}. Arguments LStop {S E A}.
(** The fields all these iterators have, e.g. src/io/obj.rs:39-49, and the others; without the line buffer. *)
Record line_state (S : Type) : Type := mkls { ls_read : list bytes; ls_done : bool; ls_line : N; ls_own : S }.
Arguments mkls {S}. Arguments ls_read {S}. Arguments ls_done {S}. Arguments ls_line {S}. Arguments ls_own {S}.
(** The loop over the lines, src/io/obj.rs:78-91,144-172, src/io/off.rs:85-136,238-289,
    src/io/pts.rs:104-166, src/io/gcode.rs:88-180: errors get the line and end the iteration. *)
Fixpoint line_loop {S E A} (step : S -> bytes -> line_step S E A) (read : list bytes) (i : N) (s : S) : option (outcome (with_line E) A) * line_state S :=
  match read with
  | [] => (None, mkls [] true i s)
  | raw :: read =>
      let line := trim_line raw in
      let i := (i + 1)%N in
      match step s line with
      | LSkip s => line_loop step read i s
      | LItem r s => (Some (at_line i line r), mkls read (match r with Ok _ => false | _ => true end) i s)
      | LStop s => (None, mkls read true i s)
      end
  end.
(** The next functions, src/io/obj.rs:74-92,140-173, src/io/off.rs:80-137,234-290, src/io/pts.rs:100-167,
    src/io/gcode.rs:84-181. *)
Definition line_next {S E A} (step : S -> bytes -> line_step S E A) (s : line_state S) : option (outcome (with_line E) A) * line_state S :=
  if ls_done s then (None, s) else line_loop step (ls_read s) (ls_line s) (ls_own s).
(** The new functions, e.g. src/io/obj.rs:56-63. *)
Definition line_new {S} (file : bytes) (s : S) : line_state S := mkls (raw_lines file) false 0 s.
(** Three coordinates, src/io/obj.rs:275-290, src/io/off.rs:402-417, src/io/pts.rs:74-89. *)
Definition three_f64 {E} (ft : FText) (e : E) (ws : list bytes) : outcome E (pt3 F64) :=
  obind (next_f64 ft e ws) (fun '(x, ws) => obind (next_f64 ft e ws) (fun '(y, ws) => obind (next_f64 ft e ws) (fun '(z, ws) => Ok (mk3 x y z)))).
(** `words.next().and_then(|word| from_ascii(word)).ok_or(..)` of a usize, e.g. src/io/off.rs:190-193; the words left. *)
Definition next_count {E} (e : E) (ws : list bytes) : outcome E (N * list bytes) := ok_or (next_usize ws) e.
(** The loops of the mesh loaders, src/io/obj.rs:194-205, src/io/off.rs:311-326: a vertex or a face. *)
Definition mesh_add {E} (e : E) (m : mesh (pt3 F64)) (x : mesh_item) : mesh (pt3 F64) * outcome (with_line E) unit :=
  match x with
  | MPoint p => (fst (add_vertex m p), Ok tt)
  | MFace (a, b, c) => match try_add_connection m a b c with (m, Ok _) => (m, Ok tt) | (m, _) => (m, Err (WNone e)) end
  end.
(** Models DataReserve, src/io/types.rs:41-44. *)
Inductive data_reserve (A : Type) : Type := DReserve (n : N) | DData (a : A).
Arguments DReserve {A}. Arguments DData {A}.
(** The loops `match rd? { Reserve(x) => ip.reserve(x), Data(x) => ip.push(x) }`, src/io/off.rs:340-345,
    src/io/pts.rs:186-191, src/io/ptx.rs:235-240, for a vector of points of 24 bytes: Vec::reserve panics
    if the capacity needed exceeds isize::MAX bytes; the allocation is taken to succeed. *)
Definition push_data {E} (ps : list (pt3 F64)) (x : data_reserve (pt3 F64)) : list (pt3 F64) * outcome E unit :=
  match x with
  | DReserve n => (ps, if reserve 24 (lenN ps + n) then Ok tt else Panic)
  | DData p => (ps ++ [p], Ok tt)
  end.

(** ** obj *)
(** Models ObjError, src/io/obj.rs:229-234. *)
Inductive ObjError : Type := ObjAccessFile | ObjInvalidMeshIndices | ObjFace | ObjVertex.
(** Models fetch_vertex, src/io/obj.rs:266-291. *)
Definition obj_vertex (ft : FText) (line : bytes) : outcome ObjError (pt3 F64) :=
  match to_words line with [] => Err ObjVertex | _ :: ws => three_f64 ft ObjVertex ws end.
(** An index, src/io/obj.rs:299-303: the part of the word before the first slash. *)
Definition obj_index (ws : list bytes) : outcome ObjError (N * list bytes) :=
  match ws with [] => Err ObjFace | w :: ws => match usize_of (until_bytes w "/"%char) with Some n => Ok (n, ws) | None => Err ObjFace end end.
(** `a - 1` of usize in a release build, src/io/obj.rs:311 (a debug build panics for 0). *)
Definition minus_one (n : N) : N := if (n =? 0)%N then (2 ^ 64 - 1)%N else (n - 1)%N.
(** Models fetch_face, src/io/obj.rs:294-312. *)
Definition obj_face (line : bytes) : outcome ObjError face3 :=
  match to_words line with
  | [] => Err ObjFace
  | _ :: ws => obind (obj_index ws) (fun '(a, ws) => obind (obj_index ws) (fun '(b, ws) => obind (obj_index ws) (fun '(c, ws) =>
               Ok (minus_one a, minus_one b, minus_one c))))
  end.
(** The body of the loop of ObjPointsIterator::next, src/io/obj.rs:81-86. *)
Definition obj_points_step (ft : FText) (s : unit) (line : bytes) : line_step unit ObjError (pt3 F64) :=
  if starts_with (str "v ") line then LItem (obj_vertex ft line) s else LSkip s.
(** `.map(f)` of a Result, e.g. src/io/obj.rs:150. *)
Definition omap {E A B} (f : A -> B) (r : outcome E A) : outcome E B := match r with Ok a => Ok (f a) | Err e => Err e | Panic => Panic end.
(** The body of the loop of ObjMeshIterator::next, src/io/obj.rs:147-167. *)
Definition obj_mesh_step (ft : FText) (s : unit) (line : bytes) : line_step unit ObjError mesh_item :=
  if starts_with (str "v ") line then LItem (omap MPoint (obj_vertex ft line)) s
  else if starts_with (str "f ") line then LItem (omap MFace (obj_face line)) s
  else LSkip s.
(** Models load_obj_mesh, src/io/obj.rs:186-208, into an empty Mesh3D. *)
Definition load_obj_mesh (ft : FText) (k : nat) (file : bytes) : option (mesh (pt3 F64) * outcome (with_line ObjError) unit) :=
  fold_loop (line_next (obj_mesh_step ft)) (mesh_add ObjInvalidMeshIndices) k (line_new file tt) mesh_empty.
(** Models load_obj_points, src/io/obj.rs:211-224, into an empty container. *)
Definition load_obj_points (ft : FText) (k : nat) (file : bytes) : option (list (pt3 F64) * outcome (with_line ObjError) unit) :=
  load_loop (line_next (obj_points_step ft)) k (line_new file tt) [].

(** ** off *)
(** Models OffError, src/io/off.rs:353-361. *)
Inductive OffError : Type := OffAccessFile | OffInvalidMeshIndices | OffVertexCount | OffFaceCount | OffVertex | OffFace | OffFaceVertexCount.
(** Models the fields of OffPointsIterator and OffMeshIterator, src/io/off.rs:48-50,159-161; [C] is usize
    or [usize; 2]. *)
Record off_state (C : Type) : Type := mkoff { off_seen : bool; off_counts : option C; off_added : N }.
Arguments mkoff {C}. Arguments off_seen {C}. Arguments off_counts {C}. Arguments off_added {C}.
(** new, src/io/off.rs:65-67,176-178. *)
Definition off_start {C} : off_state C := mkoff false None 0.
(** Models fetch_vertex, src/io/off.rs:396-418. *)
Definition off_vertex (ft : FText) (line : bytes) : outcome OffError (pt3 F64) := three_f64 ft OffVertex (to_words line).
(** Models fetch_face, src/io/off.rs:184-209. *)
Definition off_face (line : bytes) : outcome OffError face3 :=
  match to_words line with
  | [] => Err OffFaceVertexCount
  | w :: ws =>
      if bytes_eqb w (str "3") then
        obind (next_count OffFace ws) (fun '(a, ws) => obind (next_count OffFace ws) (fun '(b, ws) => obind (next_count OffFace ws) (fun '(c, ws) => Ok (a, b, c))))
      else Err OffFaceVertexCount
  end.
(** Models fetch_counts, src/io/off.rs:212-224. *)
Definition off_two_counts (line : bytes) : outcome OffError (N * N) :=
  obind (next_count OffVertexCount (to_words line)) (fun '(n, ws) => obind (next_count OffFaceCount ws) (fun '(m, ws) => Ok (n, m))).
(** The lines passed over, src/io/off.rs:88-95,241-248: None if the line is to be looked at. *)
Definition off_pass {C} (s : off_state C) (line : bytes) : option (off_state C) :=
  if negb (off_seen s) && starts_with (str "OFF") line then Some (mkoff true (off_counts s) (off_added s))
  else if bytes_eqb line [] || starts_with (str "#") line then Some s
  else None.
(** The body of the loop of OffPointsIterator::next, src/io/off.rs:88-131. *)
Definition off_points_step (ft : FText) (s : off_state N) (line : bytes) : line_step (off_state N) OffError (data_reserve (pt3 F64)) :=
  match off_pass s line with
  | Some s => LSkip s
  | None =>
      match off_counts s with
      | None => match next_count OffVertexCount (to_words line) with
                | Ok (n, _) => LItem (Ok (DReserve n)) (mkoff (off_seen s) (Some n) (off_added s))
                | Err e => LItem (Err e) s
                | Panic => LItem Panic s
                end
      | Some n => if (off_added s <? n)%N then LItem (omap DData (off_vertex ft line)) (mkoff (off_seen s) (Some n) (off_added s + 1)) else LStop s
      end
  end.
(** Models FaceDataReserve, src/io/types.rs:57-61. *)
Inductive face_data_reserve : Type := FReserve (nv nf : N) | FItem (x : mesh_item).
(** The body of the loop of OffMeshIterator::next, src/io/off.rs:241-284. *)
Definition off_mesh_step (ft : FText) (s : off_state (N * N)) (line : bytes) : line_step (off_state (N * N)) OffError face_data_reserve :=
  match off_pass s line with
  | Some s => LSkip s
  | None =>
      match off_counts s with
      | None => match off_two_counts line with
                | Ok (nv, nf) => LItem (Ok (FReserve nv nf)) (mkoff (off_seen s) (Some (nv, nf)) (off_added s))
                | Err e => LItem (Err e) s
                | Panic => LItem Panic s
                end
      | Some (nv, nf) => if (off_added s <? nv)%N then LItem (omap (fun p => FItem (MPoint p)) (off_vertex ft line)) (mkoff (off_seen s) (Some (nv, nf)) (off_added s + 1))
                         else LItem (omap (fun f => FItem (MFace f)) (off_face line)) s
      end
  end.
(** The body of the loop of load_off_mesh, src/io/off.rs:312-325: reserve_vertices and reserve_faces (which
    multiplies by 3, wrapping, src/mesh_3d.rs:118) come before the first vertex and face. *)
Definition off_add (m : mesh (pt3 F64)) (x : face_data_reserve) : mesh (pt3 F64) * outcome (with_line OffError) unit :=
  match x with
  | FReserve nv nf => (m, if reserve 24 (lenN (pc m) + nv) && reserve 8 (lenN (topology m) + w64 (3 * nf)) then Ok tt else Panic)
  | FItem x => mesh_add OffInvalidMeshIndices m x
  end.
(** Models load_off_mesh, src/io/off.rs:303-329, into an empty Mesh3D. *)
Definition load_off_mesh (ft : FText) (k : nat) (file : bytes) : option (mesh (pt3 F64) * outcome (with_line OffError) unit) :=
  fold_loop (line_next (off_mesh_step ft)) off_add k (line_new file off_start) mesh_empty.
(** Models load_off_points, src/io/off.rs:332-348, into an empty container. *)
Definition load_off_points (ft : FText) (k : nat) (file : bytes) : option (list (pt3 F64) * outcome (with_line OffError) unit) :=
  fold_loop (line_next (off_points_step ft)) push_data k (line_new file off_start) [].

(** ** pts *)
(** Models PtsError, src/io/pts.rs:199-203. *)
Inductive PtsError : Type := PtsAccessFile | PtsVertexCount | PtsVertex.
(** Models the fields n_vertices and n_vertices_added, src/io/pts.rs:48-49. *)
Record pts_state : Type := mkpts { pts_n : option N; pts_added : N }.
(** The first line of a block, src/io/pts.rs:113-127,143-158. *)
Definition pts_block (added : N) (s : pts_state) (line : bytes) : line_step pts_state PtsError (data_reserve (pt3 F64)) :=
  match next_count PtsVertexCount (to_words line) with
  | Ok (n, _) => LItem (Ok (DReserve n)) (mkpts (Some n) added)
  | Err e => LItem (Err e) (mkpts (pts_n s) added)
  | Panic => LItem Panic (mkpts (pts_n s) added)
  end.
(** The body of the loop of PtsIterator::next, src/io/pts.rs:107-161, with fetch_one, 71-90. *)
Definition pts_step (ft : FText) (s : pts_state) (line : bytes) : line_step pts_state PtsError (data_reserve (pt3 F64)) :=
  if bytes_eqb line [] then LSkip s
  else match pts_n s with
  | None => pts_block (pts_added s) s line
  | Some n => if (pts_added s <? n)%N then LItem (omap DData (three_f64 ft PtsVertex (to_words line))) (mkpts (Some n) (pts_added s + 1)) else pts_block 0 s line
  end.
(** Models load_pts, src/io/pts.rs:178-194, into an empty container. *)
Definition load_pts (ft : FText) (k : nat) (file : bytes) : option (list (pt3 F64) * outcome (with_line PtsError) unit) :=
  fold_loop (line_next (pts_step ft)) push_data k (line_new file (mkpts None 0)) [].

(** ** gcode *)
(** Models GcodeError, src/io/gcode.rs:263-266. *)
Inductive GcodeError : Type := GcodeAccessFile | GcodeCommand.
(** Models RelativeAbsolute, src/io/gcode.rs:257-260. *)
Inductive RelAbs : Type := Relative | Absolute.
(** Models the fields ra, x, y and z, src/io/gcode.rs:49-52. *)
Record gcode_state : Type := mkgc { gc_ra : RelAbs; gc_pos : pt3 F64 }.
(** new, src/io/gcode.rs:68-71. *)
Definition gcode_start : gcode_state := mkgc Absolute (mk3 n0 n0 n0).
(** The loop of command, src/io/gcode.rs:218-252. *)
Fixpoint command_words (ft : FText) (ws : list bytes) (n_found : N) (x y z : option (T F64)) : option (option (T F64) * option (T F64) * option (T F64)) :=
  match ws with
  | [] => Some (x, y, z)
  | word :: ws =>
      if (n_found =? 3)%N then Some (x, y, z)
      else match word with
      | [] => command_words ft ws n_found x y z
      | c :: rest =>
          if Ascii.eqb c ";"%char then Some (x, y, z)
          else match rest with
          | [] => command_words ft ws n_found x y z
          | _ =>
              if Ascii.eqb c "X"%char then match f64_of ft rest with Some v => command_words ft ws (n_found + 1) (Some v) y z | None => None end
              else if Ascii.eqb c "Y"%char then match f64_of ft rest with Some v => command_words ft ws (n_found + 1) x (Some v) z | None => None end
              else if Ascii.eqb c "Z"%char then match f64_of ft rest with Some v => command_words ft ws (n_found + 1) x y (Some v) | None => None end
              else command_words ft ws n_found x y z
          end
      end
  end.
(** Models command, src/io/gcode.rs:211-255. *)
Definition command (ft : FText) (line : bytes) : option (option (T F64) * option (T F64) * option (T F64)) :=
  command_words ft (split_on (fun c => Ascii.eqb c space) line) 0 None None None.
(** A coordinate after a move, src/io/gcode.rs:104-110,154-157. *)
Definition move_to (ra : RelAbs) (old : T F64) (new : option (T F64)) : T F64 :=
  match new with None => old | Some v => match ra with Absolute => v | Relative => nadd old v end end.
(** A move, src/io/gcode.rs:94-132,144-173; [ra] is Absolute for G92. *)
Definition gcode_move (ft : FText) (ra : RelAbs) (s : gcode_state) (args : bytes) : line_step gcode_state GcodeError (pt3 F64) :=
  match command ft args with
  | None => LItem (Err GcodeCommand) s
  | Some (x, y, z) =>
      let p := mk3 (move_to ra (px (gc_pos s)) x) (move_to ra (py (gc_pos s)) y) (move_to ra (pz (gc_pos s)) z) in
      match x, y, z with
      | None, None, None => LSkip s
      | _, _, _ => LItem (Ok p) (mkgc (gc_ra s) p)
      end
  end.
(** The body of the loop of GcodeIterator::next, src/io/gcode.rs:91-176. *)
Definition gcode_step (ft : FText) (s : gcode_state) (line : bytes) : line_step gcode_state GcodeError (pt3 F64) :=
  match line with
  | c0 :: c1 :: c2 :: c3 :: rest =>
      if Ascii.eqb c0 "G"%char then
        if Ascii.eqb c2 space && (Ascii.eqb c1 "1"%char || Ascii.eqb c1 "2"%char || Ascii.eqb c1 "3"%char) then gcode_move ft (gc_ra s) s (c3 :: rest)
        else if Ascii.eqb c1 "9"%char && Ascii.eqb c3 space then
          if Ascii.eqb c2 "0"%char then LSkip (mkgc Absolute (gc_pos s))
          else if Ascii.eqb c2 "1"%char then LSkip (mkgc Relative (gc_pos s))
          else if Ascii.eqb c2 "2"%char then gcode_move ft Absolute s rest
          else LSkip s
        else LSkip s
      else LSkip s
  | _ => LSkip s
  end.
(** Models load_gcode_points, src/io/gcode.rs:194-207, into an empty container. *)
Definition load_gcode_points (ft : FText) (k : nat) (file : bytes) : option (list (pt3 F64) * outcome (with_line GcodeError) unit) :=
  load_loop (line_next (gcode_step ft)) k (line_new file gcode_start) [].
