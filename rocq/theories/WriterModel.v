(** Saving through writers that take the data in pieces, are interrupted or fail. *)
From Verif Require Import Base Num MeshModel MeshAlgoModel NormalModel VecModel IoModel ByteModel PlyModel StlModel.

(** What a call of `Write::write` on a writer does (language convention): it takes at most [n] bytes, is interrupted, or
    fails. *)
Inductive wevent : Type := Takes (n : nat) | WInterrupted | WFailure.
(** A writer (`W: Write`, src/io/xyz.rs:144) as what its calls will do, afterwards it takes everything, and what it holds. *)
Record writer : Type := mkw { w_calls : list wevent; w_out : bytes }.
(** `write.write_all(..)?` of the standard library, src/io/xyz.rs:155: interrupted calls are repeated, a call that takes
    nothing is an error; [e] is what the error is converted to. *)
Fixpoint write_all_to {E} (e : E) (b : bytes) (calls : list wevent) (out : bytes) : outcome E unit * writer :=
  match b with
  | [] => (Ok tt, mkw calls out)
  | _ => match calls with
         | [] => (Ok tt, mkw [] (out ++ b))
         | Takes O :: calls => (Err e, mkw calls out)
         | Takes n :: calls => write_all_to e (skipn n b) calls (out ++ firstn n b)
         | WInterrupted :: calls => write_all_to e b calls out
         | WFailure :: calls => (Err e, mkw calls out)
         end
  end.
(** `write.write(..)?`, src/io/ply/save.rs:195: one call; the number of bytes taken is ignored. *)
Definition write_to {E} (e : E) (b : bytes) (w : writer) : outcome E unit * writer :=
  match w_calls w with
  | [] => (Ok tt, mkw [] (w_out w ++ b))
  | Takes n :: calls => (Ok tt, mkw calls (w_out w ++ firstn n b))
  | _ :: calls => (Err e, mkw calls (w_out w))
  end.
(** A statement after another, e.g. src/io/stl.rs:62-64: errors and panics end the function. *)
Definition andthen {E} (x : outcome E unit * writer) (f : writer -> outcome E unit * writer) : outcome E unit * writer :=
  match x with (Ok _, w) => f w | y => y end.
(** write_all on a writer, src/io/xyz.rs:155. *)
Definition put {E} (e : E) (b : bytes) (w : writer) : outcome E unit * writer := write_all_to e b (w_calls w) (w_out w).
(** A value computed between writes, e.g. `.unwrap()`, src/io/stl.rs:65. *)
Definition computed {E A} (x : outcome E A) (f : A -> writer -> outcome E unit * writer) (w : writer) : outcome E unit * writer :=
  match x with Ok a => f a w | Err e => (Err e, w) | Panic => (Panic, w) end.
(** `for i in 0..n`, e.g. src/io/stl.rs:64. *)
Fixpoint for_write {E} (n : nat) (i : N) (f : N -> writer -> outcome E unit * writer) (w : writer) : outcome E unit * writer :=
  match n with O => (Ok tt, w) | S n => andthen (f i w) (for_write n (i + 1) f) end.
(** `.unwrap()` in a function with another error type, e.g. src/io/stl.rs:66. *)
Definition unwrapped {E A} (r : res A) : outcome E A := match r with Ok a => Ok a | _ => Panic end.
(** save_xy, src/io/xy.rs:131-144; `ra[i]` (139) does not panic as i is below the length. *)
Fixpoint save_xy_to (ft : FText) (ps : list (pt2 F64)) (dc dp : bytes) (w : writer) : outcome XyError unit * writer :=
  match ps with
  | [] => (Ok tt, w)
  | p :: ps => andthen (put XyAccessFile (fprint ft (x2 p) ++ dc ++ fprint ft (y2 p) ++ dp) w) (save_xy_to ft ps dc dp)
  end.
(** save_xyz, src/io/xyz.rs:136-159; `ra[i]` (149) does not panic as i is below the length. *)
Fixpoint save_xyz_to (ft : FText) (ps : list (pt3 F64)) (dc dp : bytes) (w : writer) : outcome XyError unit * writer :=
  match ps with
  | [] => (Ok tt, w)
  | p :: ps => andthen (put XyAccessFile (fprint ft (px p) ++ dc ++ fprint ft (py p) ++ dc ++ fprint ft (pz p) ++ dp) w) (save_xyz_to ft ps dc dp)
  end.
(** save_stl_ascii, src/io/stl.rs:56-86. *)
Definition save_stl_ascii_to (ft : FText) (m : mesh (pt3 F64)) (w : writer) : outcome StlError unit * writer :=
  andthen (put StlAccessFile (str "solid STL generated by rust-3d" ++ [nl]) w) (fun w =>
  andthen (for_write (N.to_nat (num_faces m)) 0 (fun i =>
    computed (unwrapped (unwrap_opt (face_vertices m i))) (fun '(v1, v2, v3) =>
    computed (unwrapped (mesh_face_normal m i)) (fun n => put StlAccessFile (facet_text ft v1 v2 v3 n)))) w)
  (put StlAccessFile (str "endsolid STL generated by rust-3d" ++ [nl]))).
(** save_ply_ascii and save_ply_ascii_colored, src/io/ply/save.rs:34-75,80-143. *)
Definition save_ply_ascii_to (ft : FText) (m : mesh (pt3 F64)) (colors : option (list rgb)) (w : writer) : outcome PlyError unit * writer :=
  if negb (colors_fit m colors) then (Err ColorArrayIncorrectLength, w) else
  andthen (put PlyAccessFile (header_text "ascii" "float" "uchar uint" (is_colored colors) (num_vertices m) (num_faces m)) w) (fun w =>
  andthen (for_write (N.to_nat (num_vertices m)) 0 (fun i =>
    computed (get_vertex m i) (fun p => computed (get_color colors i) (fun c => put PlyAccessFile (vertex_line_text ft p c)))) w)
  (for_write (N.to_nat (num_faces m)) 0 (fun i => computed (get_face m i) (fun f => put PlyAccessFile (face_line_text f))))).
(** Several calls of `write`, src/io/ply/save.rs:195-197. *)
Fixpoint write_each {E} (e : E) (bs : list bytes) (w : writer) : outcome E unit * writer :=
  match bs with [] => (Ok tt, w) | b :: bs => andthen (write_to e b w) (write_each e bs) end.
(** save_ply_binary and save_ply_binary_colored, src/io/ply/save.rs:148-220,225-323. *)
Definition save_ply_binary_to (pr : Precision) (m : mesh (pt3 F64)) (colors : option (list rgb)) (w : writer) : outcome PlyError unit * writer :=
  if negb (colors_fit m colors) then (Err ColorArrayIncorrectLength, w) else
  andthen (put PlyAccessFile (header_text "binary_big_endian" (match pr with P32 => "float" | P64 => "double" end) "uint8 uint32" (is_colored colors) (num_vertices m) (num_faces m)) w) (fun w =>
  andthen (for_write (N.to_nat (num_vertices m)) 0 (fun i =>
    computed (get_vertex m i) (fun p => computed (get_color colors i) (fun c => write_each PlyAccessFile
      ([coord_bytes pr (px p); coord_bytes pr (py p); coord_bytes pr (pz p)]
       ++ match c with Some c => [be_bytes 1 (red c); be_bytes 1 (green c); be_bytes 1 (blue c)] | None => [] end)))) w)
  (for_write (N.to_nat (num_faces m)) 0 (fun i => computed (get_face m i) (fun '(a, b, c) =>
    write_each PlyAccessFile [be_bytes 1 3; id_bytes a; id_bytes b; id_bytes c])))).
