(** Vocabulary for the line based formats. *)
From Verif Require Import Base Num GeomSpec VecModel MeshModel MeshSpec IoModel IoSpec PlyModel ScanModel.

(** ** Lines and words *)
(** [l] is a line of a file and [t] is what remains without the whitespace at its end. *)
Definition line_of (l t : bytes) : Prop := is_line l /\ stripped l t.
(** A text made of the words [ws], separated by characters [sep]. *)
Inductive spells (sep : ascii -> Prop) : bytes -> list bytes -> Prop :=
| SpEnd bl : Forall sep bl -> spells sep bl []
| SpWord bl w r ws : Forall sep bl -> w <> [] -> Forall (fun c => ~ sep c) w -> (r = [] \/ exists c s, r = c :: s /\ sep c) -> spells sep r ws -> spells sep (bl ++ w ++ r) (w :: ws).
Definition blank (c : ascii) : Prop := c = space \/ c = tab.
(** The first three words are the coordinates of [p]; more words may follow. *)
Definition coords (ft : FText) (ws : list bytes) (p : pt3 F64) : Prop :=
  exists x y z rest, ws = x :: y :: z :: rest /\ f64_of ft x = Some (px p) /\ f64_of ft y = Some (py p) /\ f64_of ft z = Some (pz p).
Definition point_text (ft : FText) (t : bytes) (p : pt3 F64) : Prop := exists ws, spells blank t ws /\ coords ft ws p.
(** The line starts with the number [n]. *)
Definition count_text (t : bytes) (n : N) : Prop := exists w ws, spells blank t (w :: ws) /\ usize_of w = Some n.

(** ** obj *)
(** A vertex, or a face with the numbers of the file. *)
Inductive obj_item : Type := OVertex (p : pt3 F64) | OFace (a b c : N).
(** A corner of a face: a number, possibly followed by a slash and anything. *)
Definition corner (w : bytes) (n : N) : Prop := exists d r, w = d ++ r /\ ~ In "/"%char d /\ (r = [] \/ exists s, r = "/"%char :: s) /\ usize_of d = Some n.
Definition corners (t : bytes) (a b c : N) : Prop := exists u v w rest, spells blank t (u :: v :: w :: rest) /\ corner u a /\ corner v b /\ corner w c.
(** What a line says; None for the lines that are of no interest. *)
Inductive obj_line (ft : FText) : bytes -> option obj_item -> Prop :=
| OlVertex r p : point_text ft r p -> obj_line ft (str "v " ++ r) (Some (OVertex p))
| OlFace r a b c : corners r a b c -> obj_line ft (str "f " ++ r) (Some (OFace a b c))
| OlOther t : (forall r, t <> str "v " ++ r) -> (forall r, t <> str "f " ++ r) -> obj_line ft t None.
(** The vertices and faces of a file; numbers in the file start at 1. *)
Fixpoint obj_vertices (os : list (option obj_item)) : list (pt3 F64) :=
  match os with [] => [] | Some (OVertex p) :: os => p :: obj_vertices os | _ :: os => obj_vertices os end.
Fixpoint obj_faces (os : list (option obj_item)) : list face3 :=
  match os with [] => [] | Some (OFace a b c) :: os => (a - 1, b - 1, c - 1)%N :: obj_faces os | _ :: os => obj_faces os end.
(** A face between three different ones of the first [n] vertices. *)
Definition face_fine (n a b c : N) : Prop := (1 <= a <= n /\ 1 <= b <= n /\ 1 <= c <= n /\ a <> b /\ a <> c /\ b <> c)%N.
(** Faces come after their vertices. *)
Definition ordered (os : list (option obj_item)) : Prop :=
  forall before a b c after, os = before ++ Some (OFace a b c) :: after -> face_fine (lenN (obj_vertices before)) a b c.

(** ** off *)
(** The lines that are not empty and no comments. *)
Definition content (t : bytes) : bool := match t with [] => false | c :: _ => negb (Ascii.eqb c "#"%char) end.
Definition counts_text (t : bytes) (nv nf : N) : Prop := exists v f rest, spells blank t (v :: f :: rest) /\ usize_of v = Some nv /\ usize_of f = Some nf.
Definition face_text3 (t : bytes) (f : face3) : Prop :=
  let '(a, b, c) := f in exists u v w rest, spells blank t (str "3" :: u :: v :: w :: rest) /\ usize_of u = Some a /\ usize_of v = Some b /\ usize_of w = Some c.
(** The relevant lines up to and including the line with the counts. *)
Definition off_header (hs : list bytes) (nv nf : N) : Prop := exists r c, hs = [str "OFF" ++ r; c] /\ counts_text c nv nf.

(** ** pts *)
Definition nonempty (t : bytes) : bool := match t with [] => false | _ => true end.
(** The lines of a block with [n] announced points. *)
Definition pts_lines (ft : FText) (n : N) (b : list bytes) (ps : list (pt3 F64)) : Prop := exists c vs, b = c :: vs /\ count_text c n /\ Forall2 (point_text ft) vs ps.

(** ** gcode *)
(** The coordinates mentioned by the words of a move, each at most once; the words from a semicolon on
    are a comment and other words are ignored. *)
Inductive axes (ft : FText) : list bytes -> option (T F64) -> option (T F64) -> option (T F64) -> Prop :=
| AxEnd : axes ft [] None None None
| AxComment c ws : axes ft ((";"%char :: c) :: ws) None None None
| AxOther c w ws x y z : c <> ";"%char -> w = [] \/ ~ In c (str "XYZ") -> axes ft ws x y z -> axes ft ((c :: w) :: ws) x y z
| AxX w ws v y z : w <> [] -> f64_of ft w = Some v -> axes ft ws None y z -> axes ft (("X"%char :: w) :: ws) (Some v) y z
| AxY w ws x v z : w <> [] -> f64_of ft w = Some v -> axes ft ws x None z -> axes ft (("Y"%char :: w) :: ws) x (Some v) z
| AxZ w ws x y v : w <> [] -> f64_of ft w = Some v -> axes ft ws x y None -> axes ft (("Z"%char :: w) :: ws) x y (Some v).
Inductive gcmd : Type := GMove (x y z : option (T F64)) | GMode (ra : RelAbs) | GSet (x y z : option (T F64)) | GOther.
Definition is_space (c : ascii) : Prop := c = space.
(** The command of a line: a move, a change of the mode with text behind it, setting the position. *)
Inductive gline (ft : FText) : bytes -> gcmd -> Prop :=
| GlMove d r ws x y z : In d (str "123") -> spells is_space r ws -> axes ft ws x y z -> gline ft ("G"%char :: d :: space :: r) (GMove x y z)
| GlAbsolute r : gline ft (str "G90 " ++ r) (GMode Absolute)
| GlRelative r : gline ft (str "G91 " ++ r) (GMode Relative)
| GlSet r ws x y z : spells is_space r ws -> axes ft ws x y z -> gline ft (str "G92 " ++ r) (GSet x y z)
| GlOther t : (forall d r, In d (str "123") -> t <> "G"%char :: d :: space :: r) -> (forall d r, In d (str "012") -> t <> "G"%char :: "9"%char :: d :: space :: r) -> gline ft t GOther.
(** The position after a command. *)
Definition coordinate (ra : RelAbs) (old : T F64) (new : option (T F64)) : T F64 :=
  match new, ra with None, _ => old | Some v, Absolute => v | Some v, Relative => nadd old v end.
Definition moved (ra : RelAbs) (p : pt3 F64) (x y z : option (T F64)) : pt3 F64 := mk3 (coordinate ra (px p) x) (coordinate ra (py p) y) (coordinate ra (pz p) z).
Definition mentions (x y z : option (T F64)) : bool := match x, y, z with None, None, None => false | _, _, _ => true end.
(** The positions visited: one for every command that mentions a coordinate. *)
Fixpoint positions (ra : RelAbs) (p : pt3 F64) (cs : list gcmd) : list (pt3 F64) :=
  match cs with
  | [] => []
  | GMove x y z :: cs => let q := moved ra p x y z in if mentions x y z then q :: positions ra q cs else positions ra p cs
  | GSet x y z :: cs => let q := moved Absolute p x y z in if mentions x y z then q :: positions ra q cs else positions ra p cs
  | GMode ra :: cs => positions ra p cs
  | GOther :: cs => positions ra p cs
  end.

(** The line [l] of a file reads as [o]. *)
Definition reads {O} (R : bytes -> O -> Prop) (l : bytes) (o : O) : Prop := exists t, line_of l t /\ R t o.
(** What a line of an .obj file says to somebody who wants the points only. *)
Inductive obj_point_line (ft : FText) : bytes -> list (pt3 F64) -> Prop :=
| OpVertex r p : point_text ft r p -> obj_point_line ft (str "v " ++ r) [p]
| OpOther t : (forall r, t <> str "v " ++ r) -> obj_point_line ft t [].
