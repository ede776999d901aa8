(** Positions and point clouds as text: to_str and parse.
    Models src/is_2d.rs, src/is_3d.rs, src/is_buildable_2d.rs, src/is_buildable_3d.rs, src/skip_empty_string.rs and the text parts of
    src/point_cloud_2d.rs and src/point_cloud_3d.rs.  A str is the list of its bytes; the separators are ASCII, so splitting the bytes
    is splitting the characters. *)
From Verif Require Import Base Num IoModel EditModel.

(** Models SkipEmptyString::next, src/skip_empty_string.rs:50-58, the iterator made by skip_empty_string, 72-74. *)
Fixpoint skip_next (ws : list bytes) : option (bytes * list bytes) :=
  match ws with
  | [] => None
  | [] :: r => skip_next r
  | w :: r => Some (w, r)
  end.
(** Models `f64::from_str(words.next().ok_or(ErrorKind::ParseError)?)?`, src/is_buildable_3d.rs:83-85; a ParseFloatError becomes a
    ParseError, src/result.rs:125-129. *)
Definition next_number (ft : FText) (ws : list bytes) : res (T F64 * list bytes) :=
  match skip_next ws with
  | None => Err ParseError
  | Some (w, r) => match fparse ft w with Some x => Ok (x, r) | None => Err ParseError end
  end.

Section Text3.
Context {A : Type} (E : pos3 F64 A) (ft : FText).
(** Models Is3D::to_str, src/is_3d.rs:77-83. *)
Definition to_str3 (a : A) : bytes := fprint ft (g3x E a) ++ [space] ++ fprint ft (g3y E a) ++ [space] ++ fprint ft (g3z E a).
(** Models IsBuildable3D::parse, src/is_buildable_3d.rs:80-92. *)
Definition parse3 (text : bytes) : res A :=
  obind (next_number ft (split_on (fun c => Ascii.eqb c space) text)) (fun '(x, ws) =>
  obind (next_number ft ws) (fun '(y, ws) =>
  obind (next_number ft ws) (fun '(z, ws) =>
  match skip_next ws with None => Ok (new3 E x y z) | Some _ => Err ParseError end))).
End Text3.

Section Text2.
Context {A : Type} (E : pos2 F64 A) (ft : FText).
(** Models Is2D::to_str, src/is_2d.rs:61-66. *)
Definition to_str2 (a : A) : bytes := fprint ft (g2x E a) ++ [space] ++ fprint ft (g2y E a).
(** Models IsBuildable2D::parse, src/is_buildable_2d.rs:71-82. *)
Definition parse2 (text : bytes) : res A :=
  obind (next_number ft (split_on (fun c => Ascii.eqb c space) text)) (fun '(x, ws) =>
  obind (next_number ft ws) (fun '(y, ws) =>
  match skip_next ws with None => Ok (new2 E x y) | Some _ => Err ParseError end)).
End Text2.

Section CloudText.
Context {A : Type}.
(** Models PointCloud3D::to_str, src/point_cloud_3d.rs:58-64, and PointCloud2D::to_str, src/point_cloud_2d.rs:58-64, for the to_str of
    the points. *)
Definition cloud_to_str (to_str : A -> bytes) (ps : list A) : bytes :=
  fold_left (fun result p => result ++ to_str p ++ [nl]) ps [].
(** The loop over the lines, src/point_cloud_3d.rs:89-91, src/point_cloud_2d.rs:89-91: [pc] are the points pushed so far. *)
Fixpoint cloud_lines (parse : bytes -> res A) (lines : list bytes) (pc : list A) : res (list A) :=
  match lines with
  | [] => Ok pc
  | [] :: r => cloud_lines parse r pc
  | line :: r => obind (parse line) (fun p => cloud_lines parse r (pc ++ [p]))
  end.
(** Models PointCloud3D::parse, src/point_cloud_3d.rs:85-96, and PointCloud2D::parse, src/point_cloud_2d.rs:85-96. *)
Definition cloud_parse (parse : bytes -> res A) (text : bytes) : res (list A) :=
  obind (cloud_lines parse (split_on (fun c => Ascii.eqb c nl) text) []) (fun pc =>
  match pc with [] => Err ParseError | _ => Ok pc end).
End CloudText.
