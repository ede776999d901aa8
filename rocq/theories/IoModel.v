(** Model of the reading helpers of src/io/utils.rs and of the .xy and .xyz formats.  Bytes are
    values of type [ascii].  Readers and writers never report an I/O error here: a reader is the
    list of the bytes still to come, a writer is the list of the bytes written. *)
From Verif Require Import Base Num.
From Coq Require Export Ascii String.
From Coq Require Export List.
Export ListNotations.

(** A byte string (`&[u8]`, `Vec<u8>`, the bytes of a `&str`), e.g. the line buffer, src/io/utils.rs:92. *)
Definition bytes : Type := list ascii.
(** A byte string literal, e.g. src/io/stl.rs:58. *)
Definition str (s : string) : bytes := list_ascii_of_string s.
(** `b'\n'`, src/io/utils.rs:97. *)
Definition nl : ascii := ascii_of_N 10.
(** `b'\t'`, src/io/utils.rs:64. *)
Definition tab : ascii := ascii_of_N 9.
(** `b' '`, src/io/utils.rs:64. *)
Definition space : ascii := ascii_of_N 32.

(** `char::is_whitespace` of a byte turned into a char, src/io/utils.rs:106: the Unicode code points
    below 256 with the White_Space property. *)
Definition is_whitespace (c : ascii) : bool :=
  let n := N_of_ascii c in ((9 <=? n) && (n <=? 13) || (n =? 32) || (n =? 133) || (n =? 160))%N.
(** `is_ascii` of a slice, src/io/utils.rs:81. *)
Definition is_ascii (s : bytes) : bool := forallb (fun c => N_of_ascii c <? 128)%N s.

(** `read_until(b'\n', ..)`, src/io/utils.rs:97: the bytes up to and including the newline (all
    bytes if there is none) and what is left. *)
Fixpoint read_until (s : bytes) : bytes * bytes :=
  match s with
  | [] => ([], [])
  | c :: r => if Ascii.eqb c nl then ([c], r) else let (l, t) := read_until r in (c :: l, t)
  end.
(** The loop dropping whitespace at the end, src/io/utils.rs:104-111; on the reversed line. *)
Fixpoint skip_whitespace (s : bytes) : bytes :=
  match s with
  | c :: r => if is_whitespace c then skip_whitespace r else s
  | [] => []
  end.
(** src/io/utils.rs:101-113: the buffer without its last byte and without trailing whitespace. *)
Definition trim_line (buffer : bytes) : bytes := rev (skip_whitespace (tl (rev buffer))).
(** Models fetch_line, src/io/utils.rs:92-114; None is FetchLineError. *)
Definition fetch_line (s : bytes) : option (bytes * bytes) :=
  match read_until s with
  | ([], _) => None
  | (l, r) => Some (trim_line l, r)
  end.

(** The lines a reader still has to offer, each with its newline (the last one possibly without).
    Readers that are used through fetch_line only (src/io/utils.rs:92) are represented by this list;
    [next_line] is then fetch_line, see [fetch_line_raw] in IoLemmas.v. *)
Fixpoint raw_lines (s : bytes) : list bytes :=
  match s with
  | [] => []
  | c :: r => if Ascii.eqb c nl then [c] :: raw_lines r
              else match raw_lines r with [] => [[c]] | l :: ls => (c :: l) :: ls end
  end.
(** fetch_line, src/io/utils.rs:92-114, on such a list. *)
Definition next_line (ls : list bytes) : option (bytes * list bytes) :=
  match ls with [] => None | l :: r => Some (trim_line l, r) end.

(** Models trim_start, src/io/utils.rs:61-71. *)
Fixpoint trim_start (s : bytes) : bytes :=
  match s with
  | c :: r => if Ascii.eqb c space || Ascii.eqb c tab then trim_start r else s
  | [] => []
  end.
(** `starts_with`, e.g. src/io/obj.rs:94: what follows the prefix. *)
Fixpoint strip_prefix (p s : bytes) : option bytes :=
  match p, s with
  | [], _ => Some s
  | a :: p, b :: s => if Ascii.eqb a b then strip_prefix p s else None
  | _, [] => None
  end.
(** `starts_with`, e.g. src/io/obj.rs:94. *)
Definition starts_with (p s : bytes) : bool := match strip_prefix p s with Some _ => true | None => false end.
(** Equality of byte strings. `==` of slices, e.g. src/io/off.rs:110. *)
Fixpoint bytes_eqb (a b : bytes) : bool :=
  match a, b with
  | [], [] => true
  | x :: a, y :: b => Ascii.eqb x y && bytes_eqb a b
  | _, _ => false
  end.

(** `slice::split`, e.g. src/utils.rs:36: the pieces between the separators. *)
Fixpoint split_on (f : ascii -> bool) (s : bytes) : list bytes :=
  match s with
  | [] => [[]]
  | c :: r => if f c then [] :: split_on f r
              else match split_on f r with [] => [[c]] | w :: ws => (c :: w) :: ws end
  end.
(** `skip_empty()`, src/skip_empty.rs:49-60. *)
Definition skip_empty (ws : list bytes) : list bytes := filter (fun w => match w with [] => false | _ => true end) ws.
(** Models to_words_skip_empty, src/utils.rs:35-37. *)
Definition to_words (line : bytes) : list bytes := skip_empty (split_on (fun c => Ascii.eqb c space || Ascii.eqb c tab) line).
(** Models until_bytes, src/utils.rs:45-47. *)
Definition until_bytes (line : bytes) (delimiter : ascii) : bytes := hd [] (split_on (fun c => Ascii.eqb c delimiter) line).
(** Models estimate_delimiter, src/utils.rs:128-135. *)
Definition estimate_delimiter (minimum_count : nat) (line : bytes) : option ascii :=
  find (fun candidate => minimum_count <=? length (filter (fun c => Ascii.eqb c candidate) line))%nat
    [space; ";"%char; ","%char; tab].

(** ** Numbers as text *)
(** The digit, e.g. of `to_string` in src/io/ply/save.rs:45. *)
Definition digit (n : N) : ascii := ascii_of_N (48 + n).
(** The value of a digit, for `usize::from_str`, src/io/utils.rs:82. *)
Definition digit_value (c : ascii) : option N :=
  let n := N_of_ascii c in if ((48 <=? n) && (n <=? 57))%N then Some (n - 48)%N else None.
(** The digits of a number, e.g. src/io/ply/save.rs:45; [k] bounds their number. *)
Fixpoint print_go (k : nat) (n : N) (acc : bytes) : bytes :=
  match k with
  | O => acc
  | S k => let acc := digit (n mod 10) :: acc in if (n <? 10)%N then acc else print_go k (n / 10)%N acc
  end.
(** `usize::to_string`, e.g. src/io/ply/save.rs:45. *)
Definition print_usize (n : N) : bytes := print_go (S (N.size_nat n)) n [].
(** The digits read by `from_str` of an unsigned type with the values below [limit], with its
    overflow checks, src/io/utils.rs:82. *)
Fixpoint parse_digits (limit : N) (acc : N) (s : bytes) : option N :=
  match s with
  | [] => Some acc
  | c :: r =>
      match digit_value c with
      | Some d => let n := (acc * 10 + d)%N in if (n <? limit)%N then parse_digits limit n r else None
      | None => None
      end
  end.
(** `from_str` of an unsigned type, src/io/utils.rs:82: digits, possibly after a plus sign. *)
Definition parse_uint (limit : N) (s : bytes) : option N :=
  match s with
  | [] => None
  | c :: r => if Ascii.eqb c "+"%char then match r with [] => None | _ => parse_digits limit 0 r end
              else parse_digits limit 0 s
  end.
(** The standard library's `to_string`, `{:e}` formatting and `from_str` of f64, used by the savers
    and in from_ascii (src/io/utils.rs:82); what is assumed of them is stated in IoSpec.v. *)
Record FText : Type := mkft { fprint : T F64 -> bytes; fprint_e : T F64 -> bytes; fparse : bytes -> option (T F64) }.
(** Models from_ascii, src/io/utils.rs:77-86, for the parser [p]. *)
Definition from_ascii {A} (p : bytes -> option A) (s : bytes) : option A := if is_ascii s then p s else None.
(** from_ascii::<f64>, src/io/utils.rs:77-86. *)
Definition f64_of (ft : FText) (s : bytes) : option (T F64) := from_ascii (fparse ft) s.
(** from_ascii::<usize>, src/io/utils.rs:77-86. *)
Definition usize_of (s : bytes) : option N := from_ascii (parse_uint (2 ^ 64)) s.

(** ** Iterators *)
(** Models WithLineInfo, src/io/types.rs:85-89; the text of the line is kept as bytes (the String is
    its lossy conversion). *)
Inductive with_line (E : Type) : Type := WNone (e : E) | WIndex (i : N) (e : E) | WLine (i : N) (line : bytes) (e : E).
Arguments WNone {E}. Arguments WIndex {E}. Arguments WLine {E}.
(** Models LineInfoResult::simple, src/io/types.rs:113-115. *)
Definition simple {E A} (r : outcome E A) : outcome (with_line E) A :=
  match r with Ok a => Ok a | Err e => Err (WNone e) | Panic => Panic end.
(** Models LineInfoResult::index, src/io/types.rs:117-119. *)
Definition index {E A} (i : N) (r : outcome E A) : outcome (with_line E) A :=
  match r with Ok a => Ok a | Err e => Err (WIndex i e) | Panic => Panic end.
(** Models LineInfoResult::line, src/io/types.rs:121-123. *)
Definition at_line {E A} (i : N) (line : bytes) (r : outcome E A) : outcome (with_line E) A :=
  match r with Ok a => Ok a | Err e => Err (WLine i line e) | Panic => Panic end.
(** `ok_or(e)`, e.g. src/io/xyz.rs:79-82. *)
Definition ok_or {E A} (o : option A) (e : E) : outcome E A := match o with Some a => Ok a | None => Err e end.
(** `for p in iterator { ip.push(p?) }`, e.g. src/io/xyz.rs:170-174: the elements pushed and the
    result; None if more than [k] calls of next are needed. *)
Fixpoint load_loop {S E A} (next : S -> option (outcome E A) * S) (k : nat) (s : S) (acc : list A) : option (list A * outcome E unit) :=
  match k with
  | O => None
  | Datatypes.S k =>
      match next s with
      | (None, _) => Some (acc, Ok tt)
      | (Some (Ok a), s) => load_loop next k s (acc ++ [a])
      | (Some (Err e), _) => Some (acc, Err e)
      | (Some Panic, _) => Some (acc, Panic)
      end
  end.

(** ** xy and xyz *)
(** Models XyError and XyzError, src/io/xy.rs:165-169 and src/io/xyz.rs:180-184. *)
Inductive XyError : Type := EstimateDelimiter | XyAccessFile | XyVertex.
(** Models XyIterator and XyzIterator, src/io/xy.rs:39-51 and src/io/xyz.rs:39-51; delim_determined
    and delim as an option, without the line buffer. *)
Record xy_state : Type := mkxy { xy_read : list bytes; xy_done : bool; xy_line : N; xy_delim : option ascii }.
(** Models new, src/io/xy.rs:58-68 and src/io/xyz.rs:58-68. *)
Definition xy_new (file : bytes) : xy_state := mkxy (raw_lines file) false 0 None.
(** `words.next().and_then(|word| from_ascii(word)).ok_or(..)`, src/io/xyz.rs:79-82; the words left. *)
Definition next_f64 {E} (ft : FText) (e : E) (ws : list bytes) : outcome E (T F64 * list bytes) :=
  match ws with
  | [] => Err e
  | w :: ws => match f64_of ft w with Some x => Ok (x, ws) | None => Err e end
  end.
(** Determining the delimiter, src/io/xy.rs:72-75 and src/io/xyz.rs:72-75. *)
Definition xy_delimiter (minimum : nat) (delim : option ascii) (line : bytes) : outcome XyError ascii :=
  match delim with Some d => Ok d | None => ok_or (estimate_delimiter minimum line) EstimateDelimiter end.
(** src/io/xy.rs:77-89. *)
Definition xy_point (ft : FText) (d : ascii) (line : bytes) : outcome XyError (pt2 F64) :=
  let ws := skip_empty (split_on (fun c => Ascii.eqb c d) line) in
  obind (next_f64 ft XyVertex ws) (fun '(x, ws) =>
  obind (next_f64 ft XyVertex ws) (fun '(y, ws) => Ok (mk2 x y))).
(** src/io/xyz.rs:77-94. *)
Definition xyz_point (ft : FText) (d : ascii) (line : bytes) : outcome XyError (pt3 F64) :=
  let ws := skip_empty (split_on (fun c => Ascii.eqb c d) line) in
  obind (next_f64 ft XyVertex ws) (fun '(x, ws) =>
  obind (next_f64 ft XyVertex ws) (fun '(y, ws) =>
  obind (next_f64 ft XyVertex ws) (fun '(z, ws) => Ok (mk3 x y z)))).
(** Models next with fetch_one, src/io/xy.rs:71-119 and src/io/xyz.rs:71-124: [point] is the part
    after the delimiter is known, [minimum] is 1 for xy and 2 for xyz. *)
Definition xy_next {A} (minimum : nat) (point : ascii -> bytes -> outcome XyError A) (s : xy_state)
  : option (outcome (with_line XyError) A) * xy_state :=
  if xy_done s then (None, s)
  else match next_line (xy_read s) with
  | None => (None, mkxy (xy_read s) true (xy_line s) (xy_delim s))
  | Some (line, read) =>
      let i := (xy_line s + 1)%N in
      match xy_delimiter minimum (xy_delim s) line with
      | Ok d =>
          match point d line with
          | Ok p => (Some (Ok p), mkxy read false i (Some d))
          | r => (Some (at_line i line r), mkxy read true i (Some d))
          end
      | Err e => (Some (Err (WLine i line e)), mkxy read true i None)
      | Panic => (Some Panic, mkxy read true i None)
      end
  end.
(** Models XyIterator::next, src/io/xy.rs:100-118. *)
Definition xy_iter (ft : FText) : xy_state -> option (outcome (with_line XyError) (pt2 F64)) * xy_state := xy_next 1 (xy_point ft).
(** Models XyzIterator::next, src/io/xyz.rs:105-123. *)
Definition xyz_iter (ft : FText) : xy_state -> option (outcome (with_line XyError) (pt3 F64)) * xy_state := xy_next 2 (xyz_point ft).
(** Models load_xy, src/io/xy.rs:147-160, into an empty container. *)
Definition load_xy (ft : FText) (k : nat) (file : bytes) : option (list (pt2 F64) * outcome (with_line XyError) unit) :=
  load_loop (xy_iter ft) k (xy_new file) [].
(** Models load_xyz, src/io/xyz.rs:162-175, into an empty container. *)
Definition load_xyz (ft : FText) (k : nat) (file : bytes) : option (list (pt3 F64) * outcome (with_line XyError) unit) :=
  load_loop (xyz_iter ft) k (xy_new file) [].
(** Models save_xy, src/io/xy.rs:131-144. *)
Definition save_xy (ft : FText) (ps : list (pt2 F64)) (delim_coord delim_pos : bytes) : bytes :=
  flat_map (fun p => fprint ft (x2 p) ++ delim_coord ++ fprint ft (y2 p) ++ delim_pos) ps.
(** Models save_xyz, src/io/xyz.rs:136-159. *)
Definition save_xyz (ft : FText) (ps : list (pt3 F64)) (delim_coord delim_pos : bytes) : bytes :=
  flat_map (fun p => fprint ft (px p) ++ delim_coord ++ fprint ft (py p) ++ delim_coord ++ fprint ft (pz p) ++ delim_pos) ps.
