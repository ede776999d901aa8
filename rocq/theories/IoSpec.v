(** Vocabulary for text files and assumptions about the printing and parsing of numbers. *)
From Verif Require Import Base Num GeomSpec FloatSpec IoModel.

(** A file made of lines that are all terminated. *)
Definition unlines (ls : list bytes) : bytes := flat_map (fun l => l ++ [nl]) ls.
(** A line: no newline in it. *)
Definition is_line (l : bytes) : Prop := ~ In nl l.
(** [t] is [l] without its trailing whitespace. *)
Definition stripped (l t : bytes) : Prop := exists ws, l = t ++ ws /\ Forall (fun c => is_whitespace c = true) ws /\
  match t with [] => True | _ => is_whitespace (last t nl) = false end.

(** The characters f64 values are printed with: digits, signs, the point, exponents, inf and NaN. *)
Definition number_char (c : ascii) : Prop := In c (str "0123456789+-.eEinfNa").
(** What is assumed of the standard library: printing gives a nonempty text of such characters, and
    parsing it gives back every finite double but minus zero (which older versions print as 0). *)
Definition printable (x : T F64) : Prop := is_double x /\ finite x /\ x <> minus_zero.
Record ft_ok (ft : FText) : Prop := {
  print_chars : forall x, Forall number_char (fprint ft x) /\ fprint ft x <> [];
  print_e_chars : forall x, Forall number_char (fprint_e ft x) /\ fprint_e ft x <> [];
  parse_print : forall x, printable x -> fparse ft (fprint ft x) = Some x;
  parse_print_e : forall x, printable x -> fparse ft (fprint_e ft x) = Some x
}.
Definition printable2 (p : pt2 F64) : Prop := printable (x2 p) /\ printable (y2 p).
Definition printable3 (p : pt3 F64) : Prop := printable (px p) /\ printable (py p) /\ printable (pz p).
(** The delimiters the loaders look for. *)
Definition delimiter (d : ascii) : Prop := d = space \/ d = ";"%char \/ d = ","%char \/ d = tab.

(** ** A printer and parser with these properties *)
(** Integers are written in decimal, other doubles as mantissa and exponent. *)
Definition print_Z (z : Z) : bytes := match z with Zneg p => "-"%char :: print_usize (Npos p) | _ => print_usize (Z.to_N z) end.
Definition parse_N (s : bytes) : option N := match s with [] => None | _ => parse_digits (10 ^ (1 + lenN s)) 0 s end.
Definition parse_Z (s : bytes) : option Z :=
  match s with
  | c :: r => if Ascii.eqb c "-"%char then option_map (fun n => - Z.of_N n)%Z (parse_N r) else option_map Z.of_N (parse_N s)
  | [] => None
  end.
Definition sf_eqb (a b : SpecFloat.spec_float) : bool :=
  match a, b with
  | SpecFloat.S754_zero s, SpecFloat.S754_zero t => Bool.eqb s t
  | SpecFloat.S754_infinity s, SpecFloat.S754_infinity t => Bool.eqb s t
  | SpecFloat.S754_nan, SpecFloat.S754_nan => true
  | SpecFloat.S754_finite s m e, SpecFloat.S754_finite t n f => Bool.eqb s t && Pos.eqb m n && Z.eqb e f
  | _, _ => false
  end.
Definition integer_of (x : T F64) : option Z :=
  match (x : SpecFloat.spec_float) with
  | SpecFloat.S754_zero _ => Some 0%Z
  | SpecFloat.S754_finite s m e =>
      let z := (if s then Z.opp else fun z => z) (if (0 <=? e)%Z then Zpos m * 2 ^ e else Zpos m / 2 ^ (- e))%Z in
      if sf_eqb (fz z) x then Some z else None
  | _ => None
  end.
Definition demo_print (x : T F64) : bytes :=
  match integer_of x with
  | Some z => print_Z z
  | None => match (x : SpecFloat.spec_float) with
            | SpecFloat.S754_finite s m e => print_Z (if s then Zneg m else Zpos m) ++ "e"%char :: print_Z e
            | _ => str "NaN"
            end
  end.
Definition demo_parse (s : bytes) : option (T F64) :=
  match split_on (fun c => Ascii.eqb c "e"%char) s with
  | [a] => option_map fz (parse_Z a)
  | [a; b] => match parse_Z a, parse_Z b with
              | Some (Zpos m), Some e => Some (SpecFloat.S754_finite false m e)
              | Some (Zneg m), Some e => Some (SpecFloat.S754_finite true m e)
              | _, _ => None
              end
  | _ => None
  end.
Definition demo : FText := mkft demo_print demo_print demo_parse.
