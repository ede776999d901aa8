(** Vocabulary for vertical rays against level triangles. *)
From Verif Require Import Base Num BBoxModel GeomSpec FloatSpec DistSpec LineModel CloudSpec.
From Coq Require Import Reals.
Local Open Scope R_scope.

(** The line in space a line of doubles stands for. *)
Definition real_line (l : line3 F64) : line3 RN := mkline3 (real3 (anchor l)) (real3 (dir l)).
(** Straight up or straight down. *)
Definition vertical (d : pt3 F64) : Prop := finite3 d /\ fval (px d) = 0 /\ fval (py d) = 0 /\ Rabs (fval (pz d)) = 1.
(** At the same height. *)
Definition level (a b c : pt3 F64) : Prop := fval (pz b) = fval (pz a) /\ fval (pz c) = fval (pz a).
(** The right answer for one face. *)
Definition right_answer (e : Z) (ray : line3 F64) (f : pt3 F64 * pt3 F64 * pt3 F64) (o : option (pt3 F64)) : Prop :=
  let '(a, b, c) := f in
  match o with
  | None => forall q, ~ crosses (real_line ray) (real3 a) (real3 b) (real3 c) q
  | Some p => finite3 p /\ exists q, crosses (real_line ray) (real3 a) (real3 b) (real3 c) q /\
      fval (px p) = px q /\ fval (py p) = py q /\ Rabs (fval (pz p) - pz q) <= powerRZ 2 (e - 28)
  end.
(** The hits among the answers. *)
Definition hits_of (os : list (option (pt3 F64))) : list (pt3 F64) := flat_map (fun o => match o with Some p => [p] | None => [] end) os.
