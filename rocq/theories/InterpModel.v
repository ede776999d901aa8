(** Interpolation of paths and construction of plane shapes.
    Models src/interpolate_2d.rs and src/factory_2d.rs. *)
From Verif Require Import Base Num VecModel MatrixModel CloudModel.

(** `a * b` on usize (language level, no line): a debug build panics on overflow, a release build wraps. *)
Definition umul (dbg : bool) (a b : N) : res N :=
  if (a * b <? 2 ^ 64)%N then Ok (a * b)%N else if dbg then Panic else Ok (w64 (a * b)).
(** `n - 1` on usize (language level, no line). *)
Definition upred (dbg : bool) (n : N) : res N :=
  if (n =? 0)%N then (if dbg then Panic else Ok (2 ^ 64 - 1)%N) else Ok (n - 1)%N.
(** The loop of factorial, src/interpolate_2d.rs:34-36, after [k] rounds. *)
Fixpoint factorial_from (dbg : bool) (k : nat) (i result : N) : res N :=
  match k with
  | O => Ok result
  | S k => obind (umul dbg result i) (factorial_from dbg k (i + 1)%N)
  end.
(** Models factorial, src/interpolate_2d.rs:31-38. *)
Definition factorial (dbg : bool) (number : N) : res N := factorial_from dbg (N.to_nat number) 1 1.
(** Models binominal_coefficient, src/interpolate_2d.rs:40-42; dividing by zero panics. *)
Definition binominal_coefficient (dbg : bool) (n k : N) : res N :=
  obind (factorial dbg n) (fun a => obind (factorial dbg k) (fun b => obind (factorial dbg (n - k)%N) (fun c =>
  obind (umul dbg b c) (fun d => if (d =? 0)%N then Panic else Ok (a / d)%N)))).

Section Interp.
Context {NM : Num}.
(** f64::powi with an exponent that is not negative (language level, no line; its rounding is not specified). *)
Context (powi : T NM -> N -> T NM).
(** f64::cos and f64::sin (language level, no line) and the constant PI, std. *)
Context (tr : Trig NM) (pi : T NM).
Local Open Scope num_scope.

(** Models bernstein_polynomial, src/interpolate_2d.rs:44-46; the casts to i32 keep exponents below 2^31. *)
Definition bernstein_polynomial (dbg : bool) (n i : N) (t : T NM) : res (T NM) :=
  obind (binominal_coefficient dbg n i) (fun b => Ok (of_usize b * powi t i * powi (n1 - t) (n - i)%N)).
(** The loop of control_polygon, src/interpolate_2d.rs:55-59. *)
Fixpoint control_loop (dbg : bool) (n : N) (t : T NM) (i : N) (ps : list (pt2 NM)) (x y : T NM) : res (pt2 NM) :=
  match ps with
  | [] => Ok (mk2 x y)
  | p :: r => obind (bernstein_polynomial dbg n i t) (fun bp => control_loop dbg n t (i + 1)%N r (x + bp * x2 p) (y + bp * y2 p))
  end.
(** Models control_polygon, src/interpolate_2d.rs:48-61; n_points + 1 is the number of points of the path at the only
    call (81), so the loop over 0..n_points + 1 visits all of them. *)
Definition control_polygon (dbg : bool) (path : list (pt2 NM)) (n_points : N) (t : T NM) : res (pt2 NM) :=
  control_loop dbg n_points t 0%N path n0 n0.
(** The loops `for i in 0..n_points` with at most one push in each round (src/interpolate_2d.rs:78-84, 103-126, 145-168,
    src/factory_2d.rs:61-67, 86-92, 107-113). *)
Fixpoint push_loop {A} (k : nat) (i : N) (body : N -> res (option A)) : res (list A) :=
  match k with
  | O => Ok []
  | S k => obind (body i) (fun o => obind (push_loop k (i + 1)%N body) (fun r =>
             Ok (match o with Some a => a :: r | None => r end)))
  end.
(** Models interpolate_bezier, src/interpolate_2d.rs:64-86 (the reservation of 75 is not modelled). *)
Definition interpolate_bezier (dbg : bool) (base : list (pt2 NM)) (n_points : N) : res (list (pt2 NM)) :=
  if (lenN base <? 2)%N then Err TooFewPoints
  else let p_dist := n1 / of_usize n_points in
       push_loop (N.to_nat n_points) 0 (fun i =>
         obind (control_polygon dbg base (lenN base - 1)%N (of_usize i * p_dist)) (fun p => Ok (Some p))).

(** The inner loop of interpolate_cosine (src/interpolate_2d.rs:107-125) and interpolation_linear (149-167): the segment
    and the proportion at which the distance [goal] is reached; [goal] is written both `p_dist * (i as f64)` (114, 157) and
    `(i as f64) * p_dist` (116, 159). *)
Fixpoint walk (p_dist k : T NM) (prev : pt2 NM) (ps : list (pt2 NM)) (traveled : T NM) : option (pt2 NM * pt2 NM * T NM) :=
  match ps with
  | [] => None
  | now :: r =>
      let traveled' := traveled + nsqrt (nsq (x2 now - x2 prev) + nsq (y2 now - y2 prev)) in
      if traveled' >= p_dist * k then Some (prev, now, (k * p_dist - traveled) / (traveled' - traveled))
      else walk p_dist k now r traveled'
  end.
(** Models the pushes, src/interpolate_2d.rs:160-163. *)
Definition linear_point (prev now : pt2 NM) (proportion : T NM) : pt2 NM :=
  mk2 (x2 prev + proportion * (x2 now - x2 prev)) (y2 prev + proportion * (y2 now - y2 prev)).
(** Models src/interpolate_2d.rs:117-121. *)
Definition cosine_point (prev now : pt2 NM) (proportion : T NM) : pt2 NM :=
  let proportion2 := (n1 - ncos tr (proportion * pi)) / n2 in
  mk2 (x2 prev + proportion * (x2 now - x2 prev)) (y2 prev * (n1 - proportion2) + y2 now * proportion2).
(** The common frame of interpolate_cosine (src/interpolate_2d.rs:96-127) and interpolation_linear (138-169). *)
Definition interpolate_along (point : pt2 NM -> pt2 NM -> T NM -> pt2 NM) (dbg : bool) (base : list (pt2 NM)) (n_points : N)
  : res (list (pt2 NM)) :=
  match base with
  | p0 :: _ :: _ =>
      obind (upred dbg n_points) (fun m =>
      let p_dist := pc2_length base / of_usize m in
      push_loop (N.to_nat n_points) 0 (fun i =>
        Ok (match walk p_dist (of_usize i) p0 (tl base) n0 with Some (a, b, q) => Some (point a b q) | None => None end)))
  | _ => Err TooFewPoints
  end.
(** Models interpolate_cosine, src/interpolate_2d.rs:89-128. *)
Definition interpolate_cosine := interpolate_along cosine_point.
(** Models interpolation_linear, src/interpolate_2d.rs:131-170. *)
Definition interpolation_linear := interpolate_along linear_point.

(** ** Shapes *)
(** Models rectangle, src/factory_2d.rs:32-44. *)
Definition rectangle (center : pt2 NM) (w h : T NM) : list (pt2 NM) :=
  [mk2 (x2 center - w / n2) (y2 center - h / n2); mk2 (x2 center + w / n2) (y2 center - h / n2);
   mk2 (x2 center + w / n2) (y2 center + h / n2); mk2 (x2 center - w / n2) (y2 center + h / n2)].
(** Models involut_circle, src/factory_2d.rs:47-69. *)
Definition involut_circle (dbg : bool) (center : pt2 NM) (n_points : N) (d start end_ : T NM) : res (list (pt2 NM)) :=
  obind (upred dbg n_points) (fun m =>
  let p_dist := nabs (end_ - start) / of_usize m in
  push_loop (N.to_nat n_points) 0 (fun i => let current := of_usize i * p_dist in
    Ok (Some (mk2 (x2 center + d / n2 * (ncos tr current + current * nsin tr current))
                  (y2 center + d / n2 * (nsin tr current - current * ncos tr current)))))).
(** Models arc, src/factory_2d.rs:72-94. *)
Definition arc (dbg : bool) (center : pt2 NM) (n_points : N) (d start end_ : T NM) : res (list (pt2 NM)) :=
  obind (upred dbg n_points) (fun m =>
  let p_dist := nabs (end_ - start) / of_usize m in
  push_loop (N.to_nat n_points) 0 (fun i => let radians := start + of_usize i * p_dist in
    Ok (Some (mk2 (x2 center + d / n2 * ncos tr radians) (y2 center + d / n2 * nsin tr radians))))).
(** Models ellipse, src/factory_2d.rs:97-115. *)
Definition ellipse (dbg : bool) (center : pt2 NM) (n_points : N) (a b : T NM) : res (list (pt2 NM)) :=
  obind (upred dbg n_points) (fun m =>
  let p_dist := pi / of_usize m in
  let angle := n0 in
  push_loop (N.to_nat n_points) 0 (fun i => let radians := of_usize i * p_dist in
    Ok (Some (mk2 (x2 center + a * ncos tr radians * ncos tr angle - b * nsin tr radians * nsin tr angle)
                  (y2 center + a * ncos tr radians * nsin tr angle + b * nsin tr radians * ncos tr angle))))).
End Interp.
