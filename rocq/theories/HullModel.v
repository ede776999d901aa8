(** Convex hull, Douglas-Peucker and compressed clouds.
    Models src/convex_hull_2d.rs, src/douglas_peucker_2d.rs, src/compressed_point_cloud_3d.rs and
    src/compressed_point_3d.rs. *)
From Verif Require Import Base Num SortSpec BBoxModel CloudModel.
Local Open Scope num_scope.

Section Hull.
Context {NM : Num}.
(** ** Convex hull *)
(** Models ccw, src/convex_hull_2d.rs:79-86. *)
Definition ccw (a b c : pt2 NM) : T NM :=
  (x2 b - x2 a) * (y2 c - y2 a) - (y2 b - y2 a) * (x2 c - x2 a).
(** Models the inner while loops, src/convex_hull_2d.rs:46-50,56-60.  The vector is kept in
    reverse: the head of the list is its last element. *)
Fixpoint pop_right_turns (p : pt2 NM) (st : list (pt2 NM)) : list (pt2 NM) :=
  match st with
  | b :: ((a :: _) as r) => if ccw a b p <= n0 then pop_right_turns p r else st
  | _ => st
  end.
(** Models the outer for loops, src/convex_hull_2d.rs:44-52 (54-62 over the reversed points); the
    result is the vector from its first element on. *)
Definition half_hull (ps : list (pt2 NM)) : list (pt2 NM) :=
  rev (fold_left (fun st p => p :: pop_right_turns p st) ps []).
(** Models convex_hull_2d, src/convex_hull_2d.rs:32-75: append_ra and sort_x give the sorted copy,
    both vectors lose their last element (64-69). *)
Definition convex_hull (sort : sorter) (ps : list (pt2 NM)) : list (pt2 NM) :=
  let sorted := sort _ cmp2_x ps in
  removelast (half_hull sorted) ++ removelast (half_hull (rev sorted)).

(** ** Douglas-Peucker *)
(** Models distance_point_line, src/douglas_peucker_2d.rs:76-103. *)
Definition distance_point_line (p l1 l2 : pt2 NM) : T NM :=
  let a1 := x2 l1 in let a2 := y2 l1 in
  let b1 := x2 l2 in let b2 := y2 l2 in
  let c1 := x2 p in let c2 := y2 p in
  let x := (a1 * a1 * c1 - a1 * a2 * b2 + a1 * a2 * c2 - n2 * a1 * b1 * c1 + a1 * b2 * b2
            - a1 * b2 * c2 + a2 * a2 * b1 - a2 * b1 * b2 - a2 * b1 * c2 + b1 * b1 * c1 + b1 * b2 * c2)
           / (a1 * a1 - n2 * a1 * b1 + a2 * a2 - n2 * a2 * b2 + b1 * b1 + b2 * b2) in
  let y := ((a2 - b2) * x + a1 * b2 - a2 * b1) / (a1 - b1) in
  nsqrt (nsq (x - c1) + nsq (y - c2)).
(** The body of the loop, src/douglas_peucker_2d.rs:42-48; the state is (dmax, index). *)
Definition dp_step (first last : pt2 NM) (s : T NM * nat) (ip : nat * pt2 NM) : T NM * nat :=
  let d := distance_point_line (snd ip) first last in
  if d > fst s then (d, fst ip) else s.
(** Models the loop, src/douglas_peucker_2d.rs:38-48, over the points between the first and the
    last; [p] is the first point, [r] the others. *)
Definition dp_farthest (p : pt2 NM) (r : list (pt2 NM)) : T NM * nat :=
  fold_left (dp_step p (last r p)) (combine (seq 1 (length r - 1)) (removelast r)) (n0, O).
(** Models douglas_peucker_2d, src/douglas_peucker_2d.rs:30-72.  The recursion is bounded by the
    fuel [k]; None when it is not deep enough (the call then has not returned yet).  `pc1.data.len()
    - 1` (60) underflows when the first part is empty. *)
Fixpoint douglas_peucker (k : nat) (ps : list (pt2 NM)) (eps : T NM) : option (res (list (pt2 NM))) :=
  match k with
  | O => None
  | S k =>
      match ps with
      | [] => Some (Ok [])
      | p :: r =>
          let (dmax, index) := dp_farthest p r in
          if dmax > eps then
            match douglas_peucker k (firstn index ps) eps with
            | Some (Ok pc1) =>
                match douglas_peucker k (skipn index ps) eps with
                | Some (Ok pc2) => match pc1 with [] => Some Panic | _ => Some (Ok (removelast pc1 ++ pc2)) end
                | o => o
                end
            | o => o
            end
          else Some (Ok [p; last r p])
      end
  end.

(** ** Compressed clouds *)
(** Conversion of a float to an unsigned integer of some width by num::NumCast (`T::from`,
    src/compressed_point_cloud_3d.rs:75-77): the truncated value if it fits.  A library function;
    its documented behaviour on doubles and on reals is in HullSpec.v. *)
Record Cast : Type := mkcast { to_uint : N -> T NM -> option N }.
(** Models CompressedPoint3D, src/compressed_point_3d.rs:31-38. *)
Record cpoint : Type := mkcp { unitsx : N; unitsy : N; unitsz : N }.
(** Models CompressedPointCloud3D, src/compressed_point_cloud_3d.rs:33-42. *)
Record ccloud : Type := mkcc { cc_start : pt3 NM; unitsizex : T NM; unitsizey : T NM; unitsizez : T NM; cc_data : list cpoint }.
(** `T::max_value().to_f64()`, src/compressed_point_cloud_3d.rs:61-63, for integers of [bits] bits. *)
Definition max_uint (bits : N) : T NM := lit (2 ^ Z.of_N bits - 1) 0.
(** `ok_or(NumberConversionError)?`, src/compressed_point_cloud_3d.rs:75-77. *)
Definition conv (c : Cast) (bits : N) (v : T NM) : res N :=
  match to_uint c bits v with Some n => Ok n | None => Err NumberConversionError end.
(** The loop, src/compressed_point_cloud_3d.rs:70-84. *)
Fixpoint compress_points (c : Cast) (bits : N) (mn : pt3 NM) (ux uy uz : T NM) (ps : list (pt3 NM)) : res (list cpoint) :=
  match ps with
  | [] => Ok []
  | p :: r =>
      obind (conv c bits ((px p - px mn) / ux)) (fun x =>
      obind (conv c bits ((py p - py mn) / uy)) (fun y =>
      obind (conv c bits ((pz p - pz mn) / uz)) (fun z =>
      obind (compress_points c bits mn ux uy uz r) (fun l => Ok (mkcp x y z :: l)))))
  end.
(** Models compress, src/compressed_point_cloud_3d.rs:49-92. *)
Definition compress (c : Cast) (dbg : bool) (bits : N) (ps : list (pt3 NM)) : res ccloud :=
  match bb3_from_iterator dbg ps with
  | Ok b =>
      let mn := min3 b in let mx := max3 b in
      let ux := nabs (px mx - px mn) / max_uint bits in
      let uy := nabs (py mx - py mn) / max_uint bits in
      let uz := nabs (pz mx - pz mn) / max_uint bits in
      obind (compress_points c bits mn ux uy uz ps) (fun data => Ok (mkcc mn ux uy uz data))
  | Err _ => Err BoundingBoxMissing
  | Panic => Panic
  end.
(** Models decompress, src/compressed_point_cloud_3d.rs:95-113 (`to_f64` of the unsigned types is
    always Some). *)
Definition decompress (cc : ccloud) : list (pt3 NM) :=
  map (fun u => mk3 (px (cc_start cc) + unitsizex cc * of_usize (unitsx u))
                    (py (cc_start cc) + unitsizey cc * of_usize (unitsy u))
                    (pz (cc_start cc) + unitsizez cc * of_usize (unitsz u))) (cc_data cc).
End Hull.
Arguments Cast : clear implicits.
Arguments ccloud : clear implicits.
