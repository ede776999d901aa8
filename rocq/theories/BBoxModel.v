(** Axis aligned bounding boxes.
    Models src/bounding_box_2d.rs and src/bounding_box_3d.rs. *)
From Verif Require Import Base Num.
Local Open Scope num_scope.

(** The counter of from_iterator is an i32 (integer literal default), see
    src/bounding_box_3d.rs:68,106.  With overflow checks (debug build) the
    increment panics at i32::MAX, without (release build) it wraps. *)
Definition i32_wrap (z : Z) : Z := ((z + 2 ^ 31) mod 2 ^ 32 - 2 ^ 31)%Z.
(** `count += 1`, src/bounding_box_3d.rs:85,106; [dbg] = overflow checks on. *)
Definition i32_inc (dbg : bool) (z : Z) : res Z :=
  if dbg && (z =? 2 ^ 31 - 1)%Z then Panic else Ok (i32_wrap (z + 1)%Z).

Section BB.
Context {NM : Num}.

(** ** 3D *)
(** Models BoundingBox3D, src/bounding_box_3d.rs:31-34. *)
Record bb3 : Type := mkbb3 { min3 : pt3 NM; max3 : pt3 NM }.

(** Models BoundingBox3D::new, src/bounding_box_3d.rs:38-61. *)
Definition bb3_new (mn mx : pt3 NM) : res bb3 :=
  if (px mn == px mx) || (py mn == py mx) || (pz mn == pz mx) then Err MinMaxEqual
  else if (px mn > px mx) || (py mn > py mx) || (pz mn > pz mx) then Err MinMaxSwapped
  else Ok (mkbb3 mn mx).

(** Models the loop of from_iterator, src/bounding_box_3d.rs:77-107 (and the
    identical one of from_into_iterator, 140-170).  The six scalars are kept
    as two points. *)
Fixpoint bb3_loop (dbg : bool) (ps : list (pt3 NM)) (count : Z) (mn mx : pt3 NM)
  : res (Z * (pt3 NM * pt3 NM)) :=
  match ps with
  | [] => Ok (count, (mn, mx))
  | p :: r =>
      if (count =? 0)%Z then
        obind (i32_inc dbg count) (fun c => bb3_loop dbg r c p p)
      else
        let minx := if px p < px mn then px p else px mn in
        let miny := if py p < py mn then py p else py mn in
        let minz := if pz p < pz mn then pz p else pz mn in
        let maxx := if px p > px mx then px p else px mx in
        let maxy := if py p > py mx then py p else py mx in
        let maxz := if pz p > pz mx then pz p else pz mx in
        obind (i32_inc dbg count)
          (fun c => bb3_loop dbg r c (mk3 minx miny minz) (mk3 maxx maxy maxz))
  end.

(** Models from_iterator / from_into_iterator, src/bounding_box_3d.rs:63-124,126-187. *)
Definition bb3_from_iterator (dbg : bool) (ps : list (pt3 NM)) : res bb3 :=
  obind (bb3_loop dbg ps 0%Z (mk3 n0 n0 n0) (mk3 n0 n0 n0))
    (fun r => let '(count, (mn, mx)) := r in
              if (2 <=? count)%Z then bb3_new mn mx else Err TooFewPoints).

(** Models size_x, size_y, size_z, src/bounding_box_3d.rs:197-207. *)
Definition bb3_size_x (b : bb3) : res (T NM) :=
  unwrap (positive_new (nabs (px (max3 b) - px (min3 b)))).
(** Models size_y, src/bounding_box_3d.rs:201-203. *)
Definition bb3_size_y (b : bb3) : res (T NM) :=
  unwrap (positive_new (nabs (py (max3 b) - py (min3 b)))).
(** Models size_z, src/bounding_box_3d.rs:205-207. *)
Definition bb3_size_z (b : bb3) : res (T NM) :=
  unwrap (positive_new (nabs (pz (max3 b) - pz (min3 b)))).
(** Models center_bb, src/bounding_box_3d.rs:213-219. *)
Definition bb3_center (b : bb3) : pt3 NM :=
  mk3 (px (min3 b) + (px (max3 b) - px (min3 b)) / n2)
      (py (min3 b) + (py (max3 b) - py (min3 b)) / n2)
      (pz (min3 b) + (pz (max3 b) - pz (min3 b)) / n2).
(** Models is_inside, src/bounding_box_3d.rs:221-228. *)
Definition bb3_is_inside (a b : bb3) : bool :=
  (px (min3 a) > px (min3 b)) && (py (min3 a) > py (min3 b)) && (pz (min3 a) > pz (min3 b)) &&
  (px (max3 a) < px (max3 b)) && (py (max3 a) < py (max3 b)) && (pz (max3 a) < pz (max3 b)).
(** Models contains, src/bounding_box_3d.rs:230-241. *)
Definition bb3_contains (b : bb3) (p : pt3 NM) : bool :=
  (px p > px (min3 b)) && (px p < px (max3 b)) &&
  (py p > py (min3 b)) && (py p < py (max3 b)) &&
  (pz p > pz (min3 b)) && (pz p < pz (max3 b)).
(** Models has_inside, src/bounding_box_3d.rs:243-250. *)
Definition bb3_has_inside (a b : bb3) : bool :=
  (px (min3 a) < px (min3 b)) && (py (min3 a) < py (min3 b)) && (pz (min3 a) < pz (min3 b)) &&
  (px (max3 a) > px (max3 b)) && (py (max3 a) > py (max3 b)) && (pz (max3 a) > pz (max3 b)).
(** One axis of collides_with, src/bounding_box_3d.rs:253: the doubled distance
    of the centers against the sum of the sizes (whose unwraps may panic). *)
Definition collide_axis (c1 c2 : T NM) (s1 s2 : res (T NM)) : res bool :=
  obind s1 (fun s1 => obind s2 (fun s2 => Ok (n2 * nabs (c1 - c2) < s1 + s2))).
(** `a && b` where evaluating b may panic (language level). *)
Definition res_and (a b : res bool) : res bool :=
  obind a (fun x => if x then b else Ok false).
(** Models collides_with, src/bounding_box_3d.rs:252-258. *)
Definition bb3_collides_with (a b : bb3) : res bool :=
  res_and (collide_axis (px (bb3_center a)) (px (bb3_center b)) (bb3_size_x a) (bb3_size_x b))
  (res_and (collide_axis (py (bb3_center a)) (py (bb3_center b)) (bb3_size_y a) (bb3_size_y b))
           (collide_axis (pz (bb3_center a)) (pz (bb3_center b)) (bb3_size_z a) (bb3_size_z b))).
(** Models crossing_x_value, crossing_y_value, crossing_z_value,
    src/bounding_box_3d.rs:260-270. *)
Definition bb3_crossing_x (b : bb3) (v : T NM) : bool := (px (min3 b) < v) && (px (max3 b) > v).
(** Models crossing_y_value, src/bounding_box_3d.rs:264-266. *)
Definition bb3_crossing_y (b : bb3) (v : T NM) : bool := (py (min3 b) < v) && (py (max3 b) > v).
(** Models crossing_z_value, src/bounding_box_3d.rs:268-270. *)
Definition bb3_crossing_z (b : bb3) (v : T NM) : bool := (pz (min3 b) < v) && (pz (max3 b) > v).
(** Models corners, src/bounding_box_3d.rs:272-283 (same order as
    IsSATObject::for_each_point, 485-500). *)
Definition bb3_corners (b : bb3) : list (pt3 NM) :=
  let mn := min3 b in let mx := max3 b in
  [ mk3 (px mn) (py mn) (pz mn); mk3 (px mn) (py mn) (pz mx);
    mk3 (px mn) (py mx) (pz mn); mk3 (px mn) (py mx) (pz mx);
    mk3 (px mx) (py mn) (pz mn); mk3 (px mx) (py mn) (pz mx);
    mk3 (px mx) (py mx) (pz mn); mk3 (px mx) (py mx) (pz mx) ].
(** Models sqr_distance to a point, src/bounding_box_3d.rs:293-313. *)
Definition bb3_sqr_distance (b : bb3) (p : pt3 NM) : res (T NM) :=
  let dx := max_f64_3 (px (min3 b) - px p) n0 (px p - px (max3 b)) in
  let dy := max_f64_3 (py (min3 b) - py p) n0 (py p - py (max3 b)) in
  let dz := max_f64_3 (pz (min3 b) - pz p) n0 (pz p - pz (max3 b)) in
  unwrap (nonneg_new (dx * dx + dy * dy + dz * dz)).
(** Models distance to a point, src/bounding_box_3d.rs:285-291. *)
Definition bb3_distance (b : bb3) (p : pt3 NM) : res (T NM) :=
  obind (bb3_sqr_distance b p) (fun d => unwrap (nonneg_new (nsqrt d))).
(** Models Default, src/bounding_box_3d.rs:318-333. *)
Definition bb3_default : bb3 :=
  mkbb3 (mk3 (- nhalf) (- nhalf) (- nhalf)) (mk3 nhalf nhalf nhalf).
(** Models Point3D::move_by, src/point_3d.rs:228-232. *)
Definition pt3_move_by (p : pt3 NM) (x y z : T NM) : pt3 NM :=
  mk3 (px p + x) (py p + y) (pz p + z).
(** Models BoundingBox3D::move_by, src/bounding_box_3d.rs:363-366. *)
Definition bb3_move_by (b : bb3) (x y z : T NM) : bb3 :=
  mkbb3 (pt3_move_by (min3 b) x y z) (pt3_move_by (max3 b) x y z).
(** Models HasBoundingBox3D::bounding_box, src/bounding_box_3d.rs:369-373:
    `new(..).unwrap()`. *)
Definition bb3_bounding_box (b : bb3) : res bb3 :=
  match bb3_new (min3 b) (max3 b) with Ok r => Ok r | _ => Panic end.
(** One axis of the box to box distance, src/bounding_box_3d.rs:387-391. *)
Definition gap_axis (smin smax omin omax : T NM) : T NM :=
  if omax < smin then omax - smin else if omin > smax then omin - smax else n0.
(** Models HasDistanceTo::sqr_distance, src/bounding_box_3d.rs:381-407. *)
Definition bb3_sqr_distance_bb (a b : bb3) : res (T NM) :=
  let dx := gap_axis (px (min3 a)) (px (max3 a)) (px (min3 b)) (px (max3 b)) in
  let dy := gap_axis (py (min3 a)) (py (max3 a)) (py (min3 b)) (py (max3 b)) in
  let dz := gap_axis (pz (min3 a)) (pz (max3 a)) (pz (min3 b)) (pz (max3 b)) in
  unwrap (nonneg_new (dx * dx + dy * dy + dz * dz)).
(** Models IsScalable::scale, src/bounding_box_3d.rs:409-422. *)
Definition bb3_scale (b : bb3) (factor : T NM) : res bb3 :=
  let c := bb3_center b in
  obind (bb3_size_x b) (fun sx => obind (bb3_size_y b) (fun sy => obind (bb3_size_z b) (fun sz =>
  Ok (mkbb3 (mk3 (px c - nhalf * factor * sx) (py c - nhalf * factor * sy) (pz c - nhalf * factor * sz))
            (mk3 (px c + nhalf * factor * sx) (py c + nhalf * factor * sy) (pz c + nhalf * factor * sz)))))).
(** Models IsMergeable::consume, src/bounding_box_3d.rs:425-451. *)
Definition bb3_consume (a b : bb3) : bb3 :=
  mkbb3 (mk3 (if px (min3 b) < px (min3 a) then px (min3 b) else px (min3 a))
             (if py (min3 b) < py (min3 a) then py (min3 b) else py (min3 a))
             (if pz (min3 b) < pz (min3 a) then pz (min3 b) else pz (min3 a)))
        (mk3 (if px (max3 b) > px (max3 a) then px (max3 b) else px (max3 a))
             (if py (max3 b) > py (max3 a) then py (max3 b) else py (max3 a))
             (if pz (max3 b) > pz (max3 a) then pz (max3 b) else pz (max3 a))).
(** Models IsMergeable::combine, src/bounding_box_3d.rs:453-481. *)
Definition bb3_combine (a b : bb3) : bb3 :=
  mkbb3 (mk3 (if px (min3 b) < px (min3 a) then px (min3 b) else px (min3 a))
             (if py (min3 b) < py (min3 a) then py (min3 b) else py (min3 a))
             (if pz (min3 b) < pz (min3 a) then pz (min3 b) else pz (min3 a)))
        (mk3 (if px (max3 b) > px (max3 a) then px (max3 b) else px (max3 a))
             (if py (max3 b) > py (max3 a) then py (max3 b) else py (max3 a))
             (if pz (max3 b) > pz (max3 a) then pz (max3 b) else pz (max3 a))).

(** ** 2D *)
(** Models BoundingBox2D, src/bounding_box_2d.rs:31-34. *)
Record bb2 : Type := mkbb2 { min2 : pt2 NM; max2 : pt2 NM }.
(** Models BoundingBox2D::new, src/bounding_box_2d.rs:38-59. *)
Definition bb2_new (mn mx : pt2 NM) : res bb2 :=
  if (x2 mn == x2 mx) || (y2 mn == y2 mx) then Err MinMaxEqual
  else if (x2 mn > x2 mx) || (y2 mn > y2 mx) then Err MinMaxSwapped
  else Ok (mkbb2 mn mx).
(** Models the loop of from_iterator, src/bounding_box_2d.rs:73-95 (and 115-137). *)
Fixpoint bb2_loop (dbg : bool) (ps : list (pt2 NM)) (count : Z) (mn mx : pt2 NM)
  : res (Z * (pt2 NM * pt2 NM)) :=
  match ps with
  | [] => Ok (count, (mn, mx))
  | p :: r =>
      if (count =? 0)%Z then
        obind (i32_inc dbg count) (fun c => bb2_loop dbg r c p p)
      else
        let minx := if x2 p < x2 mn then x2 p else x2 mn in
        let miny := if y2 p < y2 mn then y2 p else y2 mn in
        let maxx := if x2 p > x2 mx then x2 p else x2 mx in
        let maxy := if y2 p > y2 mx then y2 p else y2 mx in
        obind (i32_inc dbg count)
          (fun c => bb2_loop dbg r c (mk2 minx miny) (mk2 maxx maxy))
  end.
(** Models from_iterator / from_into_iterator, src/bounding_box_2d.rs:61-101,103-143. *)
Definition bb2_from_iterator (dbg : bool) (ps : list (pt2 NM)) : res bb2 :=
  obind (bb2_loop dbg ps 0%Z (mk2 n0 n0) (mk2 n0 n0))
    (fun r => let '(count, (mn, mx)) := r in
              if (2 <=? count)%Z then bb2_new mn mx else Err TooFewPoints).
(** Models size_x, size_y, src/bounding_box_2d.rs:153-159. *)
Definition bb2_size_x (b : bb2) : res (T NM) :=
  unwrap (positive_new (nabs (x2 (max2 b) - x2 (min2 b)))).
(** Models size_y, src/bounding_box_2d.rs:157-159. *)
Definition bb2_size_y (b : bb2) : res (T NM) :=
  unwrap (positive_new (nabs (y2 (max2 b) - y2 (min2 b)))).
(** Models center_bb, src/bounding_box_2d.rs:165-170. *)
Definition bb2_center (b : bb2) : pt2 NM :=
  mk2 (x2 (min2 b) + (x2 (max2 b) - x2 (min2 b)) / n2)
      (y2 (min2 b) + (y2 (max2 b) - y2 (min2 b)) / n2).
(** Models is_inside, src/bounding_box_2d.rs:172-177. *)
Definition bb2_is_inside (a b : bb2) : bool :=
  (x2 (min2 a) > x2 (min2 b)) && (y2 (min2 a) > y2 (min2 b)) &&
  (x2 (max2 a) < x2 (max2 b)) && (y2 (max2 a) < y2 (max2 b)).
(** Models contains, src/bounding_box_2d.rs:179-188. *)
Definition bb2_contains (b : bb2) (p : pt2 NM) : bool :=
  (x2 p > x2 (min2 b)) && (x2 p < x2 (max2 b)) &&
  (y2 p > y2 (min2 b)) && (y2 p < y2 (max2 b)).
(** Models has_inside, src/bounding_box_2d.rs:190-195. *)
Definition bb2_has_inside (a b : bb2) : bool :=
  (x2 (min2 a) < x2 (min2 b)) && (y2 (min2 a) < y2 (min2 b)) &&
  (x2 (max2 a) > x2 (max2 b)) && (y2 (max2 a) > y2 (max2 b)).
(** Models collides_with, src/bounding_box_2d.rs:197-201. *)
Definition bb2_collides_with (a b : bb2) : res bool :=
  res_and (collide_axis (x2 (bb2_center a)) (x2 (bb2_center b)) (bb2_size_x a) (bb2_size_x b))
          (collide_axis (y2 (bb2_center a)) (y2 (bb2_center b)) (bb2_size_y a) (bb2_size_y b)).
(** Models crossing_x_value, crossing_y_value, src/bounding_box_2d.rs:203-209. *)
Definition bb2_crossing_x (b : bb2) (v : T NM) : bool := (x2 (min2 b) < v) && (x2 (max2 b) > v).
(** Models crossing_y_value, src/bounding_box_2d.rs:207-209. *)
Definition bb2_crossing_y (b : bb2) (v : T NM) : bool := (y2 (min2 b) < v) && (y2 (max2 b) > v).
(** Models corners, src/bounding_box_2d.rs:211-218. *)
Definition bb2_corners (b : bb2) : list (pt2 NM) :=
  let mn := min2 b in let mx := max2 b in
  [ mk2 (x2 mn) (y2 mn); mk2 (x2 mn) (y2 mx); mk2 (x2 mx) (y2 mn); mk2 (x2 mx) (y2 mx) ].
(** Models sqr_distance to a point, src/bounding_box_2d.rs:228-243. *)
Definition bb2_sqr_distance (b : bb2) (p : pt2 NM) : res (T NM) :=
  let dx := max_f64_3 (x2 (min2 b) - x2 p) n0 (x2 p - x2 (max2 b)) in
  let dy := max_f64_3 (y2 (min2 b) - y2 p) n0 (y2 p - y2 (max2 b)) in
  unwrap (nonneg_new (dx * dx + dy * dy)).
(** Models distance to a point, src/bounding_box_2d.rs:220-226. *)
Definition bb2_distance (b : bb2) (p : pt2 NM) : res (T NM) :=
  obind (bb2_sqr_distance b p) (fun d => unwrap (nonneg_new (nsqrt d))).
(** Models Default, src/bounding_box_2d.rs:248-255. *)
Definition bb2_default : bb2 := mkbb2 (mk2 (- nhalf) (- nhalf)) (mk2 nhalf nhalf).
(** Models Point2D::move_by, src/point_2d.rs:213-216. *)
Definition pt2_move_by (p : pt2 NM) (x y : T NM) : pt2 NM := mk2 (x2 p + x) (y2 p + y).
(** Models BoundingBox2D::move_by, src/bounding_box_2d.rs:280-283. *)
Definition bb2_move_by (b : bb2) (x y : T NM) : bb2 :=
  mkbb2 (pt2_move_by (min2 b) x y) (pt2_move_by (max2 b) x y).
(** Models HasBoundingBox2D::bounding_box, src/bounding_box_2d.rs:286-290. *)
Definition bb2_bounding_box (b : bb2) : res bb2 :=
  match bb2_new (min2 b) (max2 b) with Ok r => Ok r | _ => Panic end.
(** Models HasDistanceTo::sqr_distance, src/bounding_box_2d.rs:298-317. *)
Definition bb2_sqr_distance_bb (a b : bb2) : res (T NM) :=
  let dx := gap_axis (x2 (min2 a)) (x2 (max2 a)) (x2 (min2 b)) (x2 (max2 b)) in
  let dy := gap_axis (y2 (min2 a)) (y2 (max2 a)) (y2 (min2 b)) (y2 (max2 b)) in
  unwrap (nonneg_new (dx * dx + dy * dy)).
(** Models IsScalable::scale, src/bounding_box_2d.rs:319-330. *)
Definition bb2_scale (b : bb2) (factor : T NM) : res bb2 :=
  let c := bb2_center b in
  obind (bb2_size_x b) (fun sx => obind (bb2_size_y b) (fun sy =>
  Ok (mkbb2 (mk2 (x2 c - nhalf * factor * sx) (y2 c - nhalf * factor * sy))
            (mk2 (x2 c + nhalf * factor * sx) (y2 c + nhalf * factor * sy))))).
(** Models IsMergeable::consume, src/bounding_box_2d.rs:333-353. *)
Definition bb2_consume (a b : bb2) : bb2 :=
  mkbb2 (mk2 (if x2 (min2 b) < x2 (min2 a) then x2 (min2 b) else x2 (min2 a))
             (if y2 (min2 b) < y2 (min2 a) then y2 (min2 b) else y2 (min2 a)))
        (mk2 (if x2 (max2 b) > x2 (max2 a) then x2 (max2 b) else x2 (max2 a))
             (if y2 (max2 b) > y2 (max2 a) then y2 (max2 b) else y2 (max2 a))).
(** Models IsMergeable::combine, src/bounding_box_2d.rs:355-377. *)
Definition bb2_combine (a b : bb2) : bb2 :=
  mkbb2 (mk2 (if x2 (min2 b) < x2 (min2 a) then x2 (min2 b) else x2 (min2 a))
             (if y2 (min2 b) < y2 (min2 a) then y2 (min2 b) else y2 (min2 a)))
        (mk2 (if x2 (max2 b) > x2 (max2 a) then x2 (max2 b) else x2 (max2 a))
             (if y2 (max2 b) > y2 (max2 a) then y2 (max2 b) else y2 (max2 a))).
End BB.
Arguments bb3 : clear implicits.
Arguments bb2 : clear implicits.
