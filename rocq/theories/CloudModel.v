(** Point clouds, polygons, line segments, orderings, insertion and rays.
    Models src/point_cloud_2d.rs, src/point_cloud_3d.rs, src/polygon_2d.rs, src/polygon_3d.rs,
    src/line_segment_3d.rs, the insert of src/impls and the ray functions of src/functions.rs. *)
From Verif Require Import Base Num SortSpec BBoxModel VecModel OcModel LineModel.
Local Open Scope num_scope.

Section Cloud.
Context {NM : Num}.

(** ** Length and center *)
(** The loop length += dist(data[i], data[i - 1]), src/point_cloud_2d.rs:250-252 and
    src/point_cloud_3d.rs:253-255: [prev] is data[i - 1]. *)
Fixpoint length_from {P} (dist : P -> P -> T NM) (prev : P) (ps : list P) (acc : T NM) : T NM :=
  match ps with
  | [] => acc
  | p :: r => length_from dist p r (acc + dist p prev)
  end.
(** Models PointCloud2D::length, src/point_cloud_2d.rs:244-254. *)
Definition pc2_length (ps : list (pt2 NM)) : T NM := match ps with [] => n0 | p :: r => length_from dist_2d p r n0 end.
(** Models PointCloud3D::length, src/point_cloud_3d.rs:247-257. *)
Definition pc3_length (ps : list (pt3 NM)) : T NM := match ps with [] => n0 | p :: r => length_from dist_3d p r n0 end.
(** Models PointCloud2D::center_of_gravity, src/point_cloud_2d.rs:216-238 (3D: OcModel.pc3_cog). *)
Definition pc2_cog (ps : list (pt2 NM)) : option (pt2 NM) :=
  match ps with
  | [] => None
  | _ => let s := fold_left (fun s p => mk2 (x2 s + x2 p) (y2 s + y2 p)) ps (mk2 n0 n0) in
         let n := of_usize (lenN ps) in Some (mk2 (x2 s / n) (y2 s / n))
  end.
(** Models Polygon2D::length, src/polygon_2d.rs:118-126: the closing segment is added. *)
Definition poly2_length (ps : list (pt2 NM)) : T NM :=
  let l := pc2_length ps in
  match ps with [] => l | p :: _ => l + dist_2d (last ps p) p end.
(** Models Polygon3D::length, src/polygon_3d.rs:118-126. *)
Definition poly3_length (ps : list (pt3 NM)) : T NM :=
  let l := pc3_length ps in
  match ps with [] => l | p :: _ => l + dist_3d (last ps p) p end.

(** ** Scaling *)
(** Models IsEditable3D::increase_distance_to_by, src/is_editable_3d.rs:64-73. *)
Definition increase_distance3 (c : pt3 NM) (f : T NM) (p : pt3 NM) : pt3 NM :=
  mk3 (px c + f * (px p - px c)) (py c + f * (py p - py c)) (pz c + f * (pz p - pz c)).
(** Models IsEditable2D::increase_distance_to_by, src/is_editable_2d.rs:44-52. *)
Definition increase_distance2 (c : pt2 NM) (f : T NM) (p : pt2 NM) : pt2 NM :=
  mk2 (x2 c + f * (x2 p - x2 c)) (y2 c + f * (y2 p - y2 c)).
(** Models PointCloud3D::scale, src/point_cloud_3d.rs:341-348, and LineSegment3D::scale,
    src/line_segment_3d.rs:71-76 (the cloud of its two ends): nothing happens without a box. *)
Definition pc3_scale (dbg : bool) (ps : list (pt3 NM)) (f : T NM) : res (list (pt3 NM)) :=
  match bb3_from_iterator dbg ps with
  | Ok b => Ok (map (increase_distance3 (bb3_center b) f) ps)
  | Err _ => Ok ps
  | Panic => Panic
  end.
(** Models PointCloud2D::scale, src/point_cloud_2d.rs:331-338, and LineSegment2D::scale,
    src/line_segment_2d.rs:71-76. *)
Definition pc2_scale (dbg : bool) (ps : list (pt2 NM)) (f : T NM) : res (list (pt2 NM)) :=
  match bb2_from_iterator dbg ps with
  | Ok b => Ok (map (increase_distance2 (bb2_center b) f) ps)
  | Err _ => Ok ps
  | Panic => Panic
  end.

(** ** Sorting *)
(** `or_else`, src/functions.rs:116,129,142-143: the second comparison counts only if the first
    fails (NaN), not if it is Equal. *)
Definition or_else_cmp (c d : option comparison) : option comparison := match c with Some _ => c | None => d end.
(** `unwrap_or(Ordering::Equal)`, src/functions.rs:117,130,144,158,172. *)
Definition cmp_or_eq (c : option comparison) : comparison := match c with Some c => c | None => Eq end.
(** Models the comparison of sort_vec_2d_x, src/functions.rs:113-118. *)
Definition cmp2_x (a b : pt2 NM) : comparison := cmp_or_eq (or_else_cmp (ncmp (x2 a) (x2 b)) (ncmp (y2 a) (y2 b))).
(** Models the comparison of sort_vec_2d_y, src/functions.rs:126-131. *)
Definition cmp2_y (a b : pt2 NM) : comparison := cmp_or_eq (or_else_cmp (ncmp (y2 a) (y2 b)) (ncmp (x2 a) (x2 b))).
(** The comparisons of sort_vec_3d_x, _y and _z, src/functions.rs:135-174. *)
Definition cmp3_x (a b : pt3 NM) : comparison :=
  cmp_or_eq (or_else_cmp (or_else_cmp (ncmp (px a) (px b)) (ncmp (py a) (py b))) (ncmp (pz a) (pz b))).
(** Models the comparison of sort_vec_3d_y, src/functions.rs:153-159. *)
Definition cmp3_y (a b : pt3 NM) : comparison :=
  cmp_or_eq (or_else_cmp (or_else_cmp (ncmp (py a) (py b)) (ncmp (pz a) (pz b))) (ncmp (px a) (px b))).
(** Models the comparison of sort_vec_3d_z, src/functions.rs:167-173. *)
Definition cmp3_z (a b : pt3 NM) : comparison :=
  cmp_or_eq (or_else_cmp (or_else_cmp (ncmp (pz a) (pz b)) (ncmp (px a) (px b))) (ncmp (py a) (py b))).
(** Models PointCloud2D::sort_dim, src/point_cloud_2d.rs:282-294, with sort_x and sort_y. *)
Definition pc2_sort_dim (sort : sorter) (ps : list (pt2 NM)) (d : N) : res (list (pt2 NM)) :=
  match d with
  | 0%N => Ok (sort _ cmp2_x ps)
  | 1%N => Ok (sort _ cmp2_y ps)
  | _ => Err IncorrectDimension
  end.
(** Models PointCloud3D::sort_dim, src/point_cloud_3d.rs:284-300, with sort_x, sort_y and sort_z. *)
Definition pc3_sort_dim (sort : sorter) (ps : list (pt3 NM)) (d : N) : res (list (pt3 NM)) :=
  match d with
  | 0%N => Ok (sort _ cmp3_x ps)
  | 1%N => Ok (sort _ cmp3_y ps)
  | 2%N => Ok (sort _ cmp3_z ps)
  | _ => Err IncorrectDimension
  end.

(** ** Ordering of points *)
(** Models Ord for Point3D, src/point_3d.rs:53-60, and for Norm3D, src/norm_3d.rs:45-52. *)
Definition pt3_cmp (a b : pt3 NM) : comparison :=
  let o := mk3 n0 n0 n0 in cmp_or_eq (ncmp (sqr_dist_3d o a) (sqr_dist_3d o b)).
(** Models Ord for Point2D, src/point_2d.rs:51-58, and for Norm2D, src/norm_2d.rs:44-51. *)
Definition pt2_cmp (a b : pt2 NM) : comparison :=
  let o := mk2 n0 n0 in cmp_or_eq (ncmp (sqr_dist_2d o a) (sqr_dist_2d o b)).
(** The derived PartialOrd, src/point_3d.rs:37: field by field, the first that is not Equal. *)
Definition lex_cmp (c d : option comparison) : option comparison := match c with Some Eq => d | _ => c end.
(** The derived PartialOrd of Point3D, src/point_3d.rs:37. *)
Definition pt3_partial_cmp (a b : pt3 NM) : option comparison :=
  lex_cmp (ncmp (px a) (px b)) (lex_cmp (ncmp (py a) (py b)) (ncmp (pz a) (pz b))).
(** The derived PartialOrd, src/point_2d.rs:36. *)
Definition pt2_partial_cmp (a b : pt2 NM) : option comparison :=
  lex_cmp (ncmp (x2 a) (x2 b)) (ncmp (y2 a) (y2 b)).
(** The derived PartialEq, src/point_3d.rs:37 and src/point_2d.rs:36. *)
Definition pt3_eq (a b : pt3 NM) : bool := (px a == px b) && (py a == py b) && (pz a == pz b).
(** The derived PartialEq of Point2D, src/point_2d.rs:36. *)
Definition pt2_eq (a b : pt2 NM) : bool := (x2 a == x2 b) && (y2 a == y2 b).
(** Models Hash for Point3D, src/point_3d.rs:62-69, with hash_f64, src/utils.rs:70-77: what is fed
    to the hasher.  The bits of a double are represented by the double itself (one to one except
    for the payload of NaN). *)
Definition pt3_hash_input (a : pt3 NM) : list (T NM) := [px a; py a; pz a].

(** ** Rays *)
(** Subtraction of points, src/point_3d.rs:113-153. *)
Definition vsub3 (a b : pt3 NM) : pt3 NM := mk3 (px a - px b) (py a - py b) (pz a - pz b).
(** Models intersection_ray_triangle, src/functions.rs:256-299; a Ray3D is its line. *)
Definition intersection_ray_triangle (ray : line3 NM) (v1 v2 v3 : pt3 NM) : res (option (pt3 NM)) :=
  obind (normal_of_face v1 v2 v3) (fun n =>
  let w1 := vsub3 (anchor ray) v1 in
  let a := - dot3 n w1 in
  let b := dot3 n (dir ray) in
  if b == n0 then Ok None else
  let r := a / b in
  if r <= n0 then Ok None else
  let p := pt3_add (anchor ray) (norm3_mul (dir ray) r) in
  let e1 := vsub3 v2 v1 in
  if dot3 n (cross3 e1 (vsub3 p v1)) <= n0 then Ok None else
  let e2 := vsub3 v3 v2 in
  if dot3 n (cross3 e2 (vsub3 p v2)) <= n0 then Ok None else
  let e3 := vsub3 v1 v3 in
  if dot3 n (cross3 e3 (vsub3 p v3)) <= n0 then Ok None else
  Ok (Some p)).
(** Models the loop of collect_intersections_ray_mesh, src/functions.rs:238-252, over the
    triangles of the mesh (face_vertices of every face, whose unwrap is safe: MeshProps). *)
Fixpoint collect_intersections (ray : line3 NM) (faces : list (pt3 NM * pt3 NM * pt3 NM)) (acc : list (pt3 NM)) : res (list (pt3 NM)) :=
  match faces with
  | [] => Ok acc
  | (a, b, c) :: r => obind (intersection_ray_triangle ray a b c) (fun o =>
      collect_intersections ray r (match o with Some p => acc ++ [p] | None => acc end))
  end.
(** The body of the loops of closest_intersecting, _mut and index_closest_intersecting,
    src/functions.rs:327-339,352-364,377-389: [x] is the object or its index. *)
Definition closest_step {X} (ray : line3 NM) (result : option (pt3 NM * X)) (bb : option (bb3 NM)) (x : X) : option (pt3 NM * X) :=
  match bb with
  | None => result
  | Some b =>
      match intersection ray b with
      | None => result
      | Some i =>
          match result with
          | Some (q, _) => if sqr_dist_3d (anchor ray) i < sqr_dist_3d (anchor ray) q then Some (i, x) else result
          | None => Some (i, x)
          end
      end
  end.
(** Models closest_intersecting and closest_intersecting_mut, src/functions.rs:320-367. *)
Definition closest_intersecting {X} (ray : line3 NM) (bbox : X -> option (bb3 NM)) (xs : list X) : option (pt3 NM * X) :=
  fold_left (fun r x => closest_step ray r (bbox x) x) xs None.
(** Models index_closest_intersecting, src/functions.rs:370-392. *)
Definition index_closest_intersecting {X} (ray : line3 NM) (bbox : X -> option (bb3 NM)) (xs : list X) : option (pt3 NM * N) :=
  fst (fold_left (fun s x => (closest_step ray (fst s) (bbox x) (snd s), N.succ (snd s))) xs (None, 0%N)).
(** Models for_each_intersecting, src/functions.rs:302-317: the calls made, in order. *)
Definition for_each_intersecting {X} (ray : line3 NM) (bbox : X -> option (bb3 NM)) (xs : list X) : list (pt3 NM * X) :=
  fold_left (fun calls x => match bbox x with
    | Some b => match intersection ray b with Some i => calls ++ [(i, x)] | None => calls end
    | None => calls end) xs [].

(** ** Distances in n dimensions *)
(** Models the loop of sqr_dist_nd, src/distances_nd.rs:48-56; a position is read coordinate by
    coordinate, [i] counts up. *)
Fixpoint sqr_dist_go (p q : N -> option (T NM)) (k : nat) (i : N) (acc : T NM) : res (T NM) :=
  match k with
  | O => Ok acc
  | S k => match p i, q i with
           | Some a, Some b => sqr_dist_go p q k (N.succ i) (acc + nsq (a - b))
           | _, _ => Err IncorrectDimension
           end
  end.
(** Models sqr_dist_nd, src/distances_nd.rs:39-57. *)
Definition sqr_dist_nd (np nq : N) (p q : N -> option (T NM)) : res (T NM) :=
  if (np =? nq)%N then sqr_dist_go p q (N.to_nat np) 0 n0 else Err DimensionsDontMatch.
(** Models dist_nd, src/distances_nd.rs:30-36. *)
Definition dist_nd (np nq : N) (p q : N -> option (T NM)) : res (T NM) :=
  obind (sqr_dist_nd np nq p q) (fun x => Ok (nsqrt x)).
End Cloud.

(** ** Polygons (any vertex type) *)
(** Models num_segments, src/polygon_2d.rs:44-46 and src/polygon_3d.rs:44-46. *)
Definition poly_num_segments {P} (ps : list P) : N := lenN ps.
(** Models segment_vertex_ids, src/polygon_2d.rs:48-56 and src/polygon_3d.rs:48-56. *)
Definition poly_segment_vertex_ids {P} (ps : list P) (i : N) : option (N * N) :=
  if (lenN ps <=? i)%N then None
  else if (i =? lenN ps - 1)%N then Some (i, 0%N) else Some (i, (i + 1)%N).
(** Models segment_vertices, src/polygon_2d.rs:58-61: indexing panics out of bounds. *)
Definition poly_segment_vertices {P} (ps : list P) (i : N) : res (option (P * P)) :=
  match poly_segment_vertex_ids ps i with
  | None => Ok None
  | Some (a, b) => match nthN ps a, nthN ps b with Some p, Some q => Ok (Some (p, q)) | _, _ => Panic end
  end.
(** Models vertex, src/polygon_2d.rs:63-65. *)
Definition poly_vertex {P} (ps : list P) (i : N) : option P := nthN ps i.
(** Models add_vertex, src/polygon_2d.rs:72-75. *)
Definition poly_add_vertex {P} (ps : list P) (p : P) : list P * N := let ps := ps ++ [p] in (ps, (lenN ps - 1)%N).
(** Models change_vertex, src/polygon_2d.rs:77-84. *)
Definition poly_change_vertex {P} (ps : list P) (i : N) (p : P) : res (list P) :=
  if (lenN ps <=? i)%N then Err IncorrectVertexID else Ok (setN ps i p).

(** ** Insertion *)
(** Vec::insert and VecDeque::insert of the standard library: panic beyond the end. *)
Definition std_insert {A} (l : list A) (i : N) (x : A) : res (list A) :=
  if (lenN l <? i)%N then Panic else Ok (firstn (N.to_nat i) l ++ x :: skipn (N.to_nat i) l).
(** Models IsRandomInsertible for Vec, src/impls/vec.rs:35-43, and VecDeque,
    src/impls/vec_deque.rs:37-45. *)
Definition vec_insert {A} (l : list A) (i : N) (x : A) : res (list A) :=
  if (lenN l <=? i)%N then Err IndexOutOfBounds else std_insert l i x.
(** Models IsRandomInsertible for PointCloud2D, src/point_cloud_2d.rs:166-178, and PointCloud3D,
    src/point_cloud_3d.rs:166-178. *)
Definition pc_insert {A} (l : list A) (i : N) (x : A) : res (list A) :=
  if (lenN l <? i)%N then Err IncorrectVertexID else std_insert l i x.
(** Models consume and combine, src/point_cloud_2d.rs:310-325 and src/point_cloud_3d.rs:320-335. *)
Definition pc_consume {A} (l r : list A) : list A := fold_left (fun l x => l ++ [x]) r l.
(** Models append_ra, src/point_cloud_2d.rs:98-108 and src/point_cloud_3d.rs:98-108: reading [ra]
    by index. *)
Fixpoint append_ra_go {A} (ra : list A) (k : nat) (i : N) (l : list A) : res (list A) :=
  match k with
  | O => Ok l
  | S k => match nthN ra i with Some x => append_ra_go ra k (N.succ i) (l ++ [x]) | None => Panic end
  end.
(** Models append_ra, src/point_cloud_2d.rs:98-108 and src/point_cloud_3d.rs:98-108. *)
Definition pc_append_ra {A} (l ra : list A) : res (list A) := append_ra_go ra (length ra) 0 l.
(** Models extrude, src/functions.rs:178-194, for Point2D (transform_to_3d src/point_2d.rs:312-317)
    and Point3D (move_by adds to each coordinate, src/point_cloud_3d.rs:192-201). *)
Definition extrude {NM : Num} (ps : list (pt2 NM)) (d : pt3 NM) : list (pt3 NM) * list (pt3 NM) :=
  let a := map (fun p => mk3 (x2 p) (y2 p) (@n0 NM)) ps in
  (a, map (fun p => mk3 (px p + px d) (py p + py d) (pz p + pz d)) a).
