(** Axis aligned bounding box trees.
    Models src/aa_bb_tree_2d.rs and src/aa_bb_tree_3d.rs. *)
From Verif Require Import Base Num BBoxModel LineModel.
Local Open Scope num_scope.

(** Models AABBTree2D / AABBTree3D with their Leaf and Branch structs,
    src/aa_bb_tree_2d.rs:33-40,176-183,253-261; src/aa_bb_tree_3d.rs:33-40,202-209,300-308.
    [HB] is the element type, [BB] the box type. *)
Inductive aabb (HB BB : Type) : Type :=
| AEmpty
| ALeaf (data : list HB) (bb : BB)
| ABranch (left right : aabb HB BB) (bb : BB).
Arguments AEmpty {HB BB}. Arguments ALeaf {HB BB}. Arguments ABranch {HB BB}.

Section Gen.
Context {HB BB : Type}.
(** bb_of on a non empty vector, and the filters of new_rec given the depth and the
    box of the data; the two files differ only in these. *)
Context (bb_of : list HB -> BB) (is_left is_right : N -> BB -> HB -> bool).

(** Models new_rec, src/aa_bb_tree_2d.rs:93-141, src/aa_bb_tree_3d.rs:109-161.
    [levels] is maxdepth - depth, which reaches 0 when depth >= maxdepth. *)
Fixpoint aabb_new_rec (levels : nat) (allowed_bucket_size : nat) (depth : N) (data : list HB) : aabb HB BB :=
  match data with
  | [] => AEmpty
  | [_] => ALeaf data (bb_of data)
  | _ =>
      match levels with
      | O => ALeaf data (bb_of data)
      | S levels =>
          if (length data <=? allowed_bucket_size)%nat then ALeaf data (bb_of data)
          else
            let bb := bb_of data in
            let dleft := filter (is_left depth bb) data in
            let dright := filter (is_right depth bb) data in
            if (length dleft =? length dright)%nat && (length dleft =? length data)%nat then ALeaf data bb
            else ABranch (aabb_new_rec levels allowed_bucket_size (depth + 1)%N dleft)
                         (aabb_new_rec levels allowed_bucket_size (depth + 1)%N dright) bb
      end
  end.

(** Models any, src/aa_bb_tree_2d.rs:53-59,197-205,276-278 (3D: 53-59,223-231,323-325). *)
Fixpoint aabb_any (f : HB -> bool) (t : aabb HB BB) : bool :=
  match t with
  | AEmpty => false
  | ALeaf data _ => existsb f data
  | ABranch l r _ => aabb_any f l || aabb_any f r
  end.

(** The loop over the elements of a leaf shared by all queries, e.g. src/aa_bb_tree_2d.rs:220-224.
    The test may panic. *)
Fixpoint leaf_select (test : HB -> res bool) (data : list HB) (result : list HB) : res (list HB) :=
  match data with
  | [] => Ok result
  | x :: r => obind (test x) (fun b => leaf_select test r (if b then result ++ [x] else result))
  end.
(** The shape of all queries: leaves 207-246 and branches 280-308 in 2D, 233-293 and
    327-371 in 3D.  [guard] is applied to the box of the node, [test] to the elements;
    the elements pushed (or handed to the callback) in order. *)
Fixpoint aabb_query (guard : BB -> res bool) (test : HB -> res bool) (t : aabb HB BB) (result : list HB) : res (list HB) :=
  match t with
  | AEmpty => Ok result
  | ALeaf data bb => obind (guard bb) (fun g => if g then leaf_select test data result else Ok result)
  | ABranch l r bb =>
      obind (guard bb) (fun g => if g then obind (aabb_query guard test l result) (aabb_query guard test r)
                                 else Ok result)
  end.
End Gen.

Section Dim.
Context {NM : Num} {HB : Type}.

(** ** 3D *)
Section D3.
(** bounding_box() of an element (HasBoundingBox3D); elements whose bounding_box() panics are not modelled. *)
Context (bbox : HB -> bb3 NM).
(** Models bb_of, src/aa_bb_tree_3d.rs:179-189; never called on an empty vector. *)
Definition bb_of3 (data : list HB) : bb3 NM :=
  match data with
  | [] => bb3_default
  | d :: _ => fold_left bb3_consume (map bbox data) (bbox d)
  end.
(** Models is_left_of with Compare chosen by depth % 3, src/aa_bb_tree_3d.rs:121-133,163-169. *)
Definition is_left3 (depth : N) (bb : bb3 NM) (x : HB) : bool :=
  let center := bb3_center bb in
  match (depth mod 3)%N with
  | 0%N => px (min3 (bbox x)) < px center
  | 1%N => py (min3 (bbox x)) < py center
  | _ => pz (min3 (bbox x)) < pz center
  end.
(** Models is_right_of, src/aa_bb_tree_3d.rs:121-127,134-138,171-177. *)
Definition is_right3 (depth : N) (bb : bb3 NM) (x : HB) : bool :=
  let center := bb3_center bb in
  match (depth mod 3)%N with
  | 0%N => px (max3 (bbox x)) >= px center
  | 1%N => py (max3 (bbox x)) >= py center
  | _ => pz (max3 (bbox x)) >= pz center
  end.
(** Models AABBTree3D::new, src/aa_bb_tree_3d.rs:49-51. *)
Definition aabb3_new (data : list HB) (maxdepth allowed_bucket_size : nat) : aabb HB (bb3 NM) :=
  aabb_new_rec bb_of3 is_left3 is_right3 maxdepth allowed_bucket_size 0 data.
(** Models for_each_intersection_candidate, src/aa_bb_tree_3d.rs:61-67,233-242,327-334:
    the elements passed to the callback, in order. *)
Definition aabb3_intersection_candidates (l : line3 NM) (t : aabb HB (bb3 NM)) : res (list HB) :=
  let hits b := match intersection l b with Some _ => true | None => false end in
  aabb_query (fun b => Ok (hits b)) (fun x => Ok (hits (bbox x))) t [].
(** Models for_each_collision_candidate, src/aa_bb_tree_3d.rs:69-75,244-253,336-343:
    the elements passed to the callback, in order. *)
Definition aabb3_collision_candidates (bb : bb3 NM) (t : aabb HB (bb3 NM)) : res (list HB) :=
  aabb_query (fun b => bb3_collides_with b bb) (fun x => bb3_collides_with (bbox x) bb) t [].
(** Models bb_colliding, src/aa_bb_tree_3d.rs:77-83,255-263,345-350. *)
Definition aabb3_bb_colliding (bb : bb3 NM) (t : aabb HB (bb3 NM)) (result : list HB) : res (list HB) :=
  aabb_query (fun b => bb3_collides_with b bb) (fun x => bb3_collides_with (bbox x) bb) t result.
(** Models bb_crossing_x_value, bb_crossing_y_value and bb_crossing_z_value,
    src/aa_bb_tree_3d.rs:85-107,265-293,352-371. *)
Definition aabb3_crossing_x (v : T NM) (t : aabb HB (bb3 NM)) (result : list HB) : res (list HB) :=
  aabb_query (fun b => Ok (bb3_crossing_x b v)) (fun x => Ok (bb3_crossing_x (bbox x) v)) t result.
(** Models bb_crossing_y_value, src/aa_bb_tree_3d.rs:93-99,275-283,359-364. *)
Definition aabb3_crossing_y (v : T NM) (t : aabb HB (bb3 NM)) (result : list HB) : res (list HB) :=
  aabb_query (fun b => Ok (bb3_crossing_y b v)) (fun x => Ok (bb3_crossing_y (bbox x) v)) t result.
(** Models bb_crossing_z_value, src/aa_bb_tree_3d.rs:101-107,285-293,366-371. *)
Definition aabb3_crossing_z (v : T NM) (t : aabb HB (bb3 NM)) (result : list HB) : res (list HB) :=
  aabb_query (fun b => Ok (bb3_crossing_z b v)) (fun x => Ok (bb3_crossing_z (bbox x) v)) t result.
(** Models any_element_collides_with_bounding, src/aa_bb_tree_3d.rs:391-398. *)
Definition aabb3_any_collides_with_bounding (t : aabb HB (bb3 NM)) (other : bb3 NM) : res bool :=
  obind (aabb3_collision_candidates other t) (fun c => Ok (match c with [] => false | _ => true end)).
End D3.

(** ** 2D *)
Section D2.
(** bounding_box() of an element (HasBoundingBox2D). *)
Context (bbox : HB -> bb2 NM).
(** Models bb_of, src/aa_bb_tree_2d.rs:159-169. *)
Definition bb_of2 (data : list HB) : bb2 NM :=
  match data with
  | [] => bb2_default
  | d :: _ => fold_left bb2_consume (map bbox data) (bbox d)
  end.
(** Models is_left_of with compx = depth % 2 != 0, src/aa_bb_tree_2d.rs:105-113,143-149. *)
Definition is_left2 (depth : N) (bb : bb2 NM) (x : HB) : bool :=
  let center := bb2_center bb in
  if negb (depth mod 2 =? 0)%N then x2 (min2 (bbox x)) < x2 center
  else y2 (min2 (bbox x)) < y2 center.
(** Models is_right_of, src/aa_bb_tree_2d.rs:105-107,114-118,151-157. *)
Definition is_right2 (depth : N) (bb : bb2 NM) (x : HB) : bool :=
  let center := bb2_center bb in
  if negb (depth mod 2 =? 0)%N then x2 (max2 (bbox x)) >= x2 center
  else y2 (max2 (bbox x)) >= y2 center.
(** Models AABBTree2D::new, src/aa_bb_tree_2d.rs:49-51. *)
Definition aabb2_new (data : list HB) (maxdepth allowed_bucket_size : nat) : aabb HB (bb2 NM) :=
  aabb_new_rec bb_of2 is_left2 is_right2 maxdepth allowed_bucket_size 0 data.
(** Models for_each_collision_candidate, src/aa_bb_tree_2d.rs:61-67,207-216,280-287. *)
Definition aabb2_collision_candidates (bb : bb2 NM) (t : aabb HB (bb2 NM)) : res (list HB) :=
  aabb_query (fun b => bb2_collides_with b bb) (fun x => bb2_collides_with (bbox x) bb) t [].
(** Models bb_colliding, src/aa_bb_tree_2d.rs:69-75,218-226,289-294. *)
Definition aabb2_bb_colliding (bb : bb2 NM) (t : aabb HB (bb2 NM)) (result : list HB) : res (list HB) :=
  aabb_query (fun b => bb2_collides_with b bb) (fun x => bb2_collides_with (bbox x) bb) t result.
(** Models bb_crossing_x_value and bb_crossing_y_value, src/aa_bb_tree_2d.rs:77-91,228-246,296-308. *)
Definition aabb2_crossing_x (v : T NM) (t : aabb HB (bb2 NM)) (result : list HB) : res (list HB) :=
  aabb_query (fun b => Ok (bb2_crossing_x b v)) (fun x => Ok (bb2_crossing_x (bbox x) v)) t result.
(** Models bb_crossing_y_value, src/aa_bb_tree_2d.rs:85-91,238-246,303-308. *)
Definition aabb2_crossing_y (v : T NM) (t : aabb HB (bb2 NM)) (result : list HB) : res (list HB) :=
  aabb_query (fun b => Ok (bb2_crossing_y b v)) (fun x => Ok (bb2_crossing_y (bbox x) v)) t result.
End D2.
End Dim.
