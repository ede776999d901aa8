(** Filters and views.
    Models src/filter_*.rs, src/view.rs and the IsViewBuildable impls of the containers. *)
From Verif Require Import Base Num BBoxModel KdModel.
Local Open Scope num_scope.

(** Models IsFilter::is_allowed, src/is_filter.rs:26-29: a filter is what it answers.
    (FilterOutlier3D's RefCell cache is cleared on every call and not observable.) *)
Definition ifilter (T : Type) : Type := T -> bool.

Section Comb.
Context {T : Type}.
(** Models FilterAND, src/filter_and.rs:61-63. *)
Definition filter_and (f1 f2 : ifilter T) : ifilter T := fun x => f1 x && f2 x.
(** Models FilterOR, src/filter_or.rs:61-63. *)
Definition filter_or (f1 f2 : ifilter T) : ifilter T := fun x => f1 x || f2 x.
(** Models FilterXOR, src/filter_xor.rs:61-63. *)
Definition filter_xor (f1 f2 : ifilter T) : ifilter T := fun x => xorb (f1 x) (f2 x).
(** Models FilterNegate, src/filter_negate.rs:56-58. *)
Definition filter_negate (f : ifilter T) : ifilter T := fun x => negb (f x).
(** Models FilterOuterInner, src/filter_outer_inner.rs:44-48,56-58. *)
Definition filter_outer_inner (outer inner : ifilter T) : ifilter T := filter_and outer (filter_negate inner).
(** Models FilterAll, src/filter_all.rs:47-54. *)
Fixpoint filter_all (fs : list (ifilter T)) : ifilter T := fun x =>
  match fs with [] => true | f :: r => if negb (f x) then false else filter_all r x end.
(** Models FilterAny, src/filter_any.rs:47-54. *)
Fixpoint filter_any (fs : list (ifilter T)) : ifilter T := fun x =>
  match fs with [] => false | f :: r => if f x then true else filter_any r x end.
(** Models FilterAllow, src/filter_allow.rs:40-42. *)
Definition filter_allow : ifilter T := fun _ => true.
(** Models FilterDeny, src/filter_deny.rs:40-42. *)
Definition filter_deny : ifilter T := fun _ => false.
End Comb.

(** ** Views *)
(** Models View, src/view.rs:31-34; the HashSet<usize> is a list of its members. *)
Inductive view : Type := Full | Restricted (indices : list N).
(** Models View::union, src/view.rs:38-48. *)
Definition view_union (self other : view) : view :=
  match other with
  | Full => other
  | Restricted io => match self with Full => Full | Restricted is => Restricted (is ++ io) end
  end.
(** HashSet::contains and HashSet::remove (language conventions, no line). *)
Definition set_has (i : N) (l : list N) : bool := existsb (N.eqb i) l.
(** HashSet::remove (language convention, no line). *)
Definition set_remove (l : list N) (i : N) : list N := filter (fun j => negb (N.eqb i j)) l.

Section RA.
Context {T : Type}.
(** Models the trait IsFilterRandomAccessible, src/is_filter_random_accessible.rs:30-36:
    the new view.  Collections are lists ([ra.len()], [ra[i]] in range). *)
Definition ra_filter : Type := list T -> view -> view.
(** The loop over 0..n, src/filter_random_accessible.rs:64-70. *)
Fixpoint collect_allowed (f : ifilter T) (i : N) (ra : list T) : list N :=
  match ra with
  | [] => []
  | x :: r => if f x then i :: collect_allowed f (i + 1)%N r else collect_allowed f (i + 1)%N r
  end.
(** The test of one index, src/filter_random_accessible.rs:75-83. *)
Definition must_remove (f : ifilter T) (ra : list T) (i : N) : bool :=
  if (lenN ra - 1 <? i)%N then true
  else match nthN ra i with Some x => negb (f x) | None => false end.
(** Models FilterRandomAccessible::filter, src/filter_random_accessible.rs:57-91. *)
Definition filter_random_accessible (f : ifilter T) : ra_filter := fun ra v =>
  match ra with
  | [] => Full
  | _ => match v with
         | Full => Restricted (collect_allowed f 0 ra)
         | Restricted indices =>
             let indices_to_remove := filter (must_remove f ra) indices in
             Restricted (fold_left set_remove indices_to_remove indices)
         end
  end.
(** Models FilterAllRandomAccessible::filter, src/filter_all_random_accessible.rs:42-46. *)
Definition filter_all_random_accessible (fs : list ra_filter) : ra_filter := fun ra v =>
  fold_left (fun v f => f ra v) fs v.
(** Models FilterAnyRandomAccessible::filter, src/filter_any_random_accessible.rs:42-49. *)
Definition filter_any_random_accessible (fs : list ra_filter) : ra_filter := fun ra v =>
  fold_left (fun w f => view_union w (f ra v)) fs v.

(** The loop for (i, p) in iter().enumerate(), src/impls/vec.rs:88-93. *)
Fixpoint select (indices : list N) (i : N) (l : list T) : list T :=
  match l with
  | [] => []
  | x :: r => if set_has i indices then x :: select indices (i + 1)%N r else select indices (i + 1)%N r
  end.
(** Models apply_view of Vec, VecDeque and LinkedList, src/impls/vec.rs:80-98,
    src/impls/vec_deque.rs:81-99, src/impls/linked_list.rs:35-53, and of PointCloud2D and
    PointCloud3D, src/point_cloud_2d.rs:261-264, src/point_cloud_3d.rs:264-267:
    the new container and the result. *)
Definition apply_view (self : list T) (v : view) : list T * res unit :=
  match v with
  | Full => (self, Ok tt)
  | Restricted indices =>
      if existsb (fun x => lenN self <=? x)%N indices then (self, Err IndexOutOfBounds)
      else (select indices 0 self, Ok tt)
  end.
(** Models from_view, src/impls/vec.rs:100-104, src/impls/vec_deque.rs:101-105,
    src/impls/linked_list.rs:55-59, src/point_cloud_2d.rs:266-271, src/point_cloud_3d.rs:269-273. *)
Definition from_view (self : list T) (v : view) : option (list T) :=
  match apply_view self v with (cloned, Ok tt) => Some cloned | _ => None end.
End RA.

(** ** Geometric filters *)
Section Geo.
Context {NM : Num}.
(** Models Circle, src/circle.rs:33-36, and Box2D, src/box_2d.rs:33-37
    (radius and sizes are values of Positive). *)
Record circle : Type := mkcircle { cir_center : pt2 NM; cir_radius : T NM }.
(** Models Box2D, src/box_2d.rs:33-37. *)
Record box2d : Type := mkbox2d { box2_center : pt2 NM; box2_sx : T NM; box2_sy : T NM }.
(** Models FilterSphere::is_allowed, src/filter_sphere.rs:138-140. *)
Definition filter_sphere (s : sphere NM) : ifilter (pt3 NM) := fun p => dist_3d p (sph_center s) <= sph_radius s.
(** Models FilterCircle::is_allowed, src/filter_circle.rs:129-131. *)
Definition filter_circle (c : circle) : ifilter (pt2 NM) := fun p => dist_2d p (cir_center c) <= cir_radius c.
(** Models FilterBox2D::is_allowed, src/filter_box_2d.rs:130-135. *)
Definition filter_box2 (b : box2d) : ifilter (pt2 NM) := fun p =>
  (x2 p >= x2 (box2_center b) - box2_sx b / n2) && (x2 p <= x2 (box2_center b) + box2_sx b / n2) &&
  (y2 p >= y2 (box2_center b) - box2_sy b / n2) && (y2 p <= y2 (box2_center b) + box2_sy b / n2).
(** Models FilterBox3D::is_allowed, src/filter_box_3d.rs:140-147. *)
Definition filter_box3 (b : box3d NM) : ifilter (pt3 NM) := fun p =>
  (px p >= px (box_center b) - box_sx b / n2) && (px p <= px (box_center b) + box_sx b / n2) &&
  (py p >= py (box_center b) - box_sy b / n2) && (py p <= py (box_center b) + box_sy b / n2) &&
  (pz p >= pz (box_center b) - box_sz b / n2) && (pz p <= pz (box_center b) + box_sz b / n2).
(** Models From<BoundingBox2D> for FilterBox2D, src/filter_box_2d.rs:144-152. *)
Definition box2_of_bb (b : bb2 NM) : res box2d :=
  obind (bb2_size_x b) (fun sx => obind (bb2_size_y b) (fun sy => Ok (mkbox2d (bb2_center b) sx sy))).
(** Models From<BoundingBox3D> for FilterBox3D, src/filter_box_3d.rs:156-165. *)
Definition box3_of_bb (b : bb3 NM) : res (box3d NM) :=
  obind (bb3_size_x b) (fun sx => obind (bb3_size_y b) (fun sy => obind (bb3_size_z b) (fun sz =>
  Ok (mkbox3d (bb3_center b) sx sy sz)))).
(** Models FilterOutlier3D::is_allowed, src/filter_outlier_3d.rs:80-95, over a KdTree. *)
Definition filter_outlier {P} (pos : P -> pt3 NM) (t : kdtree P) (search_distance : T NM) (min_neighbours : nat)
  : ifilter (pt3 NM) := fun p =>
  (min_neighbours <=? length (kd_in_sphere pos (mksphere p search_distance) t []))%nat.
End Geo.
Arguments circle : clear implicits.
Arguments box2d : clear implicits.
