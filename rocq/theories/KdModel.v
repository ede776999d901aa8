(** KdTree.  Models src/kd_tree.rs. *)
From Verif Require Import Base Num SortSpec.
Local Open Scope num_scope.

Section Kd.
Context {NM : Num}.
(** The stored points: any type with a position (P: Is3D, src/kd_tree.rs:33-38). *)
Context {P : Type} (pos : P -> pt3 NM).
(** slice::sort_by, see SortSpec. *)
Context (sort : sorter).

(** Models Sphere, src/sphere.rs:33-36 (radius is the value of a Positive). *)
Record sphere : Type := mksphere { sph_center : pt3 NM; sph_radius : T NM }.
(** Models Sphere::x, y, z, src/sphere.rs:63-78; z returns the y coordinate. *)
Definition sph_x (s : sphere) : T NM := px (sph_center s).
(** Models Sphere::y, src/sphere.rs:70-72. *)
Definition sph_y (s : sphere) : T NM := py (sph_center s).
(** Models Sphere::z, src/sphere.rs:75-77: it returns the y coordinate. *)
Definition sph_z (s : sphere) : T NM := py (sph_center s).

(** Models Box3D, src/box_3d.rs:33-38 (sizes are values of Positive). *)
Record box3d : Type := mkbox3d { box_center : pt3 NM; box_sx : T NM; box_sy : T NM; box_sz : T NM }.

(** Models dimension_compare, src/functions.rs:72-92. *)
Definition dimension_compare (l r : pt3 NM) (dim : N) : res comparison :=
  match dim with
  | 0%N => match ncmp (px l) (px r) with Some c => Ok c | None => Err ComparisionFailed end
  | 1%N => match ncmp (py l) (py r) with Some c => Ok c | None => Err ComparisionFailed end
  | 2%N => match ncmp (pz l) (pz r) with Some c => Ok c | None => Err ComparisionFailed end
  | _ => Err DimensionsDontMatch
  end.
(** Models dimension_dist, src/functions.rs:95-106. *)
Definition dimension_dist (l r : pt3 NM) (dim : N) : res (T NM) :=
  match dim with
  | 0%N => Ok (nabs (px l - px r))
  | 1%N => Ok (nabs (py l - py r))
  | 2%N => Ok (nabs (pz l - pz r))
  | _ => Err DimensionsDontMatch
  end.

(** Models Option<Box<KdNode>>, src/kd_tree.rs:43-51: [KNone] is None, [KNode l v r d]
    a node.  The i8 dimension is a natural number (only 0 and 1 occur). *)
Inductive kdtree : Type :=
| KNone
| KNode (left : kdtree) (val : P) (right : kdtree) (dimension : N).

(** partial_cmp(..).unwrap_or(Equal), src/kd_tree.rs:178-180. *)
Definition cmp_or_eq (a b : T NM) : comparison := match ncmp a b with Some c => c | None => Eq end.
(** The comparator, src/kd_tree.rs:177-182. *)
Definition kd_cmp (dimension : N) (a b : P) : comparison :=
  match dimension with
  | 0%N => cmp_or_eq (px (pos a)) (px (pos b))
  | 1%N => cmp_or_eq (py (pos a)) (py (pos b))
  | 2%N => cmp_or_eq (pz (pos a)) (pz (pos b))
  | _ => Eq
  end.

(** Models KdNode::new, src/kd_tree.rs:166-213.  [fuel] bounds the recursion
    depth; the number of points is always enough (kd_new_fuel in KdLemmas).  The empty
    vector is never passed (guarded at 75-77 and 197-205). *)
Fixpoint kd_new (fuel : nat) (dim : N) (pc : list P) : kdtree :=
  match fuel with
  | O => KNone
  | S f =>
      let dimension := (dim mod 2)%N in
      match pc with
      | [] => KNone
      | [p] => KNode KNone p KNone dimension
      | _ =>
          let s := sort P (kd_cmp dimension) pc in
          let median := Nat.div2 (length s) in
          match nth_error s median with
          | None => KNone
          | Some val =>
              KNode (kd_new f (dimension + 1)%N (firstn median s)) val
                    (kd_new f (dimension + 1)%N (skipn (S median) s)) dimension
          end
      end
  end.

(** Models build, src/kd_tree.rs:74-82: the new root, or the error. *)
Definition kd_build (pc : list P) : res kdtree :=
  match pc with [] => Err TooFewPoints | _ => Ok (kd_new (length pc) 0 pc) end.

(** Models size, src/kd_tree.rs:59-64,135-145. *)
Fixpoint kd_size (t : kdtree) : nat :=
  match t with KNone => 0 | KNode l _ r _ => kd_size l + 1 + kd_size r end.
(** Models to_pointcloud, src/kd_tree.rs:66-72,156-164. *)
Fixpoint kd_to_pc (t : kdtree) (acc : list P) : list P :=
  match t with KNone => acc | KNode l v r _ => kd_to_pc r (kd_to_pc l acc ++ [v]) end.
(** Models is_leaf, src/kd_tree.rs:147-149. *)
Definition is_none (t : kdtree) : bool := match t with KNone => true | _ => false end.

(** Models in_sphere, src/kd_tree.rs:113-117,282-337; returns the new result vector. *)
Fixpoint kd_in_sphere (s : sphere) (t : kdtree) (pc : list P) : list P :=
  match t with
  | KNone => pc
  | KNode l v r d =>
      let pc := if dist_3d (sph_center s) (pos v) <= sph_radius s then pc ++ [v] else pc in
      if is_none l && is_none r then pc
      else
        let comp := dimension_compare (sph_center s) (pos v) d in
        let pc := match comp with
                  | Ok Lt => kd_in_sphere s l pc
                  | Ok _ => kd_in_sphere s r pc
                  | _ => pc
                  end in
        let '(cs, cv) := match d with
                         | 0%N => (sph_x s, px (pos v))
                         | 1%N => (sph_y s, py (pos v))
                         | _ => (sph_z s, pz (pos v))
                         end in
        let border_left := cs - sph_radius s in
        let border_right := cs + sph_radius s in
        match comp with
        | Ok Lt => if border_right >= cv then kd_in_sphere s r pc else pc
        | Ok _ => if border_left <= cv then kd_in_sphere s l pc else pc
        | _ => pc
        end
  end.

(** Models in_box, src/kd_tree.rs:124-128,339-403. *)
Fixpoint kd_in_box (b : box3d) (t : kdtree) (pc : list P) : list P :=
  match t with
  | KNone => pc
  | KNode l v r d =>
      match dimension_dist (box_center b) (pos v) 0, dimension_dist (box_center b) (pos v) 1,
            dimension_dist (box_center b) (pos v) 2 with
      | Ok dx, Ok dy, Ok dz =>
          let pc := if (dx <= nhalf * box_sx b) && (dy <= nhalf * box_sy b) && (dz <= nhalf * box_sz b)
                    then pc ++ [v] else pc in
          if is_none l && is_none r then pc
          else
            let comp := dimension_compare (box_center b) (pos v) d in
            let pc := match comp with
                      | Ok Lt => kd_in_box b l pc
                      | Ok _ => kd_in_box b r pc
                      | _ => pc
                      end in
            let '(cs, cv, sz) := match d with
                                 | 0%N => (px (box_center b), px (pos v), box_sx b)
                                 | 1%N => (py (box_center b), py (pos v), box_sy b)
                                 | _ => (pz (box_center b), pz (pos v), box_sz b)
                                 end in
            let border_left := cs - nhalf * sz in
            let border_right := cs + nhalf * sz in
            match comp with
            | Ok Lt => if border_right >= cv then kd_in_box b r pc else pc
            | Ok _ => if border_left <= cv then kd_in_box b l pc else pc
            | _ => pc
            end
      | _, _, _ => pc
      end
  end.

(** `&pc[pc.len() - 1]`: None is the index panic (language level). *)
Definition last_opt (pc : list P) : option P :=
  match pc with [] => None | p :: r => Some (last pc p) end.

(** Models sort_and_limit, src/kd_tree.rs:405-423. *)
Definition kd_sort_and_limit (search : pt3 NM) (n : nat) (pc : list P) : list P :=
  if (n <? length pc)%nat
  then firstn n (sort P (fun a b => cmp_or_eq (sqr_dist_3d search (pos a)) (sqr_dist_3d search (pos b))) pc)
  else pc.

(** Models KdNode::knearest, src/kd_tree.rs:220-280.  The recursion threads the
    vector; Panic is the index panic of an empty vector at 224 or 255. *)
Fixpoint kd_knearest (search : pt3 NM) (n : nat) (t : kdtree) (pc : list P) : res (list P) :=
  match t with
  | KNone => Ok pc
  | KNode l v r d =>
      obind (if (length pc <? n)%nat then Ok (pc ++ [v])
             else match last_opt pc with
                  | None => Panic
                  | Some q => if sqr_dist_3d search (pos v) < sqr_dist_3d search (pos q)
                              then Ok (pc ++ [v]) else Ok pc
                  end) (fun pc =>
      let comp := dimension_compare search (pos v) d in
      obind (match comp with
             | Ok Lt => kd_knearest search n l pc
             | Ok _ => kd_knearest search n r pc
             | _ => Ok pc
             end) (fun pc =>
      let pc := kd_sort_and_limit search n pc in
      let '(cs, cv) := match d with
                       | 0%N => (px search, px (pos v))
                       | 1%N => (py search, py (pos v))
                       | _ => (pz search, pz (pos v))
                       end in
      match last_opt pc with
      | None => Panic
      | Some q =>
          let distance_best := dist_3d search (pos q) in
          let border_left := cs - distance_best in
          let border_right := cs + distance_best in
          obind (match comp with
                 | Ok Lt => if (length pc <? n)%nat || (border_right >= cv)
                            then kd_knearest search n r pc else Ok pc
                 | Ok _ => if (length pc <? n)%nat || (border_left <= cv)
                           then kd_knearest search n l pc else Ok pc
                 | _ => Ok pc
                 end) (fun pc => Ok (kd_sort_and_limit search n pc))
      end))
  end.

(** Models KdTree::knearest, src/kd_tree.rs:92-99. *)
Definition kd_knearest_api (search : pt3 NM) (n : nat) (t : kdtree) (result : list P) : res (list P) :=
  if (n <? 1)%nat then Ok result else kd_knearest search n t result.
(** Models KdTree::nearest, src/kd_tree.rs:101-106. *)
Definition kd_nearest (search : pt3 NM) (t : kdtree) : res (option P) :=
  obind (kd_knearest_api search 1 t []) (fun r => Ok (nth_error r 0)).
End Kd.
Arguments kdtree : clear implicits.
Arguments sphere : clear implicits.
Arguments box3d : clear implicits.
