(** Bodies made of colliders and containers of them: src/has_colliders_3d.rs, src/collider_3d.rs,
    src/is_collider_container_3d.rs. *)
From Verif Require Import Base Num BBoxModel KdModel FilterModel ShapeModel AabbModel.

Section Collide.
Context {NM : Num}.
(** An implementation of HasColliders3D, src/has_colliders_3d.rs:30-34, seen through its methods: the bounding
    box, has_additional_colliders and the colliders with_colliders visits, in order.  A bounding_box() that panics is not
    modelled. *)
Record body : Type := mkbody { body_box : bb3 NM; body_additional : bool; body_colliders : list (collider NM) }.
(** The closure `if !result { result = test(collider) }` run over the colliders, src/has_colliders_3d.rs:38-44,53-59. *)
Fixpoint first_hit (test : collider NM -> res bool) (result : bool) (cs : list (collider NM)) : res bool :=
  match cs with
  | [] => Ok result
  | c :: r => if result then first_hit test result r else obind (test c) (fun h => first_hit test h r)
  end.
(** Models HasColliders3D::collides_with_collider, src/has_colliders_3d.rs:36-49. *)
Definition body_collides_collider (a : body) (other : collider NM) : res bool :=
  if body_additional a then first_hit (fun c => collider_collides c other) false (body_colliders a)
  else collider_collides (CAABB (body_box a)) other.
(** Models HasColliders3D::collides_with, src/has_colliders_3d.rs:51-64. *)
Definition body_collides (a b : body) : res bool :=
  if body_additional b then first_hit (fun c => body_collides_collider a c) false (body_colliders b)
  else body_collides_collider a (CAABB (body_box b)).
(** Models HasColliders3D for Collider3D, src/collider_3d.rs:80-92: the body of a single collider with its bounding box
    (62-70), which may panic. *)
Definition collider_body (dbg : bool) (c : collider NM) : res body :=
  obind (collider_bounding_box dbg c) (fun b =>
  Ok (mkbody b (match c with CAABB _ => false | CBox _ | CFace _ => true end) [c])).

(** Iterator::any with a test that may panic (language level, no line). *)
Fixpoint any_res {A} (test : A -> res bool) (l : list A) : res bool :=
  match l with
  | [] => Ok false
  | x :: r => obind (test x) (fun h => if h then Ok true else any_res test r)
  end.
(** Models any_element_collides_with_collider of Vec, src/impls/vec.rs:133-135; VecDeque, src/impls/vec_deque.rs:134-136,
    and LinkedList, src/impls/linked_list.rs:88-90, are the same. *)
Definition list_any_collides (l : list body) (other : body) : res bool := any_res (fun c => body_collides c other) l.
(** Models any_element_collides_with_bounding of Vec, src/impls/vec.rs:137-143; VecDeque, src/impls/vec_deque.rs:138-144,
    and LinkedList, src/impls/linked_list.rs:92-98, are the same. *)
Definition list_any_collides_bounding (l : list body) (other : bb3 NM) : res bool := any_res (fun c => bb3_collides_with other (body_box c)) l.
(** The closure of src/aa_bb_tree_3d.rs:382-386 over the candidates, in order. *)
Fixpoint first_body (other : body) (result : bool) (cs : list body) : res bool :=
  match cs with
  | [] => Ok result
  | c :: r => if result then first_body other result r else obind (body_collides c other) (fun h => first_body other h r)
  end.
(** Models any_element_collides_with_collider of AABBTree3D, src/aa_bb_tree_3d.rs:380-389. *)
Definition tree_any_collides (t : aabb body (bb3 NM)) (other : body) : res bool :=
  obind (aabb3_collision_candidates body_box (body_box other) t) (first_body other false).
End Collide.
Arguments body : clear implicits.
