(** Projection onto planes and the normals of meshes.
    Models src/plane_3d.rs, project_point_on_plane of src/functions.rs and normals_of_mesh of src/utils.rs. *)
From Verif Require Import Base Num VecModel ShapeModel MeshModel MeshAlgoModel.
Local Open Scope num_scope.

Section Plane.
Context {NM : Num}.
(** Models Plane3D, src/plane_3d.rs:29-39,55-75. *)
Record plane : Type := mkPlane { porigin : pt3 NM; pu : pt3 NM; pv : pt3 NM }.
(** Models Default for Plane3D, src/plane_3d.rs:41-53. *)
Definition plane_default : res plane :=
  obind norm3_x (fun u => obind norm3_y (fun v => Ok (mkPlane (mk3 n0 n0 n0) u v))).
(** Models Point3D::transform_to_2d, src/point_3d.rs:340-347. *)
Definition transform_to_2d (p : pt3 NM) : pt2 NM := mk2 (px p) (py p).
(** Models project_point_on_plane, src/functions.rs:405-421: `from` of the 2D point overwrites both coordinates of
    the one made by transform_to_2d (src/point_2d.rs:279-285). *)
Definition project_point_on_plane (pl : plane) (p : pt3 NM) : pt2 NM :=
  let relative := conn (porigin pl) p in
  mk2 (dot3 (pu pl) relative) (dot3 (pv pl) relative).
End Plane.
Arguments plane : clear implicits.

Section Normals.
Context {NM : Num}.
(** Models add, src/utils.rs:138-144. *)
Definition add3 (p q : pt3 NM) : pt3 NM := mk3 (px p + px q) (py p + py q) (pz p + pz q).
(** Models `ns[v] = add(&ns[v], &n)`, src/utils.rs:117-118: indexing panics out of range. *)
Definition add_at (n : pt3 NM) (v : N) (ns : list (pt3 NM)) : res (list (pt3 NM)) :=
  match nthN ns v with Some x => Ok (setN ns v (add3 x n)) | None => Panic end.
(** Models the body of the loop over the faces, src/utils.rs:110-120. *)
Definition normals_face (m : mesh (pt3 NM)) (i : N) (ns : list (pt3 NM)) : res (list (pt3 NM)) :=
  obind (face_vertex_ids m i) (fun f =>
  match f with
  | None => Panic
  | Some (a, b, c) =>
      obind (face_vertices m i) (fun vs =>
      match vs with
      | None => Panic
      | Some (v1, v2, v3) =>
          obind (norm3_or_z (cross3 (conn v1 v2) (conn v1 v3))) (fun n =>
          obind (add_at n a ns) (fun ns => obind (add_at n b ns) (fun ns => add_at n c ns)))
      end)
  end).
(** Models `.map(..).collect()`, src/utils.rs:122-124. *)
Fixpoint normalize_all (ns : list (pt3 NM)) : res (list (pt3 NM)) :=
  match ns with
  | [] => Ok []
  | x :: r => obind (norm3_or_z x) (fun n => obind (normalize_all r) (fun l => Ok (n :: l)))
  end.
(** Models normals_of_mesh, src/utils.rs:101-125; P::default() is the origin. *)
Definition normals_of_mesh (m : mesh (pt3 NM)) : res (list (pt3 NM)) :=
  obind (for_range (N.to_nat (num_faces m)) 0%N (normals_face m)
           (repeat (mk3 n0 n0 n0) (N.to_nat (num_vertices m))))
        normalize_all.
End Normals.
