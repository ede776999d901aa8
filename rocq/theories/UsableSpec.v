(** Vocabulary for what can be computed from a loaded mesh. *)
From Verif Require Import Base Num VecModel GeomSpec MeshModel MeshSpec MeshAlgoModel MeshAlgoSpec HalfEdgeModel.
Local Open Scope N_scope.

(** The mesh shows [s] with proper faces; its half edges can be built, three per face; however positions are compared it can be
    healed, to a mesh with proper faces and not more of them; it can be subdivided, with the old vertices kept and four
    faces in place of each. *)
Definition usable (m : mesh (pt3 F64)) : Prop := exists s, shows m s /\ faces_ok s /\
  (exists h, smesh_new m = Ok h /\ num_edges h = 3 * lenN (sfs s)) /\
  (forall same, equality same -> exists m' s', heal_mesh same m = Ok m' /\ shows m' s' /\ faces_ok s' /\ lenN (sfs s') <= lenN (sfs s)) /\
  (forall mid, exists m' new fs', subdivide_linear mid m = Ok m' /\ shows m' (MSpec (svs s ++ new) fs') /\ faces_ok (MSpec (svs s ++ new) fs') /\ lenN fs' = 4 * lenN (sfs s)).
