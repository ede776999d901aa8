(** Orientation of the faces of a mesh over real coordinates. *)
From Verif Require Import Base Num MeshModel MeshSpec MeshAlgoSpec VecSpec.
From Coq Require Import Reals Relations.
Local Open Scope R_scope.

(** Area vector of a face: perpendicular to it, on the side from which its corners turn counter-clockwise. *)
Definition facing (s : mspec (pt3 RN)) (f : face3) : pt3 RN :=
  match corners s f with Some (p, q, r) => area_vec p q r | None => mk3 (0 : T RN) (0 : T RN) (0 : T RN) end.
(** Faces number [i] and [j] share a vertex. *)
Definition touching_at (fs : list face3) (i j : nat) : Prop :=
  exists f g, nth_error fs i = Some f /\ nth_error fs j = Some g /\ touching f g.
(** Any two faces are linked by a chain of faces sharing vertices. *)
Definition vertex_connected (fs : list face3) : Prop :=
  forall i j, (i < length fs)%nat -> (j < length fs)%nat -> clos_refl_trans nat (touching_at fs) i j.
(** All vertices lie in one plane. *)
Definition coplanar (vs : list (pt3 RN)) : Prop :=
  exists (n : pt3 RN) (d : R), rsq3 n <> 0 /\ forall p, In p vs -> rdot3 n p = d.
