(** Planes and vertex normals over the reals. *)
From Verif Require Import Base Num VecSpec MeshModel MeshSpec MeshAlgoSpec.
From Coq Require Import Reals.
Local Open Scope R_scope.

(** The point at coordinates (s, t) of the plane through [o] spanned by [u] and [v]. *)
Definition at_plane (o u v : pt3 RN) (s t : R) : pt3 RN :=
  @mk3 RN (px o + s * px u + t * px v) (py o + s * py u + t * py v) (pz o + s * pz u + t * pz v).
(** Squared distance. *)
Definition rdist2 (a b : pt3 RN) : R :=
  (px a - px b) * (px a - px b) + (py a - py b) * (py a - py b) + (pz a - pz b) * (pz a - pz b).
(** [u] and [v] are perpendicular unit vectors. *)
Definition orthonormal (u v : pt3 RN) : Prop := rsq3 u = 1 /\ rsq3 v = 1 /\ rdot3 u v = 0.

(** [n] is the unit vector in the direction of [v]; the z direction if [v] is zero. *)
Definition unit_or_z (v n : pt3 RN) : Prop :=
  (rsq3 v = 0 /\ n = @mk3 RN (0 : R) (0 : R) (1 : R)) \/
  (rsq3 v <> 0 /\ rsq3 n = 1 /\ exists k, 0 < k /\ px v = k * px n /\ py v = k * py n /\ pz v = k * pz n).
(** Sum of vectors. *)
Definition plus3 (a b : pt3 RN) : pt3 RN := @mk3 RN (px a + px b) (py a + py b) (pz a + pz b).
Definition total3 (l : list (pt3 RN)) : pt3 RN := fold_left plus3 l (@mk3 RN (0 : R) (0 : R) (0 : R)).
(** The vertex is a corner of the face. *)
Definition uses (i : N) (f : face3) : bool := let '(a, b, c) := f in (N.eqb i a || N.eqb i b || N.eqb i c)%bool.
(** [n] is the normal of face [f] of [s]. *)
Definition face_normal (s : mspec (pt3 RN)) (f : face3) (n : pt3 RN) : Prop :=
  exists p q r, corners s f = Some (p, q, r) /\ unit_or_z (area_vec p q r) n.
(** The normals, among [fns] (one per face of [s]), of the faces at vertex [i]. *)
Definition normals_at (s : mspec (pt3 RN)) (fns : list (pt3 RN)) (i : N) : list (pt3 RN) :=
  map snd (filter (fun fn => uses i (fst fn)) (combine (sfs s) fns)).
