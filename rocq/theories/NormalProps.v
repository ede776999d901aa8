(** C142, C143: projection onto planes and mesh normals. *)
From Verif Require Import Base Num NumLemmas GeomSpec FloatSpec VecModel VecSpec VecLemmas MeshModel MeshSpec MeshLemmas MeshAlgoSpec
  AngleLemmas NormalModel NormalSpec NormalLemmas.
From Coq Require Import Reals Lra Psatz.
Local Open Scope R_scope.

(** In exact arithmetic the projection gives the coordinates of the closest point of the plane. *)
Theorem C142_closest (pl : plane RN) (p : pt3 RN) : orthonormal (pu pl) (pv pl) ->
  let q := project_point_on_plane pl p in
  forall s t : R,
    rdist2 p (at_plane (porigin pl) (pu pl) (pv pl) (x2 q) (y2 q)) <= rdist2 p (at_plane (porigin pl) (pu pl) (pv pl) s t) /\
    (rdist2 p (at_plane (porigin pl) (pu pl) (pv pl) s t) = rdist2 p (at_plane (porigin pl) (pu pl) (pv pl) (x2 q) (y2 q)) ->
       s = x2 q /\ t = y2 q).
Proof.
  intros O q s t. pose proof (dist_split (porigin pl) (pu pl) (pv pl) p s t O) as D. cbv zeta in D.
  change (rdot3 (pu pl) (conn (porigin pl) p)) with (x2 q) in D. change (rdot3 (pv pl) (conn (porigin pl) p)) with (y2 q) in D.
  rewrite D. apply sum_of_squares.
Qed.
Print Assumptions C142_closest.

(** It recovers plane coordinates exactly if the two plane directions are perpendicular - and only then: the type accepts
    any two directions. *)
Theorem C142_coordinates (pl : plane RN) : rsq3 (pu pl) = 1 -> rsq3 (pv pl) = 1 ->
  (forall s t : R, project_point_on_plane pl (at_plane (porigin pl) (pu pl) (pv pl) s t) = @mk2 RN s t) <-> rdot3 (pu pl) (pv pl) = 0.
Proof.
  intros U V. destruct pl as [o u v]. cbn [porigin pu pv] in *.
  assert (G : forall s t, project_point_on_plane (mkPlane o u v) (at_plane o u v s t) =
    @mk2 RN (s * rsq3 u + t * rdot3 u v) (s * rdot3 u v + t * rsq3 v)).
  { intros s t. rewrite project_R. cbn [porigin pu pv]. unfold rsq3, rdot3, conn, at_plane. destruct o, u, v. cbn. f_equal; ring. }
  split.
  - intros H. specialize (H 1 0). rewrite G, U in H. injection H as _ H. cbn in H. lra.
  - intros D s t. rewrite G, U, V, D. f_equal; cbn; ring.
Qed.
Print Assumptions C142_coordinates.

(** The default plane drops the z coordinate, without rounding, for all finite doubles. *)
Theorem C142_default (p : pt3 F64) : (forall ax, axis3 ax -> is_double (ax p) /\ finite (ax p)) ->
  exists pl, plane_default = Ok pl /\ feq (x2 (project_point_on_plane pl p)) (px p) /\ feq (y2 (project_point_on_plane pl p)) (py p).
Proof. exact (project_default_F p). Qed.
Print Assumptions C142_default.

Example C142_case : orthonormal (rp3 0 1 0) (rp3 0 0 1) /\
  project_point_on_plane (mkPlane (rp3 1 1 1) (rp3 0 1 0) (rp3 0 0 1)) (rp3 7 3 5) = @mk2 RN (2 : R) (4 : R) /\
  project_point_on_plane (mkPlane (fp3 1 1 1) (fp3 0 1 0) (fp3 0 0 1)) (fp3 7 3 5) = fp2 2 4.
Proof.
  split; [unfold orthonormal, rsq3, rdot3; cbn; lra|]. split; [|vmeq].
  unfold project_point_on_plane, dot3, conn. cbn. f_equal; ring.
Qed.

(** In exact arithmetic every vertex gets one normal: the direction of the sum of the unit normals of its faces, the z direction if the
    sum vanishes.  A face without area counts as facing the z direction. *)
Theorem C143_normals (m : mesh (pt3 RN)) (s : mspec (pt3 RN)) :
  shows m s -> faces_ok s -> (3 * N.of_nat (length (sfs s)) < 2 ^ 64)%N ->
  exists ns fns, normals_of_mesh m = Ok ns /\ length ns = length (svs s) /\ Forall2 (face_normal s) (sfs s) fns /\
    forall i n, nth_error ns i = Some n -> unit_or_z (total3 (normals_at s fns (N.of_nat i))) n.
Proof. exact (normals_ok m s). Qed.
Print Assumptions C143_normals.

(** A flat mesh whose faces all have the same orientation gets that direction at every used vertex, the z direction elsewhere. *)
Theorem C143_flat (m : mesh (pt3 RN)) (s : mspec (pt3 RN)) (w : pt3 RN) :
  shows m s -> faces_ok s -> (3 * N.of_nat (length (sfs s)) < 2 ^ 64)%N -> rsq3 w = 1 ->
  (forall f p q r, In f (sfs s) -> corners s f = Some (p, q, r) ->
     exists k, 0 < k /\ area_vec p q r = @mk3 RN (k * px w) (k * py w) (k * pz w)) ->
  exists ns, normals_of_mesh m = Ok ns /\ length ns = length (svs s) /\
    forall i n, nth_error ns i = Some n ->
      (exists f, In f (sfs s) /\ uses (N.of_nat i) f = true) /\ n = w \/
      (forall f, In f (sfs s) -> uses (N.of_nat i) f = false) /\ n = rp3 0 0 1.
Proof. exact (flat_ok m s w). Qed.
Print Assumptions C143_flat.

(** With f64 a face with a NaN coordinate panics. *)
Theorem C143_nan_panics (m : mesh (pt3 F64)) (s : mspec (pt3 F64)) f p q r :
  shows m s -> (3 * N.of_nat (length (sfs s)) < 2 ^ 64)%N -> In f (sfs s) -> corners s f = Some (p, q, r) ->
  ~ numbers3 p \/ ~ numbers3 q \/ ~ numbers3 r -> normals_of_mesh m = Panic.
Proof. exact (nan_panics m s f p q r). Qed.
Print Assumptions C143_nan_panics.

(** Where faces of opposite orientation meet the result is the z direction, which may lie in the faces' plane. *)
Theorem C143_in_plane_refuted : exists (m : mesh (pt3 F64)) (s : mspec (pt3 F64)),
  shows m s /\ faces_ok s /\ (forall p, In p (svs s) -> px p = fz 0) /\
  normals_of_mesh m = Ok [fp3 0 0 1; fp3 0 0 1; fp3 0 0 1].
Proof.
  exists (Mesh [fp3 0 0 0; fp3 0 1 0; fp3 0 0 1] [0; 1; 2; 0; 2; 1]%N),
         (MSpec [fp3 0 0 0; fp3 0 1 0; fp3 0 0 1] [(0, 1, 2); (0, 2, 1)]%N).
  assert (F : faces_ok (MSpec [fp3 0 0 0; fp3 0 1 0; fp3 0 0 1] [(0, 1, 2); (0, 2, 1)]%N)) by (apply faces_okg; reflexivity).
  split; [apply abs_shows; [split; reflexivity|exact F]|]. split; [exact F|]. split; [|vmeq].
  cbn [svs]. intros p [<- |[<- |[<- |[]]]]; reflexivity.
Qed.
Print Assumptions C143_in_plane_refuted.

(** The example of the theorems: a square in the plane y = 0, made of two triangles, and an unused vertex. *)
Definition square_spec : mspec (pt3 RN) :=
  MSpec [rp3 0 0 0; rp3 1 0 0; rp3 1 0 1; rp3 0 0 1; rp3 9 9 9] [(0, 2, 1); (0, 3, 2)]%N.
Example C143_case : shows (Mesh (svs square_spec) [0; 2; 1; 0; 3; 2]%N) square_spec /\ faces_ok square_spec /\ rsq3 (rp3 0 1 0) = 1 /\
  (forall f p q r, In f (sfs square_spec) -> corners square_spec f = Some (p, q, r) ->
     exists k, 0 < k /\ area_vec p q r = @mk3 RN (k * px (rp3 0 1 0)) (k * py (rp3 0 1 0)) (k * pz (rp3 0 1 0))).
Proof.
  assert (F : faces_ok square_spec) by (apply faces_okg; reflexivity).
  split; [apply abs_shows; [split; reflexivity|exact F]|]. split; [exact F|]. split; [unfold rsq3, rdot3; cbn; lra|].
  intros f p q r [<- |[<- |[]]]; cbn; intros [= <- <- <-]; exists 1; (split; [lra|]); unfold area_vec; cbn; f_equal; ring.
Qed.
