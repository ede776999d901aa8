(** Vocabulary for the .stl format. *)
From Verif Require Import Base Num VecModel GeomSpec MeshModel MeshSpec MeshAlgoSpec IoModel ByteModel StlModel.

(** A face of a saved mesh: its corners. *)
Definition face_at {P} (s : mspec P) (f : face3) (t : P * P * P) : Prop := corners s f = Some t.
(** The faces of a mesh whose triangles share no vertices: 0 1 2, 3 4 5, ... from the vertex [n] on. *)
Fixpoint separate_faces (n : N) (k : nat) : list face3 :=
  match k with O => [] | S k => (n, n + 1, n + 2)%N :: separate_faces (n + 3) k end.
(** The three points of a triangle. *)
Definition points {P} (t : P * P * P) : list P := let '(a, b, c) := t in [a; b; c].
(** The coordinate at position [j] (in units of four bytes) of a record, and the point there. *)
Definition record_f64 (r : bytes) (j : nat) : T F64 :=
  match read_f32 Little (skipn (4 * j) r) with Some (y, _) => widen y | None => n0 end.
Definition record_point (r : bytes) (j : nat) : pt3 F64 := mk3 (record_f64 r j) (record_f64 r (j + 1)) (record_f64 r (j + 2)).
(** The points of a record after the normal. *)
Definition record_points (r : bytes) : list (pt3 F64) := [record_point r 3; record_point r 6; record_point r 9].
(** Two corners at the same position. *)
Definition degenerate {P} (t : P * P * P) : Prop := let '(a, b, c) := t in a = b \/ a = c \/ b = c.
(** [same] decides equality of the points in [l]. *)
Definition decides {P} (same : P -> P -> bool) (l : list P) : Prop := forall x y, In x l -> In y l -> (same x y = true <-> x = y).
(** Two corners of the triangle share a position. *)
Definition flat_face {P} (same : P -> P -> bool) (t : P * P * P) : bool := let '(a, b, c) := t in same a b || same a c || same b c.
(** Every normal is the computed normal of its triangle (where that one is made of finite numbers). *)
Definition normals_of (ts : list (pt3 F64 * pt3 F64 * pt3 F64)) (ns : list (pt3 F64)) (normal : pt3 F64 -> pt3 F64 -> pt3 F64 -> res (pt3 F64)) (ok : pt3 F64 -> Prop) : Prop :=
  Forall2 (fun t n => let '(a, b, c) := t in forall v, normal a b c = Ok v -> ok v -> n = v) ts ns.
(** The vector orthogonal to a triangle, as computed from its corners. *)
Definition normal_vector (a b c : pt3 F64) : pt3 F64 := cross3 (conn a b) (conn b c).
(** The computed length is above zero (so neither zero nor NaN). *)
Definition has_direction (v : pt3 F64) : Prop := flt n0 (nsqrt (nadd (nadd (nsq (px v)) (nsq (py v))) (nsq (pz v)))).
