(** Vocabulary for files that end too early, as after a crash or a full disk. *)
From Verif Require Import Base Num IoModel IoSpec MeshSpec ByteModel PlyModel PlySpec StlModel.

(** [a] is the beginning of [b]. *)
Definition prefix {A} (a b : list A) : Prop := exists c, b = a ++ c.
(** [a] is the beginning of [b], possibly followed by one more element that need not be in [b]. *)
Definition prefix_and_one {A} (a b : list A) : Prop := exists c, prefix c b /\ (a = c \/ exists x, a = c ++ [x]).
(** The same for the vertices and faces of meshes; the additional element is a vertex or a face. *)
Definition mesh_prefix {P} (a b : mspec P) : Prop := prefix (svs a) (svs b) /\ prefix (sfs a) (sfs b).
Definition mesh_prefix_and_one {P} (a b : mspec P) : Prop :=
  mesh_prefix a b \/ (prefix_and_one (svs a) (svs b) /\ prefix (sfs a) (sfs b)) \/ (prefix (svs a) (svs b) /\ prefix_and_one (sfs a) (sfs b)).
(** [a] lacks some of the end of [b]. *)
Definition cut_short {A} (a b : list A) : Prop := exists c, b = a ++ c /\ c <> [].
(** A .ply file that starts as a binary one. *)
Definition binary_ply (file : bytes) : Prop := exists en rest, file = unlines [str "ply"; format_line (FBinary en)] ++ rest.
(** A .stl file that is read as binary data. *)
Definition binary_stl (fmt : StlFormat) (file : bytes) : Prop := fmt = StlBinary \/ (fmt = StlAuto /\ ~ prefix (str "solid") file).
