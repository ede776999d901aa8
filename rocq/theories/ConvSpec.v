(** Vocabulary for what can be done with a loaded mesh. *)
From Verif Require Import Base Num GeomSpec FloatSpec MeshModel MeshSpec IoModel IoSpec ByteModel PlyModel PlySpec.

(** What is parsed from a text is a double. *)
Definition parses_doubles (ft : FText) : Prop := forall w x, fparse ft w = Some x -> is_double x.
(** Files shorter than the largest u32, the type of the indices in a binary .ply file. *)
Definition below_4gb (file : bytes) : Prop := (lenN file + 1 < 2 ^ 32)%N.
(** The mesh shows [s]; it can be saved as binary .ply with any fitting colors, and loading what was
    written gives a mesh that shows the same. *)
Definition keeps_binary (ft : FText) (m : mesh (pt3 F64)) (s : mspec (pt3 F64)) : Prop :=
  forall colors, colors_ok s colors -> exists calls, save_ply_binary P64 m colors = Ok calls /\
    forall k, (length (all_bytes calls) < k)%nat -> exists m', load_ply_mesh ft k (all_bytes calls) = Some (m', Ok tt) /\ shows m' s.
(** The same for ascii .ply files, if every coordinate can be printed and parsed. *)
Definition keeps_ascii (ft : FText) (m : mesh (pt3 F64)) (s : mspec (pt3 F64)) : Prop :=
  ft_ok ft -> Forall printable3 (svs s) ->
  forall colors, colors_ok s colors -> exists calls, save_ply_ascii ft m colors = Ok calls /\
    forall k, (length (all_bytes calls) < k)%nat -> exists m', load_ply_mesh ft k (all_bytes calls) = Some (m', Ok tt) /\ shows m' s.
(** Both, for what the mesh shows. *)
Definition converts (ft : FText) (m : mesh (pt3 F64)) : Prop :=
  exists s, shows m s /\ faces_ok s /\ keeps_binary ft m s /\ keeps_ascii ft m s.
(** For .stl files, where a facet brings three vertices. *)
Definition below_1gb (file : bytes) : Prop := (lenN file < 2 ^ 30)%N.
