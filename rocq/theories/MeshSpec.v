(** Specification of an editable triangle mesh: a list of vertices and a list of faces. *)
From Verif Require Import Base MeshModel.
Local Open Scope N_scope.

Section Spec.
  Context {P : Type}.
  Record mspec : Type := MSpec { svs : list P; sfs : list face3 }.

  Definition in_range (s : mspec) (v : N) : Prop := v < N.of_nat (length (svs s)).

  (** Effect and answer of each editing call, as a relation. *)
  Inductive mspec_step : mspec -> mop P -> mspec -> mobs -> Prop :=
  | SAddVertex s p :
      mspec_step s (MAddVertex p) (MSpec (svs s ++ [p]) (sfs s)) (MVId (N.of_nat (length (svs s))))
  | SAddFace s p q r : let n := N.of_nat (length (svs s)) in
      mspec_step s (MAddFace p q r) (MSpec (svs s ++ [p; q; r]) (sfs s ++ [(n, n + 1, n + 2)]))
                 (MFId (N.of_nat (length (sfs s))))
  | SConnectOutOfRange s a b c : ~ (in_range s a /\ in_range s b /\ in_range s c) ->
      mspec_step s (MConnect a b c) s (MErr IncorrectVertexID)
  | SConnectNotUnique s a b c : in_range s a /\ in_range s b /\ in_range s c ->
      (a = b \/ a = c \/ b = c) ->
      mspec_step s (MConnect a b c) s (MErr FaceIDsNotUnique)
  | SConnect s a b c : in_range s a /\ in_range s b /\ in_range s c -> a <> b -> a <> c -> b <> c ->
      mspec_step s (MConnect a b c) (MSpec (svs s) (sfs s ++ [(a, b, c)])) (MFId (N.of_nat (length (sfs s))))
  | SChangeOutOfRange s v p : ~ in_range s v ->
      mspec_step s (MChange v p) s (MErr IncorrectVertexID)
  | SChange s v p l x r : svs s = l ++ x :: r -> v = N.of_nat (length l) ->
      mspec_step s (MChange v p) (MSpec (l ++ p :: r) (sfs s)) MDone.

  Inductive mspec_run : mspec -> list (mop P) -> mspec -> list mobs -> Prop :=
  | SRunNil s : mspec_run s [] s []
  | SRunCons s o s1 b ops s2 bs : mspec_step s o s1 b -> mspec_run s1 ops s2 bs ->
      mspec_run s (o :: ops) s2 (b :: bs).

  (** A mesh shows exactly the vertices and faces of [s] through its query functions.  The side
      condition on face ids excludes wrap-around of 3*id+2 in usize (see C75). *)
  Definition shows (m : mesh P) (s : mspec) : Prop :=
    num_vertices m = N.of_nat (length (svs s)) /\
    (forall v, vertex m v = nth_error (svs s) (N.to_nat v)) /\
    num_faces m = N.of_nat (length (sfs s)) /\
    (forall f, 3 * f + 2 < 2 ^ 64 -> face_vertex_ids m f = Ok (nth_error (sfs s) (N.to_nat f))) /\
    (forall f a b c, 3 * f + 2 < 2 ^ 64 -> nth_error (sfs s) (N.to_nat f) = Some (a, b, c) ->
       exists p q r, nth_error (svs s) (N.to_nat a) = Some p /\ nth_error (svs s) (N.to_nat b) = Some q /\
                     nth_error (svs s) (N.to_nat c) = Some r /\ face_vertices m f = Ok (Some (p, q, r))).

  (** Every face has three existing, pairwise distinct vertices. *)
  Definition faces_ok (s : mspec) : Prop :=
    forall a b c, In (a, b, c) (sfs s) ->
      in_range s a /\ in_range s b /\ in_range s c /\ a <> b /\ a <> c /\ b <> c.
End Spec.
Arguments mspec : clear implicits.
