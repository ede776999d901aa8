(** Vocabulary for the neighbour queries: only the vertex ids of the faces. *)
From Verif Require Import Base MeshModel.
Local Open Scope N_scope.

Section S.
Context {P : Type}.
(** Face [f] has the vertex [v]. *)
Definition corner (m : mesh P) (f v : N) : Prop :=
  exists a b c, face_vertex_ids m f = Ok (Some (a, b, c)) /\ In v [a; b; c].
(** Face [f] passes from vertex [v] on to vertex [w]. *)
Definition passes (m : mesh P) (f v w : N) : Prop :=
  exists a b c, face_vertex_ids m f = Ok (Some (a, b, c)) /\ In (v, w) [(a, b); (b, c); (c, a)].
(** What lies on the other side of the step from [v] to [w]: a face passing from [w] to [v], if there is one. *)
Definition across (m : mesh P) (v w : N) (o : option N) : Prop :=
  match o with
  | Some g => g < num_faces m /\ passes m g w v
  | None => forall g, g < num_faces m -> ~ passes m g w v
  end.
(** The present values of a list. *)
Definition present (l : list (option N)) : list N :=
  flat_map (fun o => match o with Some g => [g] | None => [] end) l.
End S.
