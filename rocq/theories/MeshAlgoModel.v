(** Mesh algorithms: pack_dupes_indexed, heal_mesh, subdivide::linear and unify_faces.
    Models src/utils.rs, src/heal_mesh.rs, src/subdivide.rs, src/unify_faces.rs.  The meshes are Mesh3D. *)
From Verif Require Import Base Num VecModel MeshModel.
Local Open Scope N_scope.

(** `for i in a..b` with an early exit (language convention, no line): [n] rounds from [i]. *)
Fixpoint for_range {S} (n : nat) (i : N) (f : N -> S -> res S) (s : S) : res S :=
  match n with O => Ok s | Datatypes.S n => obind (f i s) (for_range n (i + 1) f) end.

Section Pack.
Context {T : Type}.
(** Whether the HashMap takes two values as the same key (Eq and Hash of the type). *)
Context (same : T -> T -> bool).
(** HashMap::get of `map` (language convention): the value of the first matching key. *)
Fixpoint map_get (map : list (T * N)) (x : T) : option N :=
  match map with [] => None | (y, v) :: r => if same y x then Some v else map_get r x end.
(** The loop, src/utils.rs:88-95. *)
Fixpoint pack_loop (idata : list T) (map : list (T * N)) (packed_data : list T) (ids : list N) : list T * list N :=
  match idata with
  | [] => (packed_data, ids)
  | x :: r =>
      match map_get map x with
      | Some id => pack_loop r map packed_data (ids ++ [id])
      | None => let value := lenN packed_data in
                pack_loop r ((x, value) :: map) (packed_data ++ [x]) (ids ++ [value])
      end
  end.
(** Models pack_dupes_indexed, src/utils.rs:80-98. *)
Definition pack_dupes_indexed (idata : list T) : list T * list N := pack_loop idata [] [] [].
End Pack.

Section Heal.
Context {P : Type} (same : P -> P -> bool).
(** Models heal_mesh, src/heal_mesh.rs:32-68. *)
Definition heal_mesh (m : mesh P) : res (mesh P) :=
  let nf := num_faces m in
  obind (for_range (N.to_nat nf) 0 (fun i duped_vertices =>
           obind (face_vertices m i) (fun o =>
           match o with Some (v1, v2, v3) => Ok (duped_vertices ++ [v1; v2; v3]) | None => Panic end)) [])
  (fun duped_vertices =>
  let '(unduped, indices) := pack_dupes_indexed same duped_vertices in
  let nf_new := lenN indices / 3 in
  let result := fold_left (fun r x => fst (add_vertex r x)) unduped mesh_empty in
  for_range (N.to_nat nf_new) 0 (fun f result =>
    match nthN indices (3 * f + 0), nthN indices (3 * f + 1), nthN indices (3 * f + 2) with
    | Some a, Some b, Some c =>
        if (a =? b) || (a =? c) || (b =? c) then Ok result
        else match try_add_connection result a b c with
             | (result, Ok _) => Ok result
             | (_, Err e) => Err e
             | (_, Panic) => Panic
             end
    | _, _, _ => Panic
    end) result).
End Heal.

Section Subdivide.
Context {V : Type}.
(** center_nd between two vertices of the same type, src/is_buildable_nd.rs:45-63: the dimensions
    agree, so its unwrap at src/subdivide.rs:66-72 cannot fail. *)
Context (center_nd : V -> V -> V).
(** The HashMap from undirected edges to vertex ids, src/subdivide.rs:49. *)
Definition edges := list ((N * N) * N).
(** HashMap::get on the edge map, src/subdivide.rs:49-80. *)
Fixpoint edge_get (e : edges) (k : N * N) : option N :=
  match e with
  | [] => None
  | (k', v) :: r => if (fst k' =? fst k) && (snd k' =? snd k) then Some v else edge_get r k
  end.
(** `entry(..).or_insert_with(..)`, src/subdivide.rs:64-72: the id, the map and the mesh. *)
Definition edge_entry (e : edges) (mo : mesh V) (a b : N) (va vb : V) : N * (edges * mesh V) :=
  let k := (N.min a b, N.max a b) in
  match edge_get e k with
  | Some id => (id, (e, mo))
  | None => let '(mo, id) := add_vertex mo (center_nd va vb) in (id, ((k, id) :: e, mo))
  end.
(** try_add_connection followed by `?` (src/subdivide.rs:74-77). *)
Definition connect (m : mesh V) (a b c : N) : res (mesh V) :=
  match try_add_connection m a b c with
  | (m', Ok _) => Ok m'
  | (_, Err e) => Err e
  | (_, Panic) => Panic
  end.
(** One round of the loop, src/subdivide.rs:57-78. *)
Definition linear_face (mi : mesh V) (i : N) (s : edges * mesh V) : res (edges * mesh V) :=
  obind (face_vertex_ids mi i) (fun o => match o with None => Panic | Some (vi1, vi2, vi3) =>
  obind (face_vertices mi i) (fun o => match o with None => Panic | Some (v1, v2, v3) =>
  let '(e, mo) := s in
  let '(ia, (e, mo)) := edge_entry e mo vi1 vi2 v1 v2 in
  let '(ib, (e, mo)) := edge_entry e mo vi2 vi3 v2 v3 in
  let '(ic, (e, mo)) := edge_entry e mo vi3 vi1 v3 v1 in
  obind (connect mo vi1 ia ic) (fun mo =>
  obind (connect mo ia vi2 ib) (fun mo =>
  obind (connect mo ia ib ic) (fun mo =>
  obind (connect mo ic ib vi3) (fun mo => Ok (e, mo)))))
  end) end).
(** The copy of the vertices, src/subdivide.rs:52-55, src/unify_faces.rs:100-102. *)
Definition copy_vertices (mi : mesh V) : res (mesh V) :=
  for_range (N.to_nat (num_vertices mi)) 0 (fun i mo =>
    match vertex mi i with Some v => Ok (fst (add_vertex mo v)) | None => Panic end) mesh_empty.
(** Models linear, src/subdivide.rs:36-81. *)
Definition subdivide_linear (mi : mesh V) : res (mesh V) :=
  obind (copy_vertices mi) (fun mo =>
  obind (for_range (N.to_nat (num_faces mi)) 0 (linear_face mi) ([], mo)) (fun s => Ok (snd s))).
End Subdivide.
(** center_nd of Point3D, src/is_buildable_nd.rs:45-63 with src/point_3d.rs position_nd and new_nd. *)
Definition center_nd3 {NM} (p q : pt3 NM) : pt3 NM :=
  mk3 (nhalf * (px p + px q))%num (nhalf * (py p + py q))%num (nhalf * (pz p + pz q))%num.

Section Unify.
Context {V : Type}.
(** Normal of a face (may panic) and `n_this.dot(&n_neighbour) < 0.0`, src/unify_faces.rs:71,79-81;
    see [unify_faces3] for the ones used. *)
Context {Nrm : Type} (normal : V -> V -> V -> res Nrm) (opposed : Nrm -> Nrm -> bool).

(** `v_to_f[v].insert(i)`, src/unify_faces.rs:131-133: sets of faces as lists; None is the index panic. *)
Definition vtf_insert (v i : N) (v_to_f : list (list N)) : res (list (list N)) :=
  match nthN v_to_f v with Some l => Ok (setN v_to_f v (i :: l)) | None => Panic end.
(** Models vertex_to_face, src/unify_faces.rs:120-137. *)
Definition vertex_to_face (m : mesh V) : res (list (list N)) :=
  for_range (N.to_nat (num_faces m)) 0 (fun i v_to_f =>
    obind (face_vertex_ids m i) (fun o => match o with None => Panic | Some (a, b, c) =>
    obind (vtf_insert a i v_to_f) (fun t => obind (vtf_insert b i t) (vtf_insert c i)) end))
    (repeat [] (N.to_nat (num_vertices m))).
(** sort of usize (language convention): insertion sort. *)
Fixpoint sort_in (x : N) (l : list N) : list N :=
  match l with [] => [x] | y :: r => if x <=? y then x :: l else y :: sort_in x r end.
(** sort of usize (language convention): insertion sort. *)
Definition usize_sort (l : list N) : list N := fold_right sort_in [] l.
(** Vec::dedup (language convention): drops elements equal to their predecessor. *)
Fixpoint dedup_from (last : option N) (l : list N) : list N :=
  match l with
  | [] => []
  | x :: r => match last with
              | Some y => if x =? y then dedup_from last r else x :: dedup_from (Some x) r
              | None => x :: dedup_from (Some x) r
              end
  end.
(** Models collect_neighbour_faces, src/unify_faces.rs:141-161, on an empty buffer (67). *)
Definition collect_neighbour_faces (m : mesh V) (v_to_f : list (list N)) (fid : N) : res (list N) :=
  obind (face_vertex_ids m fid) (fun o => match o with None => Err IncorrectFaceID | Some (a, b, c) =>
  match nthN v_to_f a, nthN v_to_f b, nthN v_to_f c with
  | Some la, Some lb, Some lc =>
      Ok (filter (fun x => negb (x =? fid)) (dedup_from None (usize_sort (la ++ lb ++ lc))))
  | _, _, _ => Panic
  end end).

(** The bit vectors and the stack, src/unify_faces.rs:42-44. *)
Record ustate : Type := mku { checked : list bool; must_flip : list bool; frontier : list N }.
(** `checked[i]` / `must_flip[i]`, an index panic if out of range (language convention). *)
Definition bit (l : list bool) (i : N) : res bool := match nthN l i with Some b => Ok b | None => Panic end.
(** The loop over the neighbours, src/unify_faces.rs:73-93.  The last element of the list is
    the top of the stack. *)
Fixpoint visit (m : mesh V) (this : N) (n_this : Nrm) (ns : list N) (s : ustate) : res ustate :=
  match ns with
  | [] => Ok s
  | n :: r =>
      obind (bit (checked s) n) (fun c => if c then visit m this n_this r s else
      obind (face_vertices m n) (fun o => match o with None => Panic | Some (v1n, v2n, v3n) =>
      obind (normal v1n v2n v3n) (fun n_neighbour =>
      let d := opposed n_this n_neighbour in
      obind (bit (must_flip s) this) (fun flip_this =>
      visit m this n_this r (mku (setN (checked s) n true) (setN (must_flip s) n (if flip_this then negb d else d))
                                (frontier s ++ [n])))) end))
  end.
(** frontier.pop() (language convention). *)
Definition pop (l : list N) : option (N * list N) :=
  match rev l with [] => None | x :: r => Some (x, rev r) end.
(** The while loop, src/unify_faces.rs:66-94; [fuel] bounds its rounds, None means it did not suffice. *)
Fixpoint drain (fuel : nat) (m : mesh V) (v_to_f : list (list N)) (s : ustate) : option (res ustate) :=
  match pop (frontier s) with
  | None => Some (Ok s)
  | Some (this, rest) =>
      match fuel with
      | O => None
      | S fuel =>
          match (obind (collect_neighbour_faces m v_to_f this) (fun ns =>
                 obind (face_vertices m this) (fun o => match o with None => Panic | Some (v1, v2, v3) =>
                 obind (normal v1 v2 v3) (fun n_this =>
                 visit m this n_this ns (mku (checked s) (must_flip s) rest)) end))) with
          | Ok s => drain fuel m v_to_f s
          | Err e => Some (Err e)
          | Panic => Some Panic
          end
      end
  end.
(** The outer loop, src/unify_faces.rs:48-95: each inner while either finds the next unchecked face
    from checked_lowest on or reaches the end, so it is a pass over all faces. *)
Fixpoint all_faces (fuel : nat) (m : mesh V) (v_to_f : list (list N)) (n : nat) (lowest : N) (s : ustate) : option (res ustate) :=
  match n with
  | O => Some (Ok s)
  | S n =>
      match bit (checked s) lowest with
      | Ok true => all_faces fuel m v_to_f n (lowest + 1) s
      | Ok false =>
          match drain fuel m v_to_f (mku (setN (checked s) lowest true) (must_flip s) (frontier s ++ [lowest])) with
          | Some (Ok s) => all_faces fuel m v_to_f n (lowest + 1) s
          | r => r
          end
      | Err e => Some (Err e)
      | Panic => Some Panic
      end
  end.
(** The rebuilt faces, src/unify_faces.rs:104-113 (an unwrap, so an error panics). *)
Definition rebuild_face (m : mesh V) (flips : list bool) (i : N) (result : mesh V) : res (mesh V) :=
  obind (face_vertex_ids m i) (fun o => match o with None => Panic | Some (a, b, c) =>
  obind (bit flips i) (fun fl =>
  match try_add_connection result a (if fl then c else b) (if fl then b else c) with
  | (result, Ok _) => Ok result
  | _ => Panic
  end) end).
(** Models unify_faces, src/unify_faces.rs:34-116. *)
Definition unify_faces (fuel : nat) (m : mesh V) : option (res (mesh V)) :=
  match vertex_to_face m with
  | Ok v_to_f =>
      let n := N.to_nat (num_faces m) in
      match all_faces fuel m v_to_f n 0 (mku (repeat false n) (repeat false n) []) with
      | Some (Ok s) => Some (obind (copy_vertices m) (for_range n 0 (rebuild_face m (must_flip s))))
      | Some (Err e) => Some (Err e)
      | Some Panic => Some Panic
      | None => None
      end
  | Err e => Some (Err e)
  | Panic => Some Panic
  end.
End Unify.

(** unify_faces of a Mesh3D of points: the normals of src/functions.rs:395-402, the comparison of
    src/unify_faces.rs:81. *)
Definition unify_faces3 {NM} : nat -> mesh (pt3 NM) -> option (res (mesh (pt3 NM))) :=
  unify_faces normal_of_face (fun a b => (dot3 a b < n0)%num).
