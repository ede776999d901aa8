(** Spatial clustering on the x/y plane and clustering of the vertices of a mesh.
    Models src/cluster.rs and src/cluster_vertices.rs. *)
From Verif Require Import Base Num BBoxModel VecModel MatrixModel MeshModel MeshAlgoModel.
Local Open Scope num_scope.

Section Cluster.
Context {NM : Num}.
(** `x as u16` and `x as usize` of a float (language level, no line): first argument is the number of bits.
    What Rust documents for doubles, and the same on reals, is in ClusterSpec.v. *)
Context (cast : N -> T NM -> N).
Context {HB : Type}.
(** bounding_box of the elements, src/has_bounding_box_3d.rs. *)
Context (bounding_box : HB -> bb3 NM).

(** Models Cluster, src/cluster.rs:32-42.  The HashMap is a function from keys to vectors; a missing entry
    is the empty vector (entries are created with one element, 82, so none of them is empty). *)
Record cluster : Type := mkcl {
  cl_data : list HB; cl_map : N * N -> list N;
  start_x : T NM; start_y : T NM; incr_x : T NM; incr_y : T NM }.

(** The loop over all boxes, src/cluster.rs:52-60; None is Err(BoundingBoxMissing). *)
Definition bb_all (data : list HB) : option (bb3 NM) :=
  fold_left (fun all x => match all with
                          | Some a => Some (bb3_combine a (bounding_box x))
                          | None => Some (bounding_box x)
                          end) data None.
(** `((v - start) / incr) as u16`, src/cluster.rs:72-76 and 97-98. *)
Definition cell (start incr v : T NM) : N := cast 16 ((v - start) / incr).
(** The inclusive range `lo..=hi` (language level, no line). *)
Definition upto (lo hi : N) : list N := map (fun i => (lo + N.of_nat i)%N) (seq 0 (N.to_nat (hi + 1 - lo))).
(** `map.entry(k).and_modify(push).or_insert(vec![i])`, src/cluster.rs:80-82. *)
Definition map_push (map : N * N -> list N) (k : N * N) (i : N) : N * N -> list N :=
  fun k' => if ((fst k' =? fst k)%N && (snd k' =? snd k)%N) then map k' ++ [i] else map k'.
(** The two nested loops, src/cluster.rs:78-84. *)
Definition map_range (i cx0 cx1 cy0 cy1 : N) (map : N * N -> list N) : N * N -> list N :=
  fold_left (fun map cx => fold_left (fun map cy => map_push map (cx, cy) i) (upto cy0 cy1) map) (upto cx0 cx1) map.
(** The loop over the elements, src/cluster.rs:67-85. *)
Fixpoint map_all (sx sy ix iy : T NM) (data : list HB) (i : N) (map : N * N -> list N) : N * N -> list N :=
  match data with
  | [] => map
  | x :: r =>
      let mn := min3 (bounding_box x) in let mx := max3 (bounding_box x) in
      map_all sx sy ix iy r (i + 1)%N
        (map_range i (cell sx ix (px mn)) (cell sx ix (px mx)) (cell sy iy (py mn)) (cell sy iy (py mx)) map)
  end.
(** Models Cluster::new, src/cluster.rs:50-94. *)
Definition cluster_new (data : list HB) (count_x count_y : N) : res cluster :=
  match bb_all data with
  | None => Err BoundingBoxMissing
  | Some bb =>
      obind (bb3_size_x bb) (fun size_x => obind (bb3_size_y bb) (fun size_y =>
      let sx := px (min3 bb) in let sy := py (min3 bb) in
      let ix := size_x / of_usize count_x in let iy := size_y / of_usize count_y in
      Ok (mkcl data (map_all sx sy ix iy data 0%N (fun _ => [])) sx sy ix iy)))
  end.
(** `self.data[*i]` for every index, src/cluster.rs:101-103. *)
Fixpoint visited (data : list HB) (is : list N) : res (list HB) :=
  match is with
  | [] => Ok []
  | i :: r => match nthN data i with Some d => obind (visited data r) (fun l => Ok (d :: l)) | None => Panic end
  end.
(** Models for_each_candidate, src/cluster.rs:96-105: the elements the function is called with, in order. *)
Definition for_each_candidate (c : cluster) (x y : T NM) : res (list HB) :=
  visited (cl_data c) (cl_map c (cell (start_x c) (incr_x c) x, cell (start_y c) (incr_y c) y)).
End Cluster.
Arguments cluster : clear implicits.

Section Vertices.
Context {NM : Num}.
(** `x as usize` (language level, no line), as above. *)
Context (cast : N -> T NM -> N).
(** Eq and Hash of the points, as in heal_mesh. *)
Context (same : pt3 NM -> pt3 NM -> bool).

(** The key of the map, src/cluster_vertices.rs:55-62. *)
Definition cluster_of (mn : pt3 NM) (size : T NM) (p : pt3 NM) : N * N * N :=
  let v := conn mn p in (cast 64 (px v / size), cast 64 (py v / size), cast 64 (pz v / size)).
(** Equality of keys (language level, no line). *)
Definition key_eqb (a b : N * N * N) : bool :=
  (fst (fst a) =? fst (fst b))%N && (snd (fst a) =? snd (fst b))%N && (snd a =? snd b)%N.
(** `cluster_map.get(..)`, src/cluster_vertices.rs:80; the map is the list of inserted pairs, newest first. *)
Fixpoint cluster_get (map : list ((N * N * N) * N)) (k : N * N * N) : option N :=
  match map with [] => None | (k', i) :: r => if key_eqb k' k then Some i else cluster_get r k end.
(** The loop, src/cluster_vertices.rs:64-73: (cluster_map, clusters). *)
Definition cluster_all (m : mesh (pt3 NM)) (mn : pt3 NM) (size : T NM) : res (list ((N * N * N) * N) * list (N * N * N)) :=
  for_range (N.to_nat (num_vertices m)) 0%N (fun i s =>
    match vertex m i with
    | None => Panic
    | Some p => let k := cluster_of mn size p in Ok ((k, i) :: fst s, snd s ++ [k])
    end) ([], []).
(** The closure new_vertex, src/cluster_vertices.rs:77-83. *)
Definition new_vertex (m : mesh (pt3 NM)) (s : list ((N * N * N) * N) * list (N * N * N)) (old : N) : res (pt3 NM) :=
  match nthN (snd s) old with
  | None => Panic
  | Some k => match cluster_get (fst s) k with
              | None => Panic
              | Some i => match vertex m i with Some p => Ok p | None => Panic end
              end
  end.
(** Models cluster_vertices, src/cluster_vertices.rs:33-97, for Mesh3D (bounding_box_maybe is the one of the
    vertices, src/mesh_3d.rs:153-155); [dbg] as in [bb3_from_iterator]. *)
Definition cluster_vertices (dbg : bool) (m : mesh (pt3 NM)) (size : T NM) : res (mesh (pt3 NM)) :=
  obind (pts3_bb_maybe dbg (pc m)) (fun o => match o with None => Err BoundingBoxMissing | Some bb =>
  obind (bb3_size_x bb) (fun sx => obind (bb3_size_y bb) (fun sy => obind (bb3_size_z bb) (fun sz =>
  if (cast 64 (sx / size)%num <? 2)%N || (cast 64 (sy / size)%num <? 2)%N || (cast 64 (sz / size)%num <? 2)%N
  then Err ClusterTooBig
  else
  obind (cluster_all m (min3 bb) size) (fun s =>
  obind (for_range (N.to_nat (num_faces m)) 0%N (fun i result =>
    obind (face_vertex_ids m i) (fun o => match o with None => Panic | Some (a, b, c) =>
    obind (new_vertex m s a) (fun p => obind (new_vertex m s b) (fun q => obind (new_vertex m s c) (fun r =>
    Ok (fst (add_face result p q r))))) end)) mesh_empty) (fun result =>
  heal_mesh same result)))))
  end).
End Vertices.
