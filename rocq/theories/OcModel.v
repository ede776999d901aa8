(** OcTree.  Models src/oc_tree.rs. *)
From Verif Require Import Base Num BBoxModel.
Local Open Scope num_scope.

(** `depth + 1` on an i8, src/oc_tree.rs:356,363; [dbg] = overflow checks on
    (panic at i8::MAX), otherwise it wraps. *)
Definition i8_inc (dbg : bool) (z : Z) : res Z :=
  if dbg && (z =? 127)%Z then Panic else Ok ((z + 1 + 128) mod 256 - 128)%Z.

(** Models center_3d, src/functions.rs:47-56. *)
Definition center_3d {NM} (p1 p2 : pt3 NM) : pt3 NM :=
  mk3 (px p1 + (px p2 - px p1) / n2) (py p1 + (py p2 - py p1) / n2) (pz p1 + (pz p2 - pz p1) / n2).

(** The two loops sumx += p.x() .. of center_of_gravity, src/point_cloud_3d.rs:226-234. *)
Definition sum_3d {NM} (ps : list (pt3 NM)) : pt3 NM :=
  fold_left (fun s p => mk3 (px s + px p) (py s + py p) (pz s + pz p)) ps (mk3 n0 n0 n0).
(** Models PointCloud3D::center_of_gravity, src/point_cloud_3d.rs:216-241. *)
Definition pc3_cog {NM} (ps : list (pt3 NM)) : option (pt3 NM) :=
  match ps with
  | [] => None
  | _ => let s := sum_3d ps in let n := of_usize (lenN ps) in
         Some (mk3 (px s / n) (py s / n) (pz s / n))
  end.

Section Oc.
Context {NM : Num}.
(** The stored points: any type with a position (P: Is3D, src/oc_tree.rs:33-36). *)
Context {P : Type} (pos : P -> pt3 NM).

(** Models Option<Box<OcNode>>, src/oc_tree.rs:87-111: [ONone] is None; the eight
    fields of Internal are kept as a list in the order of the struct. *)
Inductive octree : Type :=
| ONone
| OLeaf (p : P)
| ONode (children : list octree).

(** Models Direction, src/oc_tree.rs:113-122. *)
Inductive direction := PPP | PPN | PNP | PNN | NPP | NPN | NNP | NNN.
(** All of Direction in the order of the fields of Internal, src/oc_tree.rs:97-111. *)
Definition directions : list direction := [PPP; PPN; PNP; PNN; NPP; NPN; NNP; NNN].

(** Models calc_sub_min_max, src/oc_tree.rs:259-295. *)
Definition calc_sub_min_max (dir : direction) (bb : bb3 NM) : res (bb3 NM) :=
  let mn := min3 bb in let mx := max3 bb in
  let middle := center_3d mn mx in
  match dir with
  | PPP => bb3_new middle mx
  | PPN => bb3_new (mk3 (px middle) (py middle) (pz mn)) (mk3 (px mx) (py mx) (pz middle))
  | PNP => bb3_new (mk3 (px middle) (py mn) (pz middle)) (mk3 (px mx) (py middle) (pz mx))
  | PNN => bb3_new (mk3 (px middle) (py mn) (pz mn)) (mk3 (px mx) (py middle) (pz middle))
  | NPP => bb3_new (mk3 (px mn) (py middle) (pz middle)) (mk3 (px middle) (py mx) (pz mx))
  | NPN => bb3_new (mk3 (px mn) (py middle) (pz mn)) (mk3 (px middle) (py mx) (pz middle))
  | NNP => bb3_new (mk3 (px mn) (py mn) (pz middle)) (mk3 (px middle) (py middle) (pz mx))
  | NNN => bb3_new mn middle
  end.

(** The eight `calc_sub_min_max(..)?`, src/oc_tree.rs:207-214: the first error is returned. *)
Fixpoint sub_boxes (dirs : list direction) (bb : bb3 NM) : res (list (bb3 NM)) :=
  match dirs with
  | [] => Ok []
  | d :: r => obind (calc_sub_min_max d bb) (fun b => obind (sub_boxes r bb) (fun bs => Ok (b :: bs)))
  end.

(** The if / else if chain, src/oc_tree.rs:216-234: the points not in an earlier box
    and in this one, for each box in turn; points in no box are dropped. *)
Fixpoint distribute (boxes : list (bb3 NM)) (pc : list P) : list (list P) :=
  match boxes with
  | [] => []
  | b :: r => filter (fun p => bb3_contains b (pos p)) pc ::
              distribute r (filter (fun p => negb (bb3_contains b (pos p))) pc)
  end.

(** Models build_subnode, src/oc_tree.rs:297-305, for each box with its points, in
    order (236-243).  [rec] is OcNode::new; None means out of fuel. *)
Fixpoint build_subnodes (rec : bb3 NM -> list P -> option (res octree))
  (boxes : list (bb3 NM)) (parts : list (list P)) : option (list octree) :=
  match boxes, parts with
  | b :: boxes, pc :: parts =>
      match pc with
      | [] => option_map (cons ONone) (build_subnodes rec boxes parts)
      | _ => match rec b pc with
             | None => None
             | Some (Ok n) => option_map (cons n) (build_subnodes rec boxes parts)
             | Some _ => option_map (cons ONone) (build_subnodes rec boxes parts)
             end
      end
  | _, _ => Some []
  end.

(** Models OcNode::new, src/oc_tree.rs:194-257.  [fuel] bounds the recursion
    depth, None means it did not suffice (over doubles and with distinct positions
    the code terminates because boxes get smaller). *)
Fixpoint oc_new (fuel : nat) (bb : bb3 NM) (pc : list P) : option (res octree) :=
  match fuel with
  | O => None
  | S f =>
      match pc with
      | [p] => Some (Ok (OLeaf p))
      | _ => match sub_boxes directions bb with
             | Ok boxes =>
                 match build_subnodes (oc_new f) boxes (distribute boxes pc) with
                 | None => None
                 | Some cs => Some (Ok (ONode cs))
                 end
             | Err e => Some (Err e)
             | Panic => Some Panic
             end
      end
  end.

(** The HashSet of the points, src/oc_tree.rs:60-66: the surviving points in iteration
    order; its contract is in OcSpec. *)
Context (uniq : list P -> list P).

(** Models build, src/oc_tree.rs:56-70 with bounding_box_maybe,
    src/point_cloud_3d.rs:207-209: the new root or the error. *)
Definition oc_build (fuel : nat) (dbg : bool) (pc : list P) : option (res octree) :=
  match bb3_from_iterator dbg (map pos pc) with
  | Ok bb => oc_new fuel bb (uniq pc)
  | Err _ => Some (Err BoundingBoxMissing)
  | Panic => Some Panic
  end.

(** Models size, src/oc_tree.rs:45-50,154-186. *)
Fixpoint oc_size (t : octree) : nat :=
  match t with
  | ONone => 0
  | OLeaf _ => 1
  | ONode cs => fold_right (fun n s => oc_size n + s)%nat 0%nat cs
  end.

(** `P::default()` then `p.from(&c)`, src/oc_tree.rs:358-359. *)
Context (of_pos : pt3 NM -> P).

(** Models OcNode::collect and collect_center_or_all, src/oc_tree.rs:313-365; returns
    the new result vector. *)
Fixpoint oc_collect (dbg : bool) (depth maxdepth : Z) (t : octree) (pc : list P) : res (list P) :=
  let only_collect_centers := (0 <=? maxdepth)%Z && (maxdepth <? depth)%Z in
  match t with
  | ONone => Ok pc
  | OLeaf p => Ok (pc ++ [p])
  | ONode cs =>
      (fix go (cs : list octree) (pc : list P) : res (list P) :=
         match cs with
         | [] => Ok pc
         | ONone :: r => go r pc
         | n :: r =>
             obind (i8_inc dbg depth) (fun d =>
             if only_collect_centers then
               obind (oc_collect dbg d maxdepth n []) (fun sub =>
               match pc3_cog (map pos sub) with
               | Some c => go r (pc ++ [of_pos c])
               | None => go r pc
               end)
             else obind (oc_collect dbg d maxdepth n pc) (fun pc => go r pc))
         end) cs pc
  end.
(** Models collect, src/oc_tree.rs:78-84. *)
Definition oc_collect_api (dbg : bool) (maxdepth : Z) (t : octree) : res (list P) :=
  oc_collect dbg 0 maxdepth t [].
(** Models to_pointcloud, src/oc_tree.rs:52-54. *)
Definition oc_to_pointcloud (dbg : bool) (t : octree) : res (list P) := oc_collect_api dbg (-1) t.
End Oc.
Arguments octree : clear implicits.
