(** PointCloud3Df32, src/point_cloud_3d_f32.rs: a point cloud kept as a flat vector of f32. *)
From Verif Require Import Base Num BBoxModel ByteModel.
From Coq Require Import Floats.SpecFloat.
Open Scope N_scope.

(** Models PointCloud3Df32, src/point_cloud_3d_f32.rs:35-41: its data field, a vector of f32. *)
Definition fcloud : Type := list spec_float.

(** Models new, src/point_cloud_3d_f32.rs:48-53 (with_capacity, 55-60, differs in the allocation only). *)
Definition fc_new : fcloud := [].
(** Models the conversions from and into Vec<f32>, src/point_cloud_3d_f32.rs:182-201. *)
Definition fc_from (data : list spec_float) : fcloud := data.
(** Models into, src/point_cloud_3d_f32.rs:186-188. *)
Definition fc_into (d : fcloud) : list spec_float := d.
(** Models push and push_d, src/point_cloud_3d_f32.rs:69-73,91-95. *)
Definition fc_push (d : fcloud) (p : pt3 F64) : fcloud := d ++ [narrow (px p); narrow (py p); narrow (pz p)].
(** Models len_d, src/point_cloud_3d_f32.rs:87-89. *)
Definition fc_len (d : fcloud) : N := lenN d / 3.
(** The usize expression `3 * index + k` of src/point_cloud_3d_f32.rs:99-101,106-108: it wraps in a release
    build and panics in a debug build ([dbg]). *)
Definition fc_at (dbg : bool) (index k : N) : res N :=
  if dbg && (2 ^ 64 <=? 3 * index + k) then Panic else Ok (w64 (w64 (3 * index) + k)).
(** One `*self.data.get(3 * index + k)? as f64`, src/point_cloud_3d_f32.rs:99-101; None is the early return. *)
Definition fc_coord (dbg : bool) (d : fcloud) (index k : N) : res (option (T F64)) :=
  obind (fc_at dbg index k) (fun i => Ok (option_map widen (nthN d i))).
(** Models get_d, src/point_cloud_3d_f32.rs:97-103. *)
Definition fc_get (dbg : bool) (d : fcloud) (index : N) : res (option (pt3 F64)) :=
  obind (fc_coord dbg d index 0) (fun ox => match ox with None => Ok None | Some x =>
  obind (fc_coord dbg d index 1) (fun oy => match oy with None => Ok None | Some y =>
  obind (fc_coord dbg d index 2) (fun oz => match oz with None => Ok None | Some z => Ok (Some (mk3 x y z)) end) end) end).
(** One `self.data[3 * index + k] = v as f32`, src/point_cloud_3d_f32.rs:106-108: the data and how it ends. *)
Definition fc_put (dbg : bool) (d : fcloud) (index k : N) (v : T F64) : fcloud * res unit :=
  match fc_at dbg index k with
  | Ok i => if i <? lenN d then (setN d i (narrow v), Ok tt) else (d, Panic)
  | _ => (d, Panic)
  end.
(** Models set_d, src/point_cloud_3d_f32.rs:105-109. *)
Definition fc_set (dbg : bool) (d : fcloud) (index : N) (p : pt3 F64) : fcloud * res unit :=
  match fc_put dbg d index 0 (px p) with
  | (d1, Ok _) => match fc_put dbg d1 index 1 (py p) with
                  | (d2, Ok _) => fc_put dbg d2 index 2 (pz p)
                  | r => r
                  end
  | r => r
  end.
(** `+=` of two f32, src/point_cloud_3d_f32.rs:118-120. *)
Definition add32 (a b : spec_float) : spec_float := SFadd 24 128 a b.
(** Models move_by, src/point_cloud_3d_f32.rs:116-122; the loop over the indices is written as a recursion
    taking three values at a time. *)
Fixpoint fc_move_by (d : fcloud) (x y z : T F64) : fcloud :=
  match d with
  | a :: b :: c :: r => add32 a (narrow x) :: add32 b (narrow y) :: add32 c (narrow z) :: fc_move_by r x y z
  | _ => d
  end.
(** The triples `[d[3 * i + 0], d[3 * i + 1], d[3 * i + 2]]`, src/point_cloud_3d_f32.rs:145, for i in 0..n_p; the
    three f32 are put into a record of three floats. *)
Fixpoint fc_triples (d : fcloud) : list (pt3 F64) :=
  match d with
  | a :: b :: c :: r => @mk3 F64 a b c :: fc_triples r
  | _ => []
  end.
(** Models the loop of bounding_box_maybe, src/point_cloud_3d_f32.rs:144-164 (comparisons of f32). *)
Fixpoint fc_box_loop (ps : list (pt3 F64)) (mn mx : pt3 F64) : pt3 F64 * pt3 F64 :=
  match ps with
  | [] => (mn, mx)
  | p :: r =>
      fc_box_loop r
        (@mk3 F64 (if (px p < px mn)%num then px p else px mn)
                  (if (py p < py mn)%num then py p else py mn)
                  (if (pz p < pz mn)%num then pz p else pz mn))
        (@mk3 F64 (if (px p > px mx)%num then px p else px mx)
                  (if (py p > py mx)%num then py p else py mx)
                  (if (pz p > pz mx)%num then pz p else pz mx))
  end.
(** `as f64` of the three values of a corner, src/point_cloud_3d_f32.rs:167-176. *)
Definition widen3 (p : pt3 F64) : pt3 F64 := mk3 (widen (px p)) (widen (py p)) (widen (pz p)).
(** Models bounding_box_maybe, src/point_cloud_3d_f32.rs:129-179. *)
Definition fc_bounding_box_maybe (d : fcloud) : option (bb3 F64) :=
  if lenN d / 3 <=? 2 then None
  else match fc_triples d with
       | p :: r => let '(mn, mx) := fc_box_loop r p p in to_option (bb3_new (widen3 mn) (widen3 mx))
       | [] => None
       end.

(** ** A program using the cloud *)
(** The operations of the traits IsPushable and IsDataContainer, src/point_cloud_3d_f32.rs:65-110, and of
    IsMovable3D, 112-123. *)
Inductive fop : Type := FPush (p : pt3 F64) | FSet (index : N) (p : pt3 F64).
(** A sequence of operations; it stops at the first panic (language level). *)
Fixpoint fc_run (dbg : bool) (d : fcloud) (ops : list fop) : res fcloud :=
  match ops with
  | [] => Ok d
  | FPush p :: r => fc_run dbg (fc_push d p) r
  | FSet i p :: r => match fc_set dbg d i p with (d', Ok _) => fc_run dbg d' r | (_, _) => Panic end
  end.
