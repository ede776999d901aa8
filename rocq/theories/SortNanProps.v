(** Sorting clouds with coordinates that are not numbers (more of C93). *)
From Verif Require Import Base BaseLemmas Num NumLemmas SortSpec SortLemmas BBoxModel GeomSpec CloudModel CloudSpec CloudLemmas.
From Coq Require Import Floats.SpecFloat Sorting.Permutation Sorting.Sorted.

Lemma nan_cmp (a b : T F64) : a = S754_nan -> @ncmp F64 a b = None.
Proof. intros ->. reflexivity. Qed.

(** If one coordinate is NaN in all points, sorting by it sorts by the next one (x, y, z and around), and if that one
    is NaN as well by the one after; the other coordinates may be anything. *)
Theorem C93_nan_3d : forall sort, sort_ok sort -> forall (ps : list (pt3 F64)) d axes k ax,
  nth_error [[px; py; pz]; [py; pz; px]; [pz; px; py]] (N.to_nat d) = Some axes -> nth_error axes k = Some ax ->
  (forall j bx p, (j < k)%nat -> nth_error axes j = Some bx -> In p ps -> bx p = S754_nan) -> (forall p, In p ps -> number (ax p)) ->
  exists qs, pc3_sort_dim sort ps d = Ok qs /\ Permutation ps qs /\ StronglySorted (fun p q => fle (ax p) (ax q)) qs /\
    forall p, In p ps -> filter (fun q => neqb (ax p) (ax q)) qs = filter (fun q => neqb (ax p) (ax q)) ps.
Proof.
  intros sort SO ps d axes k ax D K B NU.
  assert (G : forall cmp, (forall a b, In a ps -> In b ps -> cmp a b = cmp_or_eq (ncmp (ax a) (ax b))) -> exists qs, Ok (sort _ cmp ps) = @Ok ErrorKind _ qs /\ Permutation ps qs /\ StronglySorted (fun p q => fle (ax p) (ax q)) qs /\
    forall p, In p ps -> filter (fun q => neqb (ax p) (ax q)) qs = filter (fun q => neqb (ax p) (ax q)) ps).
  { intros cmp E. exists (sort _ cmp ps). split; [reflexivity|]. split; [apply (sort_perm _ SO)|]. apply (sort_by_key SO); assumption. }
  assert (O : forall c a b, In a ps -> In b ps -> or_else_cmp (@ncmp F64 (ax a) (ax b)) c = ncmp (ax a) (ax b)).
  { intros c a b Ia Ib. destruct (num_cmp F64_laws (ax a) (ax b) (NU a Ia) (NU b Ib)) as [o ->]. reflexivity. }
  assert (SK : forall j bx c a b, (j < k)%nat -> nth_error axes j = Some bx -> In a ps -> or_else_cmp (@ncmp F64 (bx a) (bx b)) c = c).
  { intros j bx c a b J E Ia. rewrite (nan_cmp (bx a) (bx b) (B j bx a J E Ia)). reflexivity. }
  assert (DD : d = 0%N \/ d = 1%N \/ d = 2%N) by (assert (N.to_nat d < 3)%nat by (apply (nth_error_Some [[@px F64; py; pz]; [py; pz; px]; [pz; px; py]]); congruence); lia).
  destruct DD as [->|[->| ->]]; cbn in D; injection D as <-; cbn [pc3_sort_dim]; apply G; intros a b Ia Ib;
  destruct k as [|[|[|k]]]; cbn in K; try (destruct k; discriminate K); injection K as <-; unfold cmp3_x, cmp3_y, cmp3_z.
  all: first [rewrite O, O by assumption; reflexivity
    |rewrite (SK 0%nat) by (reflexivity || lia || assumption); rewrite O by assumption; reflexivity
    |rewrite (SK 0%nat) by (reflexivity || lia || assumption); rewrite (SK 1%nat) by (reflexivity || lia || assumption); reflexivity].
Qed.
Print Assumptions C93_nan_3d.
Theorem C93_nan_2d : forall sort, sort_ok sort -> forall (ps : list (pt2 F64)) d axes k ax,
  nth_error [[x2; y2]; [y2; x2]] (N.to_nat d) = Some axes -> nth_error axes k = Some ax ->
  (forall j bx p, (j < k)%nat -> nth_error axes j = Some bx -> In p ps -> bx p = S754_nan) -> (forall p, In p ps -> number (ax p)) ->
  exists qs, pc2_sort_dim sort ps d = Ok qs /\ Permutation ps qs /\ StronglySorted (fun p q => fle (ax p) (ax q)) qs /\
    forall p, In p ps -> filter (fun q => neqb (ax p) (ax q)) qs = filter (fun q => neqb (ax p) (ax q)) ps.
Proof.
  intros sort SO ps d axes k ax D K B NU.
  assert (G : forall cmp, (forall a b, In a ps -> In b ps -> cmp a b = cmp_or_eq (ncmp (ax a) (ax b))) -> exists qs, Ok (sort _ cmp ps) = @Ok ErrorKind _ qs /\ Permutation ps qs /\ StronglySorted (fun p q => fle (ax p) (ax q)) qs /\
    forall p, In p ps -> filter (fun q => neqb (ax p) (ax q)) qs = filter (fun q => neqb (ax p) (ax q)) ps).
  { intros cmp E. exists (sort _ cmp ps). split; [reflexivity|]. split; [apply (sort_perm _ SO)|]. apply (sort_by_key SO); assumption. }
  assert (O : forall c a b, In a ps -> In b ps -> or_else_cmp (@ncmp F64 (ax a) (ax b)) c = ncmp (ax a) (ax b)).
  { intros c a b Ia Ib. destruct (num_cmp F64_laws (ax a) (ax b) (NU a Ia) (NU b Ib)) as [o ->]. reflexivity. }
  assert (SK : forall j bx c a b, (j < k)%nat -> nth_error axes j = Some bx -> In a ps -> or_else_cmp (@ncmp F64 (bx a) (bx b)) c = c).
  { intros j bx c a b J E Ia. rewrite (nan_cmp (bx a) (bx b) (B j bx a J E Ia)). reflexivity. }
  assert (DD : d = 0%N \/ d = 1%N) by (assert (N.to_nat d < 2)%nat by (apply (nth_error_Some [[@x2 F64; y2]; [y2; x2]]); congruence); lia).
  destruct DD as [->| ->]; cbn in D; injection D as <-; cbn [pc2_sort_dim]; apply G; intros a b Ia Ib;
  destruct k as [|[|k]]; cbn in K; try (destruct k; discriminate K); injection K as <-; unfold cmp2_x, cmp2_y.
  all: first [rewrite O by assumption; reflexivity|rewrite (SK 0%nat) by (reflexivity || lia || assumption); reflexivity].
Qed.
Print Assumptions C93_nan_2d.
(** Two points without x, out of order in y. *)
Example C93_nan_case : let a := @mk3 F64 S754_nan (fz 2) (fz 0) in let b := @mk3 F64 S754_nan (fz 1) (fz 5) in
  (forall j bx p, (j < 1)%nat -> nth_error [@px F64; py; pz] j = Some bx -> In p [a; b] -> bx p = S754_nan) /\
  (forall p, In p [a; b] -> number (py p)) /\ cmp3_x a b = Gt.
Proof.
  cbv zeta. split; [|split; [|vmeq]].
  - intros [|j] bx p J E I; [|lia]. cbn in E. injection E as <-. destruct I as [<-|[<-|[]]]; reflexivity.
  - intros p [<-|[<-|[]]]; intros H; vm_compute in H; discriminate H.
Qed.
