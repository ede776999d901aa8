From Verif Require Import Base BaseLemmas Num MatrixModel IoModel IoSpec IoLemmas ByteModel MeshModel StlModel PlyModel ScanModel ScannerModel ReaderModel ReaderSpec ReaderLemmas.
From Coq Require Import Lia Wf_nat.

(** ** Binary data *)
Definition ended (tail : reader) : Prop := tail = [] \/ exists r2, tail = Failure :: r2.
Lemma exact_enough tail r b : holds tail r b -> forall n acc, (n <= length b)%nat -> exists r', read_exact_from n acc r = (Some (acc ++ firstn n b), r') /\ holds tail r' (skipn n b).
Proof.
  induction 1 as [|r b H IH|c r b NE H IH]; intros n acc L.
  - cbn in L. destruct n; [|lia]. exists tail. cbn [firstn skipn]. rewrite app_nil_r. split; [destruct tail; reflexivity|constructor].
  - destruct n as [|n]; [exists (Interrupted :: r); cbn; rewrite app_nil_r; split; [reflexivity|constructor; exact H]|]. cbn [read_exact_from]. apply IH. exact L.
  - destruct n as [|n]; [exists (Chunk c :: r); cbn [read_exact_from firstn skipn]; rewrite app_nil_r; split; [reflexivity|constructor; assumption]|].
    cbn [read_exact_from]. destruct c as [|c0 c]; [congruence|]. set (cc := c0 :: c) in *. destruct (S n <=? length cc)%nat eqn:Q.
    + apply Nat.leb_le in Q. eexists. split; [rewrite firstn_app; replace (S n - length cc)%nat with 0%nat by lia; cbn [firstn]; rewrite app_nil_r; reflexivity|].
      rewrite skipn_app. replace (S n - length cc)%nat with 0%nat by lia. cbn [skipn]. apply (holds_put tail (skipn (S n) cc) r b H).
    + apply Nat.leb_gt in Q. rewrite app_length in L. destruct (IH (S n - length cc)%nat (acc ++ cc)) as (r' & E & H'); [lia|]. exists r'. split.
      * etransitivity; [exact E|]. rewrite firstn_app, (firstn_all2 cc) by lia. rewrite <- app_assoc. reflexivity.
      * rewrite skipn_app, (skipn_all2 cc) by lia. exact H'.
Qed.
Lemma exact_short tail r b : ended tail -> holds tail r b -> forall n acc, (length b < n)%nat -> fst (read_exact_from n acc r) = None.
Proof.
  intros T. induction 1 as [|r b H IH|c r b NE H IH]; intros n acc L; (destruct n as [|n]; [cbn in L; lia|]).
  - destruct T as [-> | (r2 & ->)]; reflexivity.
  - cbn [read_exact_from]. apply IH. exact L.
  - cbn [read_exact_from]. destruct c as [|c0 c]; [congruence|]. set (cc := c0 :: c) in *. rewrite app_length in L. destruct (S n <=? length cc)%nat eqn:Q; [apply Nat.leb_le in Q; lia|].
    apply Nat.leb_gt in Q. apply (IH (S n - length cc)%nat (acc ++ cc)). lia.
Qed.
Section Tail.
Variable tail : reader.
Hypothesis T : ended tail.
Definition bsim {E A} (o1 : outcome E (A * reader)) (o2 : outcome E (A * bytes)) : Prop :=
  match o1, o2 with
  | Ok (a, r), Ok (b, s) => a = b /\ holds tail r s
  | Err e, Err f => e = f
  | Panic, Panic => True
  | _, _ => False
  end.
Lemma exact_sim {E} (e : E) n r b : holds tail r b ->
  match take_bytes n b with
  | Some (x, s) => exists r', exact_from e n r = Ok (x, r') /\ holds tail r' s
  | None => exact_from e n r = Err e
  end.
Proof.
  intros H. unfold take_bytes, exact_from. destruct (length b <? n)%nat eqn:Q.
  - apply Nat.ltb_lt in Q. pose proof (exact_short tail r b T H n [] Q) as S. destruct (read_exact_from n [] r) as [o r']. cbn in S. subst o. reflexivity.
  - apply Nat.ltb_ge in Q. destruct (exact_enough tail r b H n [] Q) as (r' & -> & H'). exists r'. split; [reflexivity|exact H'].
Qed.
(** a value that is made of the first [n] bytes *)
Definition local {E A} (e : E) (n : nat) (value : bytes -> outcome E (A * bytes)) : Prop :=
  forall s, match take_bytes n s with
            | None => value s = Err e
            | Some (x, s') => match value x with Ok (a, _) => value s = Ok (a, s') | Err f => value s = Err f | Panic => value s = Panic end
            end.
Lemma value_sim {E A} (e : E) n (value : bytes -> outcome E (A * bytes)) r b : local e n value -> holds tail r b -> bsim (value_from e n value r) (value b).
Proof.
  intros L H. unfold value_from. pose proof (exact_sim e n r b H) as X. specialize (L b). destruct (take_bytes n b) as [[x s]|].
  - destruct X as (r' & -> & H'). cbn [obind]. destruct (value x) as [[a s0]|f|]; cbn [obind]; rewrite L; cbn; auto.
  - rewrite X, L. reflexivity.
Qed.
Lemma bsim_bind {E A B} (x1 : outcome E (A * reader)) (x2 : outcome E (A * bytes)) (f1 : A * reader -> outcome E (B * reader)) (f2 : A * bytes -> outcome E (B * bytes)) :
  bsim x1 x2 -> (forall a r s, holds tail r s -> bsim (f1 (a, r)) (f2 (a, s))) -> bsim (obind x1 f1) (obind x2 f2).
Proof. intros S F. destruct x1 as [[a r]|e|], x2 as [[b s]|e'|]; cbn in S; try contradiction; cbn [obind]; [destruct S as [-> S]; apply F; exact S|exact S|exact I]. Qed.
Lemma exact_psl n r b : holds tail r b -> forall {B} (f1 : bytes * reader -> outcome PslError (B * reader)) (f2 : bytes -> outcome PslError (B * bytes)),
  (forall x r s, holds tail r s -> bsim (f1 (x, r)) (f2 s)) -> bsim (obind (exact_from PslAccessFile n r) f1) (obind (psl_skip n b) f2).
Proof.
  intros H B f1 f2 F. pose proof (exact_sim PslAccessFile n r b H) as X. unfold psl_skip. destruct (take_bytes n b) as [[x s]|].
  - destruct X as (r' & -> & H'). cbn [obind]. apply F. exact H'.
  - rewrite X. reflexivity.
Qed.
Lemma take_self n (x : bytes) : length x = n -> take_bytes n x = Some (x, []).
Proof. intros <-. unfold take_bytes. rewrite Nat.ltb_irrefl, firstn_all, skipn_all. reflexivity. Qed.
Lemma take_length n s x s' : take_bytes n s = Some (x, s') -> length x = n.
Proof. unfold take_bytes. destruct (length s <? n)%nat eqn:Q; [discriminate|]. apply Nat.ltb_ge in Q. intros E. injection E as <- _. apply firstn_length_le. exact Q. Qed.
Lemma uint_local en n s : match take_bytes n s with
  | None => read_uint en n s = None
  | Some (x, s') => exists v, read_uint en n x = Some (v, []) /\ read_uint en n s = Some (v, s')
  end.
Proof.
  unfold read_uint. destruct (take_bytes n s) as [[x s']|] eqn:E; [|reflexivity]. rewrite (take_self n x (take_length n s x s' E)). eauto.
Qed.
Ltac loc := intros s; match goal with |- match take_bytes ?n _ with _ => _ end => pose proof (uint_local Little n s) as U end.
Lemma psl_i32_local : local PslAccessFile 4 psl_i32.
Proof. intros s. pose proof (uint_local Little 4 s) as U. unfold psl_i32, read_signed. destruct (take_bytes 4 s) as [[x s']|]; [destruct U as (v & -> & ->); reflexivity|rewrite U; reflexivity]. Qed.
Lemma psl_f32_local : local PslAccessFile 4 psl_f32.
Proof. intros s. pose proof (uint_local Little 4 s) as U. unfold psl_f32, read_f32. destruct (take_bytes 4 s) as [[x s']|]; [destruct U as (v & -> & ->); reflexivity|rewrite U; reflexivity]. Qed.
Ltac pv L := apply bsim_bind; [apply value_sim; [exact L|assumption]|intros ? ? ? ?].
Ltac pe := apply exact_psl; [assumption|intros ? ? ? ?].
Lemma psl_header_sim r b : holds tail r b -> bsim (psl_header_from r) (psl_header b).
Proof. intros H. unfold psl_header_from, psl_header. pe. pv psl_i32_local. pe. pv psl_i32_local. pv psl_i32_local. pe. cbn. auto. Qed.
Lemma psl_pass_sim r b : holds tail r b -> bsim (psl_pass_from r) (psl_pass b).
Proof. intros H. unfold psl_pass_from, psl_pass. pv psl_i32_local. pv psl_i32_local. pe. cbn. auto. Qed.
Lemma psl_line_sim r b : holds tail r b -> bsim (psl_line_from r) (psl_line b).
Proof. intros H. unfold psl_line_from, psl_line. pv psl_i32_local. pe. pe. cbn. auto. Qed.
Lemma psl_point_sim r b : holds tail r b -> bsim (psl_point_from r) (psl_point b).
Proof. intros H. unfold psl_point_from, psl_point. pv psl_f32_local. pv psl_f32_local. pv psl_f32_local. cbn. auto. Qed.
Inductive psl_sim : psl_reader -> psl_state -> Prop :=
| psl_sim_intro r b d i x y z : holds tail r b -> psl_sim (mkpslr r d i x y z) (mkpsl b d i x y z).
Lemma psl_counts_sim s1 s2 : psl_sim s1 s2 -> osim psl_sim (psl_counts_from s1) (psl_counts s2).
Proof.
  destruct 1 as [r b d i x y z H]. unfold psl_counts_from, psl_counts.
  assert (S : bsim (if (y =? 0)%Z && (x >? 0)%Z then psl_pass_from r else Ok (0%Z, r)) (if (y =? 0)%Z && (x >? 0)%Z then psl_pass b else Ok (0%Z, b))) by (destruct ((y =? 0)%Z && (x >? 0)%Z); [apply psl_pass_sim; exact H|cbn; auto]).
  destruct (if (y =? 0)%Z && (x >? 0)%Z then psl_pass_from r else Ok (0%Z, r)) as [[l1 r1]|e|], (if (y =? 0)%Z && (x >? 0)%Z then psl_pass b else Ok (0%Z, b)) as [[l2 b2]|e'|]; cbn in S; try contradiction; cbn [obind]; [|exact S|exact I].
  destruct S as [-> S].
  assert (S2 : bsim (if (z =? 0)%Z && (l2 >? 0)%Z then psl_line_from r1 else Ok (0%Z, r1)) (if (z =? 0)%Z && (l2 >? 0)%Z then psl_line b2 else Ok (0%Z, b2))) by (destruct ((z =? 0)%Z && (l2 >? 0)%Z); [apply psl_line_sim; exact S|cbn; auto]).
  destruct (if (z =? 0)%Z && (l2 >? 0)%Z then psl_line_from r1 else Ok (0%Z, r1)) as [[l3 r3]|e|], (if (z =? 0)%Z && (l2 >? 0)%Z then psl_line b2 else Ok (0%Z, b2)) as [[l4 b4]|e'|]; cbn in S2; try contradiction; cbn [obind]; [|exact S2|exact I].
  destruct S2 as [-> S2]. cbn. constructor. exact S2.
Qed.
Lemma psl_reduce_sim s1 s2 : psl_sim s1 s2 -> psl_sim (psl_reduce_from s1) (psl_reduce s2).
Proof. destruct 1 as [r b d i x y z H]. unfold psl_reduce_from, psl_reduce. destruct (z >? 0)%Z, (y >? 0)%Z, (x >? 0)%Z; constructor; exact H. Qed.
Lemma psl_next_sim s1 s2 : psl_sim s1 s2 -> fst (psl_next_from s1) = fst (psl_next s2) /\ (forall a, fst (psl_next_from s1) = Some (Ok a) -> psl_sim (snd (psl_next_from s1)) (snd (psl_next s2))).
Proof.
  intros HS. unfold psl_next_from, psl_next.
  assert (I0 : osim psl_sim (if pslr_init s1 then Ok s1 else obind (psl_header_from (pslr_read s1)) (fun '(n, r) => Ok (mkpslr r false true n (pslr_lines s1) (pslr_points s1))))
                            (if psl_init s2 then Ok s2 else obind (psl_header (psl_read s2)) (fun '(n, r) => Ok (mkpsl r false true n (psl_lines s2) (psl_points s2))))).
  { destruct HS as [r b d i x y z H]. cbn [pslr_init psl_init pslr_read psl_read pslr_lines psl_lines pslr_points psl_points]. destruct i; [cbn; constructor; exact H|].
    pose proof (psl_header_sim r b H) as S. destruct (psl_header_from r) as [[n1 r1]|e|], (psl_header b) as [[n2 b2]|e'|]; cbn in S; try contradiction; cbn; [destruct S as [-> S]; constructor; exact S|exact S|exact I]. }
  assert (D : pslr_done s1 = psl_done s2) by (destruct HS; reflexivity). rewrite D. destruct (psl_done s2); [split; [reflexivity|discriminate]|].
  destruct (if pslr_init s1 then _ else _) as [t1|e|], (if psl_init s2 then _ else _) as [t2|e'|]; cbn in I0; try contradiction; [|subst; split; [reflexivity|discriminate]|split; [reflexivity|discriminate]].
  pose proof (psl_counts_sim t1 t2 I0) as C. destruct (psl_counts_from t1) as [u1|e|], (psl_counts t2) as [u2|e'|]; cbn in C; try contradiction; [|subst; split; [reflexivity|discriminate]|split; [reflexivity|discriminate]].
  assert (Q : pslr_points u1 = psl_points u2) by (destruct C; reflexivity). rewrite Q. destruct (psl_points u2 =? 0)%Z; [split; [reflexivity|discriminate]|].
  pose proof (psl_reduce_sim u1 u2 C) as V. destruct V as [r b d i x y z H]. cbn [pslr_read psl_read pslr_init psl_init pslr_passes psl_passes pslr_lines psl_lines pslr_points psl_points].
  pose proof (psl_point_sim r b H) as S. destruct (psl_point_from r) as [[p1 r1]|e|], (psl_point b) as [[p2 b2]|e'|]; cbn in S; try contradiction; cbn [fst snd]; [|subst; split; [reflexivity|discriminate]|split; [reflexivity|discriminate]].
  destruct S as [-> S]. split; [reflexivity|]. intros a _. constructor. exact S.
Qed.
Lemma psl_load_sim k r b : holds tail r b -> load_psl_from k r = load_psl k b.
Proof. intros H. apply (load_loop_sim psl_sim); [apply psl_next_sim|constructor; exact H]. Qed.

(** ** Binary stl *)
Lemma u32_local : local StlAccessFile 4 (fun b => ok_or (read_unsigned Little 4 b) StlAccessFile).
Proof. intros s. pose proof (uint_local Little 4 s) as U. unfold read_unsigned. destruct (take_bytes 4 s) as [[x s']|]; [destruct U as (v & -> & ->); reflexivity|rewrite U; reflexivity]. Qed.
Lemma triangle_local : local StlAccessFile 50 read_stl_triangle.
Proof.
  intros s. unfold read_stl_triangle. destruct (take_bytes 50 s) as [[x s']|] eqn:E; [|reflexivity]. rewrite (take_self 50 x (take_length 50 s x s' E)).
  destruct (stl_array x 0 12) as [n|e|]; cbn [obind]; try reflexivity. destruct (stl_array x 12 24) as [a|e|]; cbn [obind]; try reflexivity.
  destruct (stl_array x 24 36) as [b|e|]; cbn [obind]; try reflexivity. destruct (stl_array x 36 48) as [c|e|]; reflexivity.
Qed.
Inductive sb_sim : stl_binary_reader -> stl_binary -> Prop :=
| sb_sim_intro r b d h n c : holds tail r b -> sb_sim (mksbr r d h n c) (mksb b d h n c).
Lemma sb_next_sim s1 s2 : sb_sim s1 s2 -> fst (stl_binary_next_from s1) = fst (stl_binary_next s2) /\ (forall a, fst (stl_binary_next_from s1) = Some (Ok a) -> sb_sim (snd (stl_binary_next_from s1)) (snd (stl_binary_next s2))).
Proof.
  destruct 1 as [r b d h n c H]. unfold stl_binary_next_from, stl_binary_next. cbn [sbr_read sbr_done sbr_header sbr_n sbr_current sb_read sb_done sb_header sb_n sb_current].
  destruct d; [split; [reflexivity|discriminate]|]. destruct h; cbn [negb].
  - destruct (c <? n)%N; [|split; [reflexivity|discriminate]]. pose proof (value_sim StlAccessFile 50 read_stl_triangle r b triangle_local H) as S.
    destruct (value_from StlAccessFile 50 read_stl_triangle r) as [[f1 r1]|e|], (read_stl_triangle b) as [[f2 b2]|e'|]; cbn in S; try contradiction; cbn [fst snd]; [|subst; split; [reflexivity|discriminate]|split; [reflexivity|discriminate]].
    destruct S as [-> S]. split; [reflexivity|]. intros a _. constructor. exact S.
  - pose proof (exact_sim StlAccessFile 75 r b H) as X. destruct (take_bytes 75 b) as [[x s]|]; [|rewrite X; split; [reflexivity|discriminate]]. destruct X as (r' & -> & H'). cbn [obind].
    pose proof (value_sim StlAccessFile 4 _ r' s u32_local H') as S. destruct (value_from StlAccessFile 4 _ r') as [[n1 r1]|e|]; destruct (read_unsigned Little 4 s) as [[n2 b2]|]; cbn in S; try contradiction; cbn [fst snd]; [|subst; split; [reflexivity|discriminate]].
    destruct S as [-> S]. destruct (max_triangles <? n2)%N; cbn [fst snd]; (split; [reflexivity|]); [discriminate|]. intros a _. constructor. exact S.
Qed.
Lemma sb_load_sim k r b : holds tail r b -> load_loop stl_binary_next_from k (mksbr r false false 0 0) [] = load_loop stl_binary_next k (mksb b false false 0 0) [].
Proof. intros H. apply (load_loop_sim sb_sim); [apply sb_next_sim|constructor; exact H]. Qed.

(** ** Binary ply *)
Lemma skip_sim n : forall r b, holds tail r b -> match take_bytes n b with
  | Some (_, s) => exists r', skip_bytes_from n r = Ok (tt, r') /\ holds tail r' s
  | None => skip_bytes_from n r = Err PlyAccessFile
  end.
Proof.
  induction n as [|n IH]; intros r b H.
  - unfold take_bytes. cbn. eauto.
  - cbn [skip_bytes_from]. pose proof (exact_sim PlyAccessFile 1 r b H) as X. destruct b as [|c b].
    + cbn in X. rewrite X. reflexivity.
    + change (take_bytes 1 (c :: b)) with (Some ([c], b)) in X. cbn in X. destruct X as (r' & -> & H'). cbn [obind]. specialize (IH r' b H').
      unfold take_bytes in *. change (length (c :: b) <? S n)%nat with (length b <? n)%nat. destruct (length b <? n)%nat; [exact IH|]. cbn [skipn]. exact IH.
Qed.
Lemma skip_bsim n r b : holds tail r b -> forall {B} (f1 : unit * reader -> outcome PlyError (B * reader)) (f2 : bytes -> outcome PlyError (B * bytes)),
  (forall x r s, holds tail r s -> bsim (f1 (x, r)) (f2 s)) -> bsim (obind (skip_bytes_from (N.to_nat n) r) f1) (obind (skip_bytes n b) f2).
Proof.
  intros H B f1 f2 F. pose proof (skip_sim (N.to_nat n) r b H) as X. unfold skip_bytes. destruct (take_bytes (N.to_nat n) b) as [[x s]|].
  - destruct X as (r' & -> & H'). cbn [obind]. apply F. exact H'.
  - rewrite X. reflexivity.
Qed.
Lemma vertex_type_local en t : local PlyAccessFile (match t with VFloat => 4 | VDouble => 8 end) (read_vertex_type en t).
Proof.
  intros s. destruct t; unfold read_vertex_type, read_f32, read_f64.
  - pose proof (uint_local en 4 s) as U. destruct (take_bytes 4 s) as [[x s']|]; [destruct U as (v & -> & ->); reflexivity|rewrite U; reflexivity].
  - pose proof (uint_local en 8 s) as U. destruct (take_bytes 8 s) as [[x s']|]; [destruct U as (v & -> & ->); reflexivity|rewrite U; reflexivity].
Qed.
Lemma face_type_local en t : local PlyAccessFile (match t with PChar | PUChar => 1 | PShort | PUShort => 2 | _ => 4 end) (read_face_type en t).
Proof.
  intros s. destruct t; unfold read_face_type, read_signed, read_unsigned;
    match goal with |- match take_bytes ?n _ with _ => _ end => pose proof (uint_local en n s) as U; destruct (take_bytes n s) as [[x s']|]; [destruct U as (v & -> & ->); reflexivity|rewrite U; reflexivity] end.
Qed.
Ltac ps := apply skip_bsim; [assumption|intros ? ? ? ?].
Lemma binary_vertex_sim en v r b : holds tail r b -> bsim (binary_vertex_from en v r) (binary_vertex en v b).
Proof. intros H. unfold binary_vertex_from, binary_vertex, vertex_type_from. ps. pv (vertex_type_local en (vd_first v)). ps. pv (vertex_type_local en (vd_snd v)). ps. pv (vertex_type_local en (vd_third v)). ps. cbn. auto. Qed.
Lemma binary_face_sim en f r b : holds tail r b -> bsim (binary_face_from en f r) (binary_face en f b).
Proof.
  intros H. unfold binary_face_from, binary_face, face_type_from. ps. pv (face_type_local en (fd_ctype f)). destruct (negb (a =? 3)%N); [reflexivity|].
  pv (face_type_local en (fd_itype f)). pv (face_type_local en (fd_itype f)). pv (face_type_local en (fd_itype f)). ps. cbn. auto.
Qed.
Inductive bs_sim : binary_reader -> binary_state -> Prop :=
| bs_sim_intro r b d c : holds tail r b -> bs_sim (mkbr r d c) (mkbs b d c).
Lemma binary_next_sim {A} count (f1 : reader -> outcome PlyError (A * reader)) (f2 : bytes -> outcome PlyError (A * bytes)) : (forall r b, holds tail r b -> bsim (f1 r) (f2 b)) ->
  forall s1 s2, bs_sim s1 s2 -> fst (binary_next_from count f1 s1) = fst (binary_next count f2 s2) /\ bs_sim (snd (binary_next_from count f1 s1)) (snd (binary_next count f2 s2)).
Proof.
  intros F s1 s2 HS. destruct HS as [r b d c H]. unfold binary_next_from, binary_next. cbn [br_read br_done br_current bs_read bs_done bs_current].
  destruct d; [split; [reflexivity|constructor; exact H]|]. destruct (c <? count)%N; [|split; [reflexivity|constructor; exact H]].
  pose proof (F r b H) as S. destruct (f1 r) as [[a1 r1]|e|], (f2 b) as [[a2 b2]|e'|]; cbn in S; try contradiction; cbn [fst snd]; [destruct S as [-> S]|subst|]; (split; [reflexivity|constructor; assumption]).
Qed.
End Tail.
Inductive msim {S1 S2} (R : S1 -> S2 -> Prop) : mesh_iter S1 -> mesh_iter S2 -> Prop :=
| msim_points a b : R a b -> msim R (IPoints a) (IPoints b)
| msim_faces a b : R a b -> msim R (IFaces a) (IFaces b).
Lemma mesh_next_sim {S1 S2 E} (R : S1 -> S2 -> Prop) (p1 : S1 -> option (outcome E (pt3 F64)) * S1) (p2 : S2 -> option (outcome E (pt3 F64)) * S2) (f1 : S1 -> option (outcome E face3) * S1) (f2 : S2 -> option (outcome E face3) * S2) w1 w2 :
  (forall a b, R a b -> fst (p1 a) = fst (p2 b) /\ R (snd (p1 a)) (snd (p2 b))) -> (forall a b, R a b -> fst (f1 a) = fst (f2 b) /\ R (snd (f1 a)) (snd (f2 b))) -> (forall a b, R a b -> R (w1 a) (w2 b)) ->
  forall s1 s2, msim R s1 s2 -> fst (mesh_next p1 f1 w1 s1) = fst (mesh_next p2 f2 w2 s2) /\ msim R (snd (mesh_next p1 f1 w1 s1)) (snd (mesh_next p2 f2 w2 s2)).
Proof.
  intros HP HF HW s1 s2 [a b H|a b H]; unfold mesh_next.
  - destruct (HP a b H) as (E1 & H1). destruct (p1 a) as [o1 a'], (p2 b) as [o2 b']. cbn [fst snd] in *. subst o2. destruct o1 as [o|]; cbn [fst snd].
    + split; [reflexivity|constructor; exact H1].
    + destruct (HF _ _ (HW a' b' H1)) as (E2 & H2). destruct (f1 (w1 a')) as [q1 a2], (f2 (w2 b')) as [q2 b2]. cbn [fst snd] in *. subst. split; [reflexivity|constructor; exact H2].
  - destruct (HF a b H) as (E2 & H2). destruct (f1 a) as [q1 a2], (f2 b) as [q2 b2]. cbn [fst snd] in *. subst. split; [reflexivity|constructor; exact H2].
Qed.
Lemma simple_next_sim {S1 S2 E A} (R : S1 -> S2 -> Prop) (p1 : S1 -> option (outcome E A) * S1) (p2 : S2 -> option (outcome E A) * S2) :
  (forall a b, R a b -> fst (p1 a) = fst (p2 b) /\ R (snd (p1 a)) (snd (p2 b))) -> forall a b, R a b -> fst (simple_next p1 a) = fst (simple_next p2 b) /\ (forall x, fst (simple_next p1 a) = Some (Ok x) -> R (snd (simple_next p1 a)) (snd (simple_next p2 b))).
Proof.
  intros H a b HR. unfold simple_next. destruct (H a b HR) as (E1 & H1). destruct (p1 a) as [o1 a'], (p2 b) as [o2 b']. cbn [fst snd] in *. subst. split; [reflexivity|]. intros _ _. exact H1.
Qed.
Lemma binary_mesh_sim tail (T : ended tail) en v f s1 s2 : msim (bs_sim tail) s1 s2 ->
  fst (binary_mesh_next_from en v f s1) = fst (binary_mesh_next en v f s2) /\ msim (bs_sim tail) (snd (binary_mesh_next_from en v f s1)) (snd (binary_mesh_next en v f s2)).
Proof.
  apply mesh_next_sim.
  - apply binary_next_sim. intros r b H. apply binary_vertex_sim; assumption.
  - apply binary_next_sim. intros r b H. apply binary_face_sim; assumption.
  - intros a b [r s d c H]. cbn. constructor. exact H.
Qed.
