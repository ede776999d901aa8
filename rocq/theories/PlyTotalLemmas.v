(** Lemmas about truncated files, arbitrary files, writers and load_ply_either. *)
From Verif Require Import Base BaseLemmas Num GeomSpec FloatSpec MeshModel MeshSpec MeshLemmas IoModel IoSpec IoLemmas ByteModel ByteSpec ByteLemmas StlModel StlLemmas PlyModel PlySpec PlyLemmas.
From Coq Require Import ZifyBool ZifyNat ZifyN.
Open Scope nat_scope.

(** ** truncated files *)
Section Cut.
Variables (ft : FText) (cs : list bytes) (ps : list prop) (c1 c2 c3 : Xyz).
Hypothesis CO : coord_order ps = [name_of c1; name_of c2; name_of c3].
Hypothesis D1 : c1 <> c2. Hypothesis D2 : c1 <> c3. Hypothesis D3 : c2 <> c3.
Definition cut_result (rows nv : N) : outcome (with_line PlyError) unit := if (nv <=? rows + 1)%N then Ok tt else Err (WNone LoadVertexCountIncorrect).
Lemma cut_points nv d rows pts k : header_ok cs nv ps d -> (lenN rows < nv)%N -> (24 * nv < 2 ^ 63)%N -> Forall2 (text_row ft ps) rows pts -> length rows < k ->
  load_ply_points ft k (unlines (header_lines FAscii cs nv ps d) ++ unlines (map join rows)) = Some (map (twisted c1 c2 c3) pts, cut_result (lenN rows) nv).
Proof.
  intros H NV R F L. destruct (file_header FAscii cs nv ps d c1 c2 c3 (unlines (map join rows)) H CO D1 D2 D3) as (l & o & E & LO & K1 & K2 & K3 & O & LH).
  unfold load_ply_points. rewrite LH. unfold reserve. cbn [vd_count lay_data]. apply N.ltb_lt in R. rewrite R. rewrite E in F. destruct (rows_yield ft l nv o rows pts [] LO F) as (Y & RL). rewrite app_nil_r in RL. rewrite RL.
  pose proof (Forall2_lenN _ _ _ F) as LP. change (raw_lines []) with (@nil bytes).
  pose proof (ascii_points_yield ft (lay_data l nv o) _ _ [] Y 0 (lenN (header_lines FAscii cs nv ps d))) as YY. rewrite map_lenN in YY. specialize (YY ltac:(cbn [vd_count lay_data]; lia)).
  replace k with (length (map (twist l o) pts) + S (k - 1 - length rows)) by (rewrite map_length; unfold lenN in LP; lia). rewrite (yields_load _ _ _ _ YY). cbn [load_loop]. rewrite ascii_points_eof by (cbn [vd_count lay_data]; lia).
  cbn [vd_count lay_data app]. rewrite N.add_0_l, <- LP. unfold cut_result. replace (map (twisted c1 c2 c3) pts) with (map (twist l o) pts) by (apply map_ext; intros p; unfold twisted, twist; rewrite O, K1, K2, K3; reflexivity).
  destruct (N.eqb_spec (lenN rows + 1) nv), (N.leb_spec nv (lenN rows + 1)); first [reflexivity|lia].
Qed.
Lemma cut_mesh nv d rows pts k : header_ok cs nv ps (Some d) -> (lenN rows < nv)%N -> fits nv (d_count d) -> Forall2 (text_row ft ps) rows pts -> length rows < k ->
  exists m, load_ply_mesh ft k (unlines (header_lines FAscii cs nv ps (Some d)) ++ unlines (map join rows)) = Some (m, cut_result (lenN rows) nv) /\ shows m (MSpec (map (twisted c1 c2 c3) pts) []).
Proof.
  intros H NV R F L. destruct (file_header FAscii cs nv ps (Some d) c1 c2 c3 (unlines (map join rows)) H CO D1 D2 D3) as (l & o & E & LO & K1 & K2 & K3 & O & LH).
  unfold load_ply_mesh. rewrite LH. cbn [option_map]. cbn [vd_count lay_data fd_count decl_data]. rewrite (reserve_ok _ _ R). pose proof (Forall2_lenN _ _ _ F) as LP.
  assert (TW : map (twisted c1 c2 c3) pts = map (twist l o) pts) by (apply map_ext; intros p; unfold twisted, twist; rewrite O, K1, K2, K3; reflexivity). rewrite TW.
  rewrite E in F. destruct (rows_yield ft l nv o rows pts [] LO F) as (Y & RL). rewrite app_nil_r in RL. rewrite RL. change (raw_lines []) with (@nil bytes).
  pose proof (ascii_points_yield ft (lay_data l nv o) _ _ [] Y 0 (lenN (header_lines FAscii cs nv ps (Some d)))) as YY. rewrite map_lenN in YY. specialize (YY ltac:(cbn [vd_count lay_data]; lia)).
  pose proof (ascii_points_eof ft (lay_data l nv o) (lenN pts) (lenN (header_lines FAscii cs nv ps (Some d)) + lenN pts)) as EO. cbn [vd_count lay_data] in EO. specialize (EO ltac:(lia)).
  unfold cut_result. destruct (N.leb_spec nv (lenN rows + 1)) as [G|G].
  - assert (NE : (lenN pts + 1 =? nv)%N = true) by (apply N.eqb_eq; lia). rewrite NE in EO.
    refine (load_mesh _ _ (fun s => mkas (as_read s) false 0 (as_line s)) _ _ _ (mkas [] true (lenN pts + 1) (lenN (header_lines FAscii cs nv ps (Some d)) + lenN pts)) [] _ k YY EO (YNil _ _) _ _ _).
    + cbn [as_read as_line]. apply ascii_faces_eof. cbn [fd_count decl_data]. lia.
    + intros a b c [].
    + rewrite map_length. unfold lenN in LP. cbn [length]. lia.
  - assert (NE : (lenN pts + 1 =? nv)%N = false) by (apply N.eqb_neq; lia). rewrite NE in EO.
    assert (ZM : forall Q sw s us s', yields (ascii_points_next ft (lay_data l nv o)) s us s' -> yields (mesh_next (ascii_points_next ft (lay_data l nv o)) Q sw) (IPoints s) (map MPoint us) (IPoints s')).
    { intros Q sw s us s' Z. induction Z as [|s a s1 us s2 E2 Z IH]; [constructor|]. cbn [map]. eapply YCons; [|exact IH]. cbn [mesh_next]. rewrite E2. reflexivity. }
    exists (Mesh (map (twist l o) pts) []). split; [|apply abs_shows; [split; reflexivity|intros a b c []]].
    replace k with (length (map MPoint (map (twist l o) pts)) + S (k - 1 - length rows)) by (rewrite !map_length; unfold lenN in LP; lia).
    unfold ascii_mesh_next. etransitivity; [apply (yields_fold _ _ _ _ _ (ZM _ _ _ _ _ YY)); apply (add_points (map (twist l o) pts) mesh_empty)|].
    cbn [fold_loop mesh_next]. rewrite N.add_0_l, EO. reflexivity.
Qed.
Lemma cut_faces nv d rows pts fs k : header_ok cs nv ps (Some d) -> nv = lenN rows -> (lenN fs <= d_count d)%N -> fits nv (d_count d) -> Forall2 (text_row ft ps) rows pts -> faces_ok (MSpec (map (twisted c1 c2 c3) pts) fs) -> length rows + length fs < k ->
  exists m, load_ply_mesh ft k (unlines (header_lines FAscii cs nv ps (Some d)) ++ unlines (map join rows) ++ unlines (map face_text fs)) = Some (m, Ok tt) /\ shows m (MSpec (map (twisted c1 c2 c3) pts) fs).
Proof.
  intros H NV NF R F OK L. destruct (file_header FAscii cs nv ps (Some d) c1 c2 c3 (unlines (map join rows) ++ unlines (map face_text fs)) H CO D1 D2 D3) as (l & o & E & LO & K1 & K2 & K3 & O & LH).
  unfold load_ply_mesh. rewrite LH. cbn [option_map]. cbn [vd_count lay_data fd_count decl_data]. rewrite (reserve_ok _ _ R). pose proof (Forall2_lenN _ _ _ F) as LP.
  assert (TW : map (twisted c1 c2 c3) pts = map (twist l o) pts) by (apply map_ext; intros p; unfold twisted, twist; rewrite O, K1, K2, K3; reflexivity). rewrite TW in *.
  assert (FB : Forall (fun '(a, b, c) => a < 2 ^ 64 /\ b < 2 ^ 64 /\ c < 2 ^ 64)%N fs).
  { apply Forall_forall. intros [[a b] c] I. destruct (OK a b c I) as (RA & RB & RC & _). unfold in_range in *. cbn [svs] in *. rewrite map_length in *. destruct H as (_ & V & _). unfold lenN in *. lia. }
  rewrite E in F. destruct (rows_yield ft l nv o rows pts (unlines (map face_text fs)) LO F) as (Y & RL). rewrite RL. destruct (faces_yield fs [] FB) as (Z & RF). rewrite app_nil_r in RF. rewrite RF. change (raw_lines []) with (@nil bytes).
  pose proof (ascii_points_yield ft (lay_data l nv o) _ _ (map (fun f => face_text f ++ [nl]) fs ++ []) Y 0 (lenN (header_lines FAscii cs nv ps (Some d)))) as YY. rewrite map_lenN in YY. specialize (YY ltac:(cbn [vd_count lay_data]; lia)).
  pose proof (ascii_faces_yield (decl_data d) _ _ [] Z 0 (lenN (header_lines FAscii cs nv ps (Some d)) + lenN pts)%N) as ZZ. specialize (ZZ ltac:(cbn [fd_count decl_data]; lia)).
  refine (load_mesh _ _ (fun s => mkas (as_read s) false 0 (as_line s)) _ _ _ (mkas (map (fun f => face_text f ++ [nl]) fs ++ []) true (0 + lenN pts) (lenN (header_lines FAscii cs nv ps (Some d)) + lenN pts)) _ _ k YY _ ZZ _ OK _).
  - apply ascii_points_end. cbn [vd_count lay_data]. lia.
  - apply ascii_faces_eof. cbn [fd_count decl_data]. lia.
  - rewrite map_length. unfold lenN in LP. lia.
Qed.
End Cut.

(** ** every file *)
Lemma load_total {S E A} (next : S -> option (outcome E A) * S) (mu : S -> nat) : (forall s a s', next s = (Some (Ok a), s') -> mu s' < mu s) -> (forall s, fst (next s) <> Some Panic) ->
  forall n s acc, mu s <= n -> exists l r, r <> Panic /\ forall k, n < k -> load_loop next k s acc = Some (l, r).
Proof.
  intros D NP. induction n as [|n IH]; intros s acc L; destruct (next s) as [[[a|e|]|] s'] eqn:N.
  - pose proof (D _ _ _ N). lia.
  - exists acc, (Err e). split; [discriminate|]. intros [|k] K; [lia|]. cbn [load_loop]. rewrite N. reflexivity.
  - destruct (NP s). rewrite N. reflexivity.
  - exists acc, (Ok tt). split; [discriminate|]. intros [|k] K; [lia|]. cbn [load_loop]. rewrite N. reflexivity.
  - destruct (IH s' (acc ++ [a])) as (l & r & R & H); [pose proof (D _ _ _ N); lia|]. exists l, r. split; [exact R|]. intros [|k] K; [lia|]. cbn [load_loop]. rewrite N. apply H. lia.
  - exists acc, (Err e). split; [discriminate|]. intros [|k] K; [lia|]. cbn [load_loop]. rewrite N. reflexivity.
  - destruct (NP s). rewrite N. reflexivity.
  - exists acc, (Ok tt). split; [discriminate|]. intros [|k] K; [lia|]. cbn [load_loop]. rewrite N. reflexivity.
Qed.
Lemma fold_total {S E A M} (next : S -> option (outcome E A) * S) (body : M -> A -> M * outcome E unit) (mu : S -> nat) (I : M -> Prop) :
  (forall s a s', next s = (Some (Ok a), s') -> mu s' < mu s) -> (forall s, fst (next s) <> Some Panic) -> (forall m a, I m -> I (fst (body m a)) /\ snd (body m a) <> Panic) ->
  forall n s m, mu s <= n -> I m -> exists m' r, I m' /\ r <> Panic /\ forall k, n < k -> fold_loop next body k s m = Some (m', r).
Proof.
  intros D NP B. induction n as [|n IH]; intros s m L Im; destruct (next s) as [[[a|e|]|] s'] eqn:N.
  - pose proof (D _ _ _ N). lia.
  - exists m, (Err e). split; [exact Im|]. split; [discriminate|]. intros [|k] K; [lia|]. cbn [fold_loop]. rewrite N. reflexivity.
  - destruct (NP s). rewrite N. reflexivity.
  - exists m, (Ok tt). split; [exact Im|]. split; [discriminate|]. intros [|k] K; [lia|]. cbn [fold_loop]. rewrite N. reflexivity.
  - destruct (B m a Im) as (I1 & P1). destruct (body m a) as [m1 r1] eqn:BE. cbn [fst snd] in *. destruct r1 as [u|e|]; [| |contradiction].
    + destruct (IH s' m1) as (m' & r & I' & R & H); [pose proof (D _ _ _ N); lia|exact I1|]. exists m', r. split; [exact I'|]. split; [exact R|]. intros [|k] K; [lia|]. cbn [fold_loop]. rewrite N, BE. apply H. lia.
    + exists m1, (Err e). split; [exact I1|]. split; [discriminate|]. intros [|k] K; [lia|]. cbn [fold_loop]. rewrite N, BE. reflexivity.
  - exists m, (Err e). split; [exact Im|]. split; [discriminate|]. intros [|k] K; [lia|]. cbn [fold_loop]. rewrite N. reflexivity.
  - destruct (NP s). rewrite N. reflexivity.
  - exists m, (Ok tt). split; [exact Im|]. split; [discriminate|]. intros [|k] K; [lia|]. cbn [fold_loop]. rewrite N. reflexivity.
Qed.
Lemma ascii_points_less ft v s a s' : ascii_points_next ft v s = (Some (Ok a), s') -> length (as_read s') < length (as_read s).
Proof.
  unfold ascii_points_next. destruct (as_done s); [discriminate|]. destruct (as_current s <? vd_count v)%N.
  - destruct (as_read s) as [|l ls]; cbn [next_line].
    + destruct (negb _); intros H; discriminate H.
    + destruct (ascii_vertex ft v (trim_line l)) as [p|e|]; intros H; cbn [at_line] in H; try discriminate H. injection H as <- <-. cbn. lia.
  - destruct (negb _); intros H; discriminate H.
Qed.
Lemma obind_np {E A B} (x : outcome E A) (f : A -> outcome E B) : x <> Panic -> (forall a, f a <> Panic) -> obind x f <> Panic.
Proof. destruct x as [a|e|]; cbn; intros H F; [apply F|discriminate|contradiction]. Qed.
Lemma next_f64_np ft (e : PlyError) ws : next_f64 ft e ws <> Panic.
Proof. unfold next_f64. destruct ws as [|w ws]; cbn; [discriminate|]. destruct (f64_of ft w); cbn; discriminate. Qed.
Lemma ascii_vertex_np ft v l : ascii_vertex ft v l <> Panic.
Proof. unfold ascii_vertex. repeat (apply obind_np; [apply next_f64_np|intros [? ?]]). discriminate. Qed.
Lemma ascii_points_np ft v s : fst (ascii_points_next ft v s) <> Some Panic.
Proof.
  unfold ascii_points_next. destruct (as_done s); [discriminate|]. destruct (as_current s <? vd_count v)%N; [|destruct (negb _); discriminate].
  destruct (next_line (as_read s)) as [[l ls]|]; [|destruct (negb _); discriminate]. pose proof (ascii_vertex_np ft v l). destruct (ascii_vertex ft v l); cbn; [discriminate|discriminate|contradiction].
Qed.
Lemma ascii_faces_less f s a s' : ascii_faces_next f s = (Some (Ok a), s') -> length (as_read s') < length (as_read s).
Proof.
  unfold ascii_faces_next. destruct (as_done s); [discriminate|]. destruct (as_current s <? fd_count f)%N; [|intros H; discriminate H].
  destruct (as_read s) as [|l ls]; cbn [next_line]; [intros H; discriminate H|]. destruct (collect_index_line (trim_line l)); intros H; [|discriminate H]. injection H as <- <-. cbn. lia.
Qed.
Lemma ascii_faces_np f s : fst (ascii_faces_next f s) <> Some Panic.
Proof.
  unfold ascii_faces_next. destruct (as_done s); [discriminate|]. destruct (as_current s <? fd_count f)%N; [|discriminate].
  destruct (next_line (as_read s)) as [[l ls]|]; [|discriminate]. destruct (collect_index_line l); discriminate.
Qed.
Lemma mesh_less {S E} (P : S -> option (outcome E (pt3 F64)) * S) (F : S -> option (outcome E face3) * S) sw (mu : S -> nat) :
  (forall s a s', P s = (Some (Ok a), s') -> mu s' < mu s) -> (forall s a s', F s = (Some (Ok a), s') -> mu s' < mu s) -> (forall s s', P s = (None, s') -> mu (sw s') <= mu s) ->
  forall t a t', mesh_next P F sw t = (Some (Ok a), t') -> match t' with IPoints s | IFaces s => mu s end < match t with IPoints s | IFaces s => mu s end.
Proof.
  intros DP DF DS [s|s] a t'; cbn [mesh_next].
  - destruct (P s) as [[[p|e|]|] s'] eqn:E1; cbn [map_item]; intros H; try discriminate H; [injection H as <- <-; exact (DP _ _ _ E1)|].
    destruct (F (sw s')) as [[[f|e|]|] s''] eqn:E2; cbn [map_item] in H; try discriminate H. injection H as <- <-. pose proof (DF _ _ _ E2). pose proof (DS _ _ E1). lia.
  - destruct (F s) as [[[f|e|]|] s''] eqn:E2; cbn [map_item]; intros H; try discriminate H. injection H as <- <-. exact (DF _ _ _ E2).
Qed.
Lemma mesh_np {S E} (P : S -> option (outcome E (pt3 F64)) * S) (F : S -> option (outcome E face3) * S) sw : (forall s, fst (P s) <> Some Panic) -> (forall s, fst (F s) <> Some Panic) -> forall t, fst (mesh_next P F sw t) <> Some Panic.
Proof.
  intros NP NF [s|s]; cbn [mesh_next].
  - pose proof (NP s) as H. destruct (P s) as [[[p|e|]|] s']; cbn [map_item fst] in *; try discriminate; [contradiction|]. pose proof (NF (sw s')) as H2. destruct (F (sw s')) as [[[f|e|]|] s'']; cbn [map_item fst] in *; try discriminate. contradiction.
  - pose proof (NF s) as H2. destruct (F s) as [[[f|e|]|] s'']; cbn [map_item fst] in *; try discriminate. contradiction.
Qed.
Lemma simple_less {S E A} (next : S -> option (outcome E A) * S) (mu : S -> nat) : (forall s a s', next s = (Some (Ok a), s') -> mu s' < mu s) -> forall s a s', simple_next next s = (Some (Ok a), s') -> mu s' < mu s.
Proof. intros H s a s'. unfold simple_next. destruct (next s) as [[[x|e|]|] s1] eqn:N; cbn [simple]; intros E1; try discriminate E1. injection E1 as <- <-. exact (H _ _ _ N). Qed.
Lemma simple_np {S E A} (next : S -> option (outcome E A) * S) : (forall s, fst (next s) <> Some Panic) -> forall s, fst (simple_next next s) <> Some Panic.
Proof. intros H s. unfold simple_next. specialize (H s). destruct (next s) as [[[x|e|]|] s1]; cbn [simple fst] in *; try discriminate. contradiction. Qed.
Lemma take_less n s b r : take_bytes n s = Some (b, r) -> length r + n = length s.
Proof. unfold take_bytes. destruct (Nat.ltb_spec (length s) n); [discriminate|]. intros E. injection E as <- <-. rewrite skipn_length. lia. Qed.
Lemma skip_less n s r : skip_bytes n s = Ok r -> length r <= length s.
Proof. unfold skip_bytes. destruct (take_bytes (N.to_nat n) s) as [[b q]|] eqn:E; [|discriminate]. intros H. injection H as <-. apply take_less in E. lia. Qed.
Lemma skip_np n s : skip_bytes n s <> Panic. Proof. unfold skip_bytes. destruct (take_bytes (N.to_nat n) s) as [[b q]|]; discriminate. Qed.
Lemma read_vertex_less en t s x r : read_vertex_type en t s = Ok (x, r) -> length r < length s.
Proof.
  unfold read_vertex_type, read_f32, read_f64, read_uint. destruct t.
  - destruct (take_bytes 4 s) as [[b q]|] eqn:E; [|discriminate]. intros H. injection H as <- <-. apply take_less in E. lia.
  - destruct (take_bytes 8 s) as [[b q]|] eqn:E; [|discriminate]. intros H. injection H as <- <-. apply take_less in E. lia.
Qed.
Lemma read_vertex_np en t s : read_vertex_type en t s <> Panic.
Proof. unfold read_vertex_type. destruct t; [destruct (read_f32 en s) as [[? ?]|]|destruct (read_f64 en s) as [[? ?]|]]; discriminate. Qed.
Lemma read_face_less en t s x r : read_face_type en t s = Ok (x, r) -> length r < length s.
Proof.
  unfold read_face_type, read_signed, read_unsigned, read_uint.
  assert (G : forall n y, 0 < n -> (match (match take_bytes n s with Some (b, q) => Some (y b, q) | None => None end) with Some (v, q) => Ok (v, q) | None => Err PlyAccessFile end : outcome PlyError (N * bytes)) = Ok (x, r) -> length r < length s).
  { intros n y P. destruct (take_bytes n s) as [[b q]|] eqn:E; [|discriminate]. intros H. injection H as _ <-. apply take_less in E. lia. }
  assert (G2 : forall n (y : bytes -> Z), 0 < n -> (match (match (match take_bytes n s with Some (b, q) => Some (y b, q) | None => None end) with Some (v, q) => Some (v, q) | None => None end) with Some (v, q) => Ok (signed_usize v, q) | None => Err PlyAccessFile end : outcome PlyError (N * bytes)) = Ok (x, r) -> length r < length s).
  { intros n y P. destruct (take_bytes n s) as [[b q]|] eqn:E; [|discriminate]. intros H. injection H as _ <-. apply take_less in E. lia. }
  assert (T : forall n, 0 < n -> forall b q, take_bytes n s = Some (b, q) -> length q < length s) by (intros n P b q E; apply take_less in E; lia).
  destruct t; match goal with |- context [take_bytes ?n s] => specialize (T n ltac:(lia)); destruct (take_bytes n s) as [[b q]|]; [|discriminate]; intros H; injection H as _ <-; exact (T _ _ eq_refl) end.
Qed.
Lemma read_face_np en t s : read_face_type en t s <> Panic.
Proof. unfold read_face_type. destruct t; match goal with |- context [match ?x with Some _ => _ | None => _ end] => destruct x as [[? ?]|]; discriminate end. Qed.
Lemma binary_vertex_less en v s p r : binary_vertex en v s = Ok (p, r) -> length r < length s.
Proof.
  unfold binary_vertex. destruct (skip_bytes _ s) as [s1|e|] eqn:E1; cbn [obind]; try discriminate. destruct (read_vertex_type en _ s1) as [[x1 s2]|e|] eqn:E2; cbn [obind]; try discriminate.
  destruct (skip_bytes _ s2) as [s3|e|] eqn:E3; cbn [obind]; try discriminate. destruct (read_vertex_type en _ s3) as [[x2 s4]|e|] eqn:E4; cbn [obind]; try discriminate.
  destruct (skip_bytes _ s4) as [s5|e|] eqn:E5; cbn [obind]; try discriminate. destruct (read_vertex_type en _ s5) as [[x3 s6]|e|] eqn:E6; cbn [obind]; try discriminate.
  destruct (skip_bytes _ s6) as [s7|e|] eqn:E7; cbn [obind]; try discriminate. intros H. injection H as <- <-.
  apply skip_less in E1, E3, E5, E7. apply read_vertex_less in E2, E4, E6. lia.
Qed.
Lemma binary_vertex_np en v s : binary_vertex en v s <> Panic.
Proof.
  unfold binary_vertex. repeat first [apply obind_np; [apply skip_np|intros ?]|apply obind_np; [apply read_vertex_np|intros [? ?]]]. discriminate.
Qed.
Lemma binary_face_less en f s p r : binary_face en f s = Ok (p, r) -> length r < length s.
Proof.
  unfold binary_face. destruct (skip_bytes _ s) as [s1|e|] eqn:E1; cbn [obind]; try discriminate. destruct (read_face_type en _ s1) as [[n s2]|e|] eqn:E2; cbn [obind]; try discriminate.
  destruct (negb _); [discriminate|]. destruct (read_face_type en _ s2) as [[a s3]|e|] eqn:E3; cbn [obind]; try discriminate. destruct (read_face_type en _ s3) as [[b s4]|e|] eqn:E4; cbn [obind]; try discriminate.
  destruct (read_face_type en _ s4) as [[c s5]|e|] eqn:E5; cbn [obind]; try discriminate. destruct (skip_bytes _ s5) as [s6|e|] eqn:E6; cbn [obind]; try discriminate. intros H. injection H as <- <-.
  apply skip_less in E1, E6. apply read_face_less in E2, E3, E4, E5. lia.
Qed.
Lemma binary_face_np en f s : binary_face en f s <> Panic.
Proof.
  unfold binary_face. apply obind_np; [apply skip_np|intros ?]. apply obind_np; [apply read_face_np|intros [? ?]]. destruct (negb _); [discriminate|].
  repeat first [apply obind_np; [apply read_face_np|intros [? ?]]|apply obind_np; [apply skip_np|intros ?]]. discriminate.
Qed.
Lemma binary_less {A} n (fetch : bytes -> outcome PlyError (A * bytes)) : (forall s p r, fetch s = Ok (p, r) -> length r < length s) -> forall s a s', binary_next n fetch s = (Some (Ok a), s') -> length (bs_read s') < length (bs_read s).
Proof.
  intros D s a s'. unfold binary_next. destruct (bs_done s); [discriminate|]. destruct (bs_current s <? n)%N; [|discriminate]. destruct (fetch (bs_read s)) as [[x r]|e|] eqn:E; intros H; try discriminate H. injection H as <- <-. exact (D _ _ _ E).
Qed.
Lemma binary_np {A} n (fetch : bytes -> outcome PlyError (A * bytes)) : (forall s, fetch s <> Panic) -> forall s, fst (binary_next n fetch s) <> Some Panic.
Proof.
  intros D s. unfold binary_next. destruct (bs_done s); [discriminate|]. destruct (bs_current s <? n)%N; [|discriminate]. specialize (D (bs_read s)). destruct (fetch (bs_read s)) as [[x r]|e|]; cbn; try discriminate. contradiction.
Qed.
Lemma ascii_switch ft v s s' : ascii_points_next ft v s = (None, s') -> length (as_read s') <= length (as_read s).
Proof.
  unfold ascii_points_next. destruct (as_done s); [intros H; injection H as <-; lia|]. destruct (as_current s <? vd_count v)%N.
  - destruct (as_read s) as [|l ls] eqn:E; cbn [next_line].
    + destruct (negb _); intros H; try discriminate H. injection H as <-. cbn. lia.
    + destruct (ascii_vertex ft v (trim_line l)) as [p|e|]; discriminate.
  - destruct (negb _); intros H; try discriminate H. injection H as <-. cbn. lia.
Qed.
Lemma binary_switch {A} n (fetch : bytes -> outcome PlyError (A * bytes)) s s' : binary_next n fetch s = (None, s') -> length (bs_read s') <= length (bs_read s).
Proof.
  unfold binary_next. destruct (bs_done s); [intros H; injection H as <-; lia|]. destruct (bs_current s <? n)%N.
  - destruct (fetch (bs_read s)) as [[x r]|e|]; discriminate.
  - intros H. injection H as <-. cbn. lia.
Qed.
Definition valid (m : mesh (pt3 F64)) : Prop := exists s, abs_ok m s /\ faces_ok s.
Lemma add_valid m x : valid m -> valid (fst (add_simple m x)) /\ snd (add_simple m x) <> Panic.
Proof.
  intros V. pose proof V as (s & A & F). unfold add_simple, add_item. destruct x as [p|[[a b] c]].
  - cbn [fst snd simple]. split; [|discriminate]. exists (MSpec (svs s ++ [p]) (sfs s)). destruct A as (A1 & A2). split; [split; [cbn [pc add_vertex fst svs]; congruence|exact A2]|].
    intros a b c I. destruct (F a b c I) as (R1 & R2 & R3 & R). unfold in_range in *. cbn [svs]. rewrite app_length. repeat split; try apply R; lia.
  - unfold try_add_connection. destruct A as (A1 & A2). rewrite A1. unfold lenN.
    destruct (N.leb_spec (N.of_nat (length (svs s))) a); [cbn; split; [exact V|discriminate]|]. destruct (N.leb_spec (N.of_nat (length (svs s))) b); [cbn; split; [exact V|discriminate]|].
    destruct (N.leb_spec (N.of_nat (length (svs s))) c); [cbn; split; [exact V|discriminate]|]. cbn [orb].
    destruct (N.eqb_spec a b); [cbn; split; [exact V|discriminate]|]. destruct (N.eqb_spec a c); [cbn; split; [exact V|discriminate]|].
    destruct (N.eqb_spec b c); [cbn; split; [exact V|discriminate]|]. cbn [orb fst snd simple]. split; [|discriminate].
    exists (MSpec (svs s) (sfs s ++ [(a, b, c)])). split; [split; [reflexivity|cbn [topology sfs]; rewrite flat_app, A2; cbn; rewrite <- ?app_assoc; reflexivity]|].
    intros a' b' c' I. apply in_app_or in I as [I|[I|[]]]; [exact (F a' b' c' I)|]. injection I as <- <- <-. unfold in_range. cbn [svs]. repeat split; assumption.
Qed.
Lemma raw_count (file : bytes) : length (raw_lines file) <= length file.
Proof.
  assert (G : forall ls : list bytes, ~ In [] ls -> length ls <= length (concat ls)).
  { induction ls as [|l ls IH]; intros N; [apply le_n|]. cbn [concat]. rewrite app_length. cbn [length]. specialize (IH ltac:(intros I; apply N; right; exact I)). destruct l; [destruct N; left; reflexivity|]. cbn [length]. lia. }
  specialize (G (raw_lines file) (raw_ne file)). rewrite concat_raw in G. exact G.
Qed.
(** ** panics of the header *)
Definition here (l : bytes) : N := if coord_line l then 1%N else 0%N.
Lemma type_of_np w : type_of w <> Panic.
Proof. unfold type_of. repeat match goal with |- context [if ?b then _ else _] => destruct b; [discriminate|] end. discriminate. Qed.
Lemma vertex_type_np t : vertex_type t <> Panic. Proof. destruct t; discriminate. Qed.
Lemma face_type_np t : face_type t <> Panic. Proof. destruct t; discriminate. Qed.
Lemma set_order_spec h c : match set_order h c with Ok o => lenN o = lenN (h_order h) | Panic => (lenN (h_order h) <= h_found h)%N | Err _ => False end.
Proof. unfold set_order. destruct (N.ltb_spec (h_found h) (lenN (h_order h))); [apply setN_lenN|assumption]. Qed.
Lemma vertex_property_spec h l : lenN (h_order h) = 3%N -> match vertex_property h (trim_line l) with
  | Ok h' => lenN (h_order h') = 3%N /\ (h_found h' <= h_found h + here l)%N /\ h_nv h' = h_nv h /\ h_nf h' = h_nf h
  | Panic => (3 <= h_found h)%N /\ coord_line l = true | Err _ => True end.
Proof.
  intros L. unfold vertex_property, here, coord_line. destruct (to_words (trim_line l)) as [|w0 [|w [|n ws]]]; cbn [tl nth_error]; try exact I.
  - pose proof (type_of_np w) as T. destruct (type_of w); cbn [obind]; [exact I|exact I|contradiction].
  - pose proof (type_of_np w) as T. destruct (type_of w) as [t|e|]; cbn [obind]; [|exact I|contradiction].
    pose proof (set_order_spec h CX) as SX. pose proof (set_order_spec h CY) as SY. pose proof (set_order_spec h CZ) as SZ. pose proof (vertex_type_np t) as VT.
    destruct h as [o k p s f nv nf x y z b b1 b2 a ct it fb fa] eqn:HE. rewrite <- HE in *. unfold is_coord. destruct (bytes_eqb n (str "x")) eqn:NX; [|destruct (bytes_eqb n (str "y")) eqn:NY; [|destruct (bytes_eqb n (str "z")) eqn:NZ]]; cbn [orb].
    + destruct (vertex_type t); cbn [obind]; [|exact I|contradiction]. destruct (set_order h CX); cbn [obind]; [|exact I|subst h; cbn in *; split; [lia|reflexivity]]. subst h. cbn in *. repeat split; first [lia|reflexivity].
    + destruct (vertex_type t); cbn [obind]; [|exact I|contradiction]. destruct (set_order h CY); cbn [obind]; [|exact I|subst h; cbn in *; split; [lia|reflexivity]]. subst h. cbn in *. repeat split; first [lia|reflexivity].
    + destruct (vertex_type t); cbn [obind]; [|exact I|contradiction]. destruct (set_order h CZ); cbn [obind]; [|exact I|subst h; cbn in *; split; [lia|reflexivity]]. subst h. cbn in *. repeat split; first [lia|reflexivity].
    + subst h. cbn in L. destruct (k =? 0)%N; [|destruct (k =? 1)%N; [|destruct (k =? 2)%N]]; cbn [h_order h_found h_nv h_nf]; repeat split; first [assumption|lia].
Qed.
Lemma face_property_spec h l : match face_property h l with
  | Ok h' => h_order h' = h_order h /\ h_found h' = h_found h /\ h_nv h' = h_nv h /\ h_nf h' = h_nf h | Panic => False | Err _ => True end.
Proof.
  unfold face_property. destruct h as [o k p s f nv nf x y z b b1 b2 a ct it fb fa]. destruct (starts_with (str "property list") l).
  - destruct (contains l (str "vertex_indices") || contains l (str "vertex_index")); [|auto].
    destruct (tl (tl (to_words l))) as [|w ws]; cbn [obind tl]; [exact I|]. pose proof (type_of_np w) as T1. destruct (type_of w) as [t|e|]; cbn [obind]; [|exact I|contradiction]. pose proof (face_type_np t) as F1. destruct (face_type t); cbn [obind]; [|exact I|contradiction].
    destruct ws as [|w2 ws]; cbn [obind]; [exact I|]. pose proof (type_of_np w2) as T2. destruct (type_of w2) as [t2|e|]; cbn [obind]; [|exact I|contradiction]. pose proof (face_type_np t2) as F2. destruct (face_type t2); cbn [obind]; [|exact I|contradiction]. cbn. auto.
  - destruct (tl (to_words l)) as [|w ws]; cbn [obind]; [exact I|]. pose proof (type_of_np w) as T1. destruct (type_of w) as [t|e|]; cbn [obind]; [|exact I|contradiction]. destruct ct; cbn; auto.
Qed.
Lemma element_count_spec e l : match element_count e (trim_line l) with Ok n => exists w, nth_error (to_words (trim_line l)) 2 = Some w /\ usize_of w = Some n | Panic => False | Err _ => True end.
Proof. unfold element_count. destruct (nth_error (to_words (trim_line l)) 2) as [w|]; [|exact I]. destruct (usize_of w) eqn:E; cbn; [eauto|exact I]. Qed.
Lemma finish_spec h : match finish h with Ok (Some hd) => Some (vd_count (hd_vertex hd)) = h_nv h /\ (forall f, hd_face hd = Some f -> Some (fd_count f) = h_nf h) | Ok None => True | Err _ => True | Panic => False end.
Proof.
  unfold finish. destruct (h_format h); [|exact I]. destruct (h_nv h); [|exact I]. destruct (h_x h); [|exact I]. destruct (h_y h); [|exact I]. destruct (h_z h); [|exact I].
  assert (O : order_of (h_order h) <> Panic) by (destruct (h_order h) as [|[| |] [|[| |] [|[| |] [|? ?]]]]; discriminate). destruct (order_of (h_order h)); cbn [obind]; [|exact I|contradiction]. cbn. split; [reflexivity|].
  destruct (h_nf h); [|discriminate]. destruct (h_ctype h); [|discriminate]. destruct (h_itype h); [|discriminate]. intros fd H. injection H as <-. reflexivity.
Qed.
Lemma header_line_spec h l : lenN (h_order h) = 3%N -> match header_line h (trim_line l) with
  | Ok (More h') => lenN (h_order h') = 3%N /\ (h_found h' <= h_found h + here l)%N /\
      (h_nv h' = h_nv h \/ exists n, h_nv h' = Some n /\ announces "element vertex" l n) /\ (h_nf h' = h_nf h \/ exists n, h_nf h' = Some n /\ announces "element face" l n)
  | Ok (Found hd) => Some (vd_count (hd_vertex hd)) = h_nv h /\ (forall f, hd_face hd = Some f -> Some (fd_count f) = h_nf h)
  | Panic => (3 <= h_found h)%N /\ coord_line l = true | Err _ => True end.
Proof.
  intros L. unfold header_line. destruct h as [o n p s f nv nf x y z b b1 b2 a ct it fb fa] eqn:HE. rewrite <- HE in *.
  destruct (starts_with (str "comment") (trim_line l) || starts_with (str "obj_info") (trim_line l)); [repeat split; auto; lia|].
  destruct (negb p); [destruct (bytes_eqb (trim_line l) (str "ply")); [subst h; cbn in *; repeat split; auto; lia|exact I]|].
  destruct f as [f|].
  2:{ unfold format_of. repeat (match goal with |- context [if ?b then _ else _] => destruct b; [cbn [obind]; subst h; cbn in *; repeat split; auto; lia|] end). exact I. }
  destruct (match nv with None => starts_with (str "element vertex") (trim_line l) | Some _ => false end) eqn:EV.
  { pose proof (element_count_spec VertexElement l) as C. destruct (element_count VertexElement (trim_line l)) as [c|e|]; cbn [obind]; [|exact I|contradiction].
    subst h. cbn in *. repeat split; auto; [lia|]. right. exists c. split; [reflexivity|]. split; [destruct nv; [discriminate EV|exact EV]|exact C]. }
  destruct (match nf with None => starts_with (str "element face") (trim_line l) | Some _ => false end) eqn:EF.
  { pose proof (element_count_spec FaceElement l) as C. destruct (element_count FaceElement (trim_line l)) as [c|e|]; cbn [obind]; [|exact I|contradiction].
    subst h. cbn in *. repeat split; auto; [lia|]. right. exists c. split; [reflexivity|]. split; [destruct nf; [discriminate EF|exact EF]|exact C]. }
  destruct (starts_with (str "property") (trim_line l)).
  { destruct s; [exact I| |].
    - pose proof (vertex_property_spec h l L) as V. destruct (vertex_property h (trim_line l)) as [h'|e|]; cbn [obind]; [|exact I|exact V]. destruct V as (V1 & V2 & V3 & V4). repeat split; auto.
    - pose proof (face_property_spec h (trim_line l)) as V. destruct (face_property h (trim_line l)) as [h'|e|]; cbn [obind]; [|exact I|contradiction]. destruct V as (V1 & V2 & V3 & V4). rewrite V1, V2. repeat split; auto. lia. }
  destruct (bytes_eqb (trim_line l) (str "end_header")); [|exact I]. pose proof (finish_spec h) as F. destruct (finish h) as [[hd|]|e|]; cbn [obind]; auto. contradiction.
Qed.
Lemma load_header_spec ls : forall h i, lenN (h_order h) = 3%N -> match load_header h i ls with
  | Ok (hd, rest, _) => length rest < length ls /\ length (concat rest) <= length (concat ls) /\
      (Some (vd_count (hd_vertex hd)) = h_nv h \/ exists l, In l ls /\ announces "element vertex" l (vd_count (hd_vertex hd))) /\
      (forall f, hd_face hd = Some f -> Some (fd_count f) = h_nf h \/ exists l, In l ls /\ announces "element face" l (fd_count f))
  | Panic => (4 <= h_found h + lenN (filter coord_line ls))%N
  | Err _ => True end.
Proof.
  induction ls as [|l ls IH]; intros h i L; [exact I|]. cbn [load_header]. pose proof (header_line_spec h l L) as S. destruct (header_line h (trim_line l)) as [[h'|hd]|e|]; cbn [at_line].
  - destruct S as (S1 & S2 & S3 & S4). specialize (IH h' (i + 1)%N S1). destruct (load_header h' (i + 1) ls) as [[[hd rest] j]|e|].
    + destruct IH as (I1 & I2 & I3 & I4). cbn [length concat]. rewrite app_length. split; [lia|]. split; [lia|]. split.
      * destruct I3 as [I3|(l' & M & A)]; [|right; exists l'; split; [right; exact M|exact A]]. destruct S3 as [S3|(n & S3 & A)]; [left; congruence|]. right. exists l. split; [left; reflexivity|]. congruence.
      * intros f HF. specialize (I4 f HF). destruct I4 as [I4|(l' & M & A)]; [|right; exists l'; split; [right; exact M|exact A]]. destruct S4 as [S4|(n & S4 & A)]; [left; congruence|]. right. exists l. split; [left; reflexivity|]. congruence.
    + exact I.
    + cbn [filter]. unfold here in S2. destruct (coord_line l); unfold lenN in *; cbn [length]; lia.
  - destruct S as (S1 & S2). cbn [length concat]. rewrite app_length. split; [lia|]. split; [lia|]. split; [left; exact S1|]. intros f HF. left. apply S2, HF.
  - exact I.
  - destruct S as (S1 & S2). cbn [filter]. rewrite S2. unfold lenN. cbn [length]. lia.
Qed.
Lemma not_reserve size n : reserve size n = false -> (2 ^ 63 <= size * n)%N. Proof. unfold reserve. destruct (N.ltb_spec (size * n) (2 ^ 63)); [discriminate|auto]. Qed.
Lemma empty_shows : shows (mesh_empty : mesh (pt3 F64)) (MSpec [] []). Proof. apply abs_shows; [split; reflexivity|intros a b c []]. Qed.
Lemma mesh_any ft file : exists m r, (forall k, length file < k -> load_ply_mesh ft k file = Some (m, r)) /\ (exists s, shows m s /\ faces_ok s) /\ (r = Panic -> excessive file /\ shows m (MSpec [] [])).
Proof.
  assert (VE : exists s, shows (mesh_empty : mesh (pt3 F64)) s /\ faces_ok s) by (exists (MSpec [] []); split; [apply empty_shows|intros a b c []]).
  unfold load_ply_mesh. pose proof (load_header_spec (raw_lines file) h_start 0 eq_refl) as S. pose proof (raw_count file) as RC. destruct (load_header h_start 0 (raw_lines file)) as [[[[fmt v [f|]] ls] i]|e|].
  - destruct S as (S1 & S2 & S3 & S4). rewrite concat_raw in S2. destruct (reserve 24 (vd_count v) && reserve 8 (w64 (3 * fd_count f))) eqn:R.
    + assert (VV : valid mesh_empty) by (exists (MSpec [] []); split; [split; reflexivity|intros a b c []]).
      assert (K : forall m r, valid m -> r <> Panic -> (forall k, length file < k -> match fmt with FAscii => fold_loop (ascii_mesh_next ft v f) add_simple k (IPoints (mkas ls false 0 i)) mesh_empty
        | FBinary en => fold_loop (simple_next (binary_mesh_next en v f)) add_simple k (IPoints (mkbs (concat ls) false 0)) mesh_empty end = Some (m, r)) ->
        exists m r, (forall k, length file < k -> match fmt with FAscii => fold_loop (ascii_mesh_next ft v f) add_simple k (IPoints (mkas ls false 0 i)) mesh_empty
        | FBinary en => fold_loop (simple_next (binary_mesh_next en v f)) add_simple k (IPoints (mkbs (concat ls) false 0)) mesh_empty end = Some (m, r)) /\ (exists s, shows m s /\ faces_ok s) /\ (r = Panic -> excessive file /\ shows m (MSpec [] []))).
      { intros m r (s & A & F) NP H. exists m, r. split; [exact H|]. split; [exists s; split; [apply abs_shows; assumption|exact F]|]. intros E. contradiction. }
      destruct fmt as [|en].
      * destruct (fold_total (ascii_mesh_next ft v f) add_simple (fun t => match t with IPoints s | IFaces s => length (as_read s) end) valid
          ltac:(unfold ascii_mesh_next; apply mesh_less; [apply ascii_points_less|apply ascii_faces_less|intros s s' E; cbn [as_read]; apply (ascii_switch ft v); exact E])
          ltac:(unfold ascii_mesh_next; apply mesh_np; [apply ascii_points_np|apply ascii_faces_np]) add_valid (length file) (IPoints (mkas ls false 0 i)) mesh_empty ltac:(cbn; lia) VV) as (m & r & V & NP & H). exact (K m r V NP H).
      * destruct (fold_total (simple_next (binary_mesh_next en v f)) add_simple (fun t => match t with IPoints s | IFaces s => length (bs_read s) end) valid
          ltac:(apply simple_less; unfold binary_mesh_next; apply mesh_less; [apply binary_less, binary_vertex_less|apply binary_less, binary_face_less|intros s s' E; cbn [bs_read]; apply (binary_switch _ _ _ _ E)])
          ltac:(apply simple_np; unfold binary_mesh_next; apply mesh_np; [apply binary_np, binary_vertex_np|apply binary_np, binary_face_np]) add_valid (length file) (IPoints (mkbs (concat ls) false 0)) mesh_empty ltac:(cbn; lia) VV) as (m & r & V & NP & H). exact (K m r V NP H).
    + exists mesh_empty, Panic. split; [reflexivity|]. split; [exact VE|]. intros _. split; [|apply empty_shows]. cbn [h_nv h_nf h_start hd_vertex hd_face] in *. apply Bool.andb_false_iff in R as [R|R]; apply not_reserve in R.
      * right. left. destruct S3 as [S3|(l & M & A)]; [discriminate S3|]. exists l, (vd_count v). auto.
      * right. right. destruct (S4 f eq_refl) as [S5|(l & M & A)]; [discriminate S5|]. exists l, (fd_count f). auto.
  - exists mesh_empty, (Err (WNone LoadHeaderInvalid)). split; [reflexivity|]. split; [exact VE|]. discriminate.
  - exists mesh_empty, (Err e). split; [reflexivity|]. split; [exact VE|]. discriminate.
  - exists mesh_empty, Panic. split; [reflexivity|]. split; [exact VE|]. intros _. split; [|apply empty_shows]. left. cbn [h_found h_start] in S. unfold lenN in S. lia.
Qed.
Lemma points_any ft file : exists l r, (forall k, length file < k -> load_ply_points ft k file = Some (l, r)) /\ (r = Panic -> excessive file /\ l = []).
Proof.
  unfold load_ply_points. pose proof (load_header_spec (raw_lines file) h_start 0 eq_refl) as S. pose proof (raw_count file) as RC. destruct (load_header h_start 0 (raw_lines file)) as [[[[fmt v f] ls] i]|e|].
  - destruct S as (S1 & S2 & S3 & S4). rewrite concat_raw in S2. destruct (reserve 24 (vd_count v)) eqn:R.
    + destruct fmt as [|en].
      * destruct (load_total (ascii_points_next ft v) (fun s => length (as_read s)) (ascii_points_less ft v) (ascii_points_np ft v) (length file) (mkas ls false 0 i) [] ltac:(cbn; lia)) as (l & r & NP & H). exists l, r. split; [exact H|]. intros E. contradiction.
      * destruct (load_total (simple_next (binary_next (vd_count v) (binary_vertex en v))) (fun s => length (bs_read s)) ltac:(apply simple_less, binary_less, binary_vertex_less) ltac:(apply simple_np, binary_np, binary_vertex_np) (length file) (mkbs (concat ls) false 0) [] ltac:(cbn; lia)) as (l & r & NP & H).
        exists l, r. split; [exact H|]. intros E. contradiction.
    + exists [], Panic. split; [reflexivity|]. intros _. split; [|reflexivity]. apply not_reserve in R. right. left. cbn [h_nv h_start hd_vertex] in S3. destruct S3 as [S3|(l & M & A)]; [discriminate S3|]. exists l, (vd_count v). auto.
  - exists [], (Err e). split; [reflexivity|]. discriminate.
  - exists [], Panic. split; [reflexivity|]. intros _. split; [|reflexivity]. left. cbn [h_found h_start] in S. unfold lenN in S. lia.
Qed.
Lemma props_panic ps : Forall prop_ok ps -> float_coords ps -> forall o n f nv nf x y z b b1 b2 a ct it fb fa i rest, lenN o = 3%N -> (n <= 3)%N -> (4 <= n + lenN (coord_order ps))%N ->
  load_header (mkh o n true SVertex (Some f) (Some nv) nf x y z b b1 b2 a ct it fb fa) i (map (fun l => l ++ [nl]) (map prop_line ps) ++ rest) = Panic.
Proof.
  induction 1 as [|p ps P F IH]; intros FC o n f nv nf x y z b b1 b2 a ct it fb fa i rest L N3 C; [unfold lenN in C; cbn in C; lia|].
  assert (FC' : float_coords ps) by (intros q I; apply FC; right; exact I). specialize (IH FC'). cbn [map app load_header].
  rewrite vertex_prop_line by first [exact P|reflexivity|discriminate]. rewrite vertex_prop_eq by exact P. cbv zeta. unfold coord_order in C. cbn [map filter] in C. destruct (is_coord (p_name p)) eqn:IC.
  - rewrite (vt_ok _ (FC p (or_introl eq_refl) IC)). unfold set_order. cbn [h_found h_order obind]. unfold is_coord in IC. unfold lenN in C. cbn [length] in C. destruct (N.ltb_spec n (lenN o)) as [G|G]; cbn [obind at_line].
    + assert (L' : forall c, lenN (setN o n c) = 3%N) by (intros c; rewrite setN_lenN; exact L).
      destruct (bytes_eqb (p_name p) (str "x")); [cbn [obind at_line]; apply IH; [apply L'|lia|unfold coord_order, lenN; lia]|]. destruct (bytes_eqb (p_name p) (str "y")); [cbn [obind at_line]; apply IH; [apply L'|lia|unfold coord_order, lenN; lia]|].
      destruct (bytes_eqb (p_name p) (str "z")); [cbn [obind at_line]; apply IH; [apply L'|lia|unfold coord_order, lenN; lia]|]. discriminate IC.
    + destruct (bytes_eqb (p_name p) (str "x")); [reflexivity|]. destruct (bytes_eqb (p_name p) (str "y")); [reflexivity|]. destruct (bytes_eqb (p_name p) (str "z")); [reflexivity|]. discriminate IC.
  - destruct (not_coord _ IC) as (-> & -> & ->). destruct (n =? 0)%N; [|destruct (n =? 1)%N; [|destruct (n =? 2)%N]]; cbn [obind at_line]; apply IH; assumption.
Qed.
Lemma fourth_panic f cs nv ps d rest : header_ok cs nv ps d -> 4 <= length (coord_order ps) -> load_header h_start 0 (raw_lines (unlines (header_lines f cs nv ps d) ++ rest)) = Panic.
Proof.
  intros H C4. rewrite raw_unlines by (apply header_is_line, H). destruct H as (C & V & P & FC & D).
  set (h1 := mkh [CX; CX; CX] 0 true SVertex (Some f) (Some nv) None None None None bw0 bw0 bw0 bw0 None None bw0 bw0).
  set (pre := [str "ply"; format_line f] ++ cs ++ [str "element vertex " ++ print_usize nv]).
  assert (S : steps h_start pre h1).
  { unfold pre. eapply steps_app; [eapply StepsCons; [reflexivity|eapply StepsCons; [|constructor]]|eapply steps_app; [apply comments_steps, C|]].
    - instantiate (1 := mkh [CX; CX; CX] 0 true SMeta (Some f) None None None None None bw0 bw0 bw0 bw0 None None bw0 bw0). destruct f as [|[|]]; reflexivity.
    - eapply StepsCons; [|constructor]. rewrite (trim_word _ _ (usize_word _)). unfold header_line.
      change (starts_with (str "comment") (str "element vertex " ++ print_usize nv)) with false. change (starts_with (str "obj_info") (str "element vertex " ++ print_usize nv)) with false. cbn [orb negb].
      change (starts_with (str "element vertex") (str "element vertex " ++ print_usize nv)) with true. cbv iota. unfold element_count.
      change (str "element vertex " ++ print_usize nv) with (str "element" ++ space :: (str "vertex" ++ space :: print_usize nv)).
      rewrite !words_cons, words_one; [|apply usize_word| |]; [|apply word_of_str; first [reflexivity|discriminate]|apply word_of_str; first [reflexivity|discriminate]]. cbn [nth_error]. rewrite usize_of_print by exact V. reflexivity. }
  replace (header_lines f cs nv ps d) with (pre ++ map prop_line ps ++ decl_list d ++ [str "end_header"]) by (unfold header_lines, pre; rewrite <- !app_assoc; reflexivity).
  rewrite map_app, <- app_assoc, (load_steps _ _ _ S), map_app, <- app_assoc. unfold h1. apply props_panic; [exact P|exact FC|reflexivity|lia|unfold lenN; lia].
Qed.

(** ** writers *)
Lemma write_all_ok accept : progressing accept -> forall k b i out, length b <= k -> exists j, write_all accept k i b out = (out ++ b, j, true).
Proof.
  intros P. induction k as [|k IH]; intros b i out L.
  - destruct b; [|cbn in L; lia]. exists i. cbn. rewrite app_nil_r. reflexivity.
  - destruct b as [|c b]; [exists i; cbn; rewrite app_nil_r; reflexivity|]. cbn [write_all]. specialize (P i). destruct (Nat.eqb_spec (accept i) 0); [lia|].
    destruct (IH (skipn (accept i) (c :: b)) (S i) (out ++ firstn (accept i) (c :: b))) as (j & ->); [rewrite skipn_length; lia|]. exists j. rewrite <- app_assoc, firstn_skipn. reflexivity.
Qed.
Lemma write_all_any accept : forall k b i out, length b <= k -> exists j r o, write_all accept k i b out = (out ++ o, j, r) /\ (r = true /\ o = b \/ r = false /\ exists rest, b = o ++ rest).
Proof.
  induction k as [|k IH]; intros b i out L.
  - destruct b; [|cbn in L; lia]. exists i, true, []. cbn. rewrite app_nil_r. auto.
  - destruct b as [|c b]; [exists i, true, []; cbn; rewrite app_nil_r; auto|]. cbn [write_all]. destruct (Nat.eqb_spec (accept i) 0) as [Z|Z]; [exists (S i), false, []; rewrite app_nil_r; split; [reflexivity|right; split; [reflexivity|exists (c :: b); reflexivity]]|].
    destruct (IH (skipn (accept i) (c :: b)) (S i) (out ++ firstn (accept i) (c :: b))) as (j & r & o & -> & H); [rewrite skipn_length; lia|].
    exists j, r, (firstn (accept i) (c :: b) ++ o). rewrite <- app_assoc. split; [reflexivity|]. destruct H as [(-> & ->)|(-> & rest & E)]; [left; split; [reflexivity|apply firstn_skipn]|right; split; [reflexivity|]].
    exists rest. rewrite <- app_assoc, <- E, firstn_skipn. reflexivity.
Qed.
Definition is_all (c : write_call) : Prop := match c with WriteAll _ => True | WriteOnce _ => False end.
Lemma run_all_ok accept : progressing accept -> forall calls i out, Forall is_all calls -> run_writes accept i calls out = (out ++ all_bytes calls, Ok tt).
Proof.
  intros P. induction calls as [|c calls IH]; intros i out F; [cbn; rewrite app_nil_r; reflexivity|]. inversion F as [|? ? A F']; subst. destruct c as [b|b]; [|destruct A]. cbn [run_writes].
  destruct (write_all_ok accept P (length b) b i out (le_n _)) as (j & ->). rewrite IH by exact F'. unfold all_bytes. cbn [flat_map call_bytes]. rewrite <- app_assoc. reflexivity.
Qed.
Lemma run_all_any accept : forall calls i out, Forall is_all calls -> exists o r, run_writes accept i calls out = (out ++ o, r) /\ (r = Ok tt /\ o = all_bytes calls \/ r = Err PlyAccessFile /\ exists rest, all_bytes calls = o ++ rest).
Proof.
  induction calls as [|c calls IH]; intros i out F; [exists [], (Ok tt); cbn; rewrite app_nil_r; auto|]. inversion F as [|? ? A F']; subst. destruct c as [b|b]; [|destruct A]. cbn [run_writes].
  destruct (write_all_any accept (length b) b i out (le_n _)) as (j & r & o & -> & H). destruct H as [(-> & ->)|(-> & rest & E)].
  - destruct (IH j (out ++ b) F') as (o & r & -> & H). exists (b ++ o), r. rewrite <- app_assoc. split; [reflexivity|]. unfold all_bytes. cbn [flat_map call_bytes]. destruct H as [(-> & ->)|(-> & rest & E)]; [left; auto|right; split; [reflexivity|]]. exists rest. unfold all_bytes in E. rewrite E, <- app_assoc. reflexivity.
  - exists o, (Err PlyAccessFile). split; [reflexivity|]. right. split; [reflexivity|]. exists (rest ++ all_bytes calls). unfold all_bytes. cbn [flat_map call_bytes]. rewrite E, <- app_assoc. reflexivity.
Qed.
Lemma collect_forall {A} (P : A -> Prop) n : forall i (f : N -> outcome PlyError (list A)) l, (forall i x, f i = Ok x -> Forall P x) -> collect_range n i f = Ok l -> Forall P l.
Proof.
  induction n as [|n IH]; intros i f l H E; cbn [collect_range] in E; [injection E as <-; constructor|]. destruct (f i) as [x|e|] eqn:FE; cbn [obind] in E; try discriminate E.
  destruct (collect_range n (i + 1) f) as [y|e|] eqn:CE; cbn [obind] in E; try discriminate E. injection E as <-. apply Forall_app. split; [apply (H i), FE|apply (IH (i + 1)%N f), CE; exact H].
Qed.
Lemma obind_ok {E A B} (x : outcome E A) (f : A -> outcome E B) b : obind x f = Ok b -> exists a, x = Ok a /\ f a = Ok b.
Proof. destruct x as [a|e|]; cbn; intros H; [exists a; auto|discriminate H|discriminate H]. Qed.
Lemma ascii_is_all ft m colors calls : save_ply_ascii ft m colors = Ok calls -> Forall is_all calls.
Proof.
  unfold save_ply_ascii. destruct (negb (colors_fit m colors)); [discriminate|]. intros H. apply obind_ok in H as (vs & V & H). apply obind_ok in H as (fs & F & H). injection H as <-. constructor; [exact I|]. apply Forall_app. split.
  - apply (collect_forall is_all _ _ _ _) in V; [exact V|]. intros i x H. apply obind_ok in H as (p & _ & H). apply obind_ok in H as (c & _ & H). injection H as <-. repeat constructor.
  - apply (collect_forall is_all _ _ _ _) in F; [exact F|]. intros i x H. apply obind_ok in H as (p & _ & H). injection H as <-. repeat constructor.
Qed.
Lemma run_greedy accept : forall calls i out, greedy accept calls -> run_writes accept i calls out = (out ++ all_bytes calls, Ok tt).
Proof.
  induction calls as [|c calls IH]; intros i out G; [cbn; rewrite app_nil_r; reflexivity|]. assert (G' : greedy accept calls) by (intros j d I; apply G; right; exact I).
  unfold all_bytes. cbn [flat_map]. fold (all_bytes calls). destruct c as [b|b]; cbn [run_writes call_bytes].
  - assert (P : progressing accept) by (intros j; apply (G j (WriteAll b)); left; reflexivity). destruct (write_all_ok accept P (length b) b i out (le_n _)) as (j & ->). rewrite IH by exact G'. rewrite <- app_assoc. reflexivity.
  - rewrite firstn_all2 by (apply (G i (WriteOnce b)); left; reflexivity). rewrite IH by exact G'. rewrite <- app_assoc. reflexivity.
Qed.
Lemma run_one : forall calls i out, exists o, run_writes (fun _ => 1) i calls out = (out ++ o, Ok tt) /\ length o <= length (all_bytes calls) /\ ((exists b, In (WriteOnce b) calls /\ 1 < length b) -> length o < length (all_bytes calls)).
Proof.
  induction calls as [|c calls IH]; intros i out; [exists []; cbn; rewrite app_nil_r; split; [reflexivity|split; [lia|intros (b & [] & _)]]|].
  unfold all_bytes. cbn [flat_map]. fold (all_bytes calls). rewrite app_length. destruct c as [b|b]; cbn [run_writes call_bytes].
  - destruct (write_all_ok (fun _ => 1) ltac:(intros j; lia) (length b) b i out (le_n _)) as (j & ->). destruct (IH j (out ++ b)) as (o & -> & L & S). exists (b ++ o). rewrite <- app_assoc. split; [reflexivity|]. rewrite app_length. split; [lia|].
    intros (b' & [E|I] & G); [discriminate E|]. specialize (S (ex_intro _ b' (conj I G))). lia.
  - destruct (IH (S i) (out ++ firstn 1 b)) as (o & -> & L & S). exists (firstn 1 b ++ o). rewrite <- app_assoc. split; [reflexivity|]. rewrite app_length, firstn_length. split; [lia|].
    intros (b' & [E|I] & G); [injection E as <-; lia|]. specialize (S (ex_intro _ b' (conj I G))). lia.
Qed.

(** ** either *)
Definition answer {A} (a : A) (r : outcome (with_line PlyError) unit) : outcome (with_line PlyError) A := match r with Ok _ => Ok a | Err e => Err e | Panic => Panic end.
Lemma fold_simple {S} (next : S -> option (outcome PlyError mesh_item) * S) : forall k s m, fold_loop (simple_next next) add_simple k s m = match fold_loop next add_item k s m with Some (m, r) => Some (m, simple r) | None => None end.
Proof.
  induction k as [|k IH]; intros s m; [reflexivity|]. cbn [fold_loop]. unfold simple_next at 1. destruct (next s) as [[[a|e|]|] s']; cbn [simple]; try reflexivity.
  unfold add_simple at 1. destruct (add_item m a) as [m' [u|e|]]; cbn [simple]; try reflexivity. apply IH.
Qed.
Lemma load_simple {S A} (next : S -> option (outcome PlyError A) * S) : forall k s acc, load_loop (simple_next next) k s acc = match load_loop next k s acc with Some (m, r) => Some (m, simple r) | None => None end.
Proof. induction k as [|k IH]; intros s acc; [reflexivity|]. cbn [load_loop]. unfold simple_next at 1. destruct (next s) as [[[a|e|]|] s']; cbn [simple]; try reflexivity. apply IH. Qed.
Lemma either_cases ft k file : (exists hd ls i, load_header h_start 0 (raw_lines file) = Ok (hd, ls, i) /\ hd_face hd = None /\ load_ply_mesh ft k file = Some (mesh_empty, Err (WNone LoadHeaderInvalid)) /\
    load_ply_either ft k file = match load_ply_points ft k file with Some (ps, r) => Some (mesh_empty, ps, answer IsPoints r) | None => None end) \/
  ((forall hd ls i, load_header h_start 0 (raw_lines file) = Ok (hd, ls, i) -> hd_face hd <> None) /\ load_ply_either ft k file = match load_ply_mesh ft k file with Some (m, r) => Some (m, [], answer IsMesh r) | None => None end).
Proof.
  unfold load_ply_either, load_ply_mesh, load_ply_points. destruct (load_header h_start 0 (raw_lines file)) as [[[[fmt v [f|]] ls] i]|e|].
  - right. split; [intros hd ls' i' H; injection H as <- <- <-; discriminate|]. destruct (reserve 24 (vd_count v) && reserve 8 (w64 (3 * fd_count f))); [|reflexivity]. destruct fmt as [|en]; [reflexivity|]. rewrite fold_simple. destruct (fold_loop (binary_mesh_next en v f) add_item k (IPoints (mkbs (concat ls) false 0)) mesh_empty) as [[m r]|]; reflexivity.
  - left. exists (mkheader fmt v None), ls, i. repeat (split; [reflexivity|]). destruct (reserve 24 (vd_count v)); [|reflexivity]. destruct fmt as [|en]; [reflexivity|]. rewrite load_simple. destruct (load_loop (binary_next (vd_count v) (binary_vertex en v)) k (mkbs (concat ls) false 0) []) as [[m r]|]; reflexivity.
  - right. split; [discriminate|reflexivity].
  - right. split; [discriminate|reflexivity].
Qed.
