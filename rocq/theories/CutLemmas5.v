(** Lemmas about binary .ply files that end too early: every missing byte is noticed. *)
From Verif Require Import Base BaseLemmas Num GeomSpec VecModel MeshModel MeshSpec MeshLemmas IoModel IoSpec IoLemmas ByteModel ByteSpec ByteLemmas PlyModel PlySpec PlyLemmas PlyTotalLemmas PlySaveLemmas ScanModel ScanSpec ScanLemmas ObjOffLemmas CutSpec CutLemmas CutLemmas2.
Open Scope nat_scope.

(** ** Sizes *)
Definition vt_size (t : VertexType) : nat := match t with VFloat => 4 | VDouble => 8 end.
Definition pt_size (t : PType) : nat := match t with PChar | PUChar => 1 | PShort | PUShort => 2 | _ => 4 end.
Definition vsize (v : vertex_data) : nat := N.to_nat (bw_bytes (vd_before v)) + vt_size (vd_first v) + N.to_nat (bw_bytes (vd_between1 v)) + vt_size (vd_snd v) + N.to_nat (bw_bytes (vd_between2 v)) + vt_size (vd_third v) + N.to_nat (bw_bytes (vd_after v)).
Definition fsize (f : face_data) : nat := N.to_nat (bw_bytes (fd_before f)) + pt_size (fd_ctype f) + 3 * pt_size (fd_itype f) + N.to_nat (bw_bytes (fd_after f)).
Lemma skip_size n s r : skip_bytes n s = Ok r -> length s = length r + N.to_nat n.
Proof. unfold skip_bytes. destruct (take_bytes (N.to_nat n) s) as [[b q]|] eqn:T; [|discriminate]. intros [= <-]. apply take_less in T. lia. Qed.
Lemma uint_size en n s v r : read_uint en n s = Some (v, r) -> length s = length r + n.
Proof. unfold read_uint. destruct (take_bytes n s) as [[b q]|] eqn:T; [|discriminate]. intros [= <- <-]. apply take_less in T. lia. Qed.
Lemma read_vertex_size en t s x r : read_vertex_type en t s = Ok (x, r) -> length s = length r + vt_size t.
Proof.
  unfold read_vertex_type, read_f32, read_f64, vt_size. destruct t; intros H; match type of H with context [read_uint ?en ?n ?a] => destruct (read_uint en n a) as [[v q]|] eqn:U; [|discriminate] end; injection H as _ <-; apply uint_size in U; exact U.
Qed.
Lemma read_face_size en t s x r : read_face_type en t s = Ok (x, r) -> length s = length r + pt_size t.
Proof.
  unfold read_face_type, read_signed, read_unsigned, pt_size. destruct t; intros H; match type of H with context [read_uint ?en ?n ?a] => destruct (read_uint en n a) as [[v q]|] eqn:U; [|discriminate] end; injection H as _ <-; apply uint_size in U; exact U.
Qed.
Ltac size_step H := let E := fresh "E" in let x := fresh "x" in apply obind_ok in H; destruct H as (x & E & H); first [apply skip_size in E|destruct x as [? ?]; cbn beta iota in H; first [apply read_vertex_size in E|apply read_face_size in E]].
Lemma binary_vertex_size en v s p r : binary_vertex en v s = Ok (p, r) -> length s = length r + vsize v.
Proof. unfold binary_vertex, vsize. intros H. do 7 size_step H. injection H as _ <-. lia. Qed.
Lemma binary_face_size en f s p r : binary_face en f s = Ok (p, r) -> length s = length r + fsize f.
Proof.
  unfold binary_face, fsize. intros H. do 2 size_step H. match type of H with context [negb ?b] => destruct (negb b); [discriminate|] end. do 4 size_step H. injection H as _ <-. lia.
Qed.

(** ** What a successful run has read *)
Definition enough (nv nf a b : nat) (s : mesh_iter binary_state) : Prop :=
  match s with
  | IPoints x => bs_done x = false -> (nv - N.to_nat (bs_current x)) * a + nf * b <= length (bs_read x)
  | IFaces x => bs_done x = false -> (nf - N.to_nat (bs_current x)) * b <= length (bs_read x)
  end.
Lemma step_more n c a : c < n -> (n - c) * a = a + (n - S c) * a. Proof. intros L. replace (n - c) with (S (n - S c)) by lia. reflexivity. Qed.
Lemma mesh_enough en v f {M} (body : M -> mesh_item -> M * outcome (with_line PlyError) unit) k : forall s m m', fold_loop (simple_next (binary_mesh_next en v f)) body k s m = Some (m', Ok tt) ->
  enough (N.to_nat (vd_count v)) (N.to_nat (fd_count f)) (vsize v) (fsize f) s.
Proof.
  assert (FC : forall x k m m', (forall s m m', fold_loop (simple_next (binary_mesh_next en v f)) body k s m = Some (m', Ok tt) -> enough (N.to_nat (vd_count v)) (N.to_nat (fd_count f)) (vsize v) (fsize f) s) ->
    (let (r, y) := binary_next (fd_count f) (binary_face en f) x in
     match map_item MFace r with
     | None => Some (m, Ok tt)
     | Some r => match simple r with Ok a => match body m a with (m, Ok _) => fold_loop (simple_next (binary_mesh_next en v f)) body k (IFaces y) m | (m, r) => Some (m, r) end | Err e => Some (m, Err e) | Panic => Some (m, Panic) end
     end) = Some (m', Ok tt) -> bs_done x = false -> (N.to_nat (fd_count f) - N.to_nat (bs_current x)) * fsize f <= length (bs_read x)).
  { intros x k0 m m' IH H D. unfold binary_next in H. rewrite D in H. destruct (N.ltb_spec (bs_current x) (fd_count f)) as [L|L]; [|replace (N.to_nat (fd_count f) - N.to_nat (bs_current x)) with 0 by lia; cbn; lia].
    destruct (binary_face en f (bs_read x)) as [[g r]|e|] eqn:F; cbn [map_item simple] in H; try discriminate. destruct (body m (MFace g)) as [m1 [u|e|]]; try discriminate. apply IH in H. cbn [enough bs_done bs_current bs_read] in H. specialize (H eq_refl).
    apply binary_face_size in F. rewrite step_more by lia. replace (N.to_nat (bs_current x + 1)) with (S (N.to_nat (bs_current x))) in H by lia. lia. }
  induction k as [|k IH]; intros s m m' H; [discriminate|]. cbn [fold_loop] in H. destruct s as [x|x]; cbn [enough]; intros D.
  - unfold simple_next, binary_mesh_next, mesh_next in H. unfold binary_next at 1 in H. rewrite D in H. destruct (N.ltb_spec (bs_current x) (vd_count v)) as [L|L].
    + destruct (binary_vertex en v (bs_read x)) as [[g r]|e|] eqn:F; cbn [map_item simple] in H; try discriminate. destruct (body m (MPoint g)) as [m1 [u|e|]]; try discriminate. apply IH in H. cbn [enough bs_done bs_current bs_read] in H. specialize (H eq_refl).
      apply binary_vertex_size in F. rewrite step_more by lia. replace (N.to_nat (bs_current x + 1)) with (S (N.to_nat (bs_current x))) in H by lia. lia.
    + replace (N.to_nat (vd_count v) - N.to_nat (bs_current x)) with 0 by lia. cbn [Nat.mul Nat.add]. cbn [bs_read] in H.
      pose proof (FC (mkbs (bs_read x) false 0) k m m' IH) as Q. cbn [bs_done bs_current bs_read] in Q. rewrite Nat.sub_0_r in Q. apply Q; [|reflexivity].
      destruct (binary_next (fd_count f) (binary_face en f) (mkbs (bs_read x) false 0)) as [[[g|e|]|] y]; exact H.
  - apply (FC x k m m' IH); [|exact D]. unfold simple_next, binary_mesh_next, mesh_next in H. destruct (binary_next (fd_count f) (binary_face en f) x) as [[[g|e|]|] y]; exact H.
Qed.
Lemma points_enough en v k : forall s acc l, load_loop (simple_next (binary_next (vd_count v) (binary_vertex en v))) k s acc = Some (l, Ok tt) -> bs_done s = false ->
  (N.to_nat (vd_count v) - N.to_nat (bs_current s)) * vsize v <= length (bs_read s).
Proof.
  induction k as [|k IH]; intros s acc l H D; [discriminate|]. cbn [load_loop] in H. unfold simple_next in H. unfold binary_next at 1 in H. rewrite D in H. destruct (N.ltb_spec (bs_current s) (vd_count v)) as [L|L]; [|replace (N.to_nat (vd_count v) - N.to_nat (bs_current s)) with 0 by lia; cbn; lia].
  destruct (binary_vertex en v (bs_read s)) as [[g r]|e|] eqn:F; cbn [simple] in H; try discriminate. apply IH in H; [|reflexivity]. cbn [bs_current bs_read] in H. apply binary_vertex_size in F. rewrite step_more by lia.
  replace (N.to_nat (bs_current s + 1)) with (S (N.to_nat (bs_current s))) in H by lia. lia.
Qed.
Lemma rows_size {A} (fetch : bytes -> outcome PlyError (A * bytes)) n rows l : (forall s p r, fetch s = Ok (p, r) -> length s = length r + n) -> Forall2 (fun b p => forall r, fetch (b ++ r) = Ok (p, r)) rows l -> length (concat rows) = length rows * n.
Proof.
  intros S F. induction F as [|b p rows l H F IH]; [reflexivity|]. cbn [concat length]. rewrite app_length, IH. specialize (H []). apply S in H. rewrite app_nil_r in H. cbn in H. lia.
Qed.

(** ** Headers that end too early *)
Lemma header_lines_read ls : forall h i hd rest j, load_header h i ls = Ok (hd, rest, j) -> exists c l, ls = c ++ l :: rest /\ j = (i + lenN c + 1)%N /\ trim_line l = str "end_header".
Proof.
  induction ls as [|l ls IH]; intros h i hd rest j H; [discriminate|]. cbn [load_header] in H. destruct (header_line h (trim_line l)) as [[h'|hd']|e|] eqn:HL; cbn [at_line] in H; try discriminate.
  - destruct (IH _ _ _ _ _ H) as (c & x & -> & -> & T). exists (l :: c), x. split; [reflexivity|]. split; [unfold lenN; cbn [length]; lia|exact T].
  - injection H as <- <- <-. exists [], l. split; [reflexivity|]. split; [cbn; lia|apply (found_line _ _ _ HL)].
Qed.
Lemma map_snoc_inv {A B} (g : A -> B) l x c y : map g l ++ [g x] = c ++ [y] -> y = g x. Proof. intros H. apply app_inj_tail in H. symmetry. apply H. Qed.
Lemma short_header f cs nv ps d c1 c2 c3 part z : header_ok cs nv ps d -> coord_order ps = [name_of c1; name_of c2; name_of c3] -> c1 <> c2 -> c1 <> c3 -> c2 <> c3 ->
  unlines (header_lines f cs nv ps d) = part ++ z -> z <> [] -> forall x, load_header h_start 0 (raw_lines part) <> Ok x.
Proof.
  intros H CO D1 D2 D3 E Z [[hd ls] j] L. pose proof (header_is_line f cs nv ps d H) as IL. destruct (file_header f cs nv ps d c1 c2 c3 [] H CO D1 D2 D3) as (l & o & _ & _ & _ & _ & _ & _ & LH). rewrite app_nil_r in LH.
  set (Hd := header_lines f cs nv ps d) in *. assert (P : prefix part (unlines Hd)) by (exists z; exact E).
  destruct (file_header_cut part (unlines Hd) hd ls j P L) as [(ls' & LF & _)|(_ & e & LF)]; [|rewrite LH in LF; discriminate]. rewrite LH in LF. injection LF as _ _ J.
  destruct (header_lines_read _ _ _ _ _ _ L) as (c & x & RP & J' & TX). destruct (raw_cut part (unlines Hd) P) as (c' & t & r & E1 & E2 & T).
  assert (LN : length (raw_lines (unlines Hd)) = length Hd) by (rewrite unlines_raw by exact IL; apply map_length).
  assert (LL : length Hd = length c + 1) by (unfold lenN in *; lia).
  assert (LP : length (raw_lines part) = length c + 1 + length ls) by (rewrite RP, app_length; cbn [length]; lia).
  rewrite E2, app_length in LN. rewrite E1, app_length in LP.
  assert (PZ : part <> unlines Hd) by (intros Q; rewrite Q in E; apply Z; rewrite <- (app_nil_r (unlines Hd)) in E at 1; apply app_inv_head in E; symmetry; exact E).
  destruct T as [-> | (p & q & r' & -> & -> & PN & PL)].
  - cbn [length] in LP. destruct r as [|? ?]; [|cbn [length] in LN; lia]. apply PZ. rewrite <- (concat_raw part), <- (concat_raw (unlines Hd)), E1, E2. reflexivity.
  - cbn [length] in LP, LN. destruct r' as [|? ?]; [|cbn [length] in LN; lia]. destruct ls as [|? ?]; [|cbn [length] in LP, LN; lia].
    rewrite RP in E1. apply app_inj_tail in E1. destruct E1 as [_ ->]. rewrite unlines_raw in E2 by exact IL. unfold Hd, header_lines in E2. rewrite app_comm_cons, !app_assoc, map_app in E2. cbn [map] in E2.
    apply app_inj_tail in E2. destruct E2 as [_ E2]. destruct (trim_line_part p PN) as (y & Y & EP). rewrite TX in EP. subst p. rewrite <- app_assoc in E2. apply app_inv_head in E2. destruct y as [|a y]; [contradiction|]. injection E2 as <- _. apply PL. apply in_or_app. right. left. reflexivity.
Qed.
(** The beginning of two parts ends in the first or contains it. *)
Lemma split_part {A} (a b part z : list A) : a ++ b = part ++ z -> (exists y, a = part ++ y /\ y <> []) \/ (exists p, part = a ++ p /\ b = p ++ z).
Proof.
  intros E. destruct (app_eq_app _ _ _ _ E) as (l & [[E1 E2]|[E1 E2]]).
  - destruct l as [|x l]; [right; exists []; rewrite app_nil_r in E1; subst; rewrite app_nil_r; auto|left; exists (x :: l); split; [exact E1|discriminate]].
  - right. exists l. auto.
Qed.
Section Short.
Variables (en : endian) (cs : list bytes) (ps : list prop) (c1 c2 c3 : Xyz).
Hypothesis CO : coord_order ps = [name_of c1; name_of c2; name_of c3].
Hypothesis D1 : c1 <> c2. Hypothesis D2 : c1 <> c3. Hypothesis D3 : c2 <> c3.
Hypothesis ST : one_type ps \/ (c1 = CX /\ c2 = CY /\ c3 = CZ).
Lemma short_mesh ft nv d rows pts fs frows part z k m r : header_ok cs nv ps (Some d) -> nv = lenN rows -> d_count d = lenN fs -> Forall2 (binary_row en ps) rows pts -> Forall2 (binary_face_row en d) fs frows ->
  unlines (header_lines (FBinary en) cs nv ps (Some d)) ++ concat (map (fun r => concat r) rows) ++ concat frows = part ++ z -> z <> [] -> load_ply_mesh ft k part = Some (m, r) -> r <> Ok tt.
Proof.
  intros H NV NF F FF E Z L ->. destruct (split_part _ _ _ _ E) as [(y & E1 & Y)|(b & -> & E1)].
  - pose proof (short_header (FBinary en) cs nv ps (Some d) c1 c2 c3 part y H CO D1 D2 D3 E1 Y) as SH. unfold load_ply_mesh in L. destruct (load_header h_start 0 (raw_lines part)) as [x|e|]; [exact (SH x eq_refl)|discriminate|discriminate].
  - destruct (file_header (FBinary en) cs nv ps (Some d) c1 c2 c3 b H CO D1 D2 D3) as (l & o & EL & LO & K1 & K2 & K3 & O & LH). unfold load_ply_mesh in L. rewrite LH in L. cbn [option_map] in L.
    match type of L with (if ?b then _ else _) = _ => destruct b; [|discriminate] end. apply mesh_enough in L. cbn [enough bs_done bs_current bs_read] in L. specialize (L eq_refl). rewrite concat_raw, Nat.sub_0_r in L. cbn [vd_count lay_data fd_count decl_data] in L. rewrite NF in L.
    pose proof (rows_size _ (vsize (lay_data l nv o)) _ _ (binary_vertex_size en (lay_data l nv o)) (brows_yield en ps c1 c2 c3 CO D1 D2 D3 ST l nv o rows pts EL LO K1 K2 K3 F)) as S1. rewrite map_length in S1.
    assert (ZF : Forall2 (fun b f => forall r, binary_face en (decl_data d) (b ++ r) = Ok (f, r)) frows fs).
    { destruct H as (_ & _ & _ & _ & D). clear -FF D. induction FF as [|f r fs frows T F IH]; constructor; [|exact IH]. intros rest. apply binary_face_ok; assumption. }
    pose proof (rows_size _ (fsize (decl_data d)) _ _ (binary_face_size en (decl_data d)) ZF) as S2. apply (f_equal (@length _)) in E1. rewrite !app_length, S1, S2 in E1. pose proof (Forall2_lenN _ _ _ FF) as LF.
    assert (N1 : N.to_nat nv = length rows) by (rewrite NV; apply Nat2N.id). assert (N2 : N.to_nat (lenN fs) = length frows) by (rewrite LF; apply Nat2N.id). rewrite N1, N2 in L. destruct z; [contradiction|]. cbn [length] in E1. assert (Q : length b + S (length z) <= length b) by (rewrite <- E1; exact L). lia.
Qed.
Lemma short_points ft nv d rows pts part z k l' r : header_ok cs nv ps d -> nv = lenN rows -> Forall2 (binary_row en ps) rows pts ->
  unlines (header_lines (FBinary en) cs nv ps d) ++ concat (map (fun r => concat r) rows) = part ++ z -> z <> [] -> load_ply_points ft k part = Some (l', r) -> r <> Ok tt.
Proof.
  intros H NV F E Z L ->. destruct (split_part _ _ _ _ E) as [(y & E1 & Y)|(b & -> & E1)].
  - pose proof (short_header (FBinary en) cs nv ps d c1 c2 c3 part y H CO D1 D2 D3 E1 Y) as SH. unfold load_ply_points in L. destruct (load_header h_start 0 (raw_lines part)) as [x|e|]; [exact (SH x eq_refl)|discriminate|discriminate].
  - destruct (file_header (FBinary en) cs nv ps d c1 c2 c3 b H CO D1 D2 D3) as (l & o & EL & LO & K1 & K2 & K3 & O & LH). unfold load_ply_points in L. rewrite LH in L.
    match type of L with (if ?b then _ else _) = _ => destruct b; [|discriminate] end. apply points_enough in L; [|reflexivity]. cbn [bs_current bs_read] in L. rewrite concat_raw, Nat.sub_0_r in L. cbn [vd_count lay_data] in L.
    pose proof (rows_size _ (vsize (lay_data l nv o)) _ _ (binary_vertex_size en (lay_data l nv o)) (brows_yield en ps c1 c2 c3 CO D1 D2 D3 ST l nv o rows pts EL LO K1 K2 K3 F)) as S1. rewrite map_length in S1.
    apply (f_equal (@length _)) in E1. rewrite !app_length, S1 in E1. assert (N1 : N.to_nat nv = length rows) by (rewrite NV; apply Nat2N.id). rewrite N1 in L. destruct z; [contradiction|]. cbn [length] in E1. assert (Q : length b + S (length z) <= length b) by (rewrite <- E1; exact L). lia.
Qed.
End Short.

(** ** Headers that end too early do not panic *)
Lemma property_panic h l : header_line h l = Panic -> starts_with (str "property") l = true.
Proof.
  unfold header_line. destruct h as [o n p s f nv nf x y z b b1 b2 a ct it fb fa] eqn:HE. destruct (starts_with (str "comment") l || starts_with (str "obj_info") l)%bool; [discriminate|]. destruct (negb p); [destruct (bytes_eqb l (str "ply")); discriminate|].
  destruct f as [f|]. 2:{ unfold format_of. repeat match goal with |- context [if ?b then _ else _] => destruct b; [discriminate|] end. discriminate. }
  assert (C : forall e, element_count e l <> Panic) by (intros e; unfold element_count; destruct (nth_error (to_words l) 2) as [w|]; [destruct (usize_of w); discriminate|discriminate]).
  destruct (match nv with None => starts_with (str "element vertex") l | Some _ => false end). { specialize (C VertexElement). destruct (element_count VertexElement l); [discriminate|discriminate|contradiction]. }
  destruct (match nf with None => starts_with (str "element face") l | Some _ => false end). { specialize (C FaceElement). destruct (element_count FaceElement l); [discriminate|discriminate|contradiction]. }
  destruct (starts_with (str "property") l); [reflexivity|]. destruct (bytes_eqb l (str "end_header")); [|discriminate]. rewrite <- HE. pose proof (finish_spec h) as F. destruct (finish h) as [[hd|]|e|]; try discriminate. contradiction.
Qed.
Lemma torn_panic t r c : forall h i x, lenN (h_order h) = 3%N -> load_header h i (c ++ r) = Ok x -> load_header h i (c ++ t) = Panic -> exists p t', t = p :: t' /\ (length t <= 1 -> coord_line p = true /\ starts_with (str "property") (trim_line p) = true).
Proof.
  induction c as [|l c IH]; intros h i x O H P.
  - destruct t as [|p t]; [discriminate|]. exists p, t. split; [reflexivity|]. intros LT. destruct t as [|? ?]; [|cbn in LT; lia]. cbn [app load_header] in P. pose proof (header_line_spec h p O) as S. destruct (header_line h (trim_line p)) as [[h'|hd]|e|] eqn:HL; cbn [at_line] in P; try discriminate.
    split; [apply S|apply (property_panic _ _ HL)].
  - cbn [app load_header] in *. pose proof (header_line_spec h l O) as S. destruct (header_line h (trim_line l)) as [[h'|hd]|e|]; cbn [at_line] in *; try discriminate. apply (IH h' (i + 1)%N x); [apply S|assumption|assumption].
Qed.
Definition torn_ok (l : bytes) : Prop := forall p q, l = p ++ q -> p <> [] -> coord_line p = true -> starts_with (str "property") (trim_line p) = true -> False.
Lemma torn_check l : forallb (fun i => negb (coord_line (firstn i l))) (seq 1 (length l)) = true -> torn_ok l.
Proof.
  intros H p q -> PN C _. rewrite forallb_forall in H. specialize (H (length p)). rewrite firstn_app, Nat.sub_diag, firstn_all in H. cbn [firstn] in H. rewrite app_nil_r, C in H.
  assert (I : In (length p) (seq 1 (length (p ++ q)))) by (apply in_seq; rewrite app_length; destruct p; [contradiction|cbn [length]; lia]). specialize (H I). discriminate.
Qed.
Lemma torn_element a : torn_ok ("e"%char :: a).
Proof.
  intros p q E PN _ S. destruct p as [|x p]; [contradiction|]. injection E as <- _. destruct (trim_line_part _ PN) as (y & Y & EP). destruct (trim_line ("e"%char :: p)) as [|b t]; [discriminate|]. injection EP as <- _. discriminate.
Qed.
Lemma saved_torn f nv t w colored nf : (w = str "float" \/ w = str "double") -> forall l, In l (header_lines f [saved_comment] nv (coord_props t w colored) (Some (save_decl nf "uint8" "uint32"))) -> torn_ok l.
Proof.
  intros W l I. unfold header_lines in I. apply in_app_or in I. destruct I as [I|I]. { destruct I as [<- | [<- | []]]; [apply torn_check; vm_compute; reflexivity|]. destruct f as [|[|]]; apply torn_check; vm_compute; reflexivity. }
  apply in_app_or in I. destruct I as [[<- | []]|[<- | I]]; [apply torn_check; vm_compute; reflexivity|apply torn_element|]. apply in_app_or in I. destruct I as [I|I].
  - unfold coord_props in I. destruct W as [-> | ->]; destruct colored; cbn [map app] in I; repeat (destruct I as [<- | I]; [apply torn_check; vm_compute; reflexivity|]); destruct I.
  - apply in_app_or in I. destruct I as [[<- | [<- | []]]|[<- | []]]; [apply torn_element|apply torn_check; vm_compute; reflexivity|apply torn_check; vm_compute; reflexivity].
Qed.
Lemma saved_header_np f nv t w colored nf part z : (nv < 2 ^ 64)%N -> (nf < 2 ^ 64)%N -> spelled t w -> (t = PFloat \/ t = PDouble) -> (w = str "float" \/ w = str "double") ->
  unlines (header_lines f [saved_comment] nv (coord_props t w colored) (Some (save_decl nf "uint8" "uint32"))) = part ++ z -> load_header h_start 0 (raw_lines part) <> Panic.
Proof.
  intros V NF S TT W E P. assert (H : header_ok [saved_comment] nv (coord_props t w colored) (Some (save_decl nf "uint8" "uint32"))) by (apply header_saved; try assumption; cbn; auto).
  pose proof (header_is_line f _ _ _ _ H) as IL. destruct (file_header f _ _ _ _ CX CY CZ [] H (order_saved t w colored) ltac:(discriminate) ltac:(discriminate) ltac:(discriminate)) as (l & o & _ & _ & _ & _ & _ & _ & LH). rewrite app_nil_r in LH.
  set (Hd := header_lines f [saved_comment] nv (coord_props t w colored) (Some (save_decl nf "uint8" "uint32"))) in *.
  destruct (raw_cut part (unlines Hd) (ex_intro _ z E)) as (c & t' & r & E1 & E2 & T). rewrite E1 in P. rewrite E2 in LH. destruct (torn_panic t' r c h_start 0 _ eq_refl LH P) as (p & t'' & -> & C).
  destruct T as [T|(p' & q & r' & T & -> & PN & PL)]; [discriminate|]. injection T as <- ->. destruct (C (le_n _)) as [C1 C2].
  assert (I : In (p ++ q) (map (fun l => l ++ [nl]) Hd)) by (rewrite <- (unlines_raw Hd IL), E2; apply in_or_app; right; left; reflexivity). apply in_map_iff in I. destruct I as (l' & EL & I).
  assert (PQ : exists q', l' = p ++ q').
  { destruct (app_eq_app _ _ _ _ EL) as (x & [[X1 X2]|[X1 X2]]); [exists x; exact X1|]. destruct x as [|y x]; [exists []; rewrite app_nil_r in *; auto|]. cbn [app] in X2. injection X2 as <- X2. exfalso. apply PL. rewrite X1. apply in_or_app. right. left. reflexivity. }
  destruct PQ as [q' ->]. exact (saved_torn f nv t w colored nf W _ I p q' eq_refl PN C1 C2).
Qed.

(** ** What can be loaded of a mesh *)
Lemma nth_ext_error {A} : forall (l l' : list A), length l = length l' -> (forall i, i < length l -> nth_error l i = nth_error l' i) -> l = l'.
Proof.
  induction l as [|x l IH]; intros [|y l'] E H; try discriminate; [reflexivity|]. pose proof (H 0 ltac:(cbn; lia)) as H0. cbn in H0. injection H0 as <-. f_equal. apply IH; [cbn in E; lia|]. intros i L. exact (H (S i) ltac:(cbn; lia)).
Qed.
Lemma shows_same {P} (m : mesh P) s s' : shows m s -> shows m s' -> (3 * lenN (sfs s) < 2 ^ 64)%N -> s' = s.
Proof.
  intros (A1 & A2 & A3 & A4 & _) (B1 & B2 & B3 & B4 & _) L. destruct s as [vs fs], s' as [vs' fs']. cbn [svs sfs] in *. unfold lenN in L. f_equal.
  - apply nth_ext_error; [lia|]. intros i _. specialize (A2 (N.of_nat i)). specialize (B2 (N.of_nat i)). rewrite Nat2N.id in *. congruence.
  - apply nth_ext_error; [lia|]. intros i I. specialize (A4 (N.of_nat i) ltac:(lia)). specialize (B4 (N.of_nat i) ltac:(lia)). rewrite Nat2N.id in *. congruence.
Qed.
Lemma fold_np {S E A M} (next : S -> option (outcome E A) * S) (body : M -> A -> M * outcome E unit) (I : M -> Prop) : (forall s, fst (next s) <> Some Panic) -> (forall m a, I m -> I (fst (body m a)) /\ snd (body m a) <> Panic) ->
  forall k s m m' r, I m -> fold_loop next body k s m = Some (m', r) -> r <> Panic.
Proof.
  intros NP B. induction k as [|k IH]; intros s m m' r H L; [discriminate|]. cbn [fold_loop] in L. specialize (NP s). destruct (next s) as [[[a|e|]|] s']; cbn [fst] in NP; [|injection L as _ <-; discriminate|contradiction|injection L as _ <-; discriminate].
  destruct (B m a H) as [B1 B2]. destruct (body m a) as [m1 [u|e|]]; cbn [fst snd] in *; [apply (IH _ _ _ _ B1 L)|injection L as _ <-; discriminate|contradiction].
Qed.
Lemma mesh_panic ft k file m : load_ply_mesh ft k file = Some (m, Panic) ->
  load_header h_start 0 (raw_lines file) = Panic \/ exists fmt v f ls i, load_header h_start 0 (raw_lines file) = Ok (mkheader fmt v (Some f), ls, i) /\ (reserve 24 (vd_count v) && reserve 8 (w64 (3 * fd_count f)))%bool = false.
Proof.
  unfold load_ply_mesh. intros L. destruct (load_header h_start 0 (raw_lines file)) as [[[[fmt v [f|]] ls] i]|e|]; [|discriminate|discriminate|left; reflexivity]. right. exists fmt, v, f, ls, i. split; [reflexivity|].
  destruct (reserve 24 (vd_count v) && reserve 8 (w64 (3 * fd_count f)))%bool; [|reflexivity]. exfalso.
  assert (VV : valid mesh_empty) by (exists (MSpec [] []); split; [split; reflexivity|intros a b c []]). destruct fmt as [|en].
  - refine (fold_np (ascii_mesh_next ft v f) add_simple valid _ add_valid k _ _ m Panic VV L eq_refl). unfold ascii_mesh_next. apply mesh_np; [apply ascii_points_np|apply ascii_faces_np].
  - refine (fold_np (simple_next (binary_mesh_next en v f)) add_simple valid _ add_valid k _ _ m Panic VV L eq_refl). apply simple_np. unfold binary_mesh_next. apply mesh_np; [apply binary_np, binary_vertex_np|apply binary_np, binary_face_np].
Qed.
Lemma header_cons h h' i l ls : header_line h (trim_line l) = Ok (More h') -> load_header h i (l :: ls) = load_header h' (i + 1) ls.
Proof. intros H. cbn [load_header]. rewrite H. reflexivity. Qed.
Lemma binary_ply_header en rest : binary_file (unlines [str "ply"; format_line (FBinary en)] ++ rest).
Proof.
  intros hd ls j H. rewrite raw_unlines in H by (constructor; [concrete_line|constructor; [destruct en; concrete_line|constructor]]). cbn [map app] in H.
  rewrite (header_cons h_start (mkh [CX; CX; CX] 0 true SMeta None None None None None None bw0 bw0 bw0 bw0 None None bw0 bw0)) in H by (vm_compute; reflexivity).
  rewrite (header_cons _ (mkh [CX; CX; CX] 0 true SMeta (Some (FBinary en)) None None None None None bw0 bw0 bw0 bw0 None None bw0 bw0)) in H by (destruct en; vm_compute; reflexivity).
  destruct (format_header _ _ _ _ _ _ (FBinary en) H eq_refl eq_refl) as (v & d & ->). exact I.
Qed.
