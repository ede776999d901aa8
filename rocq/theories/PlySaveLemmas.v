(** Lemmas about saving .ply files. *)
From Verif Require Import Base BaseLemmas Num GeomSpec FloatSpec MeshModel MeshSpec MeshLemmas IoModel IoSpec IoLemmas ByteModel ByteSpec ByteLemmas StlModel StlLemmas PlyModel PlySpec PlyLemmas.
From Coq Require Import ZifyBool ZifyNat ZifyN.
Open Scope nat_scope.

Lemma collect_list {A B} (l : list B) (f : N -> outcome PlyError (list A)) (h : B -> list A) : forall i, (forall j x, nth_error l j = Some x -> f (i + N.of_nat j)%N = Ok (h x)) -> collect_range (length l) i f = Ok (flat_map h l).
Proof.
  induction l as [|x l IH]; intros i H; [reflexivity|]. cbn [length collect_range flat_map]. pose proof (H 0 x eq_refl) as H0. rewrite N.add_0_r in H0. rewrite H0. cbn [obind]. rewrite IH; [reflexivity|].
  intros j y J. specialize (H (S j) y J). rewrite <- H. f_equal. lia.
Qed.
Definition with_colors (vs : list (pt3 F64)) (colors : option (list rgb)) : list (pt3 F64 * option rgb) :=
  match colors with None => map (fun p => (p, None)) vs | Some cs => combine vs (map Some cs) end.
Lemma with_colors_length vs colors : match colors with None => True | Some cs => length cs = length vs end -> length (with_colors vs colors) = length vs.
Proof. destruct colors as [cs|]; cbn; intros H; [rewrite combine_length, map_length; lia|apply map_length]. Qed.
Lemma combine_nth {A B} (l : list A) (m : list B) : length l = length m -> forall j x, nth_error (combine l m) j = Some x -> nth_error l j = Some (fst x) /\ nth_error m j = Some (snd x).
Proof. revert m. induction l as [|a l IH]; intros [|b m] L j x H; try discriminate L; [destruct j; discriminate H|]. destruct j as [|j]; [injection H as <-; auto|]. apply (IH m); [cbn in L; lia|exact H]. Qed.
Lemma with_colors_nth vs colors j x : match colors with None => True | Some cs => length cs = length vs end -> nth_error (with_colors vs colors) j = Some x -> nth_error vs j = Some (fst x) /\ get_color colors (N.of_nat j) = Ok (snd x).
Proof.
  destruct colors as [cs|]; cbn [with_colors]; intros L H.
  - apply combine_nth in H as (H1 & H2); [|rewrite map_length; lia]. split; [exact H1|]. unfold get_color. rewrite nthN_of_nat. rewrite nth_error_map in H2. destruct (nth_error cs j) as [c|]; [|discriminate H2]. injection H2 as <-. reflexivity.
  - rewrite nth_error_map in H. destruct (nth_error vs j) as [p|]; [|discriminate H]. injection H as <-. auto.
Qed.
Lemma with_colors_fst vs colors : match colors with None => True | Some cs => length cs = length vs end -> map fst (with_colors vs colors) = vs.
Proof. destruct colors as [cs|]; cbn [with_colors]; intros L; [|rewrite map_map; apply map_id]. revert cs L. induction vs as [|v vs IH]; intros [|c cs] L; try discriminate L; [reflexivity|]. cbn. rewrite IH; [reflexivity|]. cbn in L. lia. Qed.

Section Save.
Variables (m : mesh (pt3 F64)) (s : mspec (pt3 F64)) (colors : option (list rgb)).
Hypothesis SH : shows m s.
Hypothesis B : (3 * N.of_nat (length (sfs s)) < 2 ^ 64)%N.
Hypothesis C : colors_ok s colors.
Lemma fit : colors_fit m colors = true.
Proof. unfold colors_fit. destruct colors as [cs|]; [|reflexivity]. cbn in C. destruct SH as (NV & _). rewrite NV. apply N.eqb_eq. unfold lenN. lia. Qed.
Lemma vertices_collect {A} (h : pt3 F64 * option rgb -> list A) : collect_range (N.to_nat (num_vertices m)) 0 (fun i => obind (get_vertex m i) (fun p => obind (get_color colors i) (fun c => Ok (h (p, c))))) = Ok (flat_map h (with_colors (svs s) colors)).
Proof.
  destruct SH as (NV & V & _). rewrite NV, Nat2N.id. rewrite <- (with_colors_length (svs s) colors C). apply collect_list. intros j x J. destruct (with_colors_nth _ _ _ _ C J) as (J1 & J2). rewrite N.add_0_l. unfold get_vertex. rewrite V, Nat2N.id, J1. cbn [obind]. rewrite J2. cbn [obind]. destruct x; reflexivity.
Qed.
Lemma faces_collect {A} (h : face3 -> list A) : collect_range (N.to_nat (num_faces m)) 0 (fun i => obind (get_face m i) (fun f => Ok (h f))) = Ok (flat_map h (sfs s)).
Proof.
  destruct SH as (_ & _ & NF & F & _). rewrite NF, Nat2N.id. apply collect_list. intros j x J. rewrite N.add_0_l. unfold get_face. assert (L : j < length (sfs s)) by (apply nth_error_Some; congruence). rewrite F by lia. rewrite Nat2N.id, J. reflexivity.
Qed.
Definition ascii_calls (ft : FText) : list write_call := WriteAll (header_text "ascii" "float" "uchar uint" (is_colored colors) (num_vertices m) (num_faces m)) ::
  flat_map (fun x => [WriteAll (vertex_line_text ft (fst x) (snd x))]) (with_colors (svs s) colors) ++ flat_map (fun f => [WriteAll (face_line_text f)]) (sfs s).
Lemma save_ascii_ok ft : save_ply_ascii ft m colors = Ok (ascii_calls ft).
Proof.
  unfold save_ply_ascii. rewrite fit. cbn [negb]. pose proof (vertices_collect (fun x => [WriteAll (vertex_line_text ft (fst x) (snd x))])) as V. cbn [fst snd] in V.
  pose proof (faces_collect (fun f => [WriteAll (face_line_text f)])) as F.
  etransitivity; [apply f_equal2; [exact V|reflexivity]|]. cbn [obind]. etransitivity; [apply f_equal2; [exact F|reflexivity]|]. reflexivity.
Qed.
Definition vertex_calls (pr : Precision) (x : pt3 F64 * option rgb) : list write_call :=
  [WriteOnce (coord_bytes pr (px (fst x))); WriteOnce (coord_bytes pr (py (fst x))); WriteOnce (coord_bytes pr (pz (fst x)))]
  ++ match snd x with Some c => [WriteOnce (be_bytes 1 (red c)); WriteOnce (be_bytes 1 (green c)); WriteOnce (be_bytes 1 (blue c))] | None => [] end.
Definition face_calls (f : face3) : list write_call := let '(a, b, c) := f in [WriteOnce (be_bytes 1 3); WriteOnce (id_bytes a); WriteOnce (id_bytes b); WriteOnce (id_bytes c)].
Definition binary_calls (pr : Precision) : list write_call := WriteAll (header_text "binary_big_endian" (match pr with P32 => "float" | P64 => "double" end) "uint8 uint32" (is_colored colors) (num_vertices m) (num_faces m)) ::
  flat_map (vertex_calls pr) (with_colors (svs s) colors) ++ flat_map face_calls (sfs s).
Lemma collect_ext {A} n : forall i (f g : N -> outcome PlyError (list A)), (forall i, f i = g i) -> collect_range n i f = collect_range n i g.
Proof. induction n as [|n IH]; intros i f g H; [reflexivity|]. cbn [collect_range]. rewrite H, (IH _ f g H). reflexivity. Qed.
Lemma save_binary_ok pr : save_ply_binary pr m colors = Ok (binary_calls pr).
Proof.
  unfold save_ply_binary. rewrite fit. cbn [negb]. etransitivity; [|unfold binary_calls; reflexivity].
  pose proof (vertices_collect (vertex_calls pr)) as V. unfold vertex_calls at 1 in V. cbn [fst snd] in V.
  etransitivity; [apply f_equal2; [exact V|reflexivity]|]. cbn [obind].
  rewrite (collect_ext _ _ _ (fun i => obind (get_face m i) (fun f => Ok (face_calls f)))) by (intros i; destruct (get_face m i) as [[[a b] c]|e|]; reflexivity).
  rewrite (faces_collect face_calls). reflexivity.
Qed.
End Save.

(** ** the text *)
Definition coord_props (t : PType) (w : bytes) (colored : bool) : list prop :=
  [mkprop t w (str "x"); mkprop t w (str "y"); mkprop t w (str "z")] ++ (if colored then [mkprop PUChar (str "uchar") (str "red"); mkprop PUChar (str "uchar") (str "green"); mkprop PUChar (str "uchar") (str "blue")] else []).
Definition saved_comment : bytes := str "comment Created by rust-3d".
Definition save_decl (nf : N) (c i : string) : face_decl := mkdecl nf [] PUChar (str c) PUInt (str i) (str "vertex_indices") [].
Lemma header_text_eq f fs coord c i t colored nv nf : format_line f = str "format " ++ str fs ++ str " 1.0" ->
  header_text fs coord (c ++ " " ++ i) colored nv nf = unlines (header_lines f [saved_comment] nv (coord_props t (str coord) colored) (Some (save_decl nf c i))).
Proof.
  intros F. unfold header_text, header_lines, unlines. rewrite F. assert (SA : forall a b, str (a ++ b) = str a ++ str b) by (induction a as [|x a IH]; intros b; [reflexivity|cbn; f_equal; apply IH]). rewrite !SA.
  destruct colored; cbn [coord_props app flat_map map prop_line p_word p_name decl_list decl_lines save_decl d_count d_before d_after d_cword d_iword d_name str list_ascii_of_string saved_comment]; rewrite <- ?app_assoc; cbn [app]; rewrite <- ?app_assoc; cbn [app]; reflexivity.
Qed.
Lemma header_saved nv nf t w c i colored : (nv < 2 ^ 64)%N -> (nf < 2 ^ 64)%N -> (t = PFloat \/ t = PDouble) -> spelled t w -> spelled PUChar (str c) -> spelled PUInt (str i) ->
  header_ok [saved_comment] nv (coord_props t w colored) (Some (save_decl nf c i)).
Proof.
  intros V F T S1 S2 S3. split; [|split; [exact V|split; [|split]]].
  - constructor; [|constructor]. split; [concrete_line|]. exists (str " Created by rust-3d"). left. reflexivity.
  - destruct colored; repeat constructor; cbn; try assumption; try (left; reflexivity); discriminate.
  - intros p I C. destruct colored; cbn in I; repeat destruct I as [<-|I]; try exact T; try discriminate C; destruct I.
  - cbn. unfold decl_ok, save_decl. cbn. split; [exact F|]. split; [constructor|]. split; [constructor|]. split; [exact S2|]. split; [exact S3|]. repeat split; try discriminate. left. reflexivity.
Qed.
Lemma order_saved t w colored : coord_order (coord_props t w colored) = [name_of CX; name_of CY; name_of CZ].
Proof. destruct colored; reflexivity. Qed.
Definition row_words (ft : FText) (x : pt3 F64 * option rgb) : list bytes :=
  [fprint ft (px (fst x)); fprint ft (py (fst x)); fprint ft (pz (fst x))] ++ match snd x with Some c => [print_usize (red c); print_usize (green c); print_usize (blue c)] | None => [] end.
Lemma vertex_line_join ft x : vertex_line_text ft (fst x) (snd x) = join (row_words ft x) ++ [nl].
Proof. unfold vertex_line_text, row_words. destruct (snd x) as [c|]; cbn [app join]; repeat (progress (rewrite <- ?app_assoc; cbn [app])); reflexivity. Qed.
Lemma face_line_join f : face_line_text f = face_text f ++ [nl].
Proof. destruct f as [[a b] c]. unfold face_line_text, face_text. cbn [join str list_ascii_of_string app]. rewrite <- ?app_assoc. cbn [app]. rewrite <- ?app_assoc. reflexivity. Qed.
Lemma saved_row ft t w x (colored : bool) : ft_ok ft -> printable3 (fst x) -> colored = match snd x with Some _ => true | None => false end -> text_row ft (coord_props t w colored) (row_words ft x) (fst x).
Proof.
  intros K (P1 & P2 & P3) E. subst colored. destruct x as [p o]. cbn [fst snd] in *. split; [destruct o; reflexivity|]. assert (FW : forall y, word (fprint ft y)) by (intros y; apply number_is_word; apply (print_chars _ K)). split.
  - unfold row_words. destruct o; repeat constructor; first [apply FW|apply usize_word].
  - exists (fprint ft (px p)), (fprint ft (py p)), (fprint ft (pz p)). rewrite !(f64_of_print ft _ K) by assumption.
    split; [exists 0; eexists; repeat split; reflexivity|]. split; [exists 1; eexists; repeat split; reflexivity|]. split; [exists 2; eexists; repeat split; reflexivity|]. auto.
Qed.
Lemma colored_all vs colors x : In x (with_colors vs colors) -> is_colored colors = match snd x with Some _ => true | None => false end.
Proof.
  destruct colors as [cs|]; cbn [with_colors is_colored]; intros I.
  - destruct x as [p c]. apply in_combine_r in I. apply in_map_iff in I as (c' & <- & _). reflexivity.
  - apply in_map_iff in I as (p & <- & _). reflexivity.
Qed.
Lemma twisted_id p : twisted CX CY CZ p = p. Proof. destruct p; reflexivity. Qed.
Lemma all_bytes_app a b : all_bytes (a ++ b) = all_bytes a ++ all_bytes b. Proof. apply flat_map_app. Qed.
Lemma all_bytes_flat {A} (f : A -> list write_call) l : all_bytes (flat_map f l) = flat_map (fun x => all_bytes (f x)) l.
Proof. induction l as [|x l IH]; [reflexivity|]. cbn [flat_map]. rewrite all_bytes_app, IH. reflexivity. Qed.
Lemma flat_unlines {A} (f g : A -> bytes) l : (forall x, f x = g x ++ [nl]) -> flat_map f l = unlines (map g l).
Proof. intros H. induction l as [|x l IH]; [reflexivity|]. unfold unlines in *. cbn [flat_map map]. rewrite H, IH. reflexivity. Qed.

(** ** the binary data *)
Definition coord_type (pr : Precision) : PType := match pr with P32 => PFloat | P64 => PDouble end.
Definition coord_word (pr : Precision) : string := match pr with P32 => "float" | P64 => "double" end.
Lemma coord_float pr x : (pr = P64 -> is_double x) -> binary_float Big (coord_type pr) (coord_bytes pr x) (stored pr x) /\ lenN (coord_bytes pr x) = size_bytes (coord_type pr).
Proof.
  intros D. destruct pr; cbn [coord_type coord_bytes stored size_bytes]; (split; [|unfold lenN; rewrite be_bytes_length; reflexivity]).
  - exists (f32_bits (narrow x)). pose proof (narrow_f32 x) as V. pose proof (encode_bound 23 8 ltac:(lia) ltac:(lia) _ V) as BO.
    assert (BB : (f32_bits (narrow x) < 256 ^ N.of_nat 4)%N) by (unfold f32_bits; apply N2Z.inj_lt; rewrite N2Z.inj_pow; exact BO).
    split; [pose proof (be_encodes (be_bytes 4 (f32_bits (narrow x)))) as E; rewrite be_value_bytes in E by exact BB; exact E|]. f_equal. symmetry. apply (decode_encode 23 8); [lia|lia|exact V].
  - specialize (D eq_refl). exists (f64_bits x). pose proof (encode_bound 52 11 ltac:(lia) ltac:(lia) _ D) as BO.
    assert (BB : (f64_bits x < 256 ^ N.of_nat 8)%N) by (unfold f64_bits; apply N2Z.inj_lt; rewrite N2Z.inj_pow; exact BO).
    split; [pose proof (be_encodes (be_bytes 8 (f64_bits x))) as E; rewrite be_value_bytes in E by exact BB; exact E|]. symmetry. apply (decode_encode 52 11); [lia|lia|exact D].
Qed.
Definition row_bytes (pr : Precision) (x : pt3 F64 * option rgb) : list bytes := map call_bytes (vertex_calls pr x).
Lemma saved_binary_row pr x (colored : bool) : (pr = P64 -> double3 (fst x)) -> colored = match snd x with Some _ => true | None => false end ->
  binary_row Big (coord_props (coord_type pr) (str (coord_word pr)) colored) (row_bytes pr x) (stored3 pr (fst x)).
Proof.
  intros D E. destruct (coord_float pr (px (fst x)) ltac:(intros H; apply (D H))) as (F1 & L1). destruct (coord_float pr (py (fst x)) ltac:(intros H; apply (D H))) as (F2 & L2). destruct (coord_float pr (pz (fst x)) ltac:(intros H; apply (D H))) as (F3 & L3).
  subst colored. unfold row_bytes, vertex_calls, coord_props. split; [|split; [|split]].
  - destruct (snd x); cbn [map app call_bytes]; constructor; try exact L1; constructor; try exact L2; constructor; try exact L3; repeat constructor.
  - exists 0, (mkprop (coord_type pr) (str (coord_word pr)) (str "x")), (coord_bytes pr (px (fst x))). cbn. auto.
  - exists 1, (mkprop (coord_type pr) (str (coord_word pr)) (str "y")), (coord_bytes pr (py (fst x))). cbn. auto.
  - exists 2, (mkprop (coord_type pr) (str (coord_word pr)) (str "z")), (coord_bytes pr (pz (fst x))). cbn. auto.
Qed.
Lemma id_index v : (v < 2 ^ 32)%N -> binary_index Big PUInt (id_bytes v) v.
Proof.
  intros L. unfold id_bytes. rewrite N.mod_small by exact L. split; [unfold lenN; rewrite be_bytes_length; reflexivity|]. split; [|exact I].
  pose proof (be_encodes (be_bytes 4 v)) as E. rewrite be_value_bytes in E by exact L. exact E.
Qed.
Lemma saved_binary_face nf c i f : (let '(a, b, c) := f in a < 2 ^ 32 /\ b < 2 ^ 32 /\ c < 2 ^ 32)%N -> binary_face_row Big (save_decl nf c i) f (all_bytes (face_calls f)).
Proof.
  destruct f as [[a b] d]. intros (A & B & C). exists [], (be_bytes 1 3), (id_bytes a), (id_bytes b), (id_bytes d), []. split; [reflexivity|]. split; [reflexivity|]. split; [reflexivity|].
  cbn [save_decl d_ctype d_itype]. split; [|split; [apply id_index, A|split; [apply id_index, B|apply id_index, C]]]. split; [reflexivity|]. split; [|exact I]. apply (be_encodes (be_bytes 1 3)).
Qed.
