(** The .ply format: what is loaded, what is saved, truncated files, panics, arbitrary files and
    writers. *)
From Verif Require Import Base BaseLemmas Num GeomSpec FloatSpec MeshModel MeshSpec MeshLemmas IoModel IoSpec IoLemmas ByteModel ByteSpec ByteLemmas StlModel StlSpec StlLemmas PlyModel PlySpec PlyLemmas PlySaveLemmas PlyTotalLemmas.
From Coq Require Import ZifyBool ZifyNat ZifyN.
Open Scope nat_scope.

(** ** C62 the columns *)
Lemma straight_orders ps : straight (coord_order ps) -> exists c1 c2 c3, coord_order ps = [name_of c1; name_of c2; name_of c3] /\ c1 <> c2 /\ c1 <> c3 /\ c2 <> c3 /\ (forall p, twisted c1 c2 c3 p = p).
Proof.
  intros [E|[E|[E|E]]]; rewrite E; [exists CX, CY, CZ|exists CX, CZ, CY|exists CY, CX, CZ|exists CZ, CY, CX]; (split; [reflexivity|]; repeat (split; [discriminate|]); intros [x y z]; reflexivity).
Qed.
Lemma map_same {A} (f : A -> A) l : (forall x, f x = x) -> map f l = l. Proof. intros H. rewrite <- (map_id l) at 2. apply map_ext, H. Qed.
(** In the orders xyz, xzy, yxz and zyx, with other properties anywhere between, the points loaded are
    those of the named columns; what follows the vertices is not looked at. *)
Theorem C62_text_points : forall ft comments nv ps d rows pts rest k, header_ok comments nv ps d -> straight (coord_order ps) -> nv = lenN rows -> (24 * nv < 2 ^ 63)%N ->
  Forall2 (text_row ft ps) rows pts -> length rows < k ->
  load_ply_points ft k (unlines (header_lines FAscii comments nv ps d) ++ unlines (map join rows) ++ rest) = Some (pts, Ok tt).
Proof.
  intros ft cs nv ps d rows pts rest k H ST NV R F L. destruct (straight_orders ps ST) as (c1 & c2 & c3 & CO & D1 & D2 & D3 & TW).
  rewrite (text_points ft cs ps c1 c2 c3 CO D1 D2 D3 nv d rows pts rest k H NV R F L). rewrite (map_same _ pts TW). reflexivity.
Qed.
Print Assumptions C62_text_points.
Theorem C62_text_mesh : forall ft comments nv ps d rows pts fs rest k, header_ok comments nv ps (Some d) -> straight (coord_order ps) -> nv = lenN rows -> d_count d = lenN fs -> fits nv (lenN fs) ->
  Forall2 (text_row ft ps) rows pts -> faces_ok (MSpec pts fs) -> length rows + length fs < k ->
  exists m, load_ply_mesh ft k (unlines (header_lines FAscii comments nv ps (Some d)) ++ unlines (map join rows) ++ unlines (map face_text fs) ++ rest) = Some (m, Ok tt) /\ shows m (MSpec pts fs).
Proof.
  intros ft cs nv ps d rows pts fs rest k H ST NV NF R F OK L. destruct (straight_orders ps ST) as (c1 & c2 & c3 & CO & D1 & D2 & D3 & TW).
  pose proof (text_mesh ft cs ps c1 c2 c3 CO D1 D2 D3 nv d rows pts fs rest k H NV NF R F) as M. rewrite (map_same _ pts TW) in M. exact (M OK L).
Qed.
Print Assumptions C62_text_mesh.
(** The same for binary files of both byte orders, if the coordinates have one type or are in the order
    xyz. *)
Definition typed (ps : list prop) : Prop := one_type ps \/ coord_order ps = [str "x"; str "y"; str "z"].
Lemma straight_typed ps : straight (coord_order ps) -> typed ps -> exists c1 c2 c3, coord_order ps = [name_of c1; name_of c2; name_of c3] /\ c1 <> c2 /\ c1 <> c3 /\ c2 <> c3 /\ (forall p, twisted c1 c2 c3 p = p) /\ (one_type ps \/ (c1 = CX /\ c2 = CY /\ c3 = CZ)).
Proof.
  intros ST [T|E].
  - destruct (straight_orders ps ST) as (c1 & c2 & c3 & CO & D1 & D2 & D3 & TW). exists c1, c2, c3. auto 10.
  - exists CX, CY, CZ. split; [exact E|]. repeat (split; [discriminate|]). split; [intros [x y z]; reflexivity|]. auto.
Qed.
Theorem C62_binary_points : forall ft en comments nv ps d rows pts rest k, header_ok comments nv ps d -> straight (coord_order ps) -> typed ps -> nv = lenN rows -> (24 * nv < 2 ^ 63)%N ->
  Forall2 (binary_row en ps) rows pts -> length rows < k ->
  load_ply_points ft k (unlines (header_lines (FBinary en) comments nv ps d) ++ concat (map (fun row => concat row) rows) ++ rest) = Some (pts, Ok tt).
Proof.
  intros ft en cs nv ps d rows pts rest k H ST T NV R F L. destruct (straight_typed ps ST T) as (c1 & c2 & c3 & CO & D1 & D2 & D3 & TW & O).
  rewrite (binary_points en cs ps c1 c2 c3 CO D1 D2 D3 O ft nv d rows pts rest k H NV R F L). rewrite (map_same _ pts TW). reflexivity.
Qed.
Print Assumptions C62_binary_points.
Theorem C62_binary_mesh : forall ft en comments nv ps d rows pts fs frows rest k, header_ok comments nv ps (Some d) -> straight (coord_order ps) -> typed ps -> nv = lenN rows -> d_count d = lenN fs -> fits nv (lenN fs) ->
  Forall2 (binary_row en ps) rows pts -> Forall2 (binary_face_row en d) fs frows -> faces_ok (MSpec pts fs) -> length rows + length fs < k ->
  exists m, load_ply_mesh ft k (unlines (header_lines (FBinary en) comments nv ps (Some d)) ++ concat (map (fun row => concat row) rows) ++ concat frows ++ rest) = Some (m, Ok tt) /\ shows m (MSpec pts fs).
Proof.
  intros ft en cs nv ps d rows pts fs frows rest k H ST T NV NF R F FF OK L. destruct (straight_typed ps ST T) as (c1 & c2 & c3 & CO & D1 & D2 & D3 & TW & O).
  pose proof (binary_mesh en cs ps c1 c2 c3 CO D1 D2 D3 O ft nv d rows pts fs frows rest k H NV NF R F FF) as M. rewrite (map_same _ pts TW) in M. exact (M OK L).
Qed.
Print Assumptions C62_binary_mesh.
(** In the orders yzx and zxy the coordinates are permuted. *)
Theorem C62_wrong_order : forall ft comments nv ps d rows pts rest k, header_ok comments nv ps d -> nv = lenN rows -> (24 * nv < 2 ^ 63)%N ->
  Forall2 (text_row ft ps) rows pts -> length rows < k ->
  let file := unlines (header_lines FAscii comments nv ps d) ++ unlines (map join rows) ++ rest in
  (coord_order ps = [str "y"; str "z"; str "x"] -> load_ply_points ft k file = Some (map (fun p => mk3 (pz p) (px p) (py p)) pts, Ok tt)) /\
  (coord_order ps = [str "z"; str "x"; str "y"] -> load_ply_points ft k file = Some (map (fun p => mk3 (py p) (pz p) (px p)) pts, Ok tt)).
Proof.
  intros ft cs nv ps d rows pts rest k H NV R F L file. unfold file. split; intros CO.
  - rewrite (text_points ft cs ps CY CZ CX CO ltac:(discriminate) ltac:(discriminate) ltac:(discriminate) nv d rows pts rest k H NV R F L). reflexivity.
  - rewrite (text_points ft cs ps CZ CX CY CO ltac:(discriminate) ltac:(discriminate) ltac:(discriminate) nv d rows pts rest k H NV R F L). reflexivity.
Qed.
Print Assumptions C62_wrong_order.
Theorem C62_wrong_order_binary : forall ft en comments nv ps d rows pts rest k, header_ok comments nv ps d -> one_type ps -> nv = lenN rows -> (24 * nv < 2 ^ 63)%N ->
  Forall2 (binary_row en ps) rows pts -> length rows < k ->
  let file := unlines (header_lines (FBinary en) comments nv ps d) ++ concat (map (fun row => concat row) rows) ++ rest in
  (coord_order ps = [str "y"; str "z"; str "x"] -> load_ply_points ft k file = Some (map (fun p => mk3 (pz p) (px p) (py p)) pts, Ok tt)) /\
  (coord_order ps = [str "z"; str "x"; str "y"] -> load_ply_points ft k file = Some (map (fun p => mk3 (py p) (pz p) (px p)) pts, Ok tt)).
Proof.
  intros ft en cs nv ps d rows pts rest k H T NV R F L file. unfold file. split; intros CO.
  - rewrite (binary_points en cs ps CY CZ CX CO ltac:(discriminate) ltac:(discriminate) ltac:(discriminate) (or_introl T) ft nv d rows pts rest k H NV R F L). reflexivity.
  - rewrite (binary_points en cs ps CZ CX CY CO ltac:(discriminate) ltac:(discriminate) ltac:(discriminate) (or_introl T) ft nv d rows pts rest k H NV R F L). reflexivity.
Qed.
Print Assumptions C62_wrong_order_binary.
(** Even in a straight order the numbers are wrong when the coordinates of a binary file have different
    types: the types go by the name and not by the column. *)
Definition mixed_props : list prop := [mkprop PFloat (str "float") (str "x"); mkprop PDouble (str "double") (str "z"); mkprop PFloat (str "float") (str "y")].
Definition mixed_row : list bytes := [map ascii_of_N [63; 128; 0; 0]; map ascii_of_N [64; 0; 0; 0; 0; 0; 0; 0]; map ascii_of_N [64; 64; 0; 0]]%N.
Theorem C62_types_refuted : exists ps rows pts, header_ok [] (lenN rows) ps None /\ straight (coord_order ps) /\ Forall2 (binary_row Big ps) rows pts /\
  exists q, load_ply_points demo 10 (unlines (header_lines (FBinary Big) [] (lenN rows) ps None) ++ concat (map (fun row => concat row) rows)) = Some (q, Ok tt) /\ q <> pts.
Proof.
  exists mixed_props, [mixed_row], [fp3 1 3 2]. split; [|split; [|split]].
  - split; [constructor|]. split; [reflexivity|]. split; [|split; [|exact I]].
    + repeat constructor; cbn; auto; discriminate.
    + intros p [<-|[<-|[<-|[]]]] _; cbn; auto.
  - right. left. reflexivity.
  - constructor; [|constructor]. split; [repeat constructor|]. split; [|split].
    + exists 0, (mkprop PFloat (str "float") (str "x")), (map ascii_of_N [63; 128; 0; 0]%N). repeat (split; [reflexivity|]). eexists. split; [apply (be_encodes (map ascii_of_N [63; 128; 0; 0]%N))|]. vm_compute. reflexivity.
    + exists 2, (mkprop PFloat (str "float") (str "y")), (map ascii_of_N [64; 64; 0; 0]%N). repeat (split; [reflexivity|]). eexists. split; [apply (be_encodes (map ascii_of_N [64; 64; 0; 0]%N))|]. vm_compute. reflexivity.
    + exists 1, (mkprop PDouble (str "double") (str "z")), (map ascii_of_N [64; 0; 0; 0; 0; 0; 0; 0]%N). repeat (split; [reflexivity|]). eexists. split; [apply (be_encodes (map ascii_of_N [64; 0; 0; 0; 0; 0; 0; 0]%N))|]. vm_compute. reflexivity.
  - exists [mk3 (fz 1) (f64_of_bits 1077936128) (fz 2)]. split; [vmeq|]. intros E. apply (f_equal (map (fun p => py p))) in E. vm_compute in E. discriminate E.
Qed.
Print Assumptions C62_types_refuted.
Definition case_rows : list (list bytes) := [map str ["7"; "1"; "3"; "2"]; map str ["8"; "4"; "6"; "5"]; map str ["9"; "0"; "0"; "0"]]%string.
Definition case_props (a b c : string) : list prop := [mkprop PUChar (str "uchar") (str "id"); mkprop PFloat (str "float") (str a); mkprop PDouble (str "float64") (str b); mkprop PFloat (str "float32") (str c)].
Definition case_decl : face_decl := mkdecl 1 [] PUChar (str "uchar") PInt (str "int") (str "vertex_index") [mkprop PInt (str "int32") (str "flags")].
Definition case_head (a b c : string) : bytes := unlines (header_lines FAscii [str "comment a"; str "obj_info b"] 3 (case_props a b c) (Some case_decl)).
Example C62_case : header_ok [str "comment a"; str "obj_info b"] 3 (case_props "x" "z" "y") (Some case_decl) /\ straight (coord_order (case_props "x" "z" "y")) /\
  Forall2 (text_row demo (case_props "x" "z" "y")) case_rows [fp3 1 2 3; fp3 4 5 6; fp3 0 0 0] /\ faces_ok (MSpec [fp3 1 2 3; fp3 4 5 6; fp3 0 0 0] [(0, 1, 2)]%N) /\
  load_ply_points demo 100 (case_head "x" "z" "y" ++ unlines (map join case_rows)) = Some ([fp3 1 2 3; fp3 4 5 6; fp3 0 0 0], Ok tt) /\
  load_ply_mesh demo 100 (case_head "x" "z" "y" ++ unlines (map join case_rows) ++ unlines (map face_text [(0, 1, 2)]%N)) = Some (Mesh [fp3 1 2 3; fp3 4 5 6; fp3 0 0 0] [0; 1; 2]%N, Ok tt) /\
  load_ply_points demo 100 (case_head "y" "z" "x" ++ unlines (map join case_rows)) = Some ([fp3 3 2 1; fp3 6 5 4; fp3 0 0 0], Ok tt) /\
  Forall2 (text_row demo (case_props "y" "z" "x")) case_rows [fp3 2 1 3; fp3 5 4 6; fp3 0 0 0].
Proof.
  assert (W : Forall (Forall word) case_rows) by (repeat constructor; discriminate).
  split; [|split; [|split; [|split; [|split; [vmeq|split; [vmeq|split; [vmeq|]]]]]]].
  - split; [|split; [reflexivity|split; [|split]]].
    + constructor; [|constructor; [|constructor]]; (split; [concrete_line|]); [exists (str " a"); left|exists (str " b"); right]; reflexivity.
    + repeat constructor; cbn; auto; discriminate.
    + intros p [<-|[<-|[<-|[<-|[]]]]] H; cbn in *; auto; discriminate H.
    + unfold decl_ok, case_decl. cbn. split; [reflexivity|]. split; [constructor|]. split; [repeat constructor; cbn; auto; discriminate|]. split; [auto|]. split; [auto|]. repeat split; try discriminate. auto.
  - right. left. reflexivity.
  - inversion W as [|? ? W1 W']; subst. inversion W' as [|? ? W2 W'']; subst. inversion W'' as [|? ? W3 _]; subst.
    constructor; [|constructor; [|constructor; [|constructor]]]; (split; [reflexivity|]; split; [assumption|]).
    + exists (str "1"), (str "2"), (str "3"). split; [exists 1; eexists; repeat split; reflexivity|]. split; [exists 3; eexists; repeat split; reflexivity|]. split; [exists 2; eexists; repeat split; reflexivity|]. split; [vmeq|split; vmeq].
    + exists (str "4"), (str "5"), (str "6"). split; [exists 1; eexists; repeat split; reflexivity|]. split; [exists 3; eexists; repeat split; reflexivity|]. split; [exists 2; eexists; repeat split; reflexivity|]. split; [vmeq|split; vmeq].
    + exists (str "0"), (str "0"), (str "0"). split; [exists 1; eexists; repeat split; reflexivity|]. split; [exists 3; eexists; repeat split; reflexivity|]. split; [exists 2; eexists; repeat split; reflexivity|]. split; [vmeq|split; vmeq].
  - intros a b c [H|[]]. injection H as <- <- <-. repeat split; discriminate.
  - inversion W as [|? ? W1 W']; subst. inversion W' as [|? ? W2 W'']; subst. inversion W'' as [|? ? W3 _]; subst.
    constructor; [|constructor; [|constructor; [|constructor]]]; (split; [reflexivity|]; split; [assumption|]).
    + exists (str "2"), (str "1"), (str "3"). split; [exists 3; eexists; repeat split; reflexivity|]. split; [exists 1; eexists; repeat split; reflexivity|]. split; [exists 2; eexists; repeat split; reflexivity|]. split; [vmeq|split; vmeq].
    + exists (str "5"), (str "4"), (str "6"). split; [exists 3; eexists; repeat split; reflexivity|]. split; [exists 1; eexists; repeat split; reflexivity|]. split; [exists 2; eexists; repeat split; reflexivity|]. split; [vmeq|split; vmeq].
    + exists (str "0"), (str "0"), (str "0"). split; [exists 3; eexists; repeat split; reflexivity|]. split; [exists 1; eexists; repeat split; reflexivity|]. split; [exists 2; eexists; repeat split; reflexivity|]. split; [vmeq|split; vmeq].
Qed.

(** ** C60 saving as text *)
Lemma fits_bound nv nf : fits nv nf -> (nv < 2 ^ 64)%N /\ (nf < 2 ^ 64)%N /\ (3 * nf < 2 ^ 64)%N. Proof. intros (A & B). lia. Qed.
(** Saving succeeds exactly when there is one color for every vertex. *)
Theorem C60_colors : forall ft pr m s colors, shows m s -> (3 * N.of_nat (length (sfs s)) < 2 ^ 64)%N ->
  (colors_ok s colors -> (exists calls, save_ply_ascii ft m colors = Ok calls) /\ (exists calls, save_ply_binary pr m colors = Ok calls)) /\
  (~ colors_ok s colors -> save_ply_ascii ft m colors = Err ColorArrayIncorrectLength /\ save_ply_binary pr m colors = Err ColorArrayIncorrectLength).
Proof.
  intros ft pr m s colors SH B. split; intros C.
  - split; eexists; [apply (save_ascii_ok m s colors SH B C)|apply (save_binary_ok m s colors SH B C)].
  - assert (F : colors_fit m colors = false). { unfold colors_fit. destruct colors as [cs|]; [|destruct C; exact I]. destruct SH as (NV & _). rewrite NV. apply N.eqb_neq. unfold lenN. cbn in C. lia. }
    unfold save_ply_ascii, save_ply_binary. rewrite F. auto.
Qed.
Print Assumptions C60_colors.
(** Every mesh with coordinates that can be printed is loaded as it was saved, with or without colors. *)
Theorem C60_round_trip : forall ft m s colors calls k, ft_ok ft -> shows m s -> faces_ok s -> Forall printable3 (svs s) -> fits (lenN (svs s)) (lenN (sfs s)) -> colors_ok s colors ->
  save_ply_ascii ft m colors = Ok calls -> length (all_bytes calls) < k ->
  exists m', load_ply_mesh ft k (all_bytes calls) = Some (m', Ok tt) /\ shows m' s.
Proof.
  intros ft m s colors calls k K SH OK P FI C SV L. destruct (fits_bound _ _ FI) as (B1 & B2 & B3). assert (B : (3 * N.of_nat (length (sfs s)) < 2 ^ 64)%N) by (unfold lenN in B3; exact B3).
  rewrite (save_ascii_ok m s colors SH B C) in SV. injection SV as <-. pose proof SH as (NV & _ & NF & _). unfold ascii_calls in *. rewrite NV, NF in *.
  set (colored := is_colored colors) in *. set (zc := with_colors (svs s) colors) in *. fold (lenN (svs s)) in *. fold (lenN (sfs s)) in *.
  assert (E : forall x, all_bytes (WriteAll x :: flat_map (fun x => [WriteAll (vertex_line_text ft (fst x) (snd x))]) zc ++ flat_map (fun f => [WriteAll (face_line_text f)]) (sfs s)) =
    x ++ unlines (map join (map (row_words ft) zc)) ++ unlines (map face_text (sfs s)) ++ []).
  { intros x. unfold all_bytes at 1. cbn [flat_map call_bytes]. fold (all_bytes (flat_map (fun x => [WriteAll (vertex_line_text ft (fst x) (snd x))]) zc ++ flat_map (fun f => [WriteAll (face_line_text f)]) (sfs s))).
    rewrite all_bytes_app, !all_bytes_flat, app_nil_r. f_equal. f_equal; [rewrite map_map|]; apply flat_unlines; intros y; unfold all_bytes; cbn [flat_map call_bytes]; rewrite app_nil_r; [apply vertex_line_join|apply face_line_join]. }
  rewrite E in *. change "uchar uint"%string with ("uchar" ++ " " ++ "uint")%string in *. rewrite (header_text_eq FAscii _ _ _ _ PFloat) in * by reflexivity.
  assert (ZL : length zc = length (svs s)) by (apply with_colors_length; exact C). assert (ZF : map fst zc = svs s) by (apply with_colors_fst; exact C).
  set (ps := coord_props PFloat (str "float") colored) in *.
  assert (H : header_ok [saved_comment] (lenN (svs s)) ps (Some (save_decl (lenN (sfs s)) "uchar" "uint"))) by (apply header_saved; cbn; auto).
  assert (R : Forall2 (text_row ft ps) (map (row_words ft) zc) (svs s)).
  { rewrite <- ZF. assert (Q : forall x, In x zc -> printable3 (fst x) /\ colored = match snd x with Some _ => true | None => false end).
    { intros x I. split; [|apply (colored_all (svs s)), I]. rewrite Forall_forall in P. apply P. rewrite <- ZF. apply in_map, I. }
    clear -K Q. unfold ps. induction zc as [|x zc IH]; constructor; [|apply IH; intros y I; apply Q; right; exact I]. apply saved_row; [exact K| |]; apply (Q x); left; reflexivity. }
  destruct (C62_text_mesh ft [saved_comment] (lenN (svs s)) ps (save_decl (lenN (sfs s)) "uchar" "uint") (map (row_words ft) zc) (svs s) (sfs s) [] k) as (m' & LM & SM).
  - exact H.
  - left. unfold ps. rewrite order_saved. reflexivity.
  - rewrite map_lenN. unfold lenN. rewrite ZL. reflexivity.
  - reflexivity.
  - exact FI.
  - exact R.
  - destruct s; exact OK.
  - rewrite !app_length in L. pose proof (unlines_length (map join (map (row_words ft) zc))). pose proof (unlines_length (map face_text (sfs s))). rewrite !map_length in *. lia.
  - exists m'. split; [exact LM|destruct s; exact SM].
Qed.
Print Assumptions C60_round_trip.
Definition case_mesh2 : mesh (pt3 F64) := Mesh [fp3 0 0 0; fp3 2 0 0; fp3 0 (-3) 0] [0; 1; 2]%N.
Definition case_colors : list rgb := [mkrgb 1 2 3; mkrgb 40 50 60; mkrgb 7 8 255].
Definition bytes_of (r : outcome PlyError (list write_call)) : bytes := match r with Ok calls => all_bytes calls | _ => [] end.
Example C60_case : shows case_mesh2 (MSpec [fp3 0 0 0; fp3 2 0 0; fp3 0 (-3) 0] [(0, 1, 2)]%N) /\
  bytes_of (save_ply_ascii demo case_mesh2 (Some case_colors)) = unlines (map str ["ply"; "format ascii 1.0"; "comment Created by rust-3d"; "element vertex 3"; "property float x"; "property float y"; "property float z";
    "property uchar red"; "property uchar green"; "property uchar blue"; "element face 1"; "property list uchar uint vertex_indices"; "end_header"; "0 0 0 1 2 3"; "2 0 0 40 50 60"; "0 -3 0 7 8 255"; "3 0 1 2"]%string) /\
  load_ply_mesh demo 1000 (bytes_of (save_ply_ascii demo case_mesh2 (Some case_colors))) = Some (case_mesh2, Ok tt) /\
  save_ply_ascii demo case_mesh2 (Some [mkrgb 1 2 3]) = Err ColorArrayIncorrectLength.
Proof. split; [apply abs_shows; [split; reflexivity|]; intros a b c [H|[]]; injection H as <- <- <-; repeat split; discriminate|]. split; [vmeq|split; vmeq]. Qed.

(** ** C61 saving as binary data *)
(** Every mesh with fewer than 2^32 vertices is loaded as it was saved: bit for bit with 64 bits, with
    every coordinate rounded to the nearest f32 with 32 bits. *)
Theorem C61_round_trip : forall ft pr m s colors calls k, shows m s -> faces_ok s -> Forall double3 (svs s) -> (lenN (svs s) < 2 ^ 32)%N -> fits (lenN (svs s)) (lenN (sfs s)) -> colors_ok s colors ->
  save_ply_binary pr m colors = Ok calls -> length (all_bytes calls) < k ->
  exists m', load_ply_mesh ft k (all_bytes calls) = Some (m', Ok tt) /\ shows m' (MSpec (map (stored3 pr) (svs s)) (sfs s)).
Proof.
  intros ft pr m s colors calls k SH OK P V32 FI C SV L. destruct (fits_bound _ _ FI) as (B1 & B2 & B3). assert (B : (3 * N.of_nat (length (sfs s)) < 2 ^ 64)%N) by (unfold lenN in B3; exact B3).
  rewrite (save_binary_ok m s colors SH B C) in SV. injection SV as <-. pose proof SH as (NV & _ & NF & _). unfold binary_calls in *. rewrite NV, NF in *.
  set (colored := is_colored colors) in *. set (zc := with_colors (svs s) colors) in *. fold (lenN (svs s)) in *. fold (lenN (sfs s)) in *.
  assert (E : forall x, all_bytes (WriteAll x :: flat_map (vertex_calls pr) zc ++ flat_map face_calls (sfs s)) = x ++ concat (map (fun r => concat r) (map (row_bytes pr) zc)) ++ concat (map (fun f => all_bytes (face_calls f)) (sfs s)) ++ []).
  { intros x. unfold all_bytes at 1. cbn [flat_map call_bytes]. fold (all_bytes (flat_map (vertex_calls pr) zc ++ flat_map face_calls (sfs s))). rewrite all_bytes_app, !all_bytes_flat, app_nil_r, map_map, !flat_map_concat_map. f_equal. f_equal. f_equal. apply map_ext.
    intros y. unfold row_bytes, all_bytes. apply flat_map_concat_map. }
  rewrite E in *. change "uint8 uint32"%string with ("uint8" ++ " " ++ "uint32")%string in *. change (match pr with P32 => "float" | P64 => "double" end)%string with (coord_word pr) in *.
  rewrite (header_text_eq (FBinary Big) _ _ _ _ (coord_type pr)) in * by reflexivity.
  assert (ZL : length zc = length (svs s)) by (apply with_colors_length; exact C). assert (ZF : map fst zc = svs s) by (apply with_colors_fst; exact C).
  set (ps := coord_props (coord_type pr) (str (coord_word pr)) colored) in *.
  assert (H : header_ok [saved_comment] (lenN (svs s)) ps (Some (save_decl (lenN (sfs s)) "uint8" "uint32"))) by (apply header_saved; [assumption|assumption|destruct pr; cbn; auto|destruct pr; cbn; auto|cbn; auto|cbn; auto]).
  assert (R : Forall2 (binary_row Big ps) (map (row_bytes pr) zc) (map (stored3 pr) (svs s))).
  { rewrite <- ZF. assert (Q : forall x, In x zc -> (pr = P64 -> double3 (fst x)) /\ colored = match snd x with Some _ => true | None => false end).
    { intros x I. split; [|apply (colored_all (svs s)), I]. intros _. rewrite Forall_forall in P. apply P. rewrite <- ZF. apply in_map, I. }
    clear -Q. unfold ps. induction zc as [|x zc IH]; constructor; [|apply IH; intros y I; apply Q; right; exact I]. apply saved_binary_row; apply (Q x); left; reflexivity. }
  assert (FR : Forall2 (binary_face_row Big (save_decl (lenN (sfs s)) "uint8" "uint32")) (sfs s) (map (fun f => all_bytes (face_calls f)) (sfs s))).
  { assert (Q : forall f, In f (sfs s) -> (let '(a, b, c) := f in a < 2 ^ 32 /\ b < 2 ^ 32 /\ c < 2 ^ 32)%N).
    { intros [[a b] c] I. destruct (OK a b c I) as (RA & RB & RC & _). unfold in_range, lenN in *. lia. }
    generalize (lenN (sfs s)) as nf. clear -Q. intros nf. induction (sfs s) as [|f fs IH]; constructor; [apply saved_binary_face, Q; left; reflexivity|apply IH; intros g I; apply Q; right; exact I]. }
  destruct (C62_binary_mesh ft Big [saved_comment] (lenN (svs s)) ps (save_decl (lenN (sfs s)) "uint8" "uint32") (map (row_bytes pr) zc) (map (stored3 pr) (svs s)) (sfs s) (map (fun f => all_bytes (face_calls f)) (sfs s)) [] k) as (m' & LM & SM).
  - exact H.
  - left. unfold ps. rewrite order_saved. reflexivity.
  - right. unfold ps. rewrite order_saved. reflexivity.
  - rewrite map_lenN. unfold lenN. rewrite ZL. reflexivity.
  - reflexivity.
  - exact FI.
  - exact R.
  - exact FR.
  - intros a b c I. destruct (OK a b c I) as (RA & RB & RC & N). unfold in_range in *. cbn [svs]. rewrite map_length. repeat split; try assumption; apply N.
  - rewrite !app_length in L. rewrite map_length.
    assert (LZ : length zc <= length (concat (map (fun r => concat r) (map (row_bytes pr) zc)))).
    { clear. induction zc as [|x zc IH]; [apply le_n|]. cbn [map concat]. rewrite app_length. cbn [length]. unfold row_bytes at 1, vertex_calls. cbn [map app concat call_bytes]. rewrite app_length. destruct pr; cbn [coord_bytes]; rewrite be_bytes_length; lia. }
    assert (LF : length (sfs s) <= length (concat (map (fun f => all_bytes (face_calls f)) (sfs s)))).
    { clear. induction (sfs s) as [|[[a b] c] fs IH]; [apply le_n|]. cbn [map concat]. rewrite app_length. cbn [length]. unfold face_calls at 1, all_bytes at 1. cbn [flat_map call_bytes]. rewrite app_length, be_bytes_length. lia. }
    lia.
  - exists m'. split; [exact LM|exact SM].
Qed.
Print Assumptions C61_round_trip.
(** With 64 bits every mesh comes back identical. *)
Theorem C61_identical : forall ft m s colors calls k, shows m s -> faces_ok s -> Forall double3 (svs s) -> (lenN (svs s) < 2 ^ 32)%N -> fits (lenN (svs s)) (lenN (sfs s)) -> colors_ok s colors ->
  save_ply_binary P64 m colors = Ok calls -> length (all_bytes calls) < k -> exists m', load_ply_mesh ft k (all_bytes calls) = Some (m', Ok tt) /\ shows m' s.
Proof.
  intros ft m s colors calls k SH OK P V32 FI C SV L. destruct (C61_round_trip ft P64 m s colors calls k SH OK P V32 FI C SV L) as (m' & LM & SM). exists m'. split; [exact LM|].
  rewrite (map_same (stored3 P64)) in SM by (intros [x y z]; reflexivity). destruct s. exact SM.
Qed.
Print Assumptions C61_identical.
Example C61_case : bytes_of (save_ply_binary P64 case_mesh2 (Some case_colors)) = unlines (map str ["ply"; "format binary_big_endian 1.0"; "comment Created by rust-3d"; "element vertex 3"; "property double x"; "property double y"; "property double z";
    "property uchar red"; "property uchar green"; "property uchar blue"; "element face 1"; "property list uint8 uint32 vertex_indices"; "end_header"]%string) ++
    map ascii_of_N (repeat 0 24 ++ [1; 2; 3] ++ [64] ++ repeat 0 23 ++ [40; 50; 60] ++ repeat 0 8 ++ [192; 8] ++ repeat 0 14 ++ [7; 8; 255] ++ [3; 0; 0; 0; 0; 0; 0; 0; 1; 0; 0; 0; 2])%N /\
  load_ply_mesh demo 1000 (bytes_of (save_ply_binary P64 case_mesh2 (Some case_colors))) = Some (case_mesh2, Ok tt) /\
  load_ply_mesh demo 1000 (bytes_of (save_ply_binary P32 case_mesh2 None)) = Some (case_mesh2, Ok tt) /\
  stored P32 (f64_of_bits 4591870180066957722) = f64_of_bits 4591870180174331904.
Proof. split; [vmeq|split; [vmeq|split; vmeq]]. Qed.

(** ** C63 truncated text *)
(** A text file that ends after [rows] of the announced vertices: one missing vertex is not noticed, more
    are an error; the vertices that are there have been added. *)
Theorem C63_vertices : forall ft comments nv ps d rows pts k, header_ok comments nv ps d -> straight (coord_order ps) -> (lenN rows < nv)%N -> (24 * nv < 2 ^ 63)%N -> Forall2 (text_row ft ps) rows pts -> length rows < k ->
  load_ply_points ft k (unlines (header_lines FAscii comments nv ps d) ++ unlines (map join rows)) =
    Some (pts, if (lenN rows + 1 =? nv)%N then Ok tt else Err (WNone LoadVertexCountIncorrect)).
Proof.
  intros ft cs nv ps d rows pts k H ST NV R F L. destruct (straight_orders ps ST) as (c1 & c2 & c3 & CO & D1 & D2 & D3 & TW). rewrite (cut_points ft cs ps c1 c2 c3 CO D1 D2 D3 nv d rows pts k H NV R F L), (map_same _ pts TW).
  unfold cut_result. destruct (N.leb_spec nv (lenN rows + 1)), (N.eqb_spec (lenN rows + 1) nv); first [reflexivity|lia].
Qed.
Print Assumptions C63_vertices.
Theorem C63_mesh_vertices : forall ft comments nv ps d rows pts k, header_ok comments nv ps (Some d) -> straight (coord_order ps) -> (lenN rows < nv)%N -> fits nv (d_count d) -> Forall2 (text_row ft ps) rows pts -> length rows < k ->
  exists m, load_ply_mesh ft k (unlines (header_lines FAscii comments nv ps (Some d)) ++ unlines (map join rows)) = Some (m, if (lenN rows + 1 =? nv)%N then Ok tt else Err (WNone LoadVertexCountIncorrect)) /\ shows m (MSpec pts []).
Proof.
  intros ft cs nv ps d rows pts k H ST NV R F L. destruct (straight_orders ps ST) as (c1 & c2 & c3 & CO & D1 & D2 & D3 & TW). destruct (cut_mesh ft cs ps c1 c2 c3 CO D1 D2 D3 nv d rows pts k H NV R F L) as (m & LM & SM).
  exists m. rewrite (map_same _ pts TW) in SM. split; [|exact SM]. rewrite LM. unfold cut_result. destruct (N.leb_spec nv (lenN rows + 1)), (N.eqb_spec (lenN rows + 1) nv); first [reflexivity|lia].
Qed.
Print Assumptions C63_mesh_vertices.
(** A text file that ends after any number of the announced faces is loaded without an error. *)
Theorem C63_faces : forall ft comments nv ps d rows pts fs k, header_ok comments nv ps (Some d) -> straight (coord_order ps) -> nv = lenN rows -> (lenN fs <= d_count d)%N -> fits nv (d_count d) ->
  Forall2 (text_row ft ps) rows pts -> faces_ok (MSpec pts fs) -> length rows + length fs < k ->
  exists m, load_ply_mesh ft k (unlines (header_lines FAscii comments nv ps (Some d)) ++ unlines (map join rows) ++ unlines (map face_text fs)) = Some (m, Ok tt) /\ shows m (MSpec pts fs).
Proof.
  intros ft cs nv ps d rows pts fs k H ST NV NF R F OK L. destruct (straight_orders ps ST) as (c1 & c2 & c3 & CO & D1 & D2 & D3 & TW).
  pose proof (cut_faces ft cs ps c1 c2 c3 CO D1 D2 D3 nv d rows pts fs k H NV NF R F) as M. rewrite (map_same _ pts TW) in M. exact (M OK L).
Qed.
Print Assumptions C63_faces.
Example C63_case : load_ply_mesh demo 100 (case_head "x" "z" "y" ++ unlines (map join case_rows)) = Some (Mesh [fp3 1 2 3; fp3 4 5 6; fp3 0 0 0] [], Ok tt) /\
  load_ply_mesh demo 100 (case_head "x" "z" "y" ++ unlines (map join (firstn 2 case_rows))) = Some (Mesh [fp3 1 2 3; fp3 4 5 6] [], Ok tt) /\
  load_ply_mesh demo 100 (case_head "x" "z" "y" ++ unlines (map join (firstn 1 case_rows))) = Some (Mesh [fp3 1 2 3] [], Err (WNone LoadVertexCountIncorrect)).
Proof. split; [vmeq|split; vmeq]. Qed.

(** ** C97 panics *)
(** A well-formed header makes the loaders panic if it names a fourth coordinate property, e.g. x twice,
    or if it announces more vertices than could be reserved. *)
Theorem C97_fourth : forall ft f comments nv ps d rest k, header_ok comments nv ps d -> 4 <= length (coord_order ps) ->
  let file := unlines (header_lines f comments nv ps d) ++ rest in load_ply_points ft k file = Some ([], Panic) /\ load_ply_mesh ft k file = Some (mesh_empty, Panic).
Proof. intros ft f cs nv ps d rest k H C file. unfold load_ply_points, load_ply_mesh, file. rewrite (fourth_panic f cs nv ps d rest H C). auto. Qed.
Print Assumptions C97_fourth.
Theorem C97_reserve : forall ft f comments nv ps d rest k, header_ok comments nv ps d -> straight (coord_order ps) -> (2 ^ 63 <= 24 * nv)%N ->
  let file := unlines (header_lines f comments nv ps d) ++ rest in load_ply_points ft k file = Some ([], Panic) /\ (d <> None -> load_ply_mesh ft k file = Some (mesh_empty, Panic)).
Proof.
  intros ft f cs nv ps d rest k H ST B file. destruct (straight_orders ps ST) as (c1 & c2 & c3 & CO & D1 & D2 & D3 & _). unfold load_ply_points, load_ply_mesh, file.
  destruct (file_header f cs nv ps d c1 c2 c3 rest H CO D1 D2 D3) as (l & o & _ & _ & _ & _ & _ & _ & LH). rewrite LH. cbn [vd_count lay_data].
  assert (R : reserve 24 nv = false) by (apply N.ltb_ge; exact B). rewrite R. split; [reflexivity|]. intros D. destruct d as [d|]; [|contradiction]. reflexivity.
Qed.
Print Assumptions C97_reserve.
Example C97_case : load_ply_points demo 100 (unlines (map str ["ply"; "format ascii 1.0"; "element vertex 1"; "property float x"; "property float y"; "property float x"; "property float z"; "end_header"; "1 2 3 4"]%string)) = Some ([], Panic) /\
  load_ply_points demo 100 (unlines (map str ["ply"; "format ascii 1.0"; "element vertex 400000000000000000"; "property float x"; "property float y"; "property float z"; "end_header"]%string)) = Some ([], Panic).
Proof. split; vmeq. Qed.

(** ** C98 arbitrary files *)
(** On every byte stream whatsoever loading ends, panics only for one of the two reasons above and before
    anything was added, and leaves a mesh whose faces are valid. *)
Theorem C98_mesh : forall ft file, exists m r, (forall k, length file < k -> load_ply_mesh ft k file = Some (m, r)) /\ (exists s, shows m s /\ faces_ok s) /\ (r = Panic -> excessive file /\ shows m (MSpec [] [])).
Proof. exact mesh_any. Qed.
Print Assumptions C98_mesh.
Theorem C98_points : forall ft file, exists l r, (forall k, length file < k -> load_ply_points ft k file = Some (l, r)) /\ (r = Panic -> excessive file /\ l = []).
Proof. exact points_any. Qed.
Print Assumptions C98_points.
Example C98_case : load_ply_mesh demo 100 [] = Some (mesh_empty, Err (WNone LoadHeaderInvalid)) /\
  load_ply_mesh demo 100 (case_head "x" "z" "y" ++ unlines (map join case_rows) ++ str "3 0 1 7" ++ [nl]) = Some (Mesh [fp3 1 2 3; fp3 4 5 6; fp3 0 0 0] [], Err (WNone PlyInvalidMeshIndices)) /\
  ~ excessive (case_head "x" "z" "y").
Proof.
  split; [vmeq|split; [vmeq|]]. intros [E|[(l & n & I & A & B)|(l & n & I & A & B)]].
  - vm_compute in E. lia.
  - assert (Q : forall l, In l (raw_lines (case_head "x" "z" "y")) -> forall n, announces "element vertex" l n -> n = 3%N).
    { intros l' I' n' (A1 & w & A2 & A3). vm_compute in I'. repeat (destruct I' as [<-|I']; [vm_compute in A1; try discriminate A1; vm_compute in A2; injection A2 as <-; vm_compute in A3; injection A3 as <-; reflexivity|]). destruct I'. }
    rewrite (Q l I n A) in B. lia.
  - assert (Q : forall l, In l (raw_lines (case_head "x" "z" "y")) -> forall n, announces "element face" l n -> n = 1%N).
    { intros l' I' n' (A1 & w & A2 & A3). vm_compute in I'. repeat (destruct I' as [<-|I']; [vm_compute in A1; try discriminate A1; vm_compute in A2; injection A2 as <-; vm_compute in A3; injection A3 as <-; reflexivity|]). destruct I'. }
    rewrite (Q l I n A) in B. vm_compute in B. apply B. reflexivity.
Qed.

(** ** C99 writers *)
(** [accept i] is the number of bytes the writer takes at most in its call number [i].  Saving as text
    hands over everything however the writer splits it, or ends with an error. *)
Theorem C99_text : forall ft m colors calls accept i, save_ply_ascii ft m colors = Ok calls -> progressing accept -> run_writes accept i calls [] = (all_bytes calls, Ok tt).
Proof. intros ft m colors calls accept i S P. apply ascii_is_all in S. rewrite (run_all_ok accept P calls i [] S). reflexivity. Qed.
Print Assumptions C99_text.
Theorem C99_text_any : forall ft m colors calls accept i, save_ply_ascii ft m colors = Ok calls -> exists out r, run_writes accept i calls [] = (out, r) /\
  (r = Ok tt /\ out = all_bytes calls \/ r = Err PlyAccessFile /\ exists rest, all_bytes calls = out ++ rest).
Proof. intros ft m colors calls accept i S. apply ascii_is_all in S. destruct (run_all_any accept calls i [] S) as (o & r & E & H). exists o, r. auto. Qed.
Print Assumptions C99_text_any.
(** Saving as binary data is complete if the writer takes everything in every call ... *)
Theorem C99_binary : forall pr m colors calls accept i, save_ply_binary pr m colors = Ok calls -> greedy accept calls -> run_writes accept i calls [] = (all_bytes calls, Ok tt).
Proof. intros pr m colors calls accept i _ G. rewrite (run_greedy accept calls i [] G). reflexivity. Qed.
Print Assumptions C99_binary.
(** ... but with a writer that takes one byte at a time every mesh with a vertex is saved incompletely
    and without an error. *)
Theorem C99_binary_refuted : forall pr m s colors calls i, shows m s -> (3 * N.of_nat (length (sfs s)) < 2 ^ 64)%N -> colors_ok s colors -> svs s <> [] -> save_ply_binary pr m colors = Ok calls ->
  progressing (fun _ => 1) /\ exists out, run_writes (fun _ => 1) i calls [] = (out, Ok tt) /\ length out < length (all_bytes calls).
Proof.
  intros pr m s colors calls i SH B C NE S. split; [intros j; lia|]. rewrite (save_binary_ok m s colors SH B C) in S. injection S as <-.
  destruct (run_one (binary_calls m s colors pr) i []) as (o & E & _ & L). exists o. split; [exact E|]. apply L. pose proof (with_colors_length (svs s) colors C) as WL.
  unfold binary_calls. destruct (with_colors (svs s) colors) as [|x zc]; [destruct (svs s); [contradiction|cbn in WL; lia]|]. exists (coord_bytes pr (px (fst x))). split; [|destruct pr; cbn [coord_bytes]; rewrite be_bytes_length; lia].
  right. apply in_or_app. left. cbn [flat_map]. apply in_or_app. left. unfold vertex_calls. left. reflexivity.
Qed.
Print Assumptions C99_binary_refuted.
Definition calls_of (r : outcome PlyError (list write_call)) : list write_call := match r with Ok calls => calls | _ => [] end.
Example C99_case : length (fst (run_writes (fun _ => 1) 0 (calls_of (save_ply_binary P64 case_mesh2 None)) [])) + 72 = length (all_bytes (calls_of (save_ply_binary P64 case_mesh2 None))) /\
  run_writes (fun i => if (i <? 3) then 5 else 0) 0 (calls_of (save_ply_ascii demo case_mesh2 None)) [] = (str "ply" ++ [nl] ++ str "format asci", Err PlyAccessFile).
Proof. split; [vm_compute; reflexivity|vmeq]. Qed.

(** ** C100 either *)
(** load_ply_either gives a mesh exactly when load_ply_mesh succeeds, with the same mesh; otherwise it gives
    the points of load_ply_points if the header declares no faces. *)
Theorem C100_mesh : forall ft k file m ps, load_ply_either ft k file = Some (m, ps, Ok IsMesh) <-> ps = [] /\ load_ply_mesh ft k file = Some (m, Ok tt).
Proof.
  intros ft k file m ps. destruct (either_cases ft k file) as [(hd & ls & i & _ & _ & LM & ->)|(_ & ->)].
  - rewrite LM. split; [|intros (_ & H); discriminate H]. destruct (load_ply_points ft k file) as [[q [u|e|]]|]; intros H; discriminate H.
  - destruct (load_ply_mesh ft k file) as [[q [u|e|]]|]; cbn [answer]; (split; [intros H; try discriminate H|intros (-> & H); try discriminate H]).
    + injection H as <- <-. destruct u. auto.
    + injection H as <- _. reflexivity.
Qed.
Print Assumptions C100_mesh.
Theorem C100_points : forall ft k file m ps, load_ply_either ft k file = Some (m, ps, Ok IsPoints) -> m = mesh_empty /\ load_ply_points ft k file = Some (ps, Ok tt) /\ load_ply_mesh ft k file = Some (mesh_empty, Err (WNone LoadHeaderInvalid)).
Proof.
  intros ft k file m ps. destruct (either_cases ft k file) as [(hd & ls & i & _ & _ & LM & ->)|(_ & ->)].
  - destruct (load_ply_points ft k file) as [[q [u|e|]]|]; cbn [answer]; intros H; try discriminate H. injection H as <- <-. destruct u. auto.
  - destruct (load_ply_mesh ft k file) as [[q [u|e|]]|]; intros H; discriminate H.
Qed.
Print Assumptions C100_points.
(** A file without faces is loaded as points. *)
Theorem C100_no_faces : forall ft f comments nv ps rest k l r, header_ok comments nv ps None -> straight (coord_order ps) -> let file := unlines (header_lines f comments nv ps None) ++ rest in
  load_ply_points ft k file = Some (l, r) -> load_ply_either ft k file = Some (mesh_empty, l, match r with Ok _ => Ok IsPoints | Err e => Err e | Panic => Panic end).
Proof.
  intros ft f cs nv ps rest k l r H ST file LP. destruct (straight_orders ps ST) as (c1 & c2 & c3 & CO & D1 & D2 & D3 & _). destruct (file_header f cs nv ps None c1 c2 c3 rest H CO D1 D2 D3) as (y & o & _ & _ & _ & _ & _ & _ & LH).
  destruct (either_cases ft k file) as [(hd & ls & i & _ & _ & LM & ->)|(NF & _)]; [rewrite LP; reflexivity|]. destruct (NF _ _ _ LH). reflexivity.
Qed.
Print Assumptions C100_no_faces.
(** Errors are those of load_ply_mesh or load_ply_points, with what was added until then. *)
Theorem C100_errors : forall ft k file m ps e, load_ply_either ft k file = Some (m, ps, Err e) -> (ps = [] /\ load_ply_mesh ft k file = Some (m, Err e)) \/ (m = mesh_empty /\ load_ply_points ft k file = Some (ps, Err e)).
Proof.
  intros ft k file m ps e. destruct (either_cases ft k file) as [(hd & ls & i & _ & _ & LM & ->)|(_ & ->)].
  - destruct (load_ply_points ft k file) as [[q [u|e'|]]|]; cbn [answer]; intros H; try discriminate H. injection H as <- <- <-. auto.
  - destruct (load_ply_mesh ft k file) as [[q [u|e'|]]|]; cbn [answer]; intros H; try discriminate H. injection H as <- <- <-. auto.
Qed.
Print Assumptions C100_errors.
Example C100_case : load_ply_either demo 100 (case_head "x" "z" "y" ++ unlines (map join case_rows) ++ unlines (map face_text [(0, 1, 2)]%N)) = Some (Mesh [fp3 1 2 3; fp3 4 5 6; fp3 0 0 0] [0; 1; 2]%N, [], Ok IsMesh) /\
  load_ply_either demo 100 (unlines (header_lines (FBinary Big) [] 1 mixed_props None) ++ concat mixed_row) = Some (mesh_empty, [mk3 (fz 1) (f64_of_bits 1077936128) (fz 2)], Ok IsPoints).
Proof. split; vmeq. Qed.
