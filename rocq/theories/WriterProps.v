(** Saving through writers that take the data in pieces, are interrupted or fail (C172). *)
From Verif Require Import Base BaseLemmas Num GeomSpec VecModel MeshModel MeshSpec MeshAlgoModel IoModel IoSpec IoProps ByteModel ByteSpec PlyModel PlySpec PlyLemmas PlyProps StlModel StlSpec StlProps ByteLemmas WriterModel WriterSpec WriterLemmas CutSpec CutProps.
Open Scope nat_scope.

Notation good := (fun v => match v with Takes n => n <> 0 | WInterrupted => True | WFailure => False end).
Notation anyv := (fun _ : wevent => True).
Lemma prog_saves {E} (e : E) f t : prog anyv good e f t (Ok tt) -> saves any_writer reliable e f t.
Proof.
  intros H calls out _. destruct (H calls out) as (c & o & r & E1 & _ & D & R); [apply Forall_forall; auto|]. exists c, o, r. split; [exact E1|]. split; [exact D|]. intros X. apply R. exact X.
Qed.
Lemma prog_panics {E} (e : E) f t : prog anyv good e f t Panic -> panics reliable e f.
Proof.
  intros H calls out. destruct (H calls out) as (c & o & r & E1 & _ & D & R); [apply Forall_forall; auto|]. rewrite E1. cbn [fst]. split; [destruct D as [[-> _]|[-> _]]; auto|]. intros X. apply R. exact X.
Qed.

Lemma put_good {E} (e : E) b : prog anyv good e (put e b) b (Ok tt).
Proof. apply put_prog. intros v H. exact H. Qed.

(** ** Positions as text *)
Theorem C172_xyz ft ps dc dp : saves any_writer reliable XyAccessFile (save_xyz_to ft ps dc dp) (save_xyz ft ps dc dp).
Proof. apply prog_saves. induction ps as [|p ps IH]; [apply prog_nil|]. apply (prog_then _ _ _ (put XyAccessFile _)); [apply put_good|exact IH]. Qed.
Print Assumptions C172_xyz.
Theorem C172_xy ft ps dc dp : saves any_writer reliable XyAccessFile (save_xy_to ft ps dc dp) (save_xy ft ps dc dp).
Proof. apply prog_saves. induction ps as [|p ps IH]; [apply prog_nil|]. apply (prog_then _ _ _ (put XyAccessFile _)); [apply put_good|exact IH]. Qed.
Print Assumptions C172_xy.

(** ** .stl *)
Lemma stl_like ft m : like anyv good StlAccessFile (fun t => t) (save_stl_ascii_to ft m) (save_stl_ascii ft m).
Proof.
  set (g i := obind (unwrap_opt (face_vertices m i)) (fun '(v1, v2, v3) => obind (unwrap_res (mesh_face_normal m i)) (fun n => Ok (facet_text ft v1 v2 v3 n)))).
  pose proof (for_ranged anyv good StlAccessFile (fun i => computed (unwrapped (unwrap_opt (face_vertices m i))) (fun '(v1, v2, v3) => computed (unwrapped (mesh_face_normal m i)) (fun n => put StlAccessFile (facet_text ft v1 v2 v3 n)))) g) as L.
  assert (G : forall i, like anyv good StlAccessFile (fun t => t) (computed (unwrapped (unwrap_opt (face_vertices m i))) (fun '(v1, v2, v3) => computed (unwrapped (mesh_face_normal m i)) (fun n => put StlAccessFile (facet_text ft v1 v2 v3 n)))) (g i)).
  { intros i. unfold g. destruct (face_vertices m i) as [[[[v1 v2] v3]|]|z|]; cbn [unwrap_opt obind unwrapped]; try (exists []; apply computed_panic; reflexivity).
    destruct (mesh_face_normal m i) as [n|z|] eqn:NF; cbn [unwrap_res obind like]; try (exists []; eapply computed_prog; [reflexivity|cbv beta iota; apply computed_panic; reflexivity]).
    eapply computed_prog; [reflexivity|cbv beta iota]. eapply computed_prog; [reflexivity|]. apply put_good. }
  specialize (L G (N.to_nat (num_faces m)) 0%N (str "solid STL generated by rust-3d" ++ [nl])). unfold save_stl_ascii.
  assert (X : for_range (N.to_nat (num_faces m)) 0 (fun i out => obind (unwrap_opt (face_vertices m i)) (fun '(v1, v2, v3) => obind (unwrap_res (mesh_face_normal m i)) (fun n => Ok (out ++ facet_text ft v1 v2 v3 n)))) (str "solid STL generated by rust-3d" ++ [nl]) =
    for_range (N.to_nat (num_faces m)) 0 (fun i out => obind (g i) (fun t => Ok (out ++ t))) (str "solid STL generated by rust-3d" ++ [nl])).
  { clear L. generalize (N.to_nat (num_faces m)) 0%N (str "solid STL generated by rust-3d" ++ [nl]). induction n as [|n IH]; intros i out; [reflexivity|]. cbn [for_range]. unfold g at 1.
    destruct (unwrap_opt (face_vertices m i)) as [[[v1 v2] v3]|z|]; cbn [obind]; try reflexivity. destruct (unwrap_res (mesh_face_normal m i)); cbn [obind]; try reflexivity. apply IH. }
  rewrite X. clear X. unfold save_stl_ascii_to. destruct (for_range _ _ _ _) as [o|z|]; [|contradiction|]; cbn [obind like].
  - destruct L as (t & -> & L). rewrite <- app_assoc. apply (prog_then _ _ _ (put StlAccessFile _)); [apply put_good|]. apply (prog_then _ _ _ (for_write _ _ _)); [exact L|apply put_good].
  - destruct L as (t & L). eexists. apply (prog_then _ _ _ (put StlAccessFile _)); [apply put_good|]. apply (prog_then_panic _ _ _ (for_write _ _ _)). exact L.
Qed.
Theorem C172_stl ft m text : save_stl_ascii ft m = Ok text -> saves any_writer reliable StlAccessFile (save_stl_ascii_to ft m) text.
Proof. intros H. apply prog_saves. pose proof (stl_like ft m) as L. rewrite H in L. exact L. Qed.
Print Assumptions C172_stl.
Theorem C172_stl_panic ft m : save_stl_ascii ft m = Panic -> panics reliable StlAccessFile (save_stl_ascii_to ft m).
Proof. intros H. pose proof (stl_like ft m) as L. rewrite H in L. destruct L as [t L]. exact (prog_panics _ _ _ L). Qed.
Print Assumptions C172_stl_panic.

(** ** .ply as text *)
Theorem C172_ply ft m colors calls : save_ply_ascii ft m colors = Ok calls -> saves any_writer reliable PlyAccessFile (save_ply_ascii_to ft m colors) (all_bytes calls).
Proof.
  unfold save_ply_ascii, save_ply_ascii_to. destruct (negb (colors_fit m colors)); [discriminate|].
  set (gv i := obind (get_vertex m i) (fun p => obind (get_color colors i) (fun c => Ok [WriteAll (vertex_line_text ft p c)]))). set (gf i := obind (get_face m i) (fun f => Ok [WriteAll (face_line_text f)])).
  pose proof (for_collect anyv good PlyAccessFile (fun i => computed (get_vertex m i) (fun p => computed (get_color colors i) (fun c => put PlyAccessFile (vertex_line_text ft p c)))) gv) as LV.
  pose proof (for_collect anyv good PlyAccessFile (fun i => computed (get_face m i) (fun f => put PlyAccessFile (face_line_text f))) gf) as LF.
  assert (GV : forall i, like anyv good PlyAccessFile all_bytes (computed (get_vertex m i) (fun p => computed (get_color colors i) (fun c => put PlyAccessFile (vertex_line_text ft p c)))) (gv i)).
  { intros i. unfold gv, get_vertex. destruct (vertex m i) as [p|]; cbn [obind]; [|exists []; apply computed_panic; reflexivity]. unfold get_color. destruct colors as [cs|]; [destruct (nthN cs i)|]; cbn [obind like]; try (exists []; eapply computed_prog; [reflexivity|cbv beta iota; apply computed_panic; reflexivity]);
      unfold all_bytes; cbn [flat_map call_bytes]; rewrite app_nil_r; (eapply computed_prog; [reflexivity|cbv beta iota]); (eapply computed_prog; [reflexivity|cbv beta iota]); apply put_good. }
  assert (GF : forall i, like anyv good PlyAccessFile all_bytes (computed (get_face m i) (fun f => put PlyAccessFile (face_line_text f))) (gf i)).
  { intros i. unfold gf, get_face. destruct (face_vertex_ids m i) as [[f|]|z|]; cbn [obind like]; try (exists []; apply computed_panic; reflexivity). unfold all_bytes; cbn [flat_map call_bytes]; rewrite app_nil_r. eapply computed_prog; [reflexivity|cbv beta iota]. apply put_good. }
  specialize (LV GV (N.to_nat (num_vertices m)) 0%N). specialize (LF GF (N.to_nat (num_faces m)) 0%N).
  destruct (collect_range _ _ gv) as [vs|z|]; cbn [obind like] in *; try discriminate. destruct (collect_range _ _ gf) as [fs|z|]; cbn [obind like] in *; try discriminate. intros H. injection H as <-. apply prog_saves.
  unfold all_bytes. cbn [flat_map call_bytes]. rewrite flat_map_app. apply (prog_then _ _ _ (put PlyAccessFile _)); [apply put_good|]. apply (prog_then _ _ _ (for_write _ _ _)); assumption.
Qed.
Print Assumptions C172_ply.
(** Colors that do not fit are refused before anything is written. *)
Theorem C172_colors ft pr m colors w : (num_vertices m <> lenN colors)%N ->
  save_ply_ascii_to ft m (Some colors) w = (Err ColorArrayIncorrectLength, w) /\ save_ply_binary_to pr m (Some colors) w = (Err ColorArrayIncorrectLength, w).
Proof. intros H. unfold save_ply_ascii_to, save_ply_binary_to, colors_fit. apply N.eqb_neq in H. rewrite H. split; reflexivity. Qed.
Print Assumptions C172_colors.

(** ** .ply as binary data, for writers without short writes *)
Theorem C172_ply_binary pr m colors calls : save_ply_binary pr m colors = Ok calls -> saves no_short_writes takes_all PlyAccessFile (save_ply_binary_to pr m colors) (all_bytes calls).
Proof.
  set (Pb := fun v => match v with Takes n => 8 <= n | _ => True end). set (Rb := fun v => match v with Takes n => 8 <= n | _ => False end).
  assert (RG : forall v, Rb v -> match v with Takes n => n <> 0 | WInterrupted => True | WFailure => False end) by (intros [n| |]; cbn; lia).
  assert (RT : forall v, Rb v -> match v with Takes n => True | _ => False end) by (intros [n| |]; cbn; auto).
  assert (SH : forall b : bytes, b <> [] -> length b <= 8 -> b <> [] /\ forall v, Pb v -> match v with Takes n => length b <= n | _ => True end) by (intros b NE L; split; [exact NE|]; intros [n| |]; cbn; auto; lia).
  assert (BE : forall n v, 0 < n <= 8 -> be_bytes n v <> [] /\ forall w, Pb w -> match w with Takes k => length (be_bytes n v) <= k | _ => True end).
  { intros n v L. pose proof (be_bytes_length n v) as LN. apply SH; [|lia]. intros X. rewrite X in LN. cbn in LN. lia. }
  assert (CB : forall x, coord_bytes pr x <> [] /\ forall w, Pb w -> match w with Takes k => length (coord_bytes pr x) <= k | _ => True end) by (intros x; unfold coord_bytes; destruct pr; apply BE; lia).
  unfold save_ply_binary, save_ply_binary_to. destruct (negb (colors_fit m colors)); [discriminate|].
  set (gv i := obind (get_vertex m i) (fun p => obind (get_color colors i) (fun c => Ok ([WriteOnce (coord_bytes pr (px p)); WriteOnce (coord_bytes pr (py p)); WriteOnce (coord_bytes pr (pz p))]
        ++ match c with Some c => [WriteOnce (be_bytes 1 (red c)); WriteOnce (be_bytes 1 (green c)); WriteOnce (be_bytes 1 (blue c))] | None => [] end)))).
  set (gf i := obind (get_face m i) (fun '(a, b, c) => Ok [WriteOnce (be_bytes 1 3); WriteOnce (id_bytes a); WriteOnce (id_bytes b); WriteOnce (id_bytes c)])).
  set (fv i := computed (get_vertex m i) (fun p => computed (get_color colors i) (fun c => write_each PlyAccessFile
      ([coord_bytes pr (px p); coord_bytes pr (py p); coord_bytes pr (pz p)] ++ match c with Some c => [be_bytes 1 (red c); be_bytes 1 (green c); be_bytes 1 (blue c)] | None => [] end)))).
  set (ff i := computed (get_face m i) (fun '(a, b, c) => write_each PlyAccessFile [be_bytes 1 3; id_bytes a; id_bytes b; id_bytes c])).
  assert (GV : forall i, like Pb Rb PlyAccessFile all_bytes (fv i) (gv i)).
  { intros i. unfold fv, gv, get_vertex. destruct (vertex m i) as [p|]; cbn [obind]; [|exists []; apply computed_panic; reflexivity]. unfold get_color. destruct colors as [cs|]; [destruct (nthN cs i)|]; cbn [obind like]; try (exists []; eapply computed_prog; [reflexivity|cbv beta iota; apply computed_panic; reflexivity]); (eapply computed_prog; [reflexivity|cbv beta iota]); (eapply computed_prog; [reflexivity|cbv beta iota]).
    - apply each_prog; [|exact RT]. repeat (apply Forall_cons; [first [apply CB|apply BE; lia]|]). apply Forall_nil.
    - apply each_prog; [|exact RT]. repeat (apply Forall_cons; [first [apply CB|apply BE; lia]|]). apply Forall_nil. }
  assert (GF : forall i, like Pb Rb PlyAccessFile all_bytes (ff i) (gf i)).
  { intros i. unfold ff, gf, get_face. destruct (face_vertex_ids m i) as [[[[a b] c]|]|z|]; cbn [obind like]; try (exists []; apply computed_panic; reflexivity). eapply computed_prog; [reflexivity|cbv beta iota]. apply each_prog; [|exact RT].
    repeat (apply Forall_cons; [unfold id_bytes; apply BE; lia|]). apply Forall_nil. }
  pose proof (for_collect Pb Rb PlyAccessFile fv gv GV (N.to_nat (num_vertices m)) 0%N) as LV. pose proof (for_collect Pb Rb PlyAccessFile ff gf GF (N.to_nat (num_faces m)) 0%N) as LF.
  destruct (collect_range _ _ gv) as [vs|z|]; cbn [obind like] in *; try discriminate. destruct (collect_range _ _ gf) as [fs|z|]; cbn [obind like] in *; try discriminate. intros H. injection H as <-.
  match goal with |- saves _ _ _ ?f (all_bytes (WriteAll ?h :: _)) => assert (PR : prog Pb Rb PlyAccessFile f (all_bytes (WriteAll h :: vs ++ fs)) (Ok tt)) end.
  { unfold all_bytes. cbn [flat_map call_bytes]. rewrite flat_map_app. apply (prog_then _ _ _ (put PlyAccessFile _)); [apply put_prog; exact RG|]. apply (prog_then _ _ _ (for_write _ _ _)); assumption. }
  intros ws out A. destruct (PR ws out A) as (c & o & r & E1 & _ & D & R). exists c, o, r. split; [exact E1|]. split; [exact D|]. intros X. apply R. exact X.
Qed.
Print Assumptions C172_ply_binary.
(** The header is retried when interrupted, the data is not: saving fails. *)
Theorem C172_interrupted_refuted : exists m calls, reliable calls /\
  save_ply_ascii_to demo m None (mkw calls []) = (Ok tt, mkw [] (match save_ply_ascii demo m None with Ok cs => all_bytes cs | _ => [] end)) /\
  fst (save_ply_binary_to P64 m None (mkw calls [])) = Err PlyAccessFile.
Proof.
  exists case_mesh2, [Takes 1000; WInterrupted]. split; [repeat (apply Forall_cons; [first [exact I|discriminate]|]); apply Forall_nil|]. split; [vmeq|vm_compute; reflexivity].
Qed.
Print Assumptions C172_interrupted_refuted.

(** ** What is loaded of what was saved *)
Theorem C172_loads ft d ps calls k : ft_ok ft -> delimiter d -> Forall printable3 ps -> length (save_xyz ft ps [d] [nl]) < k ->
  match save_xyz_to ft ps [d] [nl] (mkw calls []) with
  | (Ok tt, w) => load_xyz ft k (w_out w) = Some (ps, Ok tt)
  | (Err e, w) => e = XyAccessFile /\ forall k' ps' r, load_xyz ft k' (w_out w) = Some (ps', r) -> prefix_and_one ps' ps
  | (Panic, _) => False
  end.
Proof.
  intros K D F L. pose proof (C58_xyz_round_trip ft K d ps k D F L) as RT. destruct (C172_xyz ft ps [d] [nl] calls [] I) as (c & o & r & E & [[-> ->]|(-> & rest & NE & T)] & _); rewrite E; cbn [w_out app].
  - exact RT.
  - split; [reflexivity|]. intros k' ps' r H. refine (C158_xyz ft k k' o _ ps _ ps' r _ RT H). rewrite T. exists rest. reflexivity.
Qed.
Print Assumptions C172_loads.

Example C172_case : let ps := [fp3 1 2 3; fp3 4 5 67] in let save calls := save_xyz_to demo ps (str " ") [nl] (mkw calls (str "#")) in
  save [] = (Ok tt, mkw [] (str "#1 2 3" ++ [nl] ++ str "4 5 67" ++ [nl])) /\
  save [Takes 2; WInterrupted; Takes 1] = (Ok tt, mkw [] (str "#1 2 3" ++ [nl] ++ str "4 5 67" ++ [nl])) /\
  save [Takes 100; Takes 5; WFailure; Takes 100] = (Err XyAccessFile, mkw [Takes 100] (str "#1 2 3" ++ [nl] ++ str "4 5 6")) /\
  load_xyz demo 100 (str "1 2 3" ++ [nl] ++ str "4 5 6" ++ [nl]) = Some ([fp3 1 2 3; fp3 4 5 6], Ok tt) /\
  fst (save_stl_ascii_to demo case_mesh2 (mkw [Takes 3; WFailure] [])) = Err StlAccessFile /\ w_out (snd (save_stl_ascii_to demo case_mesh2 (mkw [Takes 3; WFailure] []))) = str "sol" /\
  fst (save_stl_ascii_to demo case_mesh2 (mkw [Takes 3; WInterrupted] [])) = Ok tt /\
  save_stl_ascii demo (Mesh [fp3 0 0 0] [0; 1; 2]%N) = Panic /\ fst (save_stl_ascii_to demo (Mesh [fp3 0 0 0] [0; 1; 2]%N) (mkw [Takes 3; WInterrupted] [])) = Panic /\
  fst (save_ply_binary_to P64 case_mesh2 None (mkw [] [])) = Ok tt /\ fst (save_ply_binary_to P64 case_mesh2 (Some []) (mkw [] [])) = Err ColorArrayIncorrectLength.
Proof. cbv zeta. repeat split; vmeq. Qed.
