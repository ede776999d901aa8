(** Reading lines, the .xy and .xyz formats: C57, C58, C59, C74 *)
From Verif Require Import Base BaseLemmas Num GeomSpec FloatSpec IoModel IoSpec IoLemmas.
Open Scope nat_scope.

(** ** C57 *)
(** A terminated line is returned without its trailing whitespace, and what follows it is left. *)
Theorem C57_terminated_line : forall l rest, is_line l -> exists t, fetch_line (l ++ nl :: rest) = Some (t, rest) /\ stripped l t.
Proof.
  intros l rest L. rewrite fetch_line_raw, raw_line_app by exact L. cbn [next_line]. rewrite concat_raw. eexists. split; [reflexivity|apply trim_line_spec].
Qed.
Print Assumptions C57_terminated_line.
(** The text without trailing whitespace is unique, so the result is determined. *)
Theorem C57_stripped_unique : forall l t t', stripped l t -> stripped l t' -> t = t'.
Proof.
  intros l t t' (ws & E & W & N) (ws' & E' & W' & N'). subst l.
  assert (G : forall a b c d : bytes, Forall (fun c => is_whitespace c = true) c -> Forall (fun c => is_whitespace c = true) d -> match a with [] => True | _ => is_whitespace (last a nl) = false end ->
    a ++ c = b ++ d -> length b <= length a -> a = b).
  { intros a b c d C D A H L. revert b H L. induction a as [|x a IH]; intros b H L; [destruct b; [reflexivity|cbn in L; lia]|].
    destruct b as [|y b].
    - exfalso. cbn [app] in H. subst d. assert (I : In (last (x :: a) nl) (x :: a)) by (clear; revert x; induction a as [|y a IH]; intros x; [left; reflexivity|right; apply IH]).
      rewrite Forall_forall in D. specialize (D _ (in_or_app (x :: a) c _ (or_introl I))). congruence.
    - cbn [app] in H. injection H as <- H. f_equal. apply IH; [|exact H|cbn in L; lia]. destruct a as [|z a]; [exact Logic.I|]. exact A. }
  destruct (Nat.le_ge_cases (length t') (length t)) as [L|L]; [apply (G t t' ws ws')|symmetry; apply (G t' t ws' ws)]; auto.
Qed.
Print Assumptions C57_stripped_unique.
(** A last line without newline loses its last byte. *)
Theorem C57_unterminated_line : forall l c, is_line (l ++ [c]) -> exists t, fetch_line (l ++ [c]) = Some (t, []) /\ stripped l t.
Proof.
  intros l c L. rewrite fetch_line_raw, raw_last by (exact L || (destruct l; discriminate)). cbn [next_line concat]. eexists. split; [reflexivity|apply trim_line_spec].
Qed.
Print Assumptions C57_unterminated_line.
Theorem C57_end : forall s, fetch_line s = None <-> s = [].
Proof.
  intros s. split; [|intros ->; reflexivity]. rewrite fetch_line_raw. destruct s as [|c s]; [reflexivity|]. cbn [raw_lines]. destruct (Ascii.eqb c nl); [discriminate|]. destruct (raw_lines s); discriminate.
Qed.
Print Assumptions C57_end.
(** Calling fetch_line until it fails gives the lines in order. *)
Inductive fetched : bytes -> list bytes -> Prop :=
| fetched_end s : fetch_line s = None -> fetched s []
| fetched_line s t r ts : fetch_line s = Some (t, r) -> fetched r ts -> fetched s (t :: ts).
Theorem C57_all_lines : forall ls, Forall is_line ls -> exists ts, fetched (unlines ls) ts /\ Forall2 stripped ls ts.
Proof.
  induction ls as [|l ls IH]; intros F; [exists []; split; [apply fetched_end; reflexivity|constructor]|].
  inversion F as [|? ? F1 F2]; subst. destruct (IH F2) as (ts & A & B). destruct (C57_terminated_line l (unlines ls) F1) as (t & C & D). exists (t :: ts).
  split; [|constructor; assumption]. apply (fetched_line _ _ (unlines ls)); [|exact A]. cbn [unlines flat_map]. rewrite <- app_assoc. exact C.
Qed.
Print Assumptions C57_all_lines.
Example C57_case : fetch_line (str "1 2 " ++ [tab; nl] ++ str "3") = Some (str "1 2", str "3") /\ fetch_line (str "3") = Some ([], []) /\ fetch_line (str "4.75") = Some (str "4.7", []).
Proof. vm_compute. repeat split. Qed.

(** ** C58 *)
Theorem C58_xyz_round_trip : forall ft, ft_ok ft -> forall d ps k, delimiter d -> Forall printable3 ps -> length (save_xyz ft ps [d] [nl]) < k ->
  load_xyz ft k (save_xyz ft ps [d] [nl]) = Some (ps, Ok tt).
Proof.
  intros ft K d ps k D F L. rewrite load_xyz_run by (pose proof (raw_length (save_xyz ft ps [d] [nl])); lia). rewrite <- (app_nil_r (save_xyz ft ps [d] [nl])), raw_save_xyz by assumption.
  destruct ps as [|p ps]; [reflexivity|]. rewrite xyz_run_texts by (assumption || discriminate). reflexivity.
Qed.
Print Assumptions C58_xyz_round_trip.
Theorem C58_xy_round_trip : forall ft, ft_ok ft -> forall d ps k, delimiter d -> Forall printable2 ps -> length (save_xy ft ps [d] [nl]) < k ->
  load_xy ft k (save_xy ft ps [d] [nl]) = Some (ps, Ok tt).
Proof.
  intros ft K d ps k D F L. rewrite load_xy_run by (pose proof (raw_length (save_xy ft ps [d] [nl])); lia). rewrite <- (app_nil_r (save_xy ft ps [d] [nl])), raw_save_xy by assumption.
  destruct ps as [|p ps]; [reflexivity|]. rewrite xy_run_texts by (assumption || discriminate). reflexivity.
Qed.
Print Assumptions C58_xy_round_trip.
(** The assumptions on the number texts can be met. *)
Theorem C58_number_texts_exist : ft_ok demo.
Proof. exact demo_ok. Qed.
Print Assumptions C58_number_texts_exist.
Example C58_case : save_xyz demo [fp3 1 (-2) 3; fp3 40 5 6] (str ";") [nl] = str "1;-2;3" ++ [nl] ++ str "40;5;6" ++ [nl] /\
  load_xyz demo 20 (str "1;-2;3" ++ [nl] ++ str "40;5;6" ++ [nl]) = Some ([fp3 1 (-2) 3; fp3 40 5 6], Ok tt) /\
  load_xy demo 20 (str "1,2" ++ [nl] ++ str "40,5" ++ [nl]) = Some ([fp2 1 2; fp2 40 5], Ok tt).
Proof. split; [vmeq|split; vmeq]. Qed.
(** Not every delimiter is found again: a comma followed by a space is taken for a space. *)
Theorem C58_comma_space_refuted : exists ps, Forall printable3 ps /\ load_xyz demo 100 (save_xyz demo ps (str ", ") [nl]) = Some ([], Err (WLine 1 (str "1, 2, 3") XyVertex)).
Proof. exists [fp3 1 2 3]. split; [|vmeq]. repeat constructor; discriminate. Qed.
Print Assumptions C58_comma_space_refuted.

(** ** C59 *)
(** [ps] and a last point saved with the newline between the points only (so the last line has no
    newline): the last coordinate is parsed from its text without the last character. *)
Theorem C59_xyz_last_coordinate : forall ft, ft_ok ft -> forall d ps p w c k, delimiter d -> Forall printable3 (ps ++ [p]) -> fprint ft (pz p) = w ++ [c] ->
  let file := save_xyz ft ps [d] [nl] ++ save_xyz ft [p] [d] [] in length file < k ->
  (forall v, w <> [] -> fparse ft w = Some v -> load_xyz ft k file = Some (ps ++ [mk3 (px p) (py p) v], Ok tt)) /\
  (w = [] -> exists i l e, load_xyz ft k file = Some (ps, Err (WLine i l e)) /\ i = (lenN ps + 1)%N).
Proof.
  intros ft K d ps p w c k D F E file L. rewrite load_xyz_run by (pose proof (raw_length file); lia). unfold file. rewrite raw_save_xyz by assumption.
  apply Forall_app in F. destruct F as [F Fp]. inversion Fp as [|? ? (X & Y & Z) _]; subst.
  set (pre := fprint ft (px p) ++ d :: fprint ft (py p) ++ [d] : bytes).
  assert (S : save_xyz ft [p] [d] [] = (pre ++ w) ++ [c]) by (unfold save_xyz, pre; cbn [flat_map]; rewrite E, !app_nil_r; repeat (rewrite <- app_assoc; cbn [app]); reflexivity).
  assert (T : save_xyz ft [p] [d] [] = xyz_text ft d p) by (unfold save_xyz, xyz_text; cbn [flat_map]; rewrite !app_nil_r; reflexivity).
  assert (R : raw_lines (save_xyz ft [p] [d] []) = [(pre ++ w) ++ [c]]) by (rewrite <- S; apply raw_last; [rewrite T; apply xyz_text_line; assumption|rewrite S; destruct (pre ++ w); discriminate]).
  rewrite R. pose proof (nums ft K (pz p)) as NZ. rewrite E in NZ. apply Forall_app in NZ. destruct NZ as [NW _].
  split.
  - intros v W P.
    assert (TR : trim_line ((pre ++ w) ++ [c]) = fprint ft (px p) ++ d :: fprint ft (py p) ++ d :: w).
    { rewrite trim_line_id; [unfold pre; repeat (rewrite <- app_assoc; cbn [app]); reflexivity|]. right. rewrite last_app_ne by exact W. apply last_number; assumption. }
    assert (PT : xyz_point ft d (trim_line ((pre ++ w) ++ [c])) = Ok (mk3 (px p) (py p) v)) by (rewrite TR; apply xyz_point_word; assumption).
    destruct ps as [|q ps].
    + cbn [map app xy_run xy_delimiter]. assert (ED : estimate_delimiter 2 (trim_line ((pre ++ w) ++ [c])) = Some d).
      { rewrite TR. apply estimate_sep; [exact D|lia|]. intros e De. rewrite !filter_app_len. cbn [filter]. rewrite (number_count e) by auto using nums.
        destruct (Ascii.eqb d e) eqn:Eq; cbn [length]; rewrite !filter_app_len; cbn [filter]; rewrite Eq; cbn [length]; rewrite !(number_count e) by auto using nums; reflexivity. }
      rewrite ED. cbn [ok_or]. rewrite PT. reflexivity.
    + rewrite xyz_run_texts by (assumption || discriminate). cbn [xy_run xy_delimiter]. rewrite PT. reflexivity.
  - intros ->. assert (TR : let l := trim_line ((pre ++ []) ++ [c]) in l = fprint ft (px p) ++ d :: fprint ft (py p) \/ l = fprint ft (px p) ++ d :: fprint ft (py p) ++ [d]).
    { cbv zeta. destruct (trim_line_spec (pre ++ []) c) as (ws & EW & FW & NW').
      set (t := trim_line ((pre ++ []) ++ [c])) in *. clearbody t. rewrite app_nil_r in EW. unfold pre in EW. change (d :: fprint ft (py p) ++ [d]) with ((d :: fprint ft (py p)) ++ [d]) in EW. rewrite app_assoc in EW.
      destruct ws as [|b ws] using rev_ind; [rewrite app_nil_r in EW; right; rewrite <- app_assoc in EW; symmetry; exact EW|clear IHws].
      rewrite app_assoc in EW. apply app_inj_tail in EW. destruct EW as [EW _]. apply Forall_app in FW. destruct FW as [FW _].
      destruct ws as [|a ws] using rev_ind; [rewrite app_nil_r in EW; left; symmetry; exact EW|clear IHws]. exfalso.
      apply Forall_app in FW. destruct FW as [_ FW]. inversion FW as [|? ? FA _]; subst.
      assert (LA : last (fprint ft (px p) ++ d :: fprint ft (py p)) nl = a) by (rewrite EW, app_assoc, last_last; reflexivity).
      change (d :: fprint ft (py p)) with ([d] ++ fprint ft (py p)) in LA. rewrite app_assoc, last_app_ne in LA by (apply nonempty, K).
      rewrite <- LA, last_number in FA; [discriminate|apply nums, K|apply nonempty, K]. }
    destruct (two_words_error ft d (px p) (py p) _ K D X Y TR) as [PT ED]. destruct ps as [|q ps].
    + cbn [map app xy_run xy_delimiter]. destruct (estimate_delimiter 2 (trim_line ((pre ++ []) ++ [c]))) as [c0|] eqn:Q; [|eexists _, _, _; split; reflexivity].
      cbn [ok_or]. rewrite (ED _ eq_refl), PT. eexists _, _, _; split; reflexivity.
    + rewrite xyz_run_texts by (assumption || discriminate). cbn [xy_run xy_delimiter]. rewrite PT. eexists _, _, _; split; reflexivity.
Qed.
Print Assumptions C59_xyz_last_coordinate.
(** A file that loads without error but with a wrong coordinate: 67 becomes 6. *)
Theorem C59_wrong_point_refuted : exists ps p, Forall printable3 (ps ++ [p]) /\
  load_xyz demo 100 (save_xyz demo ps [space] [nl] ++ save_xyz demo [p] [space] []) = Some (ps ++ [fp3 4 5 6], Ok tt) /\ p = fp3 4 5 67.
Proof. exists [fp3 1 2 3], (fp3 4 5 67). split; [repeat constructor; discriminate|]. split; [vmeq|reflexivity]. Qed.
Print Assumptions C59_wrong_point_refuted.
Example C59_case : load_xyz demo 100 (str "1 2 3" ++ [nl] ++ str "4 5 67") = Some ([fp3 1 2 3; fp3 4 5 6], Ok tt) /\
  load_xyz demo 100 (str "1 2 3" ++ [nl] ++ str "4 5 6") = Some ([fp3 1 2 3], Err (WLine 2 (str "4 5") XyVertex)).
Proof. split; vmeq. Qed.

(** ** C74 (xy and xyz) *)
(** Loading ends, without panic, either with all lines read or with an error at a line: then the
    file starts with as many terminated lines as points were loaded, the error carries the number and
    the text of the next line, and those lines alone load to the same points. *)
Definition stops_at_line {A E} (load : bytes -> list A * outcome (with_line E) unit -> Prop) (file : bytes) (r : list A * outcome (with_line E) unit) : Prop :=
  match r with
  | (_, Ok _) => True
  | (acc, Err (WLine i line e)) => exists ls rest rest', file = unlines ls ++ rest /\ Forall is_line ls /\ length ls = length acc /\
      fetch_line rest = Some (line, rest') /\ i = (lenN acc + 1)%N /\ load (unlines ls) (acc, Ok tt)
  | _ => False
  end.
Theorem C74_xyz : forall ft file k, length file < k -> exists r, load_xyz ft k file = Some r /\ stops_at_line (fun f r => load_xyz ft k f = Some r) file r.
Proof.
  intros ft file k L. pose proof (raw_length file) as RL. rewrite load_xyz_run by lia. eexists. split; [reflexivity|].
  destruct (xy_run_cases 2 (xyz_point ft) (xyz_no_panic ft) (raw_lines file) 0 None []) as (acc & [H|(i & line & e & H)]); rewrite H; [exact Logic.I|].
  destruct (xy_run_prefix _ _ _ _ _ _ _ _ _ _ H) as (n & N1 & N2 & N3 & N4 & N5). destruct (raw_split n file N1) as (ls & b & F & LN & E & _).
  subst file. destruct (unlines_nth ls b n line F LN N4) as (r & FR). rewrite (unlines_firstn ls b n F LN) in N5. cbn [length] in N3.
  exists ls, b, r. split; [reflexivity|]. split; [exact F|]. split; [lia|]. split; [exact FR|]. split; [unfold lenN; lia|].
  rewrite load_xyz_run; [rewrite N5; reflexivity|]. pose proof (raw_length (unlines ls)). rewrite app_length in L. lia.
Qed.
Print Assumptions C74_xyz.
Theorem C74_xy : forall ft file k, length file < k -> exists r, load_xy ft k file = Some r /\ stops_at_line (fun f r => load_xy ft k f = Some r) file r.
Proof.
  intros ft file k L. pose proof (raw_length file) as RL. rewrite load_xy_run by lia. eexists. split; [reflexivity|].
  destruct (xy_run_cases 1 (xy_point ft) (xy_no_panic ft) (raw_lines file) 0 None []) as (acc & [H|(i & line & e & H)]); rewrite H; [exact Logic.I|].
  destruct (xy_run_prefix _ _ _ _ _ _ _ _ _ _ H) as (n & N1 & N2 & N3 & N4 & N5). destruct (raw_split n file N1) as (ls & b & F & LN & E & _).
  subst file. destruct (unlines_nth ls b n line F LN N4) as (r & FR). rewrite (unlines_firstn ls b n F LN) in N5. cbn [length] in N3.
  exists ls, b, r. split; [reflexivity|]. split; [exact F|]. split; [lia|]. split; [exact FR|]. split; [unfold lenN; lia|].
  rewrite load_xy_run; [rewrite N5; reflexivity|]. pose proof (raw_length (unlines ls)). rewrite app_length in L. lia.
Qed.
Print Assumptions C74_xy.
(** The lines at the start of a file that loads, load: one point per line, the same ones. *)
Theorem C74_xyz_start : forall ft ls rest k ps, Forall is_line ls -> length (unlines ls ++ rest) < k -> load_xyz ft k (unlines ls ++ rest) = Some (ps, Ok tt) ->
  exists ps1 ps2, load_xyz ft k (unlines ls) = Some (ps1, Ok tt) /\ ps = ps1 ++ ps2 /\ length ps1 = length ls.
Proof.
  intros ft ls rest k ps F L H. pose proof (raw_length (unlines ls ++ rest)) as RL. pose proof (raw_length (unlines ls)) as RL'. rewrite app_length in L, RL.
  rewrite load_xyz_run in * by lia. injection H as H. destruct (xy_run_ok_prefix _ _ _ (length ls) _ _ _ _ H) as (l1 & l2 & A & B & C).
  rewrite (unlines_firstn ls rest _ F eq_refl) in A. exists l1, l2. split; [rewrite A; reflexivity|]. split; [exact B|]. rewrite C; [reflexivity|]. rewrite raw_unlines, app_length, map_length by exact F. apply Nat.le_add_r.
Qed.
Print Assumptions C74_xyz_start.
Example C74_case : load_xyz demo 100 (unlines [str "1 2 3"; str "4 5 6"; str "x"; str "7 8 9"]) = Some ([fp3 1 2 3; fp3 4 5 6], Err (WLine 3 (str "x") XyVertex)) /\
  load_xy demo 100 (unlines [str "1 2 3"; str ""]) = Some ([fp2 1 2], Err (WLine 2 [] XyVertex)).
Proof. split; vmeq. Qed.
