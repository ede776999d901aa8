(** Proofs about gcode, and about the line based loaders on arbitrary files. *)
From Verif Require Import Base BaseLemmas Num GeomSpec VecModel MeshModel MeshSpec MeshLemmas MatrixLemmas IoModel IoSpec IoLemmas PlyModel PlySpec PlyLemmas PlyTotalLemmas ScanModel ScanSpec ScanLemmas ObjOffLemmas.
From Coq Require Import Lia ZifyBool ZifyNat ZifyN.
Local Open Scope nat_scope.

Lemma command_three ft ws x y z : command_words ft ws 3 x y z = Some (x, y, z).
Proof. destruct ws as [|w ws]; [reflexivity|]. cbn [command_words]. reflexivity. Qed.
Lemma command_skip ft ws : forall n x y z, command_words ft (skip_empty ws) n x y z = command_words ft ws n x y z.
Proof.
  induction ws as [|w ws IH]; intros n x y z; [reflexivity|]. cbn [skip_empty filter]. change (filter (fun w => match w with [] => false | _ => true end) ws) with (skip_empty ws). destruct w as [|c w].
  - cbn [command_words]. destruct (N.eqb_spec n 3) as [->|H]; [apply command_three|apply IH].
  - cbn [command_words]. destruct (n =? 3)%N; [reflexivity|]. destruct (Ascii.eqb c ";"%char); [reflexivity|]. destruct w as [|d w]; [apply IH|].
    destruct (Ascii.eqb c "X"%char); [destruct (f64_of ft (d :: w)); [apply IH|reflexivity]|]. destruct (Ascii.eqb c "Y"%char); [destruct (f64_of ft (d :: w)); [apply IH|reflexivity]|].
    destruct (Ascii.eqb c "Z"%char); [destruct (f64_of ft (d :: w)); [apply IH|reflexivity]|]. apply IH.
Qed.
Definition over {A} (a b : option A) : option A := match b with Some _ => b | None => a end.
Definition isome {A} (a : option A) : N := match a with Some _ => 1 | None => 0 end.
Lemma axes_command ft ws x y z : axes ft ws x y z -> forall x0 y0 z0, (x <> None -> x0 = None) -> (y <> None -> y0 = None) -> (z <> None -> z0 = None) ->
  command_words ft ws (isome x0 + isome y0 + isome z0) x0 y0 z0 = Some (over x0 x, over y0 y, over z0 z).
Proof.
  induction 1 as [|c ws|c w ws x y z NC O A IH|w ws v y z NW E A IH|w ws x v z NW E A IH|w ws x y v NW E A IH]; intros x0 y0 z0 HX HY HZ.
  - reflexivity.
  - cbn [command_words over]. destruct (_ =? 3)%N; [reflexivity|]. change (Ascii.eqb ";" ";") with true. reflexivity.
  - cbn [command_words]. destruct (N.eqb_spec (isome x0 + isome y0 + isome z0) 3) as [E3|_].
    { specialize (IH x0 y0 z0 HX HY HZ). rewrite E3, command_three in IH. exact IH. }
    rewrite eqb_false by exact NC. destruct w as [|d w]; [apply IH; assumption|]. destruct O as [O|O]; [discriminate|]. cbn [In str list_ascii_of_string] in O.
    rewrite !eqb_false by (intros ->; apply O; auto). apply IH; assumption.
  - rewrite (HX ltac:(discriminate)). cbn [command_words over isome]. destruct (N.eqb_spec (0 + isome y0 + isome z0) 3) as [E3|_]; [destruct y0, z0; discriminate|]. change (Ascii.eqb "X" ";") with false. destruct w as [|d w]; [congruence|]. change (Ascii.eqb "X" "X") with true. cbv iota. rewrite E.
    specialize (IH (Some v) y0 z0). cbn [isome over] in IH. replace (0 + isome y0 + isome z0 + 1)%N with (1 + isome y0 + isome z0)%N by lia. apply IH; [congruence|assumption|assumption].
  - rewrite (HY ltac:(discriminate)). cbn [command_words over isome]. destruct (N.eqb_spec (isome x0 + 0 + isome z0) 3) as [E3|_]; [destruct x0, z0; discriminate|]. change (Ascii.eqb "Y" ";") with false. destruct w as [|d w]; [congruence|]. change (Ascii.eqb "Y" "X") with false. change (Ascii.eqb "Y" "Y") with true. cbv iota. rewrite E.
    specialize (IH x0 (Some v) z0). cbn [isome over] in IH. replace (isome x0 + 0 + isome z0 + 1)%N with (isome x0 + 1 + isome z0)%N by lia. apply IH; [assumption|congruence|assumption].
  - rewrite (HZ ltac:(discriminate)). cbn [command_words over isome]. destruct (N.eqb_spec (isome x0 + isome y0 + 0) 3) as [E3|_]; [destruct x0, y0; discriminate|]. change (Ascii.eqb "Z" ";") with false. destruct w as [|d w]; [congruence|]. change (Ascii.eqb "Z" "X") with false. change (Ascii.eqb "Z" "Y") with false. change (Ascii.eqb "Z" "Z") with true. cbv iota. rewrite E.
    specialize (IH x0 y0 (Some v)). cbn [isome over] in IH. replace (isome x0 + isome y0 + 0 + 1)%N with (isome x0 + isome y0 + 1)%N by lia. apply IH; [assumption|assumption|congruence].
Qed.
Lemma command_ok ft r ws x y z : spells is_space r ws -> axes ft ws x y z -> command ft r = Some (x, y, z).
Proof.
  intros Sp A. apply space_words in Sp. unfold command. rewrite <- command_skip, Sp.
  change 0%N with (isome (@None (T F64)) + isome (@None (T F64)) + isome (@None (T F64)))%N. rewrite (axes_command ft ws x y z A None None None) by reflexivity. destruct x, y, z; reflexivity.
Qed.
(** An axis word that cannot be read. *)
Definition missing {A} (c : ascii) (x y z : option A) : Prop := (c = "X"%char /\ x = None) \/ (c = "Y"%char /\ y = None) \/ (c = "Z"%char /\ z = None).
Lemma missing_three {A} c (x y z : option A) : missing c x y z -> (isome x + isome y + isome z <> 3)%N.
Proof. assert (B : forall o : option A, (isome o <= 1)%N) by (intros []; cbn; lia). pose proof (B x). pose proof (B y). pose proof (B z). intros [(_ & ->)|[(_ & ->)|(_ & ->)]]; cbn [isome]; cbn [isome] in *; lia. Qed.
Lemma missing_over {A} c (x0 y0 z0 x y z : option A) : missing c (over x0 x) (over y0 y) (over z0 z) -> missing c x0 y0 z0.
Proof. unfold missing. intros [(E & H)|[(E & H)|(E & H)]]; [left|right; left|right; right]; (split; [exact E|]); [destruct x|destruct y|destruct z]; try discriminate H; exact H. Qed.
Lemma axes_bad ft ws x y z c w rest : axes ft ws x y z -> (forall v, ~ In (";"%char :: v) ws) -> w <> [] -> f64_of ft w = None ->
  forall x0 y0 z0, (x <> None -> x0 = None) -> (y <> None -> y0 = None) -> (z <> None -> z0 = None) -> missing c (over x0 x) (over y0 y) (over z0 z) ->
  command_words ft (ws ++ (c :: w) :: rest) (isome x0 + isome y0 + isome z0) x0 y0 z0 = None.
Proof.
  intros AX NC NW NF. induction AX as [|d ws|d u ws x y z ND O A IH|u ws v y z NU E A IH|u ws x v z NU E A IH|u ws x y v NU E A IH]; intros x0 y0 z0 HX HY HZ MI; cbn [app]; pose proof (missing_three _ _ _ _ (missing_over _ _ _ _ _ _ _ MI)) as M3.
  - cbn [command_words]. destruct (N.eqb_spec (isome x0 + isome y0 + isome z0) 3); [contradiction|]. destruct w as [|e w]; [congruence|]. rewrite NF. destruct MI as [(-> & _)|[(-> & _)|(-> & _)]]; reflexivity.
  - destruct (NC d). left. reflexivity.
  - assert (NC' : forall v, ~ In (";"%char :: v) ws) by (intros v I; apply (NC v); right; exact I). specialize (IH NC' x0 y0 z0 HX HY HZ MI).
    cbn [command_words]. destruct (N.eqb_spec (isome x0 + isome y0 + isome z0) 3); [contradiction|]. rewrite eqb_false by exact ND. destruct u as [|e u]; [exact IH|]. destruct O as [O|O]; [discriminate|]. cbn [In str list_ascii_of_string] in O.
    rewrite !eqb_false by (intros ->; apply O; auto). exact IH.
  - assert (NC' : forall v, ~ In (";"%char :: v) ws) by (intros w' I; apply (NC w'); right; exact I). rewrite (HX ltac:(discriminate)) in *. specialize (IH NC' (Some v) y0 z0 ltac:(congruence) HY HZ MI). cbn [isome] in *.
    cbn [command_words]. destruct (N.eqb_spec (0 + isome y0 + isome z0) 3); [contradiction|]. change (Ascii.eqb "X" ";") with false. destruct u as [|e u]; [congruence|]. change (Ascii.eqb "X" "X") with true. cbv iota. rewrite E. replace (0 + isome y0 + isome z0 + 1)%N with (1 + isome y0 + isome z0)%N by lia. exact IH.
  - assert (NC' : forall v, ~ In (";"%char :: v) ws) by (intros w' I; apply (NC w'); right; exact I). rewrite (HY ltac:(discriminate)) in *. specialize (IH NC' x0 (Some v) z0 HX ltac:(congruence) HZ MI). cbn [isome] in *.
    cbn [command_words]. destruct (N.eqb_spec (isome x0 + 0 + isome z0) 3); [contradiction|]. change (Ascii.eqb "Y" ";") with false. destruct u as [|e u]; [congruence|]. change (Ascii.eqb "Y" "X") with false. change (Ascii.eqb "Y" "Y") with true. cbv iota. rewrite E. replace (isome x0 + 0 + isome z0 + 1)%N with (isome x0 + 1 + isome z0)%N by lia. exact IH.
  - assert (NC' : forall v, ~ In (";"%char :: v) ws) by (intros w' I; apply (NC w'); right; exact I). rewrite (HZ ltac:(discriminate)) in *. specialize (IH NC' x0 y0 (Some v) HX HY ltac:(congruence) MI). cbn [isome] in *.
    cbn [command_words]. destruct (N.eqb_spec (isome x0 + isome y0 + 0) 3); [contradiction|]. change (Ascii.eqb "Z" ";") with false. destruct u as [|e u]; [congruence|]. change (Ascii.eqb "Z" "X") with false. change (Ascii.eqb "Z" "Y") with false. change (Ascii.eqb "Z" "Z") with true. cbv iota. rewrite E. replace (isome x0 + isome y0 + 0 + 1)%N with (isome x0 + isome y0 + 1)%N by lia. exact IH.
Qed.
Lemma command_bad ft r ws x y z c w rest : spells is_space r (ws ++ (c :: w) :: rest) -> axes ft ws x y z -> (forall v, ~ In (";"%char :: v) ws) -> w <> [] -> f64_of ft w = None -> missing c x y z -> command ft r = None.
Proof.
  intros Sp A NC NW NF MI. apply space_words in Sp. unfold command. rewrite <- command_skip, Sp.
  change 0%N with (isome (@None (T F64)) + isome (@None (T F64)) + isome (@None (T F64)))%N. apply (axes_bad ft ws x y z c w rest A NC NW NF); try reflexivity. destruct x, y, z; exact MI.
Qed.
Lemma moved_move ra s x y z : mk3 (move_to ra (px (gc_pos s)) x) (move_to ra (py (gc_pos s)) y) (move_to ra (pz (gc_pos s)) z) = moved ra (gc_pos s) x y z.
Proof. unfold moved, move_to, coordinate. destruct x, y, z, ra; reflexivity. Qed.
Lemma gcode_move_ok ft ra s r ws x y z : spells is_space r ws -> axes ft ws x y z ->
  gcode_move ft ra s r = let q := moved ra (gc_pos s) x y z in if mentions x y z then LItem (Ok q) (mkgc (gc_ra s) q) else LSkip s.
Proof. intros Sp A. unfold gcode_move. rewrite (command_ok ft r ws x y z Sp A), moved_move. destruct x, y, z; reflexivity. Qed.
(** The effect of a command on the state. *)
Definition gstate (s : gcode_state) (c : gcmd) : gcode_state :=
  match c with
  | GMove x y z => if mentions x y z then mkgc (gc_ra s) (moved (gc_ra s) (gc_pos s) x y z) else s
  | GSet x y z => if mentions x y z then mkgc (gc_ra s) (moved Absolute (gc_pos s) x y z) else s
  | GMode ra => mkgc ra (gc_pos s)
  | GOther => s
  end.
Definition gitems (s : gcode_state) (c : gcmd) : list (pt3 F64) :=
  match c with
  | GMove x y z => if mentions x y z then [moved (gc_ra s) (gc_pos s) x y z] else []
  | GSet x y z => if mentions x y z then [moved Absolute (gc_pos s) x y z] else []
  | _ => []
  end.
Lemma gline_step ft t c s : gline ft t c -> gcode_step ft s t = match gitems s c with [] => LSkip (gstate s c) | q :: _ => LItem (Ok q) (gstate s c) end.
Proof.
  intros L. destruct L as [d r ws x y z D Sp A|r|r|r ws x y z Sp A|t N1 N2].
  - destruct r as [|c3 rest].
    + assert (W : ws = []) by (apply space_words in Sp; symmetry; exact Sp). subst ws. inversion A; subst. reflexivity.
    + unfold gcode_step. change (Ascii.eqb "G" "G") with true. cbv iota. rewrite (Ascii.eqb_refl space).
      assert (DD : (Ascii.eqb d "1" || Ascii.eqb d "2" || Ascii.eqb d "3")%char = true) by (cbn in D; destruct D as [<-|[<-|[<-|[]]]]; reflexivity). cbn [andb]. rewrite DD.
      rewrite (gcode_move_ok ft _ s _ ws x y z Sp A). cbn [gitems gstate]. cbv zeta. destruct (mentions x y z); reflexivity.
  - reflexivity.
  - reflexivity.
  - change (gcode_step ft s (str "G92 " ++ r)) with (gcode_move ft Absolute s r). rewrite (gcode_move_ok ft _ s _ ws x y z Sp A). cbn [gitems gstate]. cbv zeta. destruct (mentions x y z); reflexivity.
  - cbn [gitems gstate]. unfold gcode_step. destruct t as [|c0 [|c1 [|c2 [|c3 rest]]]]; try reflexivity. destruct (Ascii.eqb_spec c0 "G"%char) as [->|]; [|reflexivity].
    destruct (Ascii.eqb_spec c2 space) as [->|S2].
    + cbn [andb]. destruct (Ascii.eqb_spec c1 "1"%char) as [->|]; [destruct (N1 "1"%char (c3 :: rest)); [cbn; auto|reflexivity]|]. destruct (Ascii.eqb_spec c1 "2"%char) as [->|]; [destruct (N1 "2"%char (c3 :: rest)); [cbn; auto|reflexivity]|].
      destruct (Ascii.eqb_spec c1 "3"%char) as [->|]; [destruct (N1 "3"%char (c3 :: rest)); [cbn; auto|reflexivity]|]. cbn [orb]. destruct (_ && _); reflexivity.
    + cbn [andb]. destruct (Ascii.eqb_spec c1 "9"%char) as [->|]; [|reflexivity]. destruct (Ascii.eqb_spec c3 space) as [->|]; [|reflexivity]. cbn [andb].
      destruct (Ascii.eqb_spec c2 "0"%char) as [->|]; [destruct (N2 "0"%char rest); [cbn; auto|reflexivity]|]. destruct (Ascii.eqb_spec c2 "1"%char) as [->|]; [destruct (N2 "1"%char rest); [cbn; auto|reflexivity]|].
      destruct (Ascii.eqb_spec c2 "2"%char) as [->|]; [destruct (N2 "2"%char rest); [cbn; auto|reflexivity]|]. reflexivity.
Qed.
Definition gstates (s : gcode_state) (cs : list gcmd) : gcode_state := fold_left gstate cs s.
Lemma gcode_runs ft ts cs : Forall2 (gline ft) ts cs -> forall s, runs (gcode_step ft) s ts (positions (gc_ra s) (gc_pos s) cs) (gstates s cs).
Proof.
  induction 1 as [|t c ts cs L F IH]; intros s; [constructor|]. pose proof (gline_step ft t c s L) as St. cbn [gstates fold_left]. specialize (IH (gstate s c)).
  destruct c as [x y z|ra|x y z|]; cbn [positions gitems gstate] in *; cbv zeta.
  - destruct (mentions x y z); [eapply RItem|eapply RSkip]; eauto.
  - eapply RSkip; eauto.
  - destruct (mentions x y z); [eapply RItem|eapply RSkip]; eauto.
  - eapply RSkip; eauto.
Qed.

(** ** lines without effect *)
Section Scan.
Context {S E A : Type} (step : S -> bytes -> line_step S E A).
Fixpoint scan (ts : list bytes) (i : N) (s : S) : list A * outcome (with_line E) unit :=
  match ts with
  | [] => ([], Ok tt)
  | t :: ts =>
      let i := (i + 1)%N in
      match step s t with
      | LSkip s => scan ts i s
      | LItem (Ok a) s => let (l, r) := scan ts i s in (a :: l, r)
      | LItem (Err e) _ => ([], Err (WLine i t e))
      | LItem Panic _ => ([], Panic)
      | LStop _ => ([], Ok tt)
      end
  end.
Lemma load_scan raws : forall i s k acc, length raws < k -> load_loop (line_next step) k (mkls raws false i s) acc = Some (acc ++ fst (scan (map trim_line raws) i s), snd (scan (map trim_line raws) i s)).
Proof.
  induction raws as [|raw raws IH]; intros i s [|k] acc K; try (cbn [length] in K; lia).
  - cbn [load_loop line_next ls_done ls_read ls_line ls_own line_loop map scan fst snd]. rewrite app_nil_r. reflexivity.
  - cbn [length] in K. cbn [map scan]. cbn [load_loop]. unfold line_next at 1. cbn [ls_done ls_read ls_line ls_own line_loop]. destruct (step s (trim_line raw)) as [s1|[a|e|] s1|s1].
    + specialize (IH (i + 1)%N s1 (Datatypes.S k) acc ltac:(lia)). cbn [load_loop] in IH. unfold line_next at 1 in IH. cbn [ls_done ls_read ls_line ls_own] in IH. exact IH.
    + cbn [at_line]. rewrite IH by lia. destruct (scan _ _ _) as (l, r). cbn [fst snd]. rewrite <- app_assoc. reflexivity.
    + cbn [at_line fst snd]. rewrite app_nil_r. reflexivity.
    + cbn [at_line fst snd]. rewrite app_nil_r. reflexivity.
    + cbn [fst snd]. rewrite app_nil_r. reflexivity.
Qed.
Lemma scan_index ts : forall i j s, fst (scan ts i s) = fst (scan ts j s).
Proof. induction ts as [|t ts IH]; intros i j s; [reflexivity|]. cbn [scan]. destruct (step s t) as [s1|[a|e|] s1|s1]; try reflexivity; [apply IH|]. specialize (IH (i + 1)%N (j + 1)%N s1). destruct (scan ts (i + 1) s1), (scan ts (j + 1) s1). cbn [fst] in *. rewrite IH. reflexivity. Qed.
Lemma scan_index_ok ts : forall i j s, snd (scan ts i s) = Ok tt -> snd (scan ts j s) = Ok tt.
Proof. induction ts as [|t ts IH]; intros i j s H; [reflexivity|]. cbn [scan] in *. destruct (step s t) as [s1|[a|e|] s1|s1]; try exact H; try discriminate; [eapply IH, H|]. destruct (scan ts (i + 1) s1) eqn:X, (scan ts (j + 1) s1) eqn:Y. cbn [snd] in *. specialize (IH (i + 1)%N (j + 1)%N s1). rewrite X, Y in IH. apply IH, H. Qed.
(** A line without effect can be left out. *)
Lemma scan_without t ts2 : (forall s, step s t = LSkip s) -> forall ts1 i j s,
  fst (scan (ts1 ++ t :: ts2) i s) = fst (scan (ts1 ++ ts2) j s) /\ (snd (scan (ts1 ++ t :: ts2) i s) = Ok tt <-> snd (scan (ts1 ++ ts2) j s) = Ok tt).
Proof.
  intros H. induction ts1 as [|u ts1 IH]; intros i j s; cbn [app].
  - cbn [scan]. rewrite H. split; [apply scan_index|]. split; intros X; eapply scan_index_ok, X.
  - cbn [scan]. destruct (step s u) as [s1|[a|e|] s1|s1]; [apply IH| |split; [reflexivity|split; discriminate]..|split; reflexivity]. specialize (IH (i + 1)%N (j + 1)%N s1). destruct (scan (ts1 ++ t :: ts2) (i + 1) s1), (scan (ts1 ++ ts2) (j + 1) s1). cbn [fst snd] in *. destruct IH as (-> & IH). split; [reflexivity|exact IH].
Qed.
End Scan.
Lemma without_effect {S E A} (step : S -> bytes -> line_step S E A) s0 ls1 l ls2 t k : (forall s, step s t = LSkip s) -> Forall is_line ls1 -> Forall is_line ls2 -> line_of l t -> length (unlines (ls1 ++ l :: ls2)) < k ->
  exists ps r r', load_loop (line_next step) k (line_new (unlines (ls1 ++ ls2)) s0) [] = Some (ps, r) /\ load_loop (line_next step) k (line_new (unlines (ls1 ++ l :: ls2)) s0) [] = Some (ps, r') /\ (r = Ok tt <-> r' = Ok tt).
Proof.
  intros H F1 F2 L K. unfold line_new.
  assert (R : forall ls, Forall is_line ls -> raw_lines (unlines ls) = map (fun l => l ++ [nl]) ls) by (intros ls F; pose proof (raw_unlines ls [] F) as R; rewrite app_nil_r in R; rewrite R; cbn [raw_lines]; apply app_nil_r).
  rewrite !R; [|apply Forall_app; split; [exact F1|constructor; [apply L|exact F2]]|apply Forall_app; split; assumption].
  pose proof (unlines_count (ls1 ++ l :: ls2)) as UC. rewrite app_length in UC. cbn [length] in UC.
  rewrite !load_scan by (rewrite map_length, app_length; cbn [length]; lia). cbn [app]. rewrite !map_app. cbn [map]. rewrite (line_trim l t L).
  destruct (scan_without step t (map trim_line (map (fun l => l ++ [nl]) ls2)) H (map trim_line (map (fun l => l ++ [nl]) ls1)) 0%N 0%N s0) as (A1 & A2).
  eexists _, _, _. split; [reflexivity|]. split; [apply f_equal, f_equal2; [exact A1|reflexivity]|]. symmetry. exact A2.
Qed.

(** ** any file *)
Lemma line_loop_less {S E A} (step : S -> bytes -> line_step S E A) : forall ls i s r s', line_loop step ls i s = (Some r, s') -> length (ls_read s') < length ls.
Proof.
  induction ls as [|l ls IH]; intros i s r s' H; cbn [line_loop] in H; [discriminate|]. destruct (step s (trim_line l)) as [s1|q s1|s1].
  - apply IH in H. cbn [length]. lia.
  - injection H as <- <-. cbn [ls_read length]. lia.
  - discriminate.
Qed.
Lemma line_next_less {S E A} (step : S -> bytes -> line_step S E A) s a s' : line_next step s = (Some (Ok a), s') -> length (ls_read s') < length (ls_read s).
Proof. unfold line_next. destruct (ls_done s); [discriminate|]. apply line_loop_less. Qed.
Lemma line_next_np {S E A} (step : S -> bytes -> line_step S E A) : (forall s t s', step s t <> LItem Panic s') -> forall s, fst (line_next step s) <> Some Panic.
Proof.
  intros NP s. unfold line_next. destruct (ls_done s); [discriminate|]. generalize (ls_line s) (ls_own s). induction (ls_read s) as [|l ls IH]; intros i own; cbn [line_loop]; [discriminate|].
  specialize (NP own (trim_line l)). destruct (step own (trim_line l)) as [s1|[a|e|] s1|s1]; [apply IH|discriminate|discriminate|destruct (NP s1 eq_refl)|discriminate].
Qed.
Lemma f64_np {E} ft (e : E) ws : next_f64 ft e ws <> Panic.
Proof. destruct ws as [|w ws]; [discriminate|]. cbn [next_f64]. destruct (f64_of ft w); discriminate. Qed.
Lemma three_np {E} ft (e : E) ws : three_f64 ft e ws <> Panic.
Proof. unfold three_f64. apply obind_np; [apply f64_np|]. intros (x, ws1). apply obind_np; [apply f64_np|]. intros (y, ws2). apply obind_np; [apply f64_np|]. intros (z, ws3). discriminate. Qed.
Lemma count_np {E} (e : E) ws : next_count e ws <> Panic.
Proof. unfold next_count. destruct (next_usize ws); discriminate. Qed.
Lemma obj_index_np ws : obj_index ws <> Panic.
Proof. destruct ws as [|w ws]; [discriminate|]. cbn [obj_index]. destruct (usize_of _); discriminate. Qed.
Lemma omap_np {E A B} (f : A -> B) (r : outcome E A) : r <> Panic -> omap f r <> Panic.
Proof. destruct r; [discriminate|discriminate|congruence]. Qed.
Lemma obj_vertex_np ft l : obj_vertex ft l <> Panic. Proof. unfold obj_vertex. destruct (to_words l); [discriminate|apply three_np]. Qed.
Lemma obj_face_np l : obj_face l <> Panic.
Proof. unfold obj_face. destruct (to_words l); [discriminate|]. apply obind_np; [apply obj_index_np|]. intros (x, ws1). apply obind_np; [apply obj_index_np|]. intros (y, ws2). apply obind_np; [apply obj_index_np|]. intros (z, ws3). discriminate. Qed.
Lemma off_face_np l : off_face l <> Panic.
Proof. unfold off_face. destruct (to_words l); [discriminate|]. destruct (bytes_eqb _ _); [|discriminate]. apply obind_np; [apply count_np|]. intros (x, ws1). apply obind_np; [apply count_np|]. intros (y, ws2). apply obind_np; [apply count_np|]. intros (z, ws3). discriminate. Qed.
Lemma off_counts_np l : off_two_counts l <> Panic.
Proof. unfold off_two_counts. apply obind_np; [apply count_np|]. intros (x, ws1). apply obind_np; [apply count_np|]. intros (y, ws2). discriminate. Qed.
Lemma obj_mesh_np ft s t s' : obj_mesh_step ft s t <> LItem Panic s'.
Proof. unfold obj_mesh_step. pose proof (omap_np MPoint _ (obj_vertex_np ft t)). pose proof (omap_np MFace _ (obj_face_np t)). destruct (starts_with _ t); [congruence|]. destruct (starts_with _ t); congruence. Qed.
Lemma obj_points_np ft s t s' : obj_points_step ft s t <> LItem Panic s'.
Proof. unfold obj_points_step. pose proof (obj_vertex_np ft t). destruct (starts_with _ t); congruence. Qed.
Lemma gcode_np ft s t s' : gcode_step ft s t <> LItem Panic s'.
Proof.
  assert (G : forall ra args, gcode_move ft ra s args <> LItem Panic s') by (intros ra args; unfold gcode_move; destruct (command ft args) as [[[x y] z]|]; [destruct x, y, z|]; discriminate).
  unfold gcode_step. destruct t as [|c0 [|c1 [|c2 [|c3 rest]]]]; try discriminate. destruct (Ascii.eqb c0 _); [|discriminate]. destruct (_ && _); [apply G|]. destruct (_ && _); [|discriminate].
  destruct (Ascii.eqb c2 _); [discriminate|]. destruct (Ascii.eqb c2 _); [discriminate|]. destruct (Ascii.eqb c2 _); [apply G|discriminate].
Qed.
Lemma off_mesh_np ft s t s' : off_mesh_step ft s t <> LItem Panic s'.
Proof.
  unfold off_mesh_step. destruct (off_pass s t); [discriminate|]. destruct (off_counts s) as [(nv, nf)|].
  - pose proof (omap_np (fun p => FItem (MPoint p)) _ (three_np ft OffVertex (to_words t))). pose proof (omap_np (fun f => FItem (MFace f)) _ (off_face_np t)). unfold off_vertex. destruct (_ <? _)%N; congruence.
  - pose proof (off_counts_np t). destruct (off_two_counts t) as [(nv, nf)|e|]; congruence.
Qed.
Lemma off_points_np ft s t s' : off_points_step ft s t <> LItem Panic s'.
Proof.
  unfold off_points_step. destruct (off_pass s t); [discriminate|]. destruct (off_counts s) as [nv|].
  - pose proof (omap_np (@DData (pt3 F64)) _ (three_np ft OffVertex (to_words t))). unfold off_vertex. destruct (_ <? _)%N; [congruence|discriminate].
  - pose proof (count_np OffVertexCount (to_words t)). destruct (next_count _ _) as [(nv, nf)|e|]; congruence.
Qed.
Lemma pts_np ft s t s' : pts_step ft s t <> LItem Panic s'.
Proof.
  assert (B : forall a, pts_block a s t <> LItem Panic s') by (intros a; unfold pts_block; pose proof (count_np PtsVertexCount (to_words t)); destruct (next_count _ _) as [(nv, nf)|e|]; congruence).
  unfold pts_step. destruct (bytes_eqb t []); [discriminate|]. destruct (pts_n s) as [n|]; [|apply B]. destruct (_ <? _)%N; [|apply B]. pose proof (omap_np (@DData (pt3 F64)) _ (three_np ft PtsVertex (to_words t))). congruence.
Qed.
Lemma mesh_add_valid {E} (e : E) m x : valid m -> valid (fst (mesh_add e m x)) /\ snd (mesh_add e m x) <> Panic.
Proof.
  intros V. pose proof (add_valid m x V) as (A & B). destruct x as [p|[[a b] c]].
  - split; [exact A|discriminate].
  - unfold add_simple, add_item in A. cbn [mesh_add]. destruct (try_add_connection m a b c) as (m', [n|e'|]); (split; [exact A|discriminate]).
Qed.
(** The loop either ends in a way that is not a panic, or the body panics for an element the iterator gives. *)
Lemma fold_total2 {S E A M} (next : S -> option (outcome E A) * S) (body : M -> A -> M * outcome E unit) (mu : S -> nat) (J : S -> Prop) (I : M -> Prop) (P : A -> Prop) :
  (forall s a s', next s = (Some (Ok a), s') -> mu s' < mu s) -> (forall s, fst (next s) <> Some Panic) -> (forall s a s', J s -> next s = (Some (Ok a), s') -> J s' /\ P a) ->
  (forall m a, I m -> P a -> I (fst (body m a))) ->
  forall n s m, mu s <= n -> I m -> J s -> exists m' r, I m' /\ (r = Panic -> exists a m1, P a /\ I m1 /\ body m1 a = (m', Panic)) /\ forall k, n < k -> fold_loop next body k s m = Some (m', r).
Proof.
  intros D NP JP B. induction n as [|n IH]; intros s m L Im Js; destruct (next s) as [[[a|e|]|] s'] eqn:N.
  - pose proof (D _ _ _ N). lia.
  - exists m, (Err e). split; [exact Im|]. split; [discriminate|]. intros [|k] K; [lia|]. cbn [fold_loop]. rewrite N. reflexivity.
  - destruct (NP s). rewrite N. reflexivity.
  - exists m, (Ok tt). split; [exact Im|]. split; [discriminate|]. intros [|k] K; [lia|]. cbn [fold_loop]. rewrite N. reflexivity.
  - pose proof (D _ _ _ N) as LT. destruct (JP _ _ _ Js N) as (Js' & Pa). pose proof (B m a Im Pa) as Im'. destruct (body m a) as (m1, r1) eqn:Bo. cbn [fst] in Im'. destruct r1 as [[]|e|].
    + destruct (IH s' m1 ltac:(lia) Im' Js') as (m' & r & I' & R & H). exists m', r. split; [exact I'|]. split; [exact R|]. intros [|k] K; [lia|]. cbn [fold_loop]. rewrite N, Bo. apply H. lia.
    + exists m1, (Err e). split; [exact Im'|]. split; [discriminate|]. intros [|k] K; [lia|]. cbn [fold_loop]. rewrite N, Bo. reflexivity.
    + exists m1, Panic. split; [exact Im'|]. split; [intros _; exists a, m; auto|]. intros [|k] K; [lia|]. cbn [fold_loop]. rewrite N, Bo. reflexivity.
  - exists m, (Err e). split; [exact Im|]. split; [discriminate|]. intros [|k] K; [lia|]. cbn [fold_loop]. rewrite N. reflexivity.
  - destruct (NP s). rewrite N. reflexivity.
  - exists m, (Ok tt). split; [exact Im|]. split; [discriminate|]. intros [|k] K; [lia|]. cbn [fold_loop]. rewrite N. reflexivity.
Qed.
(** What holds of the elements for every line of the file. *)
Lemma line_next_items {S E A} (step : S -> bytes -> line_step S E A) (raws : list bytes) (P : A -> Prop) : (forall s raw a s', In raw raws -> step s (trim_line raw) = LItem (Ok a) s' -> P a) ->
  forall s a s', incl (ls_read s) raws -> line_next step s = (Some (Ok a), s') -> incl (ls_read s') raws /\ P a.
Proof.
  intros H s a s' J N. unfold line_next in N. destruct (ls_done s); [discriminate|]. revert J N. generalize (ls_line s) (ls_own s). induction (ls_read s) as [|l ls IH]; intros i own J N; cbn [line_loop] in N; [discriminate|].
  destruct (step own (trim_line l)) as [s1|[b|e|] s1|s1] eqn:St; cbn [at_line] in N; try discriminate.
  - apply (IH (i + 1)%N s1); [intros x X; apply J; right; exact X|exact N].
  - injection N as <- <-. cbn [ls_read]. split; [intros x X; apply J; right; exact X|]. apply (H own l b s1); [apply J; left; reflexivity|exact St].
Qed.
