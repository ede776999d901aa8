(** The messages of errors (C179). *)
From Verif Require Import Base Num IoModel IoLemmas PlyModel StlModel ScanModel ScannerModel ErrTextModel.
From Coq Require Import Lia.

(** ** Within a format different errors have different messages *)
Theorem C179_stl : forall a b, stl_text a = stl_text b -> a = b. Proof. intros [] []; first [reflexivity|intros H; vm_compute in H; discriminate]. Qed.
Print Assumptions C179_stl.
Theorem C179_ptx : forall a b, ptx_text a = ptx_text b -> a = b. Proof. intros [] []; first [reflexivity|intros H; vm_compute in H; discriminate]. Qed.
Print Assumptions C179_ptx.
Theorem C179_xy : forall a b, xy_text a = xy_text b -> a = b. Proof. intros [] []; first [reflexivity|intros H; vm_compute in H; discriminate]. Qed.
Print Assumptions C179_xy.
Theorem C179_obj : forall a b, obj_text a = obj_text b -> a = b. Proof. intros [] []; first [reflexivity|intros H; vm_compute in H; discriminate]. Qed.
Print Assumptions C179_obj.
Theorem C179_off : forall a b, off_text a = off_text b -> a = b. Proof. intros [] []; first [reflexivity|intros H; vm_compute in H; discriminate]. Qed.
Print Assumptions C179_off.
Theorem C179_pts : forall a b, pts_text a = pts_text b -> a = b. Proof. intros [] []; first [reflexivity|intros H; vm_compute in H; discriminate]. Qed.
Print Assumptions C179_pts.
Theorem C179_gcode : forall a b, gcode_text a = gcode_text b -> a = b. Proof. intros [] []; first [reflexivity|intros H; vm_compute in H; discriminate]. Qed.
Print Assumptions C179_gcode.
Theorem C179_las : forall a b, las_text a = las_text b -> a = b. Proof. intros [] []; first [reflexivity|intros H; vm_compute in H; discriminate]. Qed.
Print Assumptions C179_las.
Theorem C179_kind : forall a b, kind_text a = kind_text b -> a = b. Proof. intros [] []; first [reflexivity|intros H; vm_compute in H; discriminate]. Qed.
Print Assumptions C179_kind.
(** ply: the message tells the invalid type as well. *)
Theorem C179_ply : forall w a v b, ply_text w a = ply_text v b -> a = b /\ (a = InvalidType -> w = v).
Proof.
  assert (K : forall w v : bytes, str "Invalid type in header '" ++ w ++ str "'" = str "Invalid type in header '" ++ v ++ str "'" -> w = v).
  { intros w v H. apply app_inv_head in H. apply app_inv_tail in H. exact H. }
  intros w a v b H.
  destruct a as [| | | | | | | | |[]|[]| | | | | |], b as [| | | | | | | | |[]|[]| | | | | |]; first [split; [reflexivity|intros X; first [discriminate X|exact (K _ _ H)]]|exfalso; cbn in H; discriminate H].
Qed.
Print Assumptions C179_ply.

(** ** With line information *)
Lemma cut_at (P : ascii -> Prop) a c b a' c' b' : Forall P a -> Forall P a' -> ~ P c -> ~ P c' -> a ++ c :: b = a' ++ c' :: b' -> a = a' /\ c = c' /\ b = b'.
Proof.
  intros F. revert a'. induction F as [|x a X F IH]; intros a' F' N N' H.
  - destruct F' as [|y a' Y F']; [injection H as -> ->; auto|injection H as -> _; contradiction].
  - destruct F' as [|y a' Y F']; [injection H as -> _; contradiction|]. injection H as -> H. destruct (IH _ F' N N' H) as (-> & E). auto.
Qed.
Definition digit_char (c : ascii) : Prop := exists d, (d < 10)%N /\ c = digit d.
Lemma digits n : Forall digit_char (print_usize n). Proof. apply (print_usize_spec (n + 1) n). lia. Qed.
Lemma colon : ~ digit_char ":". Proof. intros (d & D & E). unfold digit in E. apply (f_equal N_of_ascii) in E. rewrite N_ascii_embedding in E by lia. change (N_of_ascii ":") with 58%N in E. lia. Qed.
Lemma print_inj n m : print_usize n = print_usize m -> n = m.
Proof. intros E. pose proof (parse_N_print n) as A. rewrite E, parse_N_print in A. congruence. Qed.
(** Messages that can be told from line information. *)
Definition plain (t : bytes) : Prop := match t with [] => False | c :: _ => c <> "L"%char end /\ Forall (fun c => c <> "'"%char) t.
Lemma lines {E} (show : E -> bytes) a b : plain (show (info_error a)) -> plain (show (info_error b)) -> line_text show a = line_text show b ->
  show (info_error a) = show (info_error b) /\ line_from (fun _ => tt) a = line_from (fun _ => tt) b.
Proof.
  intros [A1 A2] [B1 B2] H.
  assert (S : forall t r, match t with [] => False | c :: _ => c <> "L"%char end -> t <> str "Line #" ++ r).
  { intros [|c t] r X Q; [contradiction|]. cbn in Q. congruence. }
  assert (Q : ~ "'"%char <> "'"%char) by tauto.
  destruct a as [e|i e|i l e], b as [f|j f|j m f]; cbn [line_text info_error line_from] in *.
  - auto.
  - destruct (S _ _ A1 H).
  - destruct (S _ _ A1 H).
  - destruct (S _ _ B1 (eq_sym H)).
  - apply app_inv_head in H. cbn [str list_ascii_of_string app] in H. destruct (cut_at _ _ _ _ _ _ _ (digits i) (digits j) colon colon H) as (I & _ & R). injection R as R.
    destruct (cut_at _ _ _ _ _ _ _ A2 B2 Q Q R) as (-> & _ & _). split; [reflexivity|]. f_equal. apply print_inj, I.
  - apply app_inv_head in H. cbn [str list_ascii_of_string app] in H. destruct (cut_at _ _ _ _ _ _ _ (digits i) (digits j) colon colon H) as (I & _ & R). injection R as R.
    destruct (cut_at _ _ _ _ _ _ _ A2 B2 Q Q R) as (_ & _ & X). discriminate X.
  - destruct (S _ _ B1 (eq_sym H)).
  - apply app_inv_head in H. cbn [str list_ascii_of_string app] in H. destruct (cut_at _ _ _ _ _ _ _ (digits i) (digits j) colon colon H) as (I & _ & R). injection R as R.
    destruct (cut_at _ _ _ _ _ _ _ A2 B2 Q Q R) as (_ & _ & X). discriminate X.
  - apply app_inv_head in H. cbn [str list_ascii_of_string app] in H. destruct (cut_at _ _ _ _ _ _ _ (digits i) (digits j) colon colon H) as (I & _ & R). injection R as R.
    destruct (cut_at _ _ _ _ _ _ _ A2 B2 Q Q R) as (-> & _ & X). injection X as X. apply app_inv_tail in X. subst m. split; [reflexivity|]. f_equal. apply print_inj, I.
Qed.
Lemma lines_inj {E} (show : E -> bytes) a b : (forall e, plain (show e)) -> (forall e f, show e = show f -> e = f) -> line_text show a = line_text show b -> a = b.
Proof.
  intros P I H. destruct (lines show a b (P _) (P _) H) as [S L]. apply I in S.
  destruct a as [e|i e|i l e], b as [f|j f|j m f]; cbn [info_error line_from] in *; congruence.
Qed.
Ltac plain_text := intros []; (split; [discriminate|repeat (apply Forall_cons; [discriminate|]); apply Forall_nil]).
(** Different errors, line numbers or texts of lines give different messages. *)
Theorem C179_stl_line : forall a b, line_text stl_text a = line_text stl_text b -> a = b.
Proof. intros a b. apply lines_inj; [plain_text|apply C179_stl]. Qed.
Print Assumptions C179_stl_line.
Theorem C179_ptx_line : forall a b, line_text ptx_text a = line_text ptx_text b -> a = b.
Proof. intros a b. apply lines_inj; [plain_text|apply C179_ptx]. Qed.
Print Assumptions C179_ptx_line.
Theorem C179_xy_line : forall a b, line_text xy_text a = line_text xy_text b -> a = b.
Proof. intros a b. apply lines_inj; [plain_text|apply C179_xy]. Qed.
Print Assumptions C179_xy_line.
Theorem C179_obj_line : forall a b, line_text obj_text a = line_text obj_text b -> a = b.
Proof. intros a b. apply lines_inj; [plain_text|apply C179_obj]. Qed.
Print Assumptions C179_obj_line.
Theorem C179_off_line : forall a b, line_text off_text a = line_text off_text b -> a = b.
Proof. intros a b. apply lines_inj; [plain_text|apply C179_off]. Qed.
Print Assumptions C179_off_line.
Theorem C179_pts_line : forall a b, line_text pts_text a = line_text pts_text b -> a = b.
Proof. intros a b. apply lines_inj; [plain_text|apply C179_pts]. Qed.
Print Assumptions C179_pts_line.
Theorem C179_gcode_line : forall a b, line_text gcode_text a = line_text gcode_text b -> a = b.
Proof. intros a b. apply lines_inj; [plain_text|apply C179_gcode]. Qed.
Print Assumptions C179_gcode_line.
(** ply: all errors but that of a type. *)
Theorem C179_ply_line : forall w a b, info_error a <> InvalidType -> info_error b <> InvalidType -> line_text (ply_text w) a = line_text (ply_text w) b -> a = b.
Proof.
  intros w a b NA NB H.
  assert (P : forall e, e <> InvalidType -> plain (ply_text w e)).
  { intros [| | | | | | | | |[]|[]| | | | | |] X; try contradiction; (split; [discriminate|repeat (apply Forall_cons; [discriminate|]); apply Forall_nil]). }
  destruct (lines _ a b (P _ NA) (P _ NB) H) as [S L]. apply C179_ply in S. destruct S as [S _].
  destruct a as [e|i e|i l e], b as [f|j f|j m f]; cbn [info_error line_from] in *; congruence.
Qed.
Print Assumptions C179_ply_line.
(** ... which can be mistaken for one with another line. *)
Theorem C179_ply_line_refuted : exists w v a b, line_text (ply_text w) a = line_text (ply_text v) b /\ a <> b /\ w <> v.
Proof.
  exists (str "a"), (str "a'' 'b"), (WLine 3 (str "b'") InvalidType), (WIndex 3 InvalidType). split; [vm_compute; reflexivity|]. split; discriminate.
Qed.
Print Assumptions C179_ply_line_refuted.
(** Conversions of errors keep the line. *)
Theorem C179_converted : forall (E F : Type) (f : E -> F) show w, line_text show (line_from f w) = line_text (fun e => show (f e)) w.
Proof. intros E F f show []; reflexivity. Qed.
Print Assumptions C179_converted.
(** The error of the crate made of an error of a format has its text, with and without lines. *)
Theorem C179_any_text : (forall w, line_text any_text (line_from AKind w) = line_text kind_text w) /\ (forall word w, line_text any_text (line_from (APly word) w) = line_text (ply_text word) w) /\
  (forall w, line_text any_text (line_from AStl w) = line_text stl_text w) /\ (forall w, line_text any_text (line_from APtx w) = line_text ptx_text w) /\
  (forall w, line_text any_text (line_from AXy w) = line_text xy_text w) /\ (forall w, line_text any_text (line_from AXyz w) = line_text xy_text w) /\
  (forall w, line_text any_text (line_from AObj w) = line_text obj_text w) /\ (forall w, line_text any_text (line_from AOff w) = line_text off_text w) /\
  (forall w, line_text any_text (line_from APsl w) = line_text psl_text w) /\ (forall w, line_text any_text (line_from AGcode w) = line_text gcode_text w).
Proof. do 9 (split; [intros; apply C179_converted|]). intros. apply C179_converted. Qed.
Print Assumptions C179_any_text.
(** The error of the crate does not tell the format. *)
Theorem C179_any_refuted : exists a b, any_text a = any_text b /\ a <> b.
Proof. exists (AStl StlAccessFile), (APsl PslAccessFile). split; [reflexivity|discriminate]. Qed.
Print Assumptions C179_any_refuted.
Example C179_case : line_text obj_text (WLine 12 (str "v 1 x 3") ObjVertex) = str "Line #12: 'Unable to parse vertex' 'v 1 x 3'" /\
  line_text stl_text (WIndex 7 Loop) = str "Line #7: 'Unable to parse loop'".
Proof. split; reflexivity. Qed.
