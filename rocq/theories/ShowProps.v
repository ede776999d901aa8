(** Theorems about displayed texts (C191). *)
From Verif Require Import Base BaseLemmas Num GeomSpec FloatSpec IoModel IoSpec IoLemmas MeshModel LineModel DeriveModel EditModel PointTextModel ShowModel ShowSpec ShowLemmas.

(** The text of points, lines, segments, clouds and faces tells which one it was. *)
Theorem C191_tells : forall ft, ft_ok ft ->
  (forall p q, printable2 p -> printable2 q -> show_pt2 ft p = show_pt2 ft q -> p = q) /\
  (forall p q, printable3 p -> printable3 q -> show_pt3 ft p = show_pt3 ft q -> p = q) /\
  (forall l k, printable2 (anchor2 l) -> printable2 (dir2 l) -> printable2 (anchor2 k) -> printable2 (dir2 k) -> show_line2 ft l = show_line2 ft k -> l = k) /\
  (forall l k, printable3 (anchor l) -> printable3 (dir l) -> printable3 (anchor k) -> printable3 (dir k) -> show_line3 ft l = show_line3 ft k -> l = k) /\
  (forall s t, printable2 (seg_start s) -> printable2 (seg_end s) -> printable2 (seg_start t) -> printable2 (seg_end t) -> show_seg2 ft s = show_seg2 ft t -> s = t) /\
  (forall s t, printable3 (seg_start s) -> printable3 (seg_end s) -> printable3 (seg_start t) -> printable3 (seg_end t) -> show_seg3 ft s = show_seg3 ft t -> s = t) /\
  (forall ps qs, Forall printable2 ps -> Forall printable2 qs -> show_cloud (show_pt2 ft) ps = show_cloud (show_pt2 ft) qs -> ps = qs) /\
  (forall ps qs, Forall printable3 ps -> Forall printable3 qs -> show_cloud (show_pt3 ft) ps = show_cloud (show_pt3 ft) qs -> ps = qs) /\
  (forall f g, show_face f = show_face g -> f = g) /\ (forall i j, show_id i = show_id j -> i = j).
Proof.
  intros ft FT. split; [apply show_pt2_inj, FT|]. split; [apply show_pt3_inj, FT|].
  split; [intros [a b] [c d] A B C D E; apply (pair2_inj ft FT) in E; cbn in *; [destruct E; congruence|assumption..]|].
  split; [intros [a b] [c d] A B C D E; apply (pair3_inj ft FT) in E; cbn in *; [destruct E; congruence|assumption..]|].
  split; [intros [a b] [c d] A B C D E; apply (pair2_inj ft FT) in E; cbn in *; [destruct E; congruence|assumption..]|].
  split; [intros [a b] [c d] A B C D E; apply (pair3_inj ft FT) in E; cbn in *; [destruct E; congruence|assumption..]|].
  split; [apply show_cloud_inj; [intros p; apply pt_nl2, FT|apply show_pt2_inj, FT]|].
  split; [apply show_cloud_inj; [intros p; apply pt_nl3, FT|apply show_pt3_inj, FT]|].
  split; [apply show_face_inj|apply usize_inj].
Qed.
Print Assumptions C191_tells.

(** A point is never shown like a line, and nothing of the plane like something in space. *)
Theorem C191_kinds : forall ft, ft_ok ft -> forall p2 p3 l2 l3,
  show_pt2 ft p2 <> show_pt3 ft p3 /\ show_pt2 ft p2 <> show_line2 ft l2 /\ show_pt2 ft p2 <> show_line3 ft l3 /\
  show_pt3 ft p3 <> show_line2 ft l2 /\ show_pt3 ft p3 <> show_line3 ft l3 /\ show_line2 ft l2 <> show_line3 ft l3.
Proof.
  intros ft FT p2 p3 l2 l3. destruct (show_chars2 ft p2 FT) as (A1 & A2), (show_chars3 ft p3 FT) as (B1 & B2), (show_charsl2 ft l2 FT) as (C1 & C2), (show_charsl3 ft l3 FT) as (D1 & D2).
  repeat split; intros E; rewrite E in *; congruence.
Qed.
Print Assumptions C191_kinds.

(** One might expect to tell a line from a line segment; the text of a line is that of the segment from its anchor to the
    point with the coordinates of its direction. *)
Theorem C191_line_segment_refuted : forall ft (l2 : line2) (l3 : line3 F64),
  show_line2 ft l2 = show_seg2 ft (mkseg (anchor2 l2) (dir2 l2)) /\ show_line3 ft l3 = show_seg3 ft (mkseg (anchor l3) (dir l3)).
Proof. intros. split; reflexivity. Qed.
Print Assumptions C191_line_segment_refuted.

(** One might expect to parse what was displayed; the parser accepts the displayed text of no point and of no cloud. *)
Theorem C191_parse_refuted : forall ft, ft_ok ft -> no_parentheses ft ->
  (forall A (E : pos3 F64 A) p, parse3 E ft (show_pt3 ft p) = Err ParseError) /\
  (forall A (E : pos2 F64 A) p, parse2 E ft (show_pt2 ft p) = Err ParseError) /\
  (forall A (E : pos3 F64 A) ps, cloud_parse (parse3 E ft) (show_cloud (show_pt3 ft) ps) = Err ParseError) /\
  (forall A (E : pos2 F64 A) ps, cloud_parse (parse2 E ft) (show_cloud (show_pt2 ft) ps) = Err ParseError).
Proof.
  intros ft FT N. assert (P3 : forall A (E : pos3 F64 A) p, parse3 E ft (show_pt3 ft p) = Err ParseError) by (intros; apply paren3, N).
  assert (P2 : forall A (E : pos2 F64 A) p, parse2 E ft (show_pt2 ft p) = Err ParseError) by (intros; apply paren2, N).
  split; [exact P3|]. split; [exact P2|]. split; intros A E ps.
  - apply cloud_paren; [intros p; apply pt_nl3, FT|discriminate|apply P3|apply parse3_err].
  - apply cloud_paren; [intros p; apply pt_nl2, FT|discriminate|apply P2|apply parse2_err].
Qed.
Print Assumptions C191_parse_refuted.

(** The hypotheses can be met, and some texts. *)
Example C191_case : ft_ok demo /\ no_parentheses demo /\
  show_pt3 demo (fp3 1 (-2) 30) = str "(1, -2, 30)" /\
  show_line2 demo (mkline2 (fp2 1 2) (fp2 0 1)) = str "(1, 2 -> 0, 1)" /\
  show_cloud (show_pt2 demo) [fp2 1 2; fp2 3 4] = str "(1, 2)" ++ [nl] ++ str "(3, 4)" ++ [nl] /\
  show_face (10, 2, 3)%N = str "(10, 2, 3)" /\
  printable3 (fp3 1 (-2) 30).
Proof.
  split; [exact demo_ok|]. split; [exact demo_paren|]. do 4 (split; [vm_compute; reflexivity|]).
  split; [|split]; (split; [|split]); vm_compute; try discriminate; auto.
Qed.
