(** Positions and clouds as text (C151, C152). *)
From Verif Require Import Base BaseLemmas Num BBoxModel GeomSpec FloatSpec FloatLemmas KdModel FilterModel VecModel IoModel IoSpec IoLemmas ShapeModel EditModel EditSpec EditLemmas
  PointTextModel PointTextSpec PointTextLemmas.
From Coq Require Import Lia.

(** ** C151: a position as text *)
(** Exactly the texts made of as many words as there are coordinates, all of them numbers, are accepted, however many spaces surround the
    words; everything else is a ParseError, never a panic. *)
Theorem C151_parse3 {A} (E : pos3 F64 A) (ft : FText) (s : bytes) :
  (forall a, parse3 E ft s = Ok a <-> exists u v w x y z, apart space s [u; v; w] /\ fparse ft u = Some x /\ fparse ft v = Some y /\ fparse ft w = Some z /\
     a = new3 E x y z) /\
  (parse3 E ft s = Err ParseError \/ exists a, parse3 E ft s = Ok a).
Proof.
  rewrite parse3_words. split.
  - intros a. split.
    + destruct (skip_empty (pieces space s)) as [|u [|v [|w [|]]]] eqn:W; cbn; try discriminate.
      destruct (fparse ft u) as [x|] eqn:X; [|discriminate]. destruct (fparse ft v) as [y|] eqn:Y; [|discriminate]. destruct (fparse ft w) as [z|] eqn:Z; [|discriminate].
      intros H. injection H as <-. exists u, v, w, x, y, z. rewrite apart_iff. auto.
    + intros (u & v & w & x & y & z & AP & X & Y & Z & ->). apply apart_is in AP. rewrite AP. cbn. rewrite X, Y, Z. reflexivity.
  - destruct (skip_empty _) as [|u [|v [|w [|]]]]; cbn; auto. destruct (fparse ft u), (fparse ft v), (fparse ft w); eauto.
Qed.
Print Assumptions C151_parse3.
Theorem C151_parse2 {A} (E : pos2 F64 A) (ft : FText) (s : bytes) :
  (forall a, parse2 E ft s = Ok a <-> exists u v x y, apart space s [u; v] /\ fparse ft u = Some x /\ fparse ft v = Some y /\ a = new2 E x y) /\
  (parse2 E ft s = Err ParseError \/ exists a, parse2 E ft s = Ok a).
Proof.
  rewrite parse2_words. split.
  - intros a. split.
    + destruct (skip_empty (pieces space s)) as [|u [|v [|]]] eqn:W; cbn; try discriminate.
      destruct (fparse ft u) as [x|] eqn:X; [|discriminate]. destruct (fparse ft v) as [y|] eqn:Y; [|discriminate].
      intros H. injection H as <-. exists u, v, x, y. rewrite apart_iff. auto.
    + intros (u & v & x & y & AP & X & Y & ->). apply apart_is in AP. rewrite AP. cbn. rewrite X, Y. reflexivity.
  - destruct (skip_empty _) as [|u [|v [|]]]; cbn; auto. destruct (fparse ft u), (fparse ft v); eauto.
Qed.
Print Assumptions C151_parse2.
(** What to_str writes is read back: points return unchanged, whatever spaces are added; boxes and circles lose their size. *)
Theorem C151_round_trip (ft : FText) : ft_ok ft ->
  (forall p, printable3 p -> parse3 pos3_point ft (to_str3 pos3_point ft p) = Ok p) /\
  (forall p s, printable3 p -> apart space s [fprint ft (px p); fprint ft (py p); fprint ft (pz p)] -> parse3 pos3_point ft s = Ok p) /\
  (forall p, printable2 p -> parse2 pos2_point ft (to_str2 pos2_point ft p) = Ok p) /\
  (forall b, printable3 (box_center b) -> parse3 pos3_box ft (to_str3 pos3_box ft b) = Ok (mkbox3d (box_center b) n1 n1 n1)) /\
  (forall c, printable2 (cir_center c) -> parse2 pos2_circle ft (to_str2 pos2_circle ft c) = Ok (mkcircle (cir_center c) n1)).
Proof.
  intros F.
  assert (G3 : forall A (E : pos3 F64 A) x y z s, printable x -> printable y -> printable z -> apart space s [fprint ft x; fprint ft y; fprint ft z] -> parse3 E ft s = Ok (new3 E x y z)).
  { intros A E x y z s X Y Z AP. apply (proj1 (C151_parse3 E ft s)). do 6 eexists. split; [exact AP|]. rewrite !(parse_print ft F) by assumption. auto. }
  assert (G2 : forall A (E : pos2 F64 A) x y s, printable x -> printable y -> apart space s [fprint ft x; fprint ft y] -> parse2 E ft s = Ok (new2 E x y)).
  { intros A E x y s X Y AP. apply (proj1 (C151_parse2 E ft s)). do 4 eexists. split; [exact AP|]. rewrite !(parse_print ft F) by assumption. auto. }
  assert (T3 : forall A (E : pos3 F64 A) a, apart space (to_str3 E ft a) [fprint ft (g3x E a); fprint ft (g3y E a); fprint ft (g3z E a)]).
  { intros A E a. unfold to_str3. apply apart_three; apply (print_word ft _ F). }
  assert (T2 : forall A (E : pos2 F64 A) a, apart space (to_str2 E ft a) [fprint ft (g2x E a); fprint ft (g2y E a)]).
  { intros A E a. unfold to_str2. apply apart_two; apply (print_word ft _ F). }
  split; [|split; [|split; [|split]]].
  - intros [x y z] (X & Y & Z). apply (G3 _ pos3_point x y z); auto. apply T3.
  - intros [x y z] s (X & Y & Z) AP. apply (G3 _ pos3_point x y z); auto.
  - intros [x y] (X & Y). apply (G2 _ pos2_point x y); auto. apply T2.
  - intros [[x y z] sx sy sz] (X & Y & Z). apply (G3 _ pos3_box x y z); auto. apply (T3 _ pos3_box).
  - intros [[x y] r] (X & Y). apply (G2 _ pos2_circle x y); auto. apply (T2 _ pos2_circle).
Qed.
Print Assumptions C151_round_trip.
(** A sphere writes y in place of z, so not even its center is read back. *)
Theorem C151_sphere_refuted (ft : FText) : ft_ok ft -> forall s : sphere F64, printable3 (sph_center s) ->
  parse3 pos3_sphere ft (to_str3 pos3_sphere ft s) = Ok (mksphere (mk3 (px (sph_center s)) (py (sph_center s)) (py (sph_center s))) n1).
Proof.
  intros F [[x y z] r] (X & Y & Z). cbn [sph_center px py pz] in *. apply (proj1 (C151_parse3 pos3_sphere ft _)). do 6 eexists. split.
  - unfold to_str3. apply apart_three; apply (print_word ft _ F).
  - cbn [pos3_sphere g3x g3y g3z sph_x sph_y sph_z sph_center px py pz]. rewrite !(parse_print ft F) by assumption. auto.
Qed.
Print Assumptions C151_sphere_refuted.
Example C151_case : ft_ok demo /\ printable3 (fp3 1 (-2) 3) /\ to_str3 pos3_point demo (fp3 1 (-2) 3) = str "1 -2 3" /\
  parse3 pos3_point demo (str "  1   -2 3 ") = Ok (fp3 1 (-2) 3) /\ parse3 pos3_point demo (str "1 -2") = Err ParseError /\
  parse3 pos3_point demo (str "1 2 3 4") = Err ParseError /\ parse3 pos3_point demo (str "1 2 x") = Err ParseError /\
  apart space (str " 7  8") [str "7"; str "8"] /\
  parse3 pos3_sphere demo (to_str3 pos3_sphere demo (mksphere (fp3 1 2 3) (fz 5))) = Ok (mksphere (fp3 1 2 2) (fz 1)).
Proof.
  split; [exact demo_ok|]. split; [repeat split; vm_compute; (reflexivity || discriminate)|].
  do 5 (split; [vmeq|]). split; [|vmeq]. apply apart_iff. reflexivity.
Qed.

(** ** C152: a cloud as text *)
(** A text is accepted exactly if it has at least one line that is not empty and all of these are points; the points come in the order of the lines.
    Any other text is a ParseError: nothing is skipped but empty lines. *)
Theorem C152_parse {A} (E : pos3 F64 A) (ft : FText) (s : bytes) :
  (forall ps, cloud_parse (parse3 E ft) s = Ok ps <-> ps <> [] /\ exists ls, apart nl s ls /\ Forall2 (fun l p => parse3 E ft l = Ok p) ls ps) /\
  (cloud_parse (parse3 E ft) s = Err ParseError \/ exists ps, cloud_parse (parse3 E ft) s = Ok ps).
Proof. split; [intros ps; apply cloud_parse_ok|]. apply cloud_parse_err. intros l. apply (proj2 (C151_parse3 E ft l)). Qed.
Print Assumptions C152_parse.
Theorem C152_parse2 {A} (E : pos2 F64 A) (ft : FText) (s : bytes) :
  (forall ps, cloud_parse (parse2 E ft) s = Ok ps <-> ps <> [] /\ exists ls, apart nl s ls /\ Forall2 (fun l p => parse2 E ft l = Ok p) ls ps) /\
  (cloud_parse (parse2 E ft) s = Err ParseError \/ exists ps, cloud_parse (parse2 E ft) s = Ok ps).
Proof. split; [intros ps; apply cloud_parse_ok|]. apply cloud_parse_err. intros l. apply (proj2 (C151_parse2 E ft l)). Qed.
Print Assumptions C152_parse2.
(** Round trip of clouds of any size - but the empty one. *)
Theorem C152_round_trip (ft : FText) : ft_ok ft ->
  (forall ps, Forall printable3 ps -> ps <> [] -> cloud_parse (parse3 pos3_point ft) (cloud_to_str (to_str3 pos3_point ft) ps) = Ok ps) /\
  (forall ps, Forall printable2 ps -> ps <> [] -> cloud_parse (parse2 pos2_point ft) (cloud_to_str (to_str2 pos2_point ft) ps) = Ok ps).
Proof.
  intros F.
  assert (G : forall A (ts : A -> bytes) (pa : bytes -> res A) ps, (forall p, In p ps -> pa (ts p) = Ok p) -> (forall p, ts p <> [] /\ is_line (ts p)) -> ps <> [] ->
    cloud_parse pa (cloud_to_str ts ps) = Ok ps).
  { intros A ts pa ps P L N. apply cloud_parse_ok. split; [exact N|]. exists (map ts ps). unfold cloud_to_str. rewrite cloud_to_str_app. cbn [app]. split.
    - apply apart_lines. apply Forall_forall. intros l I. apply in_map_iff in I. destruct I as (p & <- & _). apply L.
    - clear N. induction ps as [|p ps IH]; [constructor|]. constructor; [apply P; left; reflexivity|]. apply IH. intros; apply P; right; assumption. }
  assert (L3 : forall p, to_str3 pos3_point ft p <> [] /\ is_line (to_str3 pos3_point ft p)).
  { intros p. unfold to_str3, is_line. destruct (print_word ft (g3x pos3_point p) F) as (Q1 & _ & Q3 & _), (print_word ft (g3y pos3_point p) F) as (_ & _ & Q4 & _),
      (print_word ft (g3z pos3_point p) F) as (_ & _ & Q5 & _).
    split; [intros H; apply app_eq_nil in H; tauto|]. intros I. repeat (apply in_app_iff in I; destruct I as [I|I]; auto); destruct I as [I|[]]; discriminate. }
  assert (L2 : forall p, to_str2 pos2_point ft p <> [] /\ is_line (to_str2 pos2_point ft p)).
  { intros p. unfold to_str2, is_line. destruct (print_word ft (g2x pos2_point p) F) as (Q1 & _ & Q3 & _), (print_word ft (g2y pos2_point p) F) as (_ & _ & Q4 & _).
    split; [intros H; apply app_eq_nil in H; tauto|]. intros I. repeat (apply in_app_iff in I; destruct I as [I|I]; auto); destruct I as [I|[]]; discriminate. }
  destruct (C151_round_trip ft F) as (R3 & _ & R2 & _).
  split; intros ps P N; (apply G; [|assumption|exact N]); intros p I; rewrite Forall_forall in P; auto.
Qed.
Print Assumptions C152_round_trip.
(** Texts can be joined: the clouds are joined. *)
Theorem C152_join {A} (parse : bytes -> res A) (s t : bytes) (ps qs : list A) :
  cloud_parse parse s = Ok ps -> cloud_parse parse t = Ok qs -> cloud_parse parse (s ++ nl :: t) = Ok (ps ++ qs).
Proof.
  rewrite !cloud_parse_ok. intros (N & ls & AP & F) (M & ms & BP & G). split; [destruct ps; [congruence|discriminate]|].
  exists (ls ++ ms). split; [apply apart_join; assumption|apply forall2_app; assumption].
Qed.
Print Assumptions C152_join.
(** Expectations that fail: the text of the empty cloud is not read back, and neither is one whose lines end in a carriage return
    or that has a line of spaces - the loaders of files accept the former. *)
Theorem C152_refuted (ft : FText) :
  cloud_to_str (to_str3 pos3_point ft) [] = [] /\ cloud_parse (parse3 pos3_point ft) [] = Err ParseError /\
  ((forall w, fparse ft (w ++ [cr]) = None) -> forall p s, ft_ok ft -> cloud_parse (parse3 pos3_point ft) (to_str3 pos3_point ft p ++ cr :: nl :: s) = Err ParseError) /\
  (forall n s, (0 < n)%nat -> cloud_parse (parse3 pos3_point ft) (repeat space n ++ nl :: s) = Err ParseError).
Proof.
  split; [reflexivity|]. split; [reflexivity|]. split.
  - intros H p s F. unfold cloud_parse.
    assert (L : is_line (to_str3 pos3_point ft p ++ [cr])).
    { intros I. unfold to_str3 in I. destruct (print_word ft (g3x pos3_point p) F) as (_ & _ & Q3 & _), (print_word ft (g3y pos3_point p) F) as (_ & _ & Q4 & _),
      (print_word ft (g3z pos3_point p) F) as (_ & _ & Q5 & _). repeat (apply in_app_iff in I; destruct I as [I|I]; auto); destruct I as [I|[]]; discriminate. }
    replace (to_str3 pos3_point ft p ++ cr :: nl :: s) with ((to_str3 pos3_point ft p ++ [cr]) ++ nl :: s) by (rewrite <- app_assoc; reflexivity).
    rewrite split_app; [|intros c I; apply eqb_false; intros ->; contradiction|apply Ascii.eqb_refl].
    assert (P : parse3 pos3_point ft (to_str3 pos3_point ft p ++ [cr]) = Err ParseError).
    { rewrite parse3_words. unfold to_str3. destruct (print_word ft (g3x pos3_point p) F) as (P1 & P2 & _ & _), (print_word ft (g3y pos3_point p) F) as (P3 & P4 & _ & _),
      (print_word ft (g3z pos3_point p) F) as (P5 & P6 & _ & _). rewrite <- !app_assoc.
      rewrite (apart_is space _ [fprint ft (g3x pos3_point p); fprint ft (g3y pos3_point p); fprint ft (g3z pos3_point p) ++ [cr]]).
      - cbn [of_words3]. rewrite H. destruct (fparse ft (fprint ft (g3x pos3_point p))), (fparse ft (fprint ft (g3y pos3_point p))); reflexivity.
      - apply (apart_three space (fprint ft (g3x pos3_point p)) (fprint ft (g3y pos3_point p)) (fprint ft (g3z pos3_point p) ++ [cr])); auto.
        + destruct (fprint ft (g3z pos3_point p)); discriminate.
        + intros I. apply in_app_iff in I. destruct I as [I|[I|[]]]; [auto|discriminate]. }
    destruct (to_str3 pos3_point ft p ++ [cr]) as [|c l] eqn:Q; [destruct (to_str3 pos3_point ft p); discriminate|]. cbn [cloud_lines]. rewrite P. reflexivity.
  - intros n s L. unfold cloud_parse. rewrite split_app; [|intros c I; apply repeat_spec in I; subst c; reflexivity|apply Ascii.eqb_refl].
    assert (P : parse3 pos3_point ft (repeat space n) = Err ParseError).
    { rewrite parse3_words. rewrite (apart_is space _ []); [reflexivity|]. clear L. induction n; cbn; constructor; assumption. }
    destruct n as [|n]; [lia|]. cbn [repeat cloud_lines] in *. rewrite P. reflexivity.
Qed.
Print Assumptions C152_refuted.
Example C152_case : cloud_parse (parse3 pos3_point demo) (str "1 2 3" ++ nl :: nl :: str "4 5 6") = Ok [fp3 1 2 3; fp3 4 5 6] /\
  cloud_to_str (to_str3 pos3_point demo) [fp3 1 2 3] = str "1 2 3" ++ [nl] /\ Forall printable3 [fp3 1 2 3] /\
  cloud_parse (parse3 pos3_point demo) (str "1 2 3" ++ nl :: str "4 5") = Err ParseError /\ (forall w, fparse (mkft demo_print demo_print (fun s => if existsb (Ascii.eqb cr) s then None else demo_parse s)) (w ++ [cr]) = None).
Proof.
  split; [vmeq|]. split; [vmeq|]. split; [repeat constructor; vm_compute; (reflexivity || discriminate)|].
  split; [vmeq|]. intros w. cbn [fparse]. rewrite existsb_app. cbn. rewrite Bool.orb_true_r. reflexivity.
Qed.
