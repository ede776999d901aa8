(** Lemmas about loading the files of scanners and .stl files that end too early. *)
From Verif Require Import Base BaseLemmas Num GeomSpec VecModel MatrixModel MeshModel MeshSpec MeshLemmas IoModel IoSpec IoLemmas ByteModel ByteLemmas PlyModel PlyLemmas ScanModel ScanSpec ScanLemmas ObjOffLemmas ScannerModel CutSpec CutLemmas CutLemmas2.
Open Scope nat_scope.

(** ** psl *)
Lemma psl_skip_mono n : smono (psl_skip n).
Proof. intros a b r P H. unfold psl_skip in *. destruct (take_bytes n a) as [[x q]|] eqn:T; [|discriminate]. injection H as <-. destruct (take_mono _ _ _ _ _ P T) as (r' & T' & P'). rewrite T'. exists r'. auto. Qed.
Lemma psl_i32_mono : bmono psl_i32.
Proof. intros a b x r P H. unfold psl_i32, read_signed, ok_or in *. uint_step P H. Qed.
Lemma psl_f32_mono : bmono psl_f32.
Proof.
  intros a b x r P H. unfold psl_f32, read_f32, ok_or in *. destruct (read_uint Little 4 a) as [[y q]|] eqn:U; [|discriminate]. destruct (uint_mono _ _ _ _ _ _ P U) as (r' & U' & P'). rewrite U'. cbn [obind] in *. injection H as <- <-. exists r'. auto.
Qed.
Lemma psl_header_mono : bmono psl_header.
Proof.
  unfold psl_header. apply bind_skip; [apply psl_skip_mono|]. apply (bind_mono psl_i32); [apply psl_i32_mono|]. intros x. apply bind_skip; [apply psl_skip_mono|]. apply (bind_mono psl_i32); [apply psl_i32_mono|]. intros y.
  apply (bind_mono psl_i32); [apply psl_i32_mono|]. intros z. apply (bind_skip (psl_skip _)); [apply psl_skip_mono|]. apply ret_mono.
Qed.
Lemma psl_pass_mono : bmono psl_pass.
Proof.
  unfold psl_pass. apply (bind_mono psl_i32); [apply psl_i32_mono|]. intros x. apply (bind_mono psl_i32); [apply psl_i32_mono|]. intros z. apply (bind_skip (psl_skip _)); [apply psl_skip_mono|]. apply ret_mono.
Qed.
Lemma psl_line_mono : bmono psl_line.
Proof.
  unfold psl_line. apply (bind_mono psl_i32); [apply psl_i32_mono|]. intros x. apply bind_skip; [apply psl_skip_mono|]. apply (bind_skip (psl_skip _)); [apply psl_skip_mono|]. apply ret_mono.
Qed.
Lemma psl_point_mono : bmono psl_point.
Proof.
  unfold psl_point. apply (bind_mono psl_f32); [apply psl_f32_mono|]. intros x. apply (bind_mono psl_f32); [apply psl_f32_mono|]. intros y. apply (bind_mono psl_f32); [apply psl_f32_mono|]. intros z. apply ret_mono.
Qed.
Definition same_psl (s1 s2 : psl_state) : Prop := psl_done s1 = psl_done s2 /\ psl_init s1 = psl_init s2 /\ psl_passes s1 = psl_passes s2 /\ psl_lines s1 = psl_lines s2 /\ psl_points s1 = psl_points s2 /\ prefix (psl_read s1) (psl_read s2).
Lemma psl_counts_mono s1 s2 t1 : same_psl s1 s2 -> psl_counts s1 = Ok t1 -> exists t2, psl_counts s2 = Ok t2 /\ same_psl t1 t2.
Proof.
  destruct s1 as [r1 d i p l n], s2 as [r2 d2 i2 p2 l2 n2]. intros (D & I & PA & LI & PO & PR) H. cbn in D, I, PA, LI, PO, PR. subst d2 i2 p2 l2 n2. unfold psl_counts in *.
  assert (M1 : bmono (fun s => if ((l =? 0)%Z && (p >? 0)%Z)%bool then psl_pass s else Ok (0%Z, s))) by (destruct ((l =? 0)%Z && (p >? 0)%Z)%bool; [apply psl_pass_mono|apply ret_mono]).
  assert (M2 : forall l, bmono (fun s => if ((n =? 0)%Z && (l >? 0)%Z)%bool then psl_line s else Ok (0%Z, s))) by (intros l0; destruct ((n =? 0)%Z && (l0 >? 0)%Z)%bool; [apply psl_line_mono|apply ret_mono]).
  destruct (if ((l =? 0)%Z && (p >? 0)%Z)%bool then psl_pass r1 else Ok (0%Z, r1)) as [[l1 q1]|e|] eqn:F1; cbn [obind] in H; try discriminate. destruct (M1 r1 r2 _ _ PR F1) as (q2 & F2 & PQ). cbn beta in F2. rewrite F2. cbn [obind].
  destruct (if ((n =? 0)%Z && (l1 >? 0)%Z)%bool then psl_line q1 else Ok (0%Z, q1)) as [[n1 w1]|e|] eqn:G1; cbn [obind] in H; try discriminate. destruct (M2 l1 q1 q2 _ _ PQ G1) as (w2 & G2 & PW). cbn beta in G2. rewrite G2. cbn [obind].
  injection H as <-. eexists. split; [reflexivity|]. repeat split. exact PW.
Qed.
Lemma psl_reduce_same s1 s2 : same_psl s1 s2 -> same_psl (psl_reduce s1) (psl_reduce s2).
Proof.
  destruct s1 as [r1 d i p l n], s2 as [r2 d2 i2 p2 l2 n2]. intros (D & I & PA & LI & PO & PR). cbn in D, I, PA, LI, PO, PR. subst d2 i2 p2 l2 n2. unfold psl_reduce. destruct (n >? 0)%Z; [|destruct (l >? 0)%Z; [|destruct (p >? 0)%Z]]; repeat split; exact PR.
Qed.
Lemma psl_next_cut s1 s2 : same_psl s1 s2 -> (fst (psl_next s1) = fst (psl_next s2) /\ same_psl (snd (psl_next s1)) (snd (psl_next s2))) \/ fails (psl_next s1).
Proof.
  intros H. pose proof H as (D & I & PA & LI & PO & PR). assert (FR : fails (psl_next s1) -> (fst (psl_next s1) = fst (psl_next s2) /\ same_psl (snd (psl_next s1)) (snd (psl_next s2))) \/ fails (psl_next s1)) by (intros F; right; exact F).
  destruct (psl_done s1) eqn:D1. { left. unfold psl_next. rewrite D1, <- D. split; [reflexivity|exact H]. }
  assert (ST : (exists t1 t2, same_psl t1 t2 /\ (if psl_init s1 then Ok s1 else obind (psl_header (psl_read s1)) (fun '(n, r) => Ok (mkpsl r false true n (psl_lines s1) (psl_points s1)))) = Ok t1 /\
     (if psl_init s2 then Ok s2 else obind (psl_header (psl_read s2)) (fun '(n, r) => Ok (mkpsl r false true n (psl_lines s2) (psl_points s2)))) = Ok t2) \/ fails (psl_next s1)).
  { rewrite <- I. destruct (psl_init s1) eqn:I1. { left. exists s1, s2. split; [exact H|]. split; reflexivity. }
    destruct (psl_header (psl_read s1)) as [[n r]|e|] eqn:F.
    - left. destruct (psl_header_mono _ _ _ _ PR F) as (r' & F' & P'). rewrite F'. cbn [obind]. eexists. eexists. split; [|split; reflexivity]. rewrite <- LI, <- PO. repeat split. exact P'.
    - right. left. exists e. unfold psl_next. rewrite D1, I1, F. reflexivity.
    - right. right. unfold psl_next. rewrite D1, I1, F. reflexivity. }
  destruct ST as [(t1 & t2 & SM & E1 & E2)|F]; [|apply FR, F].
  destruct (psl_counts t1) as [u1|e|] eqn:C1.
  2: { apply FR. unfold psl_next. rewrite D1, E1, C1. left. exists e. reflexivity. }
  2: { apply FR. unfold psl_next. rewrite D1, E1, C1. right. reflexivity. }
  destruct (psl_counts_mono _ _ _ SM C1) as (u2 & C2 & SU). pose proof SU as (_ & _ & _ & _ & PU & PRU).
  destruct (psl_points u1 =? 0)%Z eqn:Z.
  - left. unfold psl_next. rewrite D1, <- D, E1, E2, C1, C2, <- PU, Z. split; [reflexivity|]. destruct SU as (DU & IU & AU & LU & _ & _). repeat split; assumption.
  - pose proof (psl_reduce_same _ _ SU) as SR. pose proof SR as (_ & IR & AR & LR & OR & PRR).
    destruct (psl_point (psl_read (psl_reduce u1))) as [[p r]|e|] eqn:FP.
    2: { apply FR. unfold psl_next. rewrite D1, E1, C1, Z, FP. left. exists e. reflexivity. }
  2: { apply FR. unfold psl_next. rewrite D1, E1, C1, Z, FP. right. reflexivity. }
    destruct (psl_point_mono _ _ _ _ PRR FP) as (r' & FP' & PP). left. unfold psl_next. rewrite D1, <- D, E1, E2, C1, C2, <- PU, Z, FP, FP'. split; [reflexivity|]. repeat split; assumption.
Qed.
Lemma psl_cut k k' part file ps r ps' r' : prefix part file -> load_psl k file = Some (ps, r) -> load_psl k' part = Some (ps', r') -> prefix ps' ps /\ (r' = Ok tt -> ps' = ps /\ r = Ok tt).
Proof.
  intros P H H'. unfold load_psl in *. rewrite load_fold in H, H'.
  apply (sim_fails psl_next psl_next push_body (@prefix (pt3 F64)) prefix_refl prefix_trans (fun m a => prefix_snoc m a) same_psl psl_next_cut k' k (psl_new part) (psl_new file) [] ps' ps r' r); [repeat split; exact P|exact H'|exact H].
Qed.

(** ** las *)
Definition same_las (s1 s2 : las_state) : Prop := las_done s1 = las_done s2 /\ las_current s1 = las_current s2 /\ las_head s1 = las_head s2 /\ prefix (las_read s1) (las_read s2).
Lemma las_next_cut part file : prefix part file -> forall s1 s2, same_las s1 s2 -> (fst (las_next part s1) = fst (las_next file s2) /\ same_las (snd (las_next part s1)) (snd (las_next file s2))) \/ fails (las_next part s1).
Proof.
  intros PF [r1 d c h] [r2 d2 c2 h2] (D & C & HD & PR). cbn in D, C, HD, PR. subst d2 c2 h2. unfold las_next. destruct d; [left; split; [reflexivity|repeat split; exact PR]|]. destruct h as [h|].
  - destruct (c <? lh_n h)%N eqn:CN; [|left; split; [reflexivity|repeat split; exact PR]].
    unfold las_fetch. destruct (take_bytes (N.to_nat (lh_length h)) r1) as [[b q]|] eqn:T.
    + destruct (take_mono _ _ _ _ _ PR T) as (q' & T' & P'). rewrite T'. destruct (lh_length h <? 12)%N; (left; split; [reflexivity|]; repeat split; assumption).
    + right. left. eexists. reflexivity.
  - destruct (obind (las_load_header r1) las_header_of) as [h|e|] eqn:L.
    + left. assert (L2 : obind (las_load_header r2) las_header_of = Ok h).
      { unfold las_load_header in *. destruct (take_bytes 375 r1) as [[b q]|] eqn:T; [|discriminate]. destruct (take_mono _ _ _ _ _ PR T) as (q' & T' & P'). rewrite T'. exact L. }
      rewrite L2. split; [reflexivity|]. repeat split. apply prefix_skipn, PF.
    + right. left. eexists. reflexivity.
    + right. left. eexists. reflexivity.
Qed.
Lemma las_cut k k' part file ps r ps' r' : prefix part file -> load_las k file = Some (ps, r) -> load_las k' part = Some (ps', r') -> prefix ps' ps /\ (r' = Ok tt -> ps' = ps /\ r = Ok tt).
Proof.
  intros P H H'. unfold load_las in *.
  apply (sim_fails (las_next part) (las_next file) push_data (@prefix (pt3 F64)) prefix_refl prefix_trans push_data_grows same_las (las_next_cut part file P) k' k (las_new part) (las_new file) [] ps' ps r' r); [repeat split; exact P|exact H'|exact H].
Qed.

(** ** ptx *)
(** What is read from lines ending early is read from all of them, or nothing is left. *)
Definition lmono {E A} (f : list bytes -> outcome E (A * list bytes)) : Prop := forall t r, length t <= 1 -> forall c a l, f (c ++ t) = Ok (a, l) -> (exists c', l = c' ++ t /\ f (c ++ r) = Ok (a, c' ++ r)) \/ l = [].
Lemma fetch_mono i : lmono (ptx_fetch i).
Proof.
  intros t r T [|x c] a l H.
  - right. cbn [app] in H. destruct t as [|x [|]]; cbn [length] in T; [discriminate| |lia]. cbn in H. injection H as _ <-. reflexivity.
  - left. cbn [app ptx_fetch next_line] in *. injection H as <- <-. exists c. split; reflexivity.
Qed.
(** Readers that fail without lines. *)
Definition needs {E A} (f : list bytes -> outcome E (A * list bytes)) : Prop := forall a l, f [] <> Ok (a, l).
Lemma bind_lmono {E A B} (f : list bytes -> outcome E (A * list bytes)) (g : A -> list bytes -> outcome E (B * list bytes)) : lmono f -> (forall x, lmono (g x)) -> (forall x, needs (g x)) -> lmono (fun s => obind (f s) (fun '(x, s) => g x s)).
Proof.
  intros F G NG t r T c a l H. cbn beta in *. destruct (f (c ++ t)) as [[y l1]|e|] eqn:FA; cbn [obind] in H; try discriminate. destruct (F t r T c y l1 FA) as [(c' & -> & F1)| ->].
  - rewrite F1. cbn [obind]. apply (G y t r T c' a l H).
  - destruct (NG y a l H).
Qed.
Lemma bind_need {E A B} (f : list bytes -> outcome E (A * list bytes)) (g : A -> list bytes -> outcome E (B * list bytes)) : needs f -> needs (fun s => obind (f s) (fun '(x, s) => g x s)).
Proof. intros F a l H. destruct (f []) as [[y l1]|e|] eqn:FA; cbn [obind] in H; try discriminate. destruct (F _ _ FA). Qed.
Lemma fetch_need i : needs (ptx_fetch i). Proof. intros a l H. discriminate. Qed.
Lemma matrix_mono ft i : lmono (ptx_matrix_line ft i).
Proof.
  intros t r T c a l H. unfold ptx_matrix_line in *. destruct (ptx_fetch i (c ++ t)) as [[y l1]|e|] eqn:FA; cbn [obind] in H; try discriminate. destruct (at_line (i + 1) y (ptx_row ft y)) as [row|e|] eqn:AR; cbn [obind] in H; try discriminate. injection H as <- <-.
  destruct (fetch_mono i t r T c y l1 FA) as [(c' & -> & F1)| ->]; [left|right; reflexivity]. exists c'. split; [reflexivity|]. rewrite F1. cbn [obind]. rewrite AR. reflexivity.
Qed.
Lemma matrix_need ft i : needs (ptx_matrix_line ft i). Proof. intros a l H. discriminate. Qed.
(** The header as a reader of lines: what follows does not depend on the lines. *)
Definition ptx_head (ft : FText) (columns : N) (i : N) (ls : list bytes) : outcome (with_line PtxError) ((N * bool * mat4 F64) * list bytes) :=
  obind (ptx_fetch i ls) (fun '(line, ls) =>
  obind (omap (fun x => (x, ls)) (at_line (i + 1) line (ok_or (usize_of line) PtxRows))) (fun '(rows, ls) =>
  obind (ptx_fetch (i + 1) ls) (fun '(_, ls) => obind (ptx_fetch (i + 2) ls) (fun '(_, ls) => obind (ptx_fetch (i + 3) ls) (fun '(_, ls) => obind (ptx_fetch (i + 4) ls) (fun '(_, ls) =>
  obind (ptx_matrix_line ft (i + 5) ls) (fun '(a, ls) =>
  obind (ptx_matrix_line ft (i + 6) ls) (fun '(b, ls) =>
  obind (ptx_matrix_line ft (i + 7) ls) (fun '(c, ls) =>
  obind (ptx_matrix_line ft (i + 8) ls) (fun '(d, ls) =>
  let '(m11, m12, m13, m14) := a in let '(m21, m22, m23, m24) := b in let '(m31, m32, m33, m34) := c in let '(m41, m42, m43, m44) := d in
  let m := mkm4 m11 m12 m13 m14 m21 m22 m23 m24 m31 m32 m33 m34 m41 m42 m43 m44 in
  Ok ((w64 (rows * columns), negb (m4_eqb m m4_identity), m), ls))))))))))).
Lemma ptx_head_eq ft columns i ls : ptx_header ft columns i ls = omap (fun '((n, b, m), ls) => mkptx ls false (i + 9) n b m) (ptx_head ft columns i ls).
Proof.
  unfold ptx_header, ptx_head. destruct (ptx_fetch i ls) as [[x l0]|e|]; cbn [obind omap]; [|reflexivity..]. destruct (at_line (i + 1) x (ok_or (usize_of x) PtxRows)) as [rows|e|]; cbn [obind omap]; [|reflexivity..].
  destruct (ptx_fetch (i + 1) l0) as [[x1 l1]|e|]; cbn [obind omap]; [|reflexivity..]. destruct (ptx_fetch (i + 2) l1) as [[x2 l2]|e|]; cbn [obind omap]; [|reflexivity..]. destruct (ptx_fetch (i + 3) l2) as [[x3 l3]|e|]; cbn [obind omap]; [|reflexivity..].
  destruct (ptx_fetch (i + 4) l3) as [[x4 l4]|e|]; cbn [obind omap]; [|reflexivity..].
  destruct (ptx_matrix_line ft (i + 5) l4) as [[[[[m11 m12] m13] m14] l5]|e|]; cbn [obind omap]; [|reflexivity..]. destruct (ptx_matrix_line ft (i + 6) l5) as [[[[[m21 m22] m23] m24] l6]|e|]; cbn [obind omap]; [|reflexivity..].
  destruct (ptx_matrix_line ft (i + 7) l6) as [[[[[m31 m32] m33] m34] l7]|e|]; cbn [obind omap]; [|reflexivity..]. destruct (ptx_matrix_line ft (i + 8) l7) as [[[[[m41 m42] m43] m44] l8]|e|]; cbn [obind omap]; reflexivity.
Qed.
Lemma last_mono {E A B} (f : list bytes -> outcome E (A * list bytes)) (g : A -> B) : lmono f -> lmono (fun s => obind (f s) (fun '(x, s) => Ok (g x, s))).
Proof.
  intros F t r T c a l H. cbn beta in *. destruct (f (c ++ t)) as [[y l1]|e|] eqn:FA; cbn [obind] in H; try discriminate. injection H as <- <-. destruct (F t r T c y l1 FA) as [(c' & -> & F1)| ->]; [left|right; reflexivity].
  exists c'. split; [reflexivity|]. rewrite F1. reflexivity.
Qed.
Lemma ptx_head_mono ft columns i : lmono (ptx_head ft columns i) /\ needs (ptx_head ft columns i).
Proof.
  split; [|intros a l H; discriminate]. unfold ptx_head. apply (bind_lmono (ptx_fetch i)); [apply fetch_mono| |].
  - intros line. destruct (at_line (i + 1) line (ok_or (usize_of line) PtxRows)) as [rows|e|]; cbn [omap obind]; [|intros t r T c a l H; discriminate..].
    apply (bind_lmono (ptx_fetch (i + 1))); [apply fetch_mono| |intros ?; apply (bind_need (ptx_fetch (i + 2))), fetch_need]. intros _.
    apply (bind_lmono (ptx_fetch (i + 2))); [apply fetch_mono| |intros ?; apply (bind_need (ptx_fetch (i + 3))), fetch_need]. intros _.
    apply (bind_lmono (ptx_fetch (i + 3))); [apply fetch_mono| |intros ?; apply (bind_need (ptx_fetch (i + 4))), fetch_need]. intros _.
    apply (bind_lmono (ptx_fetch (i + 4))); [apply fetch_mono| |intros ?; apply (bind_need (ptx_matrix_line ft (i + 5))), matrix_need]. intros _.
    apply (bind_lmono (ptx_matrix_line ft (i + 5))); [apply matrix_mono| |intros ?; apply (bind_need (ptx_matrix_line ft (i + 6))), matrix_need]. intros ra.
    apply (bind_lmono (ptx_matrix_line ft (i + 6))); [apply matrix_mono| |intros ?; apply (bind_need (ptx_matrix_line ft (i + 7))), matrix_need]. intros rb.
    apply (bind_lmono (ptx_matrix_line ft (i + 7))); [apply matrix_mono| |intros ?; apply (bind_need (ptx_matrix_line ft (i + 8))), matrix_need]. intros rc.
    destruct ra as [[[m11 m12] m13] m14], rb as [[[m21 m22] m23] m24], rc as [[[m31 m32] m33] m34].
    pose proof (last_mono (ptx_matrix_line ft (i + 8)) (fun '(m41, m42, m43, m44) => let m := mkm4 m11 m12 m13 m14 m21 m22 m23 m24 m31 m32 m33 m34 m41 m42 m43 m44 in (w64 (rows * columns), negb (m4_eqb m m4_identity), m)) (matrix_mono ft _)) as LM.
    intros t r T c a l H. specialize (LM t r T c a l). cbn beta in LM. destruct (ptx_matrix_line ft (i + 8) (c ++ t)) as [[[[[m41 m42] m43] m44] l1]|e|]; cbn [obind] in *; try discriminate. destruct (LM H) as [(c' & -> & F)| ->]; [left|right; reflexivity].
    exists c'. split; [reflexivity|]. destruct (ptx_matrix_line ft (i + 8) (c ++ r)) as [[[[[m41' m42'] m43'] m44'] l1']|e|]; cbn [obind] in *; [exact F|discriminate..].
  - intros line. destruct (at_line (i + 1) line (ok_or (usize_of line) PtxRows)) as [rows|e|]; cbn [omap obind]; intros a l H; discriminate.
Qed.
Definition same_ptx (s1 s2 : ptx_state) : Prop := ptx_done s1 = ptx_done s2 /\ ptx_line s1 = ptx_line s2 /\ ptx_left s1 = ptx_left s2 /\ ptx_must s1 = ptx_must s2 /\ ptx_matrix s1 = ptx_matrix s2 /\ cut_lines (ptx_read s1) (ptx_read s2).
Lemma ptx_free_nil ft s : ptx_read s = [] -> item_free (ptx_next ft) s.
Proof. destruct s as [ls d i todo must m]. cbn. intros -> a s' N. unfold ptx_next in N. destruct d; [discriminate|]. destruct (todo =? 0)%N; cbn in N; discriminate. Qed.
Lemma ptx_next_cut ft s1 s2 : same_ptx s1 s2 -> (fst (ptx_next ft s1) = fst (ptx_next ft s2) /\ same_ptx (snd (ptx_next ft s1)) (snd (ptx_next ft s2))) \/ last_item (ptx_next ft) s1.
Proof.
  destruct s1 as [l1 d i todo must m], s2 as [l2 d2 i2 todo2 must2 m2]. intros (D & I & TD & MU & MA & (c & t & r & E1 & E2 & T)). cbn in D, I, TD, MU, MA, E1, E2. subst d2 i2 todo2 must2 m2 l1 l2.
  destruct d. { left. split; [reflexivity|]. repeat split. exists c, t, r. auto. } destruct c as [|x c].
  - right. cbn [app]. destruct t as [|x [|]]; cbn [length] in T; [apply free_last, ptx_free_nil; reflexivity| |lia]. intros a s' N. unfold ptx_next in N. destruct (todo =? 0)%N.
    + cbn [next_line] in N. destruct (usize_of (trim_line x)); cbn [obind] in N; discriminate.
    + cbn [ptx_fetch next_line] in N. destruct (at_line (i + 1) (trim_line x) (omap DData (ptx_point ft (trim_line x) must m))); try discriminate. injection N as _ <-. apply ptx_free_nil. reflexivity.
  - unfold ptx_next at 1 2 3 4. destruct (todo =? 0)%N eqn:TZ.
    + cbn [app next_line]. destruct (usize_of (trim_line x)) as [columns|] eqn:UX; cbn [obind].
      * rewrite !ptx_head_eq. destruct (ptx_head ft columns (i + 1) (c ++ t)) as [[[[n b] mm] l]|e|] eqn:HH; cbn [omap].
        -- destruct (proj1 (ptx_head_mono ft columns (i + 1)) t r T c _ _ HH) as [(c' & -> & F)| ->].
           ++ rewrite F. cbn [omap]. left. split; [reflexivity|]. repeat split. exists c', t, r. auto.
           ++ right. intros a s' N. unfold ptx_next in N. rewrite TZ in N. cbn [app next_line] in N. rewrite UX in N. cbn [obind] in N. rewrite ptx_head_eq, HH in N. cbn [omap] in N. injection N as _ <-. apply ptx_free_nil. reflexivity.
        -- right. apply free_last. intros a s' N. unfold ptx_next in N. rewrite TZ in N. cbn [app next_line] in N. rewrite UX in N. cbn [obind] in N. rewrite ptx_head_eq, HH in N. discriminate.
        -- right. apply free_last. intros a s' N. unfold ptx_next in N. rewrite TZ in N. cbn [app next_line] in N. rewrite UX in N. cbn [obind] in N. rewrite ptx_head_eq, HH in N. discriminate.
      * left. split; [reflexivity|]. repeat split. exists c, t, r. auto.
    + cbn [app ptx_fetch next_line]. left. split; [reflexivity|]. repeat split. exists c, t, r. auto.
Qed.
Lemma ptx_cut ft k k' part file ps r ps' r' : prefix part file -> load_ptx ft k file = Some (ps, r) -> load_ptx ft k' part = Some (ps', r') -> prefix_and_one ps' ps.
Proof.
  intros P H H'. unfold load_ptx in *.
  destruct (sim_one (ptx_next ft) (ptx_next ft) push_data (@prefix (pt3 F64)) prefix_refl prefix_trans push_data_grows same_ptx (ptx_next_cut ft) k' k (ptx_new part) (ptx_new file) [] ps' ps r' r) as (m0 & _ & G & O); [|exact H'|exact H|].
  - repeat split. destruct (raw_cut part file P) as (c & t & r0 & E1 & E2 & TT). exists c, t, r0. split; [exact E1|]. split; [exact E2|]. destruct TT as [->|(p & q & r1 & -> & _)]; cbn; lia.
  - apply (push_one m0); [|exact G]. apply (push_data_one _ _ O).
Qed.
