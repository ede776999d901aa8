(** The KdTree on finite doubles. *)
From Verif Require Import Base Num NumLemmas BBoxModel SortSpec SortLemmas PermTac KdModel GeomSpec FloatSpec FloatLemmas FloatBridge RootLemmas DistSpec DistLemmas KdLemmas.
From Coq Require Import Floats.SpecFloat Reals Lra Psatz.
From Flocq Require Import Core.
Local Open Scope R_scope.
Local Existing Instance valid_exp_f64.

(** ** Borders *)
Lemma cmp_inf_l v : f_finite v -> @ncmp F64 (S754_infinity false) v = Some Gt /\ @ncmp F64 (S754_infinity true) v = Some Lt.
Proof. destruct v as [|[]| |[]]; cbn; tauto. Qed.
Lemma fval_low x : is_double x -> - top < fval x < top.
Proof. intros D. pose proof (fval_bound x D) as B. apply Rabs_lt_inv in B. exact B. Qed.
Lemma rnd_lt_back r x : fmt x -> rnd r < x -> r < x.
Proof. intros F L. apply Rnot_le_lt. intros H. apply rnd_le in H. rewrite (rnd_id x F) in H. lra. Qed.
Lemma rnd_gt_back r x : fmt x -> x < rnd r -> x < r.
Proof. intros F L. apply Rnot_le_lt. intros H. apply rnd_le in H. rewrite (rnd_id x F) in H. lra. Qed.
Lemma far_right (s d v : T F64) : is_double s -> f_finite s -> nn d -> is_double v -> f_finite v ->
  ngeb (nadd s d) v = false -> f_finite d /\ fval d < fval v - fval s.
Proof.
  intros DS FS [DD CD] DV FV H. unfold ngeb in H. destruct CD as [[FD PD]| ->].
  - split; [exact FD|]. pose proof (fval_low v DV) as LV.
    assert (L : rnd (fval s + fval d) < fval v).
    { destruct (add_val s d DS DD FS FD) as [(L & F & E)|[(L & E)|(L & E)]].
      - rewrite (ncmp_val _ _ (double_add s d DS DD) DV F FV) in H. rewrite <- E.
        destruct (Rcompare_spec (fval (nadd s d)) (fval v)); [assumption|discriminate|discriminate].
      - rewrite E, (proj1 (cmp_inf_l v FV)) in H. discriminate.
      - lra. }
    apply rnd_lt_back in L; [lra|apply fval_fmt, DV].
  - exfalso. assert (E : @nadd F64 s (S754_infinity false) = S754_infinity false) by (destruct s as [|[]| |[]]; try destruct FS; reflexivity).
    rewrite E, (proj1 (cmp_inf_l v FV)) in H. discriminate.
Qed.
Lemma far_left (s d v : T F64) : is_double s -> f_finite s -> nn d -> is_double v -> f_finite v ->
  nleb (nsub s d) v = false -> f_finite d /\ fval d < fval s - fval v.
Proof.
  intros DS FS [DD CD] DV FV H. unfold nleb in H. destruct CD as [[FD PD]| ->].
  - split; [exact FD|]. pose proof (fval_low v DV) as LV.
    assert (L : fval v < rnd (fval s - fval d)).
    { destruct (sub_val s d DS DD FS FD) as [(L & F & E)|[(L & E)|(L & E)]].
      - rewrite (ncmp_val _ _ (double_sub s d DS DD) DV F FV) in H. rewrite <- E.
        destruct (Rcompare_spec (fval (nsub s d)) (fval v)); [discriminate|discriminate|assumption].
      - lra.
      - rewrite E, (proj2 (cmp_inf_l v FV)) in H. discriminate. }
    apply rnd_gt_back in L; [lra|apply fval_fmt, DV].
  - exfalso. assert (E : @nsub F64 s (S754_infinity false) = S754_infinity true) by (destruct s as [|[]| |[]]; try destruct FS; reflexivity).
    rewrite E, (proj2 (cmp_inf_l v FV)) in H. discriminate.
Qed.
Lemma rk_far d a : nn d -> f_finite d -> fval d <= Rabs a -> key d <= rk (Rabs a).
Proof.
  intros N F L. rewrite <- (rk_fix (key d)); [|apply key_fmt, N|apply (key_nn d N)]. apply rk_le. rewrite key_fin by exact F. exact L.
Qed.

(** ** Distances of points far off in one coordinate *)
Lemma coord_sqk (d : N) p q : finite3 p -> finite3 q ->
  sqk (coordN d p) (coordN d q) <= key (sqr_dist_3d p q).
Proof.
  intros P Q. rewrite (proj2 (sqr_key3 p q P Q)).
  assert (N : 0 <= rk (sqk (px p) (px q) + sqk (py p) (py q))).
  { apply rk_nonneg. pose proof (sqk_nonneg (px p) (px q)). pose proof (sqk_nonneg (py p) (py q)). lra. }
  destruct d as [|[]]; cbn [coordN].
  1,4: apply sqk_le; [apply sqk_nonneg|].
  - apply sqk_le; [apply sqk_nonneg|lra].
  - apply sqk_le'; [apply sqk_nonneg|lra].
  - apply sqk_le'; [exact N|lra].
  - apply sqk_le'; [exact N|lra].
Qed.
Lemma far_dist b (d : N) p q : 0 <= b -> (forall e, b <= e -> b <= rnd (sqrt (rnd (e * e)))) -> b <= top -> finite3 p -> finite3 q ->
  b <= rk (Rabs (fval (coordN d p) - fval (coordN d q))) -> b <= key (dist_3d p q).
Proof.
  intros B0 Hb BT P Q L. destruct (sqr_key3 p q P Q) as [N _]. pose proof (coord_sqk d p q P Q) as C.
  unfold sqk in C. set (e := rk (Rabs (fval (coordN d p) - fval (coordN d q)))) in *. specialize (Hb e L).
  unfold dist_3d. rewrite (proj2 (sqrt_key _ N)). destruct (Rlt_bool_spec (key (sqr_dist_3d p q)) top) as [T|T]; [|exact BT].
  eapply Rle_trans; [exact Hb|]. apply rnd_le, sqrt_le_1_alt.
  unfold rk in C. unfold Rmin in C. destruct (Rle_dec (rnd (e * e)) top); lra.
Qed.
Lemma dist_nn p q : finite3 p -> finite3 q -> nn (dist_3d p q).
Proof. intros P Q. apply sqrt_key, sqr_key3; assumption. Qed.
(** the distance of [m] is a rounded root *)
Lemma root_dist m s : finite3 s -> finite3 m -> f_finite (dist_3d s m) ->
  forall e, key (dist_3d s m) <= e -> key (dist_3d s m) <= rnd (sqrt (rnd (e * e))).
Proof.
  intros S M F e. destruct (sqr_key3 s m S M) as [N _]. pose proof (proj2 (sqrt_key _ N)) as E.
  pose proof (key_fin_lt _ (dist_nn s m S M) F) as T. unfold dist_3d in *.
  destruct (Rlt_bool_spec (key (sqr_dist_3d s m)) top) as [H|H]; [|rewrite E in T; lra].
  rewrite E. intros L. apply root_back; [apply key_fmt, N|apply (key_nn _ N)|exact L].
Qed.

(** ** Sorting *)
Lemma Rcompare_le a b : Rcompare a b <> Gt <-> a <= b.
Proof. destruct (Rcompare_spec a b); split; intros; try lra; try congruence; discriminate. Qed.
Section Sort.
Context (sort : sorter) (SO : sort_ok sort).
Lemma sort_by_key {A} (cmp : A -> A -> comparison) (f : A -> R) l : (forall a b, In a l -> In b l -> cmp a b = Rcompare (f a) (f b)) ->
  StronglySorted (fun a b => f a <= f b) (sort A cmp l).
Proof.
  intros E.
  assert (C : cmp_ok cmp l).
  { split; intros.
    - rewrite !E by assumption. apply Rcompare_sym.
    - rewrite E in * by assumption. rewrite Rcompare_le in *. lra. }
  pose proof (sort_sorted _ SO A cmp l C) as S.
  assert (I : forall x, In x (sort A cmp l) -> In x l) by (intros x; apply Permutation_in, Permutation_sym, (sort_perm _ SO)).
  induction S as [|a m S IH F]; constructor.
  - apply IH. intros x Hx. apply I. right; exact Hx.
  - rewrite Forall_forall in *. intros b Hb. specialize (F b Hb). rewrite E in F; [apply Rcompare_le, F|apply I; left; reflexivity|apply I; right; exact Hb].
Qed.
End Sort.

Section KdF64.
Context {P : Type} (pos : P -> pt3 F64) (sort : sorter) (SO : sort_ok sort).
Notation tree := (kdtree P).
Definition fc (d : N) (p : P) : R := fval (coordN d (pos p)).
Fixpoint kd_inv64 (t : tree) : Prop :=
  match t with
  | KNone => True
  | KNode l v r d => (d = 0%N \/ d = 1%N) /\ kd_inv64 l /\ kd_inv64 r /\
      Forall (fun p => fc d p <= fc d v) (elems l) /\ Forall (fun p => fc d v <= fc d p) (elems r)
  end.
Lemma coord_fin (d : N) p : finite3 p -> is_double (coordN d p) /\ f_finite (coordN d p).
Proof. intros F. apply fin3 in F. destruct d as [|[]]; cbn [coordN]; tauto. Qed.
Lemma kd_cmp_val (d : N) a b : (d = 0 \/ d = 1)%N -> finite3 (pos a) -> finite3 (pos b) -> kd_cmp pos d a b = Rcompare (fc d a) (fc d b).
Proof.
  intros D A B. destruct (coord_fin d _ A) as [A1 A2], (coord_fin d _ B) as [B1 B2].
  transitivity (cmp_or_eq (coordN d (pos a)) (coordN d (pos b))); [destruct D as [->| ->]; reflexivity|].
  unfold cmp_or_eq. rewrite ncmp_val by assumption. reflexivity.
Qed.
Lemma kd_new_inv64 fuel : forall dim pc, (length pc <= fuel)%nat -> Forall (fun p => finite3 (pos p)) pc -> kd_inv64 (kd_new pos sort fuel dim pc).
Proof.
  induction fuel as [|f IH]; intros dim pc L FP; cbn [kd_new]; [exact I|].
  assert (D : (dim mod 2)%N = 0%N \/ (dim mod 2)%N = 1%N).
  { pose proof (N.mod_upper_bound dim 2 ltac:(discriminate)) as M. set (k := (dim mod 2)%N) in *. clearbody k. lia. }
  set (d := (dim mod 2)%N) in *. clearbody d.
  destruct pc as [|p [|q r]]; cbn [kd_inv64 elems]; [exact I|repeat split; auto|].
  assert (Ss : StronglySorted (fun a b => fc d a <= fc d b) (sort P (kd_cmp pos d) (p :: q :: r))).
  { apply sort_by_key; [exact SO|]. rewrite Forall_forall in FP. intros a b Ha Hb. apply kd_cmp_val; auto. }
  assert (Ps : Permutation (p :: q :: r) (sort P (kd_cmp pos d) (p :: q :: r))) by apply (sort_perm _ SO).
  set (s := sort P _ (p :: q :: r)) in *.
  assert (Ls : length s = S (S (length r))) by (rewrite <- (Permutation_length Ps); reflexivity).
  clearbody s. assert (Fs : Forall (fun p => finite3 (pos p)) s) by (apply (Forall_perm _ _ _ Ps FP)).
  assert (K : (Nat.div2 (length s) < length s)%nat) by (apply div2_lt; lia).
  set (k := Nat.div2 (length s)) in *. clearbody k.
  destruct (nth_error s k) as [v|] eqn:E; [|exact I].
  rewrite (split_at _ _ _ E) in Ss. apply sorted_split in Ss. destruct Ss as [Sl Sr].
  cbn [length] in L.
  assert (L1 : (length (firstn k s) <= f)%nat) by (rewrite firstn_length; lia).
  assert (L2 : (length (skipn (S k) s) <= f)%nat) by (rewrite skipn_length; lia).
  rewrite (split_at _ _ _ E) in Fs. rewrite Forall_app in Fs. destruct Fs as [F1 F2]. inversion F2 as [|? ? _ F3]; subst.
  split; [exact D|]. split; [apply IH; assumption|]. split; [apply IH; assumption|].
  split; [apply (Forall_perm _ _ _ (kd_new_perm pos sort SO f (d + 1)%N _ L1) Sl)|
          apply (Forall_perm _ _ _ (kd_new_perm pos sort SO f (d + 1)%N _ L2) Sr)].
Qed.
Lemma comp_val (d : N) s p : (d = 0 \/ d = 1)%N -> finite3 s -> finite3 (pos p) ->
  dimension_compare s (pos p) d = Ok (Rcompare (fval (coordN d s)) (fc d p)).
Proof.
  intros D S F. destruct (coord_fin d _ S) as [A1 A2], (coord_fin d _ F) as [B1 B2]. unfold fc.
 pose proof (ncmp_val _ _ A1 B1 A2 B2) as E.
  destruct D as [->| ->]; cbn [coordN dimension_compare] in *; rewrite E; reflexivity.
Qed.

(** ** A traversal that leaves out only points with [Q] *)
Section Most.
Context (test : P -> bool) (Q : P -> Prop) (TQ : forall p, test p = false -> Q p).
Context (order : P -> N -> res comparison) (farL farR : P -> N -> bool).
Definition most (f : list P -> list P) (es : list P) : Prop :=
  forall pc, exists found rest, f pc = pc ++ found /\ Permutation es (found ++ rest) /\
    Forall (fun p => test p = true) found /\ Forall Q rest.
Lemma most_comp f g es1 es2 : most f es1 -> most g es2 -> most (fun pc => g (f pc)) (es1 ++ es2).
Proof.
  intros Hf Hg pc. destruct (Hf pc) as (f1 & r1 & E1 & P1 & A1 & B1).
  destruct (Hg (pc ++ f1)) as (f2 & r2 & E2 & P2 & A2 & B2).
  exists (f1 ++ f2), (r1 ++ r2). rewrite E1, E2, app_assoc. split; [reflexivity|].
  split; [rewrite P1, P2; perm|]. rewrite !Forall_app; auto.
Qed.
Lemma most_id es : Forall Q es -> most (fun pc => pc) es.
Proof. intros H pc. exists [], es. rewrite app_nil_r. auto. Qed.
Lemma most_val v : most (fun pc => if test v then pc ++ [v] else pc) [v].
Proof. intro pc. destruct (test v) eqn:E; [exists [v], []|exists [], [v]]; rewrite ?app_nil_r; repeat split; auto. Qed.
Lemma most_perm f es es' : Permutation es es' -> most f es -> most f es'.
Proof. intros H A pc. destruct (A pc) as (fo & r & E & X & F). exists fo, r. rewrite <- H. auto. Qed.
Fixpoint prune_most (t : tree) : Prop :=
  match t with
  | KNone => True
  | KNode l v r d => prune_most l /\ prune_most r /\
      match order v d with
      | Ok Lt => farR v d = false -> Forall Q (elems r)
      | Ok _ => farL v d = false -> Forall Q (elems l)
      | _ => False
      end
  end.
Lemma trav_most t : prune_most t -> most (trav test order farL farR t) (elems t).
Proof.
  induction t as [|l IHl v r IHr d]; [intros _; apply (most_id []); constructor|].
  intros (Pl & Pr & Pv). specialize (IHl Pl). specialize (IHr Pr).
  assert (Q1 : Permutation (([v] ++ elems l) ++ elems r) (elems l ++ v :: elems r)) by perm.
  assert (Q2 : Permutation (([v] ++ elems r) ++ elems l) (elems l ++ v :: elems r)) by perm.
  intro pc. cbn [trav elems].
  destruct (is_none l && is_none r) eqn:En.
  { destruct l, r; try discriminate. apply (most_val v pc). }
  destruct (order v d) as [[]|e|]; try contradiction.
  - destruct (farL v d).
    + exact (most_perm _ _ _ Q2 (most_comp _ _ _ _ (most_comp _ _ _ _ (most_val v) IHr) IHl) pc).
    + exact (most_perm _ _ _ Q2 (most_comp _ _ _ _ (most_comp _ _ _ _ (most_val v) IHr) (most_id _ (Pv eq_refl))) pc).
  - destruct (farR v d).
    + exact (most_perm _ _ _ Q1 (most_comp _ _ _ _ (most_comp _ _ _ _ (most_val v) IHl) IHr) pc).
    + exact (most_perm _ _ _ Q1 (most_comp _ _ _ _ (most_comp _ _ _ _ (most_val v) IHl) (most_id _ (Pv eq_refl))) pc).
  - destruct (farL v d).
    + exact (most_perm _ _ _ Q2 (most_comp _ _ _ _ (most_comp _ _ _ _ (most_val v) IHr) IHl) pc).
    + exact (most_perm _ _ _ Q2 (most_comp _ _ _ _ (most_comp _ _ _ _ (most_val v) IHr) (most_id _ (Pv eq_refl))) pc).
Qed.
(** enough: a border that leaves out a side leaves out only points with [Q] *)
Lemma prune_from (s : pt3 F64) t : finite3 s -> kd_inv64 t -> Forall (fun p => finite3 (pos p)) (elems t) ->
  (forall v d, order v d = dimension_compare s (pos v) d) ->
  (forall v d p, (d = 0 \/ d = 1)%N -> finite3 (pos v) -> finite3 (pos p) -> farR v d = false -> fc d v <= fc d p -> Q p) ->
  (forall v d p, (d = 0 \/ d = 1)%N -> finite3 (pos v) -> finite3 (pos p) -> farL v d = false -> fc d p <= fc d v -> Q p) ->
  prune_most t.
Proof.
  intros Fs It Ft HO HR HL. induction t as [|l IHl v r IHr d]; [exact I|].
  destruct It as (D & Il & Ir & Fl & Fr). cbn [elems] in Ft. rewrite Forall_app in Ft. destruct Ft as [F1 F2].
  inversion F2 as [|? ? Fv F3]; subst. cbn [prune_most]. split; [auto|]. split; [auto|].
  rewrite HO, (comp_val d s v D Fs Fv). rewrite !Forall_forall in *.
  destruct (Rcompare _ _); intros H; rewrite Forall_forall; intros p Hp; eauto.
Qed.
End Most.
End KdF64.

(** ** nearest *)
Section Nearest.
Context {P : Type} (pos : P -> pt3 F64) (sort : sorter) (SO : sort_ok sort) (search : pt3 F64) (FS : finite3 search).
Notation tree := (kdtree P).
Notation fins := (Forall (fun p : P => finite3 (pos p))).
Definition sk (p : P) : R := key (sqr_dist_3d search (pos p)).
Definition dk (p : P) : R := key (dist_3d search (pos p)).
Lemma sk_cmp a b : finite3 (pos a) -> finite3 (pos b) ->
  ncmp (sqr_dist_3d search (pos a)) (sqr_dist_3d search (pos b)) = Some (Rcompare (sk a) (sk b)).
Proof. intros A B. apply ncmp_key; apply sqr_key3; assumption. Qed.
Lemma sk_dk a b : finite3 (pos a) -> finite3 (pos b) -> sk a <= sk b -> dk a <= dk b.
Proof. intros A B. apply sqrt_key_mono; apply sqr_key3; assumption. Qed.
Definition lastmin64 (pc : list P) : Prop :=
  match last_opt pc with None => True | Some q => In q pc /\ forall p, In p pc -> sk q <= sk p end.
Lemma sal_min64 (pc : list P) : fins pc -> pc <> [] -> lastmin64 pc ->
  exists m, kd_sort_and_limit pos sort search 1 pc = [m] /\ In m pc /\ forall p, In p pc -> sk m <= sk p.
Proof.
  intros F NE LM. unfold kd_sort_and_limit. destruct (Nat.ltb_spec 1 (length pc)) as [L|L].
  - rewrite Forall_forall in F.
    assert (Ss : StronglySorted (fun a b => sk a <= sk b) (sort P (fun a b => cmp_or_eq (sqr_dist_3d search (pos a)) (sqr_dist_3d search (pos b))) pc)).
    { apply sort_by_key; [exact SO|]. intros a b Ha Hb. unfold cmp_or_eq. rewrite sk_cmp by auto. reflexivity. }
    set (s := sort P _ pc) in *. assert (Ps : Permutation pc s) by apply (sort_perm _ SO).
    clearbody s. destruct s as [|m r].
    + apply Permutation_length in Ps. cbn in Ps. lia.
    + exists m. cbn [firstn]. split; [reflexivity|].
      split; [apply (Permutation_in _ (Permutation_sym Ps)); left; reflexivity|].
      intros p Hp. apply (Permutation_in _ Ps) in Hp. inversion Ss as [|? ? _ G]; subst.
      destruct Hp as [<-|Hp]; [lra|]. rewrite Forall_forall in G. auto.
  - destruct pc as [|m [|? ?]]; [congruence| |cbn in L; lia].
    exists m. split; [reflexivity|]. split; [left; reflexivity|]. intros p [<-|[]]. lra.
Qed.
Lemma dk_far d m p : finite3 (pos m) -> finite3 (pos p) -> f_finite (dist_3d search (pos m)) ->
  fval (dist_3d search (pos m)) <= Rabs (fval (coordN d search) - fc pos d p) -> dk m <= dk p.
Proof.
  intros M F FD L. pose proof (dist_nn search (pos m) FS M) as N. apply (far_dist _ d); auto.
  - apply (key_nn _ N).
  - apply root_dist; assumption.
  - apply (key_nn _ N).
  - apply rk_far; assumption.
Qed.
Lemma nearest_inv64 t : kd_inv64 pos t -> fins (elems t) -> t <> KNone -> forall pc, fins pc -> lastmin64 pc ->
  exists m, kd_knearest pos sort search 1 t pc = Ok [m] /\ In m (pc ++ elems t) /\
    (forall p, In p pc -> sk m <= sk p) /\ forall p, In p (elems t) -> dk m <= dk p.
Proof.
  induction t as [|l IHl v r IHr d]; [congruence|]. intros (D & Il & Ir & Fl & Fr) FT _ pc FP LM.
  cbn [elems] in FT. rewrite Forall_app in FT. destruct FT as [FTl FT]. inversion FT as [|? ? FV FTr]; subst. clear FT.
  cbn [kd_knearest elems].
  assert (FV' : fins [v]) by (constructor; [exact FV|constructor]).
  assert (H1 : exists pc1, (if (length pc <? 1)%nat then Ok (pc ++ [v])
             else match last_opt pc with
                  | None => Panic
                  | Some q => if nltb (sqr_dist_3d search (pos v)) (sqr_dist_3d search (pos q))
                              then Ok (pc ++ [v]) else Ok pc
                  end) = (Ok pc1 : res (list P)) /\ pc1 <> [] /\ lastmin64 pc1 /\
                  (forall p, In p pc1 -> In p (pc ++ [v])) /\
                  forall p, In p (pc ++ [v]) -> exists q, In q pc1 /\ sk q <= sk p).
  { assert (NEv : pc ++ [v] <> []) by (destruct pc; discriminate).
    destruct (Nat.ltb_spec (length pc) 1) as [L|L].
    - destruct pc; [|cbn in L; lia]. exists [v]. split; [reflexivity|]. split; [discriminate|].
      split; [split; [left; reflexivity|intros p [<-|[]]; apply Rle_refl]|]. split; [auto|].
      intros p Hp; exists p; split; [exact Hp|lra].
    - assert (NE : pc <> []) by (destruct pc; [cbn in L; lia|discriminate]).
      destruct (last_opt_some pc NE) as (q & Eq & _). unfold lastmin64 in LM. rewrite Eq in *. destruct LM as [Iq Mq].
      assert (FQ : finite3 (pos q)) by (rewrite Forall_forall in FP; auto).
      unfold nltb. rewrite sk_cmp by assumption.
      assert (XX : forall b : bool, (b = true -> sk v < sk q) -> (b = false -> sk q <= sk v) ->
        exists pc1, (if b then Ok (pc ++ [v]) else Ok pc) = (Ok pc1 : res (list P)) /\ pc1 <> [] /\ lastmin64 pc1 /\
                  (forall p, In p pc1 -> In p (pc ++ [v])) /\
                  forall p, In p (pc ++ [v]) -> exists q, In q pc1 /\ sk q <= sk p).
      { intros [] HT HF.
        + specialize (HT eq_refl). exists (pc ++ [v]). split; [reflexivity|]. split; [exact NEv|]. split.
          * unfold lastmin64. rewrite last_opt_snoc. split; [apply in_or_app; right; left; reflexivity|].
            intros p Hp. apply in_app_or in Hp. destruct Hp as [Hp|[<-|[]]]; [specialize (Mq p Hp); lra|lra].
          * split; [auto|]. intros p Hp; exists p; split; [exact Hp|lra].
        + specialize (HF eq_refl). exists pc. split; [reflexivity|]. split; [exact NE|]. split.
          * unfold lastmin64. rewrite Eq. auto.
          * split; [intros; apply in_or_app; auto|]. intros p Hp. apply in_app_or in Hp.
            destruct Hp as [Hp|[<-|[]]]; [exists p; split; [auto|lra]|exists q; split; [auto|lra]]. }
      apply XX; destruct (Rcompare_spec (sk v) (sk q)); intros; try discriminate; lra. }
  destruct H1 as (pc1 & -> & NE1 & LM1 & Sub1 & Cov1). cbn [obind].
  assert (FP1 : fins pc1).
  { rewrite Forall_forall. intros p Hp. apply Sub1 in Hp. assert (F2 : fins (pc ++ [v])) by (rewrite Forall_app; auto). rewrite Forall_forall in F2. auto. }
  assert (G : forall a b, (forall p, In p (elems a ++ elems b) <-> In p (elems l ++ elems r)) -> fins (elems a) -> fins (elems b) ->
      (a <> KNone -> forall pc, fins pc -> lastmin64 pc -> exists m, kd_knearest pos sort search 1 a pc = Ok [m] /\ In m (pc ++ elems a) /\
         (forall p, In p pc -> sk m <= sk p) /\ forall p, In p (elems a) -> dk m <= dk p) ->
      (b <> KNone -> forall pc, fins pc -> lastmin64 pc -> exists m, kd_knearest pos sort search 1 b pc = Ok [m] /\ In m (pc ++ elems b) /\
         (forall p, In p pc -> sk m <= sk p) /\ forall p, In p (elems b) -> dk m <= dk p) ->
      exists pc2, kd_knearest pos sort search 1 a pc1 = Ok pc2 /\
        exists m, kd_sort_and_limit pos sort search 1 pc2 = [m] /\ finite3 (pos m) /\
        forall far : bool, (far = false -> forall p, In p (elems b) -> dk m <= dk p) ->
        exists m', obind (if (length [m] <? 1)%nat || far then kd_knearest pos sort search 1 b [m] else Ok [m])
            (fun pc => Ok (kd_sort_and_limit pos sort search 1 pc)) = Ok [m'] /\
          In m' (pc ++ elems l ++ v :: elems r) /\
          (forall p, In p pc -> sk m' <= sk p) /\ forall p, In p (elems l ++ v :: elems r) -> dk m' <= dk p).
  { intros a b AB FA FB Ha Hb.
    assert (H2 : exists pc2, kd_knearest pos sort search 1 a pc1 = Ok pc2 /\ pc2 <> [] /\ lastmin64 pc2 /\
        (forall p, In p pc2 -> In p (pc ++ v :: elems a)) /\
        (forall p, In p (pc ++ [v]) -> exists q, In q pc2 /\ sk q <= sk p) /\
        (forall p, In p (elems a) -> exists q, In q pc2 /\ dk q <= dk p)).
    { destruct a as [|al av ar ad].
      - exists pc1. split; [reflexivity|]. split; [exact NE1|]. split; [exact LM1|]. split; [exact Sub1|]. split; [exact Cov1|]. intros p [].
      - destruct (Ha ltac:(discriminate) pc1 FP1 LM1) as (m & E & Im & Mm & Dm). exists [m]. split; [exact E|]. split; [discriminate|].
        split; [split; [left; reflexivity|intros p [<-|[]]; apply Rle_refl]|]. split.
        + intros p [<-|[]]. apply in_app_or in Im. rewrite in_app_iff. cbn [In].
          destruct Im as [Im|Im]; [apply Sub1 in Im; apply in_app_or in Im; destruct Im as [Im|[<-|[]]]; auto|auto].
        + split; intros p Hp; exists m; (split; [left; reflexivity|]).
          * destruct (Cov1 p Hp) as (q & Hq & Lq). specialize (Mm q Hq). lra.
          * apply Dm, Hp. }
    destruct H2 as (pc2 & E2 & NE2 & LM2 & Sub2 & Cov2 & Cov3). exists pc2. split; [exact E2|].
    assert (FP2 : fins pc2).
    { rewrite Forall_forall. intros p Hp. apply Sub2 in Hp. assert (F2 : fins (pc ++ v :: elems a)) by (rewrite Forall_app; auto). rewrite Forall_forall in F2. auto. }
    destruct (sal_min64 pc2 FP2 NE2 LM2) as (m & Em & Im & Mm). exists m. split; [exact Em|].
    assert (FM : finite3 (pos m)) by (rewrite Forall_forall in FP2; auto). split; [exact FM|].
    assert (Cm : forall p, In p (pc ++ [v]) -> sk m <= sk p).
    { intros p Hp. destruct (Cov2 p Hp) as (q & Hq & Lq). specialize (Mm q Hq). lra. }
    assert (Cv : dk m <= dk v) by (apply sk_dk; [exact FM|exact FV|]; apply Cm, in_or_app; right; left; reflexivity).
    assert (Ca : forall p, In p (elems a) -> dk m <= dk p).
    { intros p Hp. destruct (Cov3 p Hp) as (q & Hq & Lq). specialize (Mm q Hq). apply sk_dk in Mm; [lra|exact FM|]. rewrite Forall_forall in FP2; auto. }
    assert (Inm : In m (pc ++ v :: elems a)) by auto.
    assert (AL : forall p, In p (elems l ++ v :: elems r) <-> In p (v :: elems a) \/ In p (elems b)).
    { clear - AB. intro p. specialize (AB p). rewrite !in_app_iff in *. cbn [In] in *. tauto. }
    intros far Hfar. cbn [length Nat.ltb Nat.leb orb].
    assert (Fin : forall m', In m' (m :: elems b) -> finite3 (pos m') -> sk m' <= sk m -> (forall p, In p (elems b) -> dk m' <= dk p) ->
       In m' (pc ++ elems l ++ v :: elems r) /\ (forall p, In p pc -> sk m' <= sk p) /\ forall p, In p (elems l ++ v :: elems r) -> dk m' <= dk p).
    { intros m' I1 F1 S1 B1. split; [|split].
      - rewrite in_app_iff. destruct I1 as [<-|I1]; [|right; apply AL; auto].
        apply in_app_or in Inm. destruct Inm as [Inm|Inm]; [auto|right; apply AL; auto].
      - intros p Hp. specialize (Cm p (in_or_app _ _ _ (or_introl Hp))). lra.
      - apply sk_dk in S1; [|assumption..]. intros p Hp. apply AL in Hp. destruct Hp as [[<-|Hp]|Hp]; [lra| |auto]. specialize (Ca p Hp). lra. }
    destruct far.
    - destruct b as [|bl bv br bd].
      + cbn [kd_knearest obind]. exists m. split; [reflexivity|]. apply Fin; [left; reflexivity|exact FM|lra|intros p []].
      + destruct (Hb ltac:(discriminate) [m]) as (m' & E' & Im' & Mm' & Dm').
        { constructor; [exact FM|constructor]. }
        { split; [left; reflexivity|intros p [<-|[]]; apply Rle_refl]. }
        rewrite E'. cbn [obind]. exists m'. split; [reflexivity|]. apply Fin; [exact Im'| |apply Mm'; left; reflexivity|exact Dm'].
        destruct Im' as [<-|Im']; [exact FM|]. rewrite Forall_forall in FB. auto.
    - cbn [obind]. exists m. split; [reflexivity|]. apply Fin; [left; reflexivity|exact FM|lra|auto]. }
  assert (EC : (match d with 0%N => (px search, px (pos v)) | 1%N => (py search, py (pos v)) | _ => (pz search, pz (pos v)) end)
     = (coordN d search, coordN d (pos v))) by (destruct d as [|[]]; reflexivity).
  rewrite EC. rewrite (comp_val pos d search v D FS FV).
  destruct (coord_fin d search FS) as [S1 S2]. destruct (coord_fin d (pos v) FV) as [V1 V2].
  assert (R0 : forall m, finite3 (pos m) -> ngeb (nadd (coordN d search) (dist_3d search (pos m))) (coordN d (pos v)) = false ->
     forall p, In p (elems r) -> dk m <= dk p).
  { intros m FM Hf p Hp. destruct (far_right _ _ _ S1 S2 (dist_nn search (pos m) FS FM) V1 V2 Hf) as [FD LD].
    rewrite Forall_forall in Fr, FTr. apply (dk_far d); auto. specialize (Fr p Hp). unfold fc in *.
    rewrite Rabs_minus_sym. eapply Rle_trans; [|apply Rle_abs]. lra. }
  assert (L0 : forall m, finite3 (pos m) -> nleb (nsub (coordN d search) (dist_3d search (pos m))) (coordN d (pos v)) = false ->
     forall p, In p (elems l) -> dk m <= dk p).
  { intros m FM Hf p Hp. destruct (far_left _ _ _ S1 S2 (dist_nn search (pos m) FS FM) V1 V2 Hf) as [FD LD].
    rewrite Forall_forall in Fl, FTl. apply (dk_far d); auto. specialize (Fl p Hp). unfold fc in *.
    eapply Rle_trans; [|apply Rle_abs]. lra. }
  destruct (Rcompare (fval (coordN d search)) (fc pos d v)).
  - destruct (G r l ltac:(intro; rewrite !in_app_iff; tauto) FTr FTl (IHr Ir FTr) (IHl Il FTl)) as (pc2 & -> & m & Em & FM & Gm).
    cbn [obind]. rewrite Em. cbn [last_opt last]. apply Gm. apply L0, FM.
  - destruct (G l r ltac:(intro; reflexivity) FTl FTr (IHl Il FTl) (IHr Ir FTr)) as (pc2 & -> & m & Em & FM & Gm).
    cbn [obind]. rewrite Em. cbn [last_opt last]. apply Gm. apply R0, FM.
  - destruct (G r l ltac:(intro; rewrite !in_app_iff; tauto) FTr FTl (IHr Ir FTr) (IHl Il FTl)) as (pc2 & -> & m & Em & FM & Gm).
    cbn [obind]. rewrite Em. cbn [last_opt last]. apply Gm. apply L0, FM.
Qed.
End Nearest.
