From Verif Require Import Base BaseLemmas Num NumLemmas SortSpec SortLemmas BBoxModel GeomSpec CloudModel HullModel HullSpec.
From Coq Require Import Floats.SpecFloat Reals Lra Psatz Lia.
Local Open Scope R_scope.

(** ** Turns *)
Lemma ccw_R (a b c : pt2 RN) : ccw a b c = turn a b c. Proof. reflexivity. Qed.
Lemma mul_nonneg_cancel u k : 0 < k -> 0 <= u * k -> 0 <= u.
Proof. intros K H. destruct (Rle_or_lt 0 u); [assumption|]. exfalso. nra. Qed.
Section Pts.
Implicit Types a b c p q r t : pt2 RN.
Lemma turn_self1 a b : turn a b a = 0. Proof. unfold turn. ring. Qed.
Lemma turn_self2 a b : turn a b b = 0. Proof. unfold turn. ring. Qed.
Lemma turn_swap a b c : turn a c b = - turn a b c. Proof. unfold turn. ring. Qed.
Lemma turn_rot a b c : turn b c a = turn a b c. Proof. unfold turn. ring. Qed.
(** a, b, c turn left, p is right of c and not below bc: then p is not below ab *)
Lemma turn_ext a b c p : x2 a < x2 b -> x2 b < x2 c -> x2 c < x2 p -> 0 < turn a b c -> 0 <= turn b c p -> 0 <= turn a b p.
Proof.
  intros X Y Z A B. apply (mul_nonneg_cancel _ (x2 c - x2 b)); [lra|].
  replace (turn a b p * (x2 c - x2 b)) with (turn a b c * (x2 p - x2 b) + turn b c p * (x2 b - x2 a)) by (unfold turn; ring).
  apply Rplus_le_le_0_compat; apply Rmult_le_pos; lra.
Qed.
(** q left of b and not below ab, p above ab: then q is not below the line bp *)
Lemma turn_left a b p q : x2 a < x2 b -> x2 b < x2 p -> x2 q <= x2 b -> 0 <= turn a b q -> 0 < turn a b p -> 0 <= turn b p q.
Proof.
  intros X Y Z A B. apply (mul_nonneg_cancel _ (x2 b - x2 a)); [lra|].
  replace (turn b p q * (x2 b - x2 a)) with (turn a b q * (x2 p - x2 b) + turn a b p * (x2 b - x2 q)) by (unfold turn; ring).
  apply Rplus_le_le_0_compat; apply Rmult_le_pos; lra.
Qed.
(** after dropping b (not below ap) the points above bp are above ap *)
Lemma turn_pop1 a b p q : x2 a < x2 p -> x2 b < x2 p -> x2 q <= x2 p -> 0 <= turn b p q -> turn a b p <= 0 -> 0 <= turn a p q.
Proof.
  intros X Y Z A B. apply (mul_nonneg_cancel _ (x2 p - x2 b)); [lra|].
  replace (turn a p q * (x2 p - x2 b)) with (turn b p q * (x2 p - x2 a) + - turn a b p * (x2 p - x2 q)) by (unfold turn; ring).
  apply Rplus_le_le_0_compat; apply Rmult_le_pos; lra.
Qed.
Lemma turn_pop2 a b p q : x2 a < x2 b -> x2 a < x2 p -> x2 a <= x2 q -> 0 <= turn a b q -> turn a b p <= 0 -> 0 <= turn a p q.
Proof.
  intros X Y Z A B. apply (mul_nonneg_cancel _ (x2 b - x2 a)); [lra|].
  replace (turn a p q * (x2 b - x2 a)) with (turn a b q * (x2 p - x2 a) + - turn a b p * (x2 q - x2 a)) by (unfold turn; ring).
  apply Rplus_le_le_0_compat; apply Rmult_le_pos; lra.
Qed.
End Pts.

(** ** last *)
Lemma last_cons {A} (l : list A) : forall x d, last (x :: l) d = last l x.
Proof. induction l as [|y l IH]; intros x d; [reflexivity|]. change (last (y :: l) d = last (y :: l) x). rewrite !IH. reflexivity. Qed.
Lemma last_ne {A} (l : list A) d e : l <> [] -> last l d = last l e.
Proof. destruct l as [|x l]; [congruence|]. intros _. rewrite !last_cons. reflexivity. Qed.
Lemma last_app_ne {A} (u v : list A) d e : v <> [] -> last (u ++ v) d = last v e.
Proof.
  intros H. induction u as [|x u IH]; cbn [app]; [apply last_ne, H|]. rewrite last_cons.
  rewrite (last_ne (u ++ v) x d); [exact IH|]. destruct u; [exact H|discriminate].
Qed.
(** ** The stack, newest point first *)
Notation pts := (list (pt2 RN)).
Fixpoint chain (st : pts) : Prop :=
  match st with
  | b :: ((a :: r') as r) => x2 a < x2 b /\ chain r /\ match r' with c :: _ => 0 < turn c a b | [] => True end
  | _ => True
  end.
Fixpoint supp (st D : pts) : Prop :=
  match st with
  | b :: ((a :: _) as r) => (forall q, In q D -> 0 <= turn a b q) /\ supp r D
  | _ => True
  end.
Lemma chain_tl b st : chain (b :: st) -> chain st.
Proof. destruct st; cbn; tauto. Qed.
Lemma supp_snoc st D p : supp st D -> supp st [p] -> supp st (p :: D).
Proof.
  induction st as [|b [|a r] IH]; cbn [supp]; intros H K; auto. destruct H as [H1 H2], K as [K1 K2]. split; [|apply IH; assumption].
  intros q [<-|I]; [apply K1; left; reflexivity|apply H1, I].
Qed.
Lemma chain_above : forall (r : pts) (b a p : pt2 RN), chain (b :: a :: r) -> x2 b < x2 p -> 0 <= turn a b p -> supp (b :: a :: r) [p].
Proof.
  induction r as [|c r IH]; intros b a p C X A.
  - cbn [supp]. split; [intros q [<-|[]]; exact A|exact I].
  - cbn [chain] in C. destruct C as (AB & C & TT). pose proof C as C'. cbn [chain] in C'. destruct C' as (CA & _).
    change (supp (b :: a :: c :: r) [p]) with ((forall q, In q [p] -> 0 <= turn a b q) /\ supp (a :: c :: r) [p]).
    split; [intros q [<-|[]]; exact A|]. apply IH; [exact C|lra|]. apply (turn_ext c a b p); auto.
Qed.
Lemma pop_spec (D : pts) (p : pt2 RN) : (forall q, In q D -> x2 q < x2 p) -> forall st b, hd_error st = Some b ->
  chain st -> supp st D -> (forall q, In q st -> In q D) -> (forall q, In q D -> x2 (last st b) <= x2 q) ->
  (forall q, In q D -> x2 b <= x2 q -> 0 <= turn b p q) ->
  exists b' pre, hd_error (pop_right_turns p st) = Some b' /\ st = pre ++ pop_right_turns p st /\
    chain (p :: pop_right_turns p st) /\ supp (p :: pop_right_turns p st) (p :: D).
Proof.
  intros DP. induction st as [|b0 st IH]; intros b HB C SU IN BOT H; [discriminate|]. injection HB as ->.
  destruct st as [|a r].
  - exists b, []. cbn [pop_right_turns chain supp hd_error app]. split; [reflexivity|]. split; [reflexivity|].
    assert (BD : In b D) by (apply IN; left; reflexivity).
    split; [split; [apply DP, BD|split; exact I]|]. split; [|exact I].
    intros q [<-|Iq]; [rewrite turn_self2; lra|]. apply H; [exact Iq|]. apply BOT, Iq.
  - assert (XB : x2 b < x2 p) by (apply DP, IN; left; reflexivity).
    pose proof C as C0. cbn [chain] in C0. destruct C0 as (AB & CR & TT). pose proof SU as SU0. destruct SU0 as (S1 & S2).
    change (pop_right_turns p (b :: a :: r)) with (if nleb (ccw a b p) n0 then pop_right_turns p (a :: r) else b :: a :: r).
    destruct (R_leb_spec (ccw a b p) n0) as [L|L]; rewrite R_n0 in L; change (ccw a b p) with (turn a b p) in L.
    + destruct (IH a eq_refl CR S2) as (b' & pre & HB' & E & C' & S').
      * intros q Iq. apply IN. right. exact Iq.
      * intros q Iq. specialize (BOT q Iq). rewrite last_cons in BOT. rewrite last_cons in BOT |- *. exact BOT.
      * intros q Iq XQ. destruct (Rle_or_lt (x2 b) (x2 q)) as [Y|Y].
        -- apply (turn_pop1 a b p q); try lra; [specialize (DP q Iq); lra|apply H; assumption].
        -- apply (turn_pop2 a b p q); try lra. apply S1, Iq.
      * exists b', (b :: pre). split; [exact HB'|]. split; [cbn [app]; f_equal; exact E|]. split; assumption.
    + exists b, []. split; [reflexivity|]. split; [reflexivity|].
      assert (CC : chain (p :: b :: a :: r)) by (cbn [chain]; repeat split; try lra; [exact CR|exact TT]).
      split; [exact CC|].
      assert (SB : supp (b :: a :: r) (p :: D)) by (apply supp_snoc; [exact SU|apply chain_above; [exact C|exact XB|lra]]).
      change (supp (p :: b :: a :: r) (p :: D)) with ((forall q, In q (p :: D) -> 0 <= turn b p q) /\ supp (b :: a :: r) (p :: D)).
      split; [|exact SB]. intros q [<-|Iq]; [rewrite turn_self2; lra|].
      destruct (Rle_or_lt (x2 b) (x2 q)) as [Y|Y]; [apply H; assumption|]. apply (turn_left a b p q); try lra. apply S1, Iq.
Qed.
Definition xlt (p q : pt2 RN) : Prop := x2 p < x2 q.
(** The whole chain: from the first to the last point, below every point. *)
Lemma fold_spec : forall ps D st b m, hd_error st = Some b -> last st b = m -> chain st -> supp st D ->
  (forall q, In q st -> In q D) -> (forall q, In q D -> x2 m <= x2 q) -> (forall q, In q D -> q = b \/ x2 q < x2 b) ->
  StronglySorted xlt ps -> Forall (xlt b) ps ->
  let st' := fold_left (fun st p => p :: pop_right_turns p st) ps st in
  hd_error st' = Some (last ps b) /\ last st' b = m /\ chain st' /\ supp st' (rev ps ++ D) /\
  (forall q, In q st' -> In q (rev ps ++ D)).
Proof.
  induction ps as [|p ps IH]; intros D st b m HB LA C SU IN BOT TOP SS FA; cbn [fold_left rev app]; [auto|].
  inversion FA as [|? ? XB FA']; subst. inversion SS as [|? ? SS' FP]; subst.
  assert (DP : forall q, In q D -> x2 q < x2 p).
  { intros q Iq. unfold xlt in XB. destruct (TOP q Iq) as [->|L]; lra. }
  destruct (pop_spec D p DP st b HB C SU IN BOT) as (b' & pre & HB' & E & C' & S').
  { intros q Iq XQ. destruct (TOP q Iq) as [->|L]; [|lra]. rewrite turn_rot. unfold turn. lra. }
  set (st1 := p :: pop_right_turns p st) in *.
  assert (L1 : forall d e, last st1 d = last st e).
  { intros d e. unfold st1. rewrite E at 2. rewrite last_cons. symmetry. apply last_app_ne. destruct (pop_right_turns p st); [discriminate|congruence]. }
  destruct (IH (p :: D) st1 p (last st b)) as (H1 & H2 & H3 & H4 & H5); auto.
  - intros q [<-|Iq]; [left; reflexivity|right]. apply IN. rewrite E. apply in_or_app. right. exact Iq.
  - intros q [<-|Iq]; [|apply BOT, Iq]. assert (In b D) by (apply IN; destruct st; [discriminate|]; injection HB as ->; left; reflexivity).
    pose proof (BOT b H). unfold xlt in XB. lra.
  - intros q [<-|Iq]; [left; reflexivity|right; apply DP, Iq].
  - rewrite last_cons. split; [exact H1|]. rewrite <- app_assoc. cbn [app]. split; [|auto].
    rewrite <- H2. apply last_ne. intros Q. rewrite Q in H1. discriminate.
Qed.
(** ** Half hulls *)
Record half (lt : pt2 RN -> pt2 RN -> Prop) (ps L : pts) : Prop := {
  half_first : hd_error L = hd_error ps;
  half_last : forall d, last L d = last ps d;
  half_adj : forall a b, adjacent L a b -> lt a b /\ forall q, In q ps -> 0 <= turn a b q;
  half_adj3 : forall a b c, adjacent3 L a b c -> 0 < turn a b c;
  half_incl : forall q, In q L -> In q ps }.
Lemma chain_adj st D : chain st -> supp st D -> forall u b a v, st = u ++ b :: a :: v -> xlt a b /\ forall q, In q D -> 0 <= turn a b q.
Proof.
  intros C SU u. revert st C SU. induction u as [|y u IH]; intros st C SU b a v ->; cbn [app] in *.
  - cbn [chain] in C. destruct C as (X & _). destruct SU as (S1 & _). split; assumption.
  - apply (IH (u ++ b :: a :: v)) with (v := v); [apply (chain_tl y), C| |reflexivity].
    destruct u as [|z u]; cbn [app] in *; destruct SU as (_ & S2); exact S2.
Qed.
Lemma chain_adj3 st : chain st -> forall u c b a v, st = u ++ c :: b :: a :: v -> 0 < turn a b c.
Proof.
  intros C u. revert st C. induction u as [|y u IH]; intros st C c b a v ->; cbn [app] in *.
  - cbn [chain] in C. tauto.
  - apply (IH (u ++ c :: b :: a :: v)) with (v := v); [apply (chain_tl y), C|reflexivity].
Qed.
Lemma hd_rev {A} (l : list A) d : hd_error (rev l) = match l with [] => None | _ => Some (last l d) end.
Proof.
  destruct l as [|x l]; [reflexivity|]. destruct (exists_last (l := x :: l)) as (l' & y & E); [discriminate|]. rewrite E, rev_unit. cbn [hd_error].
  rewrite (last_app_ne l' [y] d d) by discriminate. destruct l'; reflexivity.
Qed.
Lemma last_rev {A} (l : list A) d : last (rev l) d = match l with [] => d | x :: _ => x end.
Proof. destruct l as [|x l]; [reflexivity|]. cbn [rev]. rewrite (last_app_ne _ [x] d d) by discriminate. reflexivity. Qed.
Lemma half_hull_lower ps : StronglySorted xlt ps -> half xlt ps (half_hull ps).
Proof.
  intros SS. destruct ps as [|p ps].
  - constructor.
    + reflexivity.
    + reflexivity.
    + intros a b (u & v & E). destruct u; discriminate.
    + intros a b c (u & v & E). destruct u; discriminate.
    + intros q [].
  - inversion SS as [|? ? SS' FA]; subst. unfold half_hull. cbn [fold_left pop_right_turns].
    destruct (fold_spec ps [p] [p] p p eq_refl eq_refl I I) as (H1 & H2 & H3 & H4 & H5); auto.
    { intros q [<-|[]]; lra. } { intros q [<-|[]]; auto. }
    set (st := fold_left _ ps [p]) in *.
    assert (IN : forall q, In q (rev ps ++ [p]) <-> In q (p :: ps)).
    { intros q. rewrite in_app_iff, <- in_rev. cbn [In]. tauto. }
    constructor.
    + rewrite (hd_rev _ p). destruct st; [discriminate|]. rewrite H2. reflexivity.
    + intros d. rewrite last_rev, last_cons. destruct st; [discriminate|]. injection H1 as ->. reflexivity.
    + intros a b (u & v & E).
      assert (E' : st = rev v ++ b :: a :: rev u).
      { rewrite <- (rev_involutive st), E, rev_app_distr. cbn [rev]. rewrite <- !app_assoc. reflexivity. }
      destruct (chain_adj st (rev ps ++ [p]) H3 H4 _ _ _ _ E') as [X Y]. split; [exact X|]. intros q Iq. apply Y, IN, Iq.
    + intros a b c (u & v & E).
      assert (E' : st = rev v ++ c :: b :: a :: rev u).
      { rewrite <- (rev_involutive st), E, rev_app_distr. cbn [rev]. rewrite <- !app_assoc. reflexivity. }
      apply (chain_adj3 st H3 _ _ _ _ _ E').
    + intros q Iq. apply IN, H5. apply in_rev, Iq.
Qed.
(** The other half is the same for the points turned by 180 degrees. *)
Definition ng (p : pt2 RN) : pt2 RN := rp2 (- x2 p) (- y2 p).
Lemma ng_ng p : ng (ng p) = p. Proof. destruct p. unfold ng, rp2. cbn. f_equal; apply Ropp_involutive. Qed.
Lemma turn_ng a b c : turn (ng a) (ng b) (ng c) = turn a b c. Proof. unfold turn, ng, rp2. cbn [x2 y2]. ring. Qed.
Lemma pop_ng p st : pop_right_turns (ng p) (map ng st) = map ng (pop_right_turns p st).
Proof.
  induction st as [|b st IH]; [reflexivity|]. destruct st as [|a r]; [reflexivity|].
  change (pop_right_turns (ng p) (map ng (b :: a :: r))) with (if nleb (ccw (ng a) (ng b) (ng p)) n0 then pop_right_turns (ng p) (map ng (a :: r)) else map ng (b :: a :: r)).
  change (pop_right_turns p (b :: a :: r)) with (if nleb (ccw a b p) n0 then pop_right_turns p (a :: r) else b :: a :: r).
  rewrite !ccw_R, turn_ng, IH. destruct (nleb _ _); reflexivity.
Qed.
Lemma half_hull_ng ps : half_hull (map ng ps) = map ng (half_hull ps).
Proof.
  unfold half_hull. rewrite map_rev. f_equal. change (@nil (pt2 RN)) with (map ng []) at 1. generalize (@nil (pt2 RN)). induction ps as [|p ps IH]; intros st; [reflexivity|].
  cbn [map fold_left]. rewrite pop_ng. change (ng p :: map ng (pop_right_turns p st)) with (map ng (p :: pop_right_turns p st)). apply IH.
Qed.
Lemma map_map_ng l : map ng (map ng l) = l.
Proof. rewrite map_map. rewrite <- (map_id l) at 2. apply map_ext, ng_ng. Qed.
Definition xgt (p q : pt2 RN) : Prop := x2 q < x2 p.
Lemma last_map {A B} (f : A -> B) l d : last (map f l) (f d) = f (last l d).
Proof. revert d. induction l as [|x l IH]; intros d; [reflexivity|]. cbn [map]. rewrite !last_cons. apply IH. Qed.
Lemma half_hull_upper ps : StronglySorted xgt ps -> half xgt ps (half_hull ps).
Proof.
  intros SS. assert (S2 : StronglySorted xlt (map ng ps)).
  { clear -SS. induction SS as [|p ps S IH F]; cbn [map]; [constructor|]. constructor; [exact IH|]. apply Forall_forall. intros q Iq. apply in_map_iff in Iq.
    destruct Iq as (r & <- & Ir). rewrite Forall_forall in F. specialize (F r Ir). unfold xlt, xgt, ng, rp2 in *. cbn [x2]. lra. }
  destruct (half_hull_lower _ S2) as [H1 H2 H3 H4 H5]. rewrite half_hull_ng in *. set (L := half_hull ps) in *.
  constructor.
  - destruct L as [|y L], ps as [|p ps]; cbn in H1 |- *; try congruence. apply (f_equal (fun o => match o with Some z => Some (ng z) | None => None end)) in H1. rewrite !ng_ng in H1. exact H1.
  - intros d. specialize (H2 (ng d)). rewrite !last_map in H2. apply (f_equal ng) in H2. rewrite !ng_ng in H2. exact H2.
  - intros a b (u & v & E). destruct (H3 (ng a) (ng b)) as [X Y].
    { exists (map ng u), (map ng v). rewrite E, map_app. reflexivity. }
    split; [unfold xlt, xgt, ng, rp2 in *; cbn [x2] in X; lra|]. intros q Iq. rewrite <- turn_ng. apply Y, in_map, Iq.
  - intros a b c (u & v & E). rewrite <- turn_ng. apply H4. exists (map ng u), (map ng v). rewrite E, map_app. reflexivity.
  - intros q Iq. apply (in_map ng) in Iq. apply H5, in_map_iff in Iq. destruct Iq as (r & E & Ir). apply (f_equal ng) in E. rewrite !ng_ng in E. subst. exact Ir.
Qed.
(** ** The hull *)
Lemma adjacent_app {A} (u v : list A) x a b : adjacent (u ++ x :: v) a b <-> adjacent (u ++ [x]) a b \/ adjacent (x :: v) a b.
Proof.
  split.
  - revert x. induction u as [|y u IH]; intros x (k & l & E); cbn [app] in *; [right; exists k, l; exact E|].
    destruct k as [|z k]; cbn [app] in E.
    + injection E as -> E. left. destruct u as [|w u]; cbn [app] in *.
      * injection E as -> E. exists [], []. reflexivity.
      * injection E as -> E. exists [], (u ++ [x]). reflexivity.
    + injection E as -> E. destruct (IH x (ex_intro _ k (ex_intro _ l E))) as [(k' & l' & E')|H]; [|right; exact H].
      left. exists (z :: k'), l'. cbn [app]. rewrite E'. reflexivity.
  - intros [(k & l & E)|(k & l & E)].
    + exists k, (l ++ v). replace (u ++ x :: v) with ((u ++ [x]) ++ v) by (rewrite <- app_assoc; reflexivity). rewrite E, <- app_assoc. reflexivity.
    + exists (u ++ k), l. rewrite E, <- app_assoc. reflexivity.
Qed.
Lemma adjacent3_app {A} (u v : list A) x a b c : adjacent3 (u ++ x :: v) a b c ->
  adjacent3 (u ++ [x]) a b c \/ adjacent3 (x :: v) a b c \/ (b = x /\ adjacent (u ++ [x]) a x /\ adjacent (x :: v) x c).
Proof.
  revert x. induction u as [|y u IH]; intros x (k & l & E); cbn [app] in *; [right; left; exists k, l; exact E|].
  destruct k as [|z k]; cbn [app] in E.
  - injection E as -> E. destruct u as [|w u]; cbn [app] in *.
    + injection E as -> E. right. right. split; [reflexivity|]. split; [exists [], []; reflexivity|]. exists [], l. rewrite E. reflexivity.
    + injection E as -> E. left. destruct u as [|w u]; cbn [app] in *; injection E as -> E; [exists [], []; reflexivity|exists [], (u ++ [x]); reflexivity].
  - injection E as -> E. destruct (IH x (ex_intro _ k (ex_intro _ l E))) as [(k' & l' & E')|[H|(-> & (k' & l' & E') & H)]].
    + left. exists (z :: k'), l'. cbn [app]. rewrite E'. reflexivity.
    + right. left. exact H.
    + right. right. split; [reflexivity|]. split; [|exact H]. exists (z :: k'), l'. cbn [app]. rewrite E'. reflexivity.
Qed.
Lemma interior_adj3 {A} (m M q : A) l : In q l -> exists p r, adjacent3 (m :: l ++ [M]) p q r.
Proof.
  intros I. apply in_split in I. destruct I as (u & v & ->).
  assert (P : exists u' p, m :: u = u' ++ [p]) by (destruct (exists_last (l := m :: u)) as (u' & p & E); [discriminate|eauto]). destruct P as (u' & p & P).
  assert (Q : exists r v', v ++ [M] = r :: v') by (destruct v; cbn; eauto). destruct Q as (r & v' & Q).
  exists p, r, u', v'. rewrite <- app_assoc. cbn [app]. rewrite Q. change (m :: u ++ q :: r :: v') with ((m :: u) ++ q :: r :: v'). rewrite P, <- app_assoc. reflexivity.
Qed.
Lemma junction (a M c : pt2 RN) ps : 0 < (x2 M - x2 a) * (x2 M - x2 c) -> (forall q, In q ps -> 0 <= turn a M q) -> (forall q, In q ps -> 0 <= turn M c q) ->
  turn a M c = 0 -> forall q, In q ps -> turn a M q = 0.
Proof.
  intros X A B Z q I. specialize (A q I). specialize (B q I).
  assert (E : turn M c q * (x2 M - x2 a) = - (x2 M - x2 c) * turn a M q + (x2 M - x2 q) * turn a M c) by (unfold turn; ring).
  rewrite Z, Rmult_0_r, Rplus_0_r in E. set (k := x2 M - x2 a) in *. set (v := x2 M - x2 c) in *. set (tq := turn a M q) in *. set (sq := turn M c q) in *. clearbody k v tq sq. clear Z.
  assert (F : sq * (k * k) = - (k * v * tq)) by (replace (sq * (k * k)) with (sq * k * k) by ring; rewrite E; ring).
  assert (0 <= sq * (k * k)) by (apply Rmult_le_pos; [exact B|apply Rle_0_sqr]).
  destruct (Rle_lt_or_eq_dec 0 tq A) as [G|G]; [|symmetry; exact G]. assert (0 < k * v * tq) by (apply Rmult_lt_0_compat; assumption). lra.
Qed.
Lemma collinear (a M p q r : pt2 RN) : x2 M <> x2 a -> turn a M p = 0 -> turn a M q = 0 -> turn a M r = 0 -> turn p q r = 0.
Proof.
  intros X P Q S. assert (E : turn p q r * (x2 M - x2 a) = (x2 q - x2 p) * (turn a M r - turn a M p) - (turn a M q - turn a M p) * (x2 r - x2 p)) by (unfold turn; ring).
  rewrite P, Q, S in E. apply (Rmult_eq_reg_r (x2 M - x2 a)); [rewrite E; ring|]. intros Z. apply X. apply Rminus_diag_uniq, Z.
Qed.
Lemma half_sorted (lt : pt2 RN -> pt2 RN -> Prop) ps L : (forall a b c : pt2 RN, lt a b -> lt b c -> lt a c) -> half lt ps L -> StronglySorted lt L.
Proof.
  intros TR [_ _ H _ _]. assert (G : forall a b, adjacent L a b -> lt a b) by (intros a b K; apply H, K). clear H. induction L as [|x L IH]; [constructor|].
  assert (SL : StronglySorted lt L) by (apply IH; intros a b (u & v & ->); apply G; exists (x :: u), v; reflexivity).
  constructor; [exact SL|]. destruct L as [|y L]; [constructor|]. assert (X : lt x y) by (apply G; exists [], L; reflexivity). constructor; [exact X|].
  inversion SL as [|? ? _ F]; subst. eapply Forall_impl; [|exact F]. intros z Z. apply (TR _ y); assumption.
Qed.
Lemma sorted_NoDup (lt : pt2 RN -> pt2 RN -> Prop) l : (forall a, ~ lt a a) -> StronglySorted lt l -> NoDup l.
Proof.
  intros IR S. induction S as [|x l S IH F]; constructor; [|exact IH]. intros I. rewrite Forall_forall in F. exact (IR x (F x I)).
Qed.
Lemma half_shape (lt : pt2 RN -> pt2 RN -> Prop) ps L m M : (forall a, ~ lt a a) -> half lt ps L -> hd_error ps = Some m -> last ps m = M -> m <> M -> exists l, L = m :: l ++ [M].
Proof.
  intros IR [H1 H2 _ _ _] HM LM NE. rewrite HM in H1. specialize (H2 m). rewrite LM in H2. destruct L as [|y L]; [discriminate|]. injection H1 as ->.
  rewrite last_cons in H2. destruct L as [|z L]; [cbn in H2; congruence|]. destruct (exists_last (l := z :: L)) as (l & w & E); [discriminate|].
  rewrite E in H2 |- *. rewrite (last_app_ne _ [w] m m) in H2 by discriminate. cbn in H2. subst w. eauto.
Qed.
Section Main.
Variables (ps L U : pts) (m M : pt2 RN).
Hypothesis HL : half xlt ps L.
Hypothesis HU : half xgt (rev ps) U.
Hypothesis Hm : hd_error ps = Some m.
Hypothesis HM : last ps m = M.
Hypothesis mM : x2 m < x2 M.
Lemma xlt_irr (a : pt2 RN) : ~ xlt a a. Proof. unfold xlt. lra. Qed.
Lemma xgt_irr (a : pt2 RN) : ~ xgt a a. Proof. unfold xgt. lra. Qed.
Lemma rev_in q : In q (rev ps) <-> In q ps. Proof. symmetry. apply in_rev. Qed.
Lemma main_shape : exists l u, L = m :: l ++ [M] /\ U = M :: u ++ [m].
Proof.
  destruct (half_shape xlt ps L m M xlt_irr HL Hm HM) as (l & El); [intros ->; lra|].
  destruct (half_shape xgt (rev ps) U M m xgt_irr HU) as (u & Eu).
  - rewrite (hd_rev _ m). destruct ps; [discriminate|]. rewrite HM. reflexivity.
  - rewrite last_rev. destruct ps; [discriminate|]. injection Hm as ->. reflexivity.
  - intros ->; lra.
  - eauto.
Qed.
Lemma in_L_ps l u q : L = m :: l ++ [M] -> U = M :: u ++ [m] -> In q (m :: l ++ M :: u) -> In q ps.
Proof.
  intros EL EU [<-|I]; [apply (half_incl _ _ _ HL); rewrite EL; left; reflexivity|]. apply in_app_iff in I. destruct I as [I|I].
  - apply (half_incl _ _ _ HL). rewrite EL. right. apply in_or_app. auto.
  - apply rev_in, (half_incl _ _ _ HU). rewrite EU. destruct I as [<-|I]; [left; reflexivity|right; apply in_or_app; auto].
Qed.
Lemma main_nodup l u : L = m :: l ++ [M] -> U = M :: u ++ [m] -> NoDup (m :: l ++ M :: u).
Proof.
  intros EL EU.
  assert (NL : NoDup L) by (apply (sorted_NoDup xlt); [exact xlt_irr|apply (half_sorted _ ps); [unfold xlt; intros; lra|exact HL]]).
  assert (NU : NoDup U) by (apply (sorted_NoDup xgt); [exact xgt_irr|apply (half_sorted _ (rev ps)); [unfold xgt; intros; lra|exact HU]]).
  change (m :: l ++ M :: u) with ((m :: l) ++ M :: u). rewrite EL in NL. change (m :: l ++ [M]) with ((m :: l) ++ [M]) in NL.
  rewrite EU in NU. change (M :: u ++ [m]) with ((M :: u) ++ [m]) in NU.
  assert (N1 : NoDup (m :: l)) by (apply NoDup_remove_1 in NL; rewrite app_nil_r in NL; exact NL).
  assert (N2 : NoDup (M :: u)) by (apply NoDup_remove_1 in NU; rewrite app_nil_r in NU; exact NU).
  assert (M1 : ~ In M (m :: l)) by (apply NoDup_remove_2 in NL; rewrite app_nil_r in NL; exact NL).
  assert (M2 : ~ In m (M :: u)) by (apply NoDup_remove_2 in NU; rewrite app_nil_r in NU; exact NU).
  assert (DJ : forall q, In q (m :: l) -> ~ In q (M :: u)).
  { intros q I J. destruct I as [<-|I]; [exact (M2 J)|]. destruct J as [<-|J]; [apply M1; right; exact I|].
    destruct (interior_adj3 m M q l I) as (p & r & K). destruct (interior_adj3 M m q u J) as (s & t & K').
    rewrite <- EL in K. rewrite <- EU in K'. pose proof (half_adj3 _ _ _ HL _ _ _ K) as T1. 
    destruct K as (k1 & k2 & K). destruct K' as (k3 & k4 & K').
    destruct (half_adj _ _ _ HL p q) as [PQ SP]; [exists k1, (r :: k2); exact K|].
    destruct (half_adj _ _ _ HL q r) as [QR _]; [exists (k1 ++ [p]), k2; rewrite K, <- app_assoc; reflexivity|].
    destruct (half_adj _ _ _ HU q t) as [QT ST]; [exists (k3 ++ [s]), k4; rewrite K', <- app_assoc; reflexivity|].
    assert (It : In t ps) by (apply rev_in, (half_incl _ _ _ HU); rewrite K'; apply in_or_app; cbn; auto).
    assert (Ir : In r ps) by (apply (half_incl _ _ _ HL); rewrite K; apply in_or_app; cbn; auto).
    specialize (SP t It). specialize (ST r (proj2 (rev_in r) Ir)). unfold xlt, xgt in *.
    assert (E : turn p q r * (x2 q - x2 t) = - turn p q t * (x2 r - x2 q) + - turn q t r * (x2 q - x2 p)) by (unfold turn; ring).
    assert (0 < turn p q r * (x2 q - x2 t)) by (apply Rmult_lt_0_compat; lra).
    assert (0 <= turn p q t * (x2 r - x2 q)) by (apply Rmult_le_pos; lra).
    assert (0 <= turn q t r * (x2 q - x2 p)) by (apply Rmult_le_pos; lra). lra. }
  clear -N1 N2 DJ. induction (m :: l) as [|y k IH]; cbn [app]; [exact N2|]. inversion N1; subst. constructor.
  - intros I. apply in_app_iff in I. destruct I as [I|I]; [auto|]. apply (DJ y); [left; reflexivity|exact I].
  - apply IH; [assumption|]. intros q Iq. apply DJ. right. exact Iq.
Qed.
Lemma main_left l u a b : L = m :: l ++ [M] -> U = M :: u ++ [m] -> adjacent ((m :: l ++ M :: u) ++ [m]) a b -> forall q, In q ps -> 0 <= turn a b q.
Proof.
  intros EL EU. replace ((m :: l ++ M :: u) ++ [m]) with ((m :: l) ++ M :: (u ++ [m])) by (cbn [app]; rewrite <- app_assoc; reflexivity).
  intros H q I. apply adjacent_app in H. destruct H as [H|H].
  - apply (half_adj _ _ _ HL); [rewrite EL; exact H|exact I].
  - apply (half_adj _ _ _ HU); [rewrite EU; exact H|apply rev_in, I].
Qed.
Lemma adjacent_in {A} (l : list A) a b : adjacent l a b -> In a l /\ In b l.
Proof. intros (u & v & ->). split; apply in_or_app; cbn; auto. Qed.
Lemma main_strict l u a b c : L = m :: l ++ [M] -> U = M :: u ++ [m] -> (3 <= length (m :: l ++ M :: u))%nat ->
  adjacent3 ((m :: l ++ M :: u) ++ firstn 2 (m :: l ++ M :: u)) a b c -> 0 < turn a b c.
Proof.
  intros EL EU LEN H.
  assert (INL : forall q, In q L -> In q ps) by (intros q I; apply (half_incl _ _ _ HL), I).
  assert (INU : forall q, In q U -> In q ps) by (intros q I; apply rev_in, (half_incl _ _ _ HU), I).
  (* somewhere there is a real turn *)
  assert (NC : exists p q r, In p ps /\ In q ps /\ In r ps /\ turn p q r <> 0).
  { assert (G : forall x y k K, (forall q, In q K -> In q ps) -> (forall a b c, adjacent3 K a b c -> 0 < turn a b c) -> K = x :: k ++ [y] -> k <> [] ->
      exists p q r, In p ps /\ In q ps /\ In r ps /\ turn p q r <> 0).
    { intros x y k K IK TK -> NK. destruct k as [|q k]; [congruence|]. destruct (interior_adj3 x y q (q :: k) (or_introl eq_refl)) as (p & r & AD).
      exists p, q, r. pose proof (TK _ _ _ AD) as TT. destruct AD as (k1 & k2 & AD). rewrite AD in IK.
      split; [apply IK, in_or_app; cbn; auto|]. split; [apply IK, in_or_app; cbn; auto|]. split; [apply IK, in_or_app; cbn; auto|lra]. }
    destruct l as [|y l']; [destruct u as [|y u']; [cbn in LEN; lia|]|].
    - apply (G M m (y :: u') U); auto; [exact (half_adj3 _ _ _ HU)|discriminate].
    - apply (G m M (y :: l') L); auto; [exact (half_adj3 _ _ _ HL)|discriminate]. }
  assert (J : forall a K c : pt2 RN, (0 < (x2 K - x2 a) * (x2 K - x2 c)) -> In c ps -> (forall q, In q ps -> 0 <= turn a K q) -> (forall q, In q ps -> 0 <= turn K c q) -> 0 < turn a K c).
  { intros a' K c' X Ic A B. destruct (Rle_lt_or_eq_dec 0 (turn a' K c') (A c' Ic)) as [G|Z]; [exact G|]. exfalso. symmetry in Z.
    pose proof (junction a' K c' ps X A B Z) as C. destruct NC as (p & q & r & Ip & Iq & Ir & NZ). apply NZ.
    apply (collinear a' K); try (apply C; assumption). intros E. rewrite E in X. lra. }
  assert (S : exists s, firstn 2 (m :: l ++ M :: u) = [m; s] /\ adjacent L m s).
  { destruct l as [|y l']; cbn [app firstn].
    - exists M. split; [reflexivity|]. rewrite EL. exists [], []. reflexivity.
    - exists y. split; [reflexivity|]. rewrite EL. exists [], (l' ++ [M]). reflexivity. }
  destruct S as (s & ES & AS). rewrite ES in H.
  replace ((m :: l ++ M :: u) ++ [m; s]) with ((m :: l) ++ M :: (u ++ m :: [s])) in H by (cbn [app]; rewrite <- app_assoc; reflexivity).
  apply adjacent3_app in H. destruct H as [H|[H|(-> & H1 & H2)]].
  - apply (half_adj3 _ _ _ HL). rewrite EL. exact H.
  - change (M :: u ++ m :: [s]) with ((M :: u) ++ m :: [s]) in H. apply adjacent3_app in H. destruct H as [H|[H|(-> & H1 & H2)]].
    + apply (half_adj3 _ _ _ HU). rewrite EU. exact H.
    + exfalso. destruct H as (k1 & k2 & E). apply (f_equal (@length _)) in E. rewrite app_length in E. cbn in E. lia.
    + assert (c = s). { destruct H2 as (k1 & k2 & E). destruct k1 as [|? k1]; cbn in E; [congruence|]. injection E as _ E. destruct k1; cbn in E; [discriminate|]. injection E as _ E. destruct k1; discriminate. }
      subst c. change ((M :: u) ++ [m]) with (M :: u ++ [m]) in H1. rewrite <- EU in H1. destruct (half_adj _ _ _ HU _ _ H1) as [X1 Y1]. destruct (half_adj _ _ _ HL _ _ AS) as [X2 Y2]. unfold xlt, xgt in *.
      apply J; auto; [nra|apply INL, (adjacent_in _ _ _ AS)|intros q I; apply Y1, rev_in, I].
  - change ((m :: l) ++ [M]) with (m :: l ++ [M]) in H1. rewrite <- EL in H1.
    change (M :: u ++ m :: [s]) with ((M :: u) ++ m :: [s]) in H2. apply adjacent_app in H2. destruct H2 as [H2|H2].
    + change ((M :: u) ++ [m]) with (M :: u ++ [m]) in H2. rewrite <- EU in H2. destruct (half_adj _ _ _ HL _ _ H1) as [X1 Y1]. destruct (half_adj _ _ _ HU _ _ H2) as [X2 Y2]. unfold xlt, xgt in *.
      apply J; auto; [nra|apply INU, (adjacent_in _ _ _ H2)|intros q I; apply Y2, rev_in, I].
    + exfalso. destruct H2 as (k1 & k2 & E). destruct k1 as [|? k1]; cbn in E; [injection E as E _; rewrite E in mM; lra|]. injection E as _ E. destruct k1; cbn in E; [discriminate|]. injection E as _ E. destruct k1; discriminate.
Qed.
End Main.
From Verif Require Import KdLemmas CloudLemmas.
Lemma cmp2_x_R (a b : pt2 RN) : cmp2_x a b = cmp_or_eq (@ncmp RN (x2 a) (x2 b)).
Proof. unfold cmp2_x. destruct (num_cmp RN_laws (x2 a) (x2 b) I I) as [o ->]. reflexivity. Qed.
Lemma sorted_x sort (ps : pts) : sort_ok sort -> NoDup (map x2 ps) -> StronglySorted xlt (sort _ cmp2_x ps).
Proof.
  intros SO ND.
  assert (OK : cmp_ok cmp2_x ps).
  { assert (K : cmp_ok (fun a b : pt2 RN => cmp_or_eq (ncmp (x2 a) (x2 b))) ps) by (apply (cmp_preorder RN_laws x2), Forall_forall; auto).
    destruct K as [K1 K2]. split.
    - intros a b Ia Ib. rewrite !cmp2_x_R. apply K1; assumption.
    - intros a b c Ia Ib Ic. rewrite !cmp2_x_R. apply K2; assumption. }
  pose proof (sort_perm _ SO _ cmp2_x ps) as P. pose proof (sort_sorted _ SO _ cmp2_x ps OK) as S.
  apply (Permutation_map x2), Permutation_NoDup in P; [|exact ND]. clear -P S. induction S as [|a l S IH F]; [constructor|].
  cbn [map] in P. inversion P as [|? ? N ND']; subst. constructor; [apply IH, ND'|]. rewrite Forall_forall in F |- *. intros b Ib. specialize (F b Ib).
  rewrite cmp2_x_R in F. unfold xlt. destruct (Rtotal_order (x2 a) (x2 b)) as [G|[G|G]]; [exact G| |].
  - exfalso. apply N. rewrite G. exact (in_map (@x2 RN) l b Ib).
  - exfalso. apply F. pose proof (proj2 (R_gtb (x2 a) (x2 b)) G) as Q. unfold ngtb in Q. destruct (@ncmp RN (x2 a) (x2 b)) as [[]|]; try discriminate. reflexivity.
Qed.
(** the hull of points with different x *)
Lemma hull_main sort (ps : pts) : sort_ok sort -> NoDup (map x2 ps) -> (2 <= length ps)%nat ->
  let h := convex_hull sort ps in
  (forall q, In q h -> In q ps) /\ NoDup h /\ (2 <= length h)%nat /\
  (exists m M, In m h /\ In M h /\ forall q, In q ps -> x2 m <= x2 q <= x2 M) /\
  (forall a b, adjacent (h ++ firstn 1 h) a b -> forall q, In q ps -> 0 <= turn a b q) /\
  ((3 <= length h)%nat -> forall a b c, adjacent3 (h ++ firstn 2 h) a b c -> 0 < turn a b c).
Proof.
  intros SO ND LEN h. pose proof (sorted_x sort ps SO ND) as SS. pose proof (sort_perm _ SO _ cmp2_x ps) as P.
  unfold convex_hull in h. set (qs := sort _ cmp2_x ps) in *. clearbody qs.
  assert (IN : forall q, In q qs <-> In q ps) by (intros q; split; apply Permutation_in; [apply Permutation_sym|]; exact P).
  destruct qs as [|m [|y r]]; [apply Permutation_length in P; cbn in P; lia|apply Permutation_length in P; cbn in P; lia|].
  set (qs := m :: y :: r) in *.
  assert (SR : StronglySorted xgt (rev qs)).
  { clear -SS. induction SS as [|a l S IH F]; [constructor|]. cbn [rev]. clear S. rewrite Forall_forall in F. assert (F' : forall q, In q (rev l) -> xlt a q) by (intros q I; apply F, in_rev, I).
    clear F. induction IH as [|b k S IH' G]; cbn [app]; [repeat constructor|]. constructor; [apply IH'; intros; apply F'; right; assumption|].
    apply Forall_app. split; [exact G|]. constructor; [|constructor]. apply (F' b (or_introl eq_refl)). }
  pose proof (half_hull_lower qs SS) as HL. pose proof (half_hull_upper (rev qs) SR) as HU.
  set (M := last qs m) in *.
  assert (LA : In M qs /\ forall q, In q qs -> x2 m <= x2 q <= x2 M).
  { assert (GE : forall l a, StronglySorted xlt (a :: l) -> In (last (a :: l) a) (a :: l) /\ forall q, In q (a :: l) -> x2 a <= x2 q <= x2 (last (a :: l) a)).
    { clear. induction l as [|b l IH]; intros a S; [cbn; split; [auto|intros q [<-|[]]; lra]|]. inversion S as [|? ? S' F]; subst. destruct (IH b S') as [I1 I2].
      rewrite last_cons. rewrite (last_ne (b :: l) a b) by discriminate. split; [right; exact I1|]. rewrite Forall_forall in F. unfold xlt in F.
      intros q [<-|Iq]; [pose proof (F _ I1); lra|]. specialize (F _ Iq). specialize (I2 _ Iq). lra. }
    exact (GE (y :: r) m SS). }
  destruct LA as [IM BD].
  assert (mM : x2 m < x2 M).
  { inversion SS as [|? ? _ F]; subst. rewrite Forall_forall in F. specialize (F y (or_introl eq_refl)). unfold xlt in F. pose proof (BD y (or_intror (or_introl eq_refl))). lra. }
  destruct (main_shape qs (half_hull qs) (half_hull (rev qs)) m M HL HU eq_refl eq_refl mM) as (l & u & EL & EU).
  assert (Eh : h = m :: l ++ M :: u).
  { unfold h. rewrite EL, EU. change (m :: l ++ [M]) with ((m :: l) ++ [M]). change (M :: u ++ [m]) with ((M :: u) ++ [m]). rewrite !removelast_app by discriminate. cbn [removelast]. rewrite !app_nil_r. reflexivity. }
  clearbody h. subst h.
  split; [intros q I; apply IN, (in_L_ps qs _ _ m M HL HU l u q EL EU I)|].
  split; [exact (main_nodup qs _ _ m M HL HU l u EL EU)|].
  split; [cbn [length]; rewrite app_length; cbn [length]; lia|].
  split; [exists m, M; split; [left; reflexivity|]; split; [right; apply in_or_app; right; left; reflexivity|]; intros q I; apply BD, IN, I|].
  split; [intros a b H q I; cbn [firstn] in H; apply (main_left qs _ _ m M HL HU l u a b EL EU H), IN, I|].
  intros L3 a b c H. exact (main_strict qs _ _ m M HL HU mM l u a b c EL EU L3 H).
Qed.

(** ** Douglas-Peucker *)
Section DP.
Context {NM : Num}.
Lemma dp_fold (p q : pt2 NM) : forall l k d i, fst (fold_left (dp_step p q) (combine (seq k (length l)) l) (d, i)) = d /\ snd (fold_left (dp_step p q) (combine (seq k (length l)) l) (d, i)) = i \/
  (k <= snd (fold_left (dp_step p q) (combine (seq k (length l)) l) (d, i)) < k + length l)%nat.
Proof.
  induction l as [|x l IH]; intros k d i; cbn [length seq combine fold_left]; [left; split; reflexivity|].
  change (dp_step p q (d, i) (k, x)) with (if ngtb (distance_point_line x p q) d then (distance_point_line x p q, k) else (d, i)). destruct (ngtb (distance_point_line x p q) d).
  - destruct (IH (S k) (distance_point_line x p q) k) as [[_ E]|H]; right; [rewrite E|]; lia.
  - destruct (IH (S k) d i) as [H|H]; [left; exact H|right; lia].
Qed.
Lemma removelast_length {A} (l : list A) : length (removelast l) = (length l - 1)%nat.
Proof. induction l as [|x [|y l] IH]; [reflexivity|reflexivity|]. change (removelast (x :: y :: l)) with (x :: removelast (y :: l)). cbn [length] in *. lia. Qed.
Lemma dp_index (p : pt2 NM) r : dp_farthest p r = (n0, O) \/ (1 <= snd (dp_farthest p r) < length r)%nat.
Proof.
  unfold dp_farthest. pose proof (dp_fold p (last r p) (removelast r) 1 n0 O) as H. rewrite removelast_length in H.
  destruct (fold_left _ _ _) as [d i]. cbn [fst snd] in *. destruct H as [[-> ->]|H]; [left; reflexivity|right; lia].
Qed.
Lemma sub_refl {A} (l : list A) : subsequence l l. Proof. induction l; constructor; assumption. Qed.
Lemma sub_nil_l {A} (l : list A) : subsequence [] l. Proof. induction l; constructor; assumption. Qed.
Lemma sub_app {A} (a b c d : list A) : subsequence a b -> subsequence c d -> subsequence (a ++ c) (b ++ d).
Proof. intros H K. induction H; cbn [app]; [exact K|constructor; assumption|constructor; assumption]. Qed.
Lemma sub_removelast {A} (l m : list A) : subsequence l m -> subsequence (removelast l) m.
Proof.
  intros H. induction H; [constructor| |constructor; assumption]. destruct l as [|y l]; [apply sub_nil_l|]. change (removelast (x :: y :: l)) with (x :: removelast (y :: l)). constructor. exact IHsubsequence.
Qed.
Lemma sub_ends {A} (x y : A) m : last m x = y -> m <> [] -> subsequence [x; y] (x :: m).
Proof.
  intros L NE. constructor. revert x L. induction m as [|z m IH]; intros x L; [congruence|]. rewrite last_cons in L. destruct m as [|w m].
  - cbn in L. subst. constructor. constructor.
  - constructor. apply (IH ltac:(discriminate) z). exact L.
Qed.
Definition dp_good (ps l : list (pt2 NM)) : Prop :=
  match ps with
  | [] => l = []
  | [p] => l = [p; p]
  | p :: r => (exists l', l = p :: l' /\ l' <> [] /\ last l' p = last r p) /\ subsequence l ps
  end.
Lemma dp_spec eps : ngtb n0 eps = false -> forall k ps, (length ps < k)%nat ->
  exists l, douglas_peucker k ps eps = Some (Ok l) /\ dp_good ps l.
Proof.
  intros NE. induction k as [|k IH]; intros ps LE; [lia|]. cbn [douglas_peucker]. destruct ps as [|p r]; [exists []; split; reflexivity|].
  pose proof (dp_index p r) as DI. destruct (dp_farthest p r) as [dmax i]. cbn [snd] in DI.
  destruct (ngtb dmax eps) eqn:G.
  - destruct DI as [[= -> ->]|DI]; [congruence|]. cbn [length] in LE. destruct i as [|i]; [lia|].
    destruct (IH (firstn (S i) (p :: r))) as (l1 & -> & G1); [rewrite firstn_length; cbn [length]; lia|].
    destruct (IH (skipn (S i) (p :: r))) as (l2 & -> & G2); [rewrite skipn_length; cbn [length]; lia|].
    cbn [firstn skipn] in G1, G2.
    assert (S2 : (2 <= length (skipn i r))%nat) by (rewrite skipn_length; lia).
    destruct (skipn i r) as [|q s] eqn:SK; [cbn in S2; lia|]. destruct s as [|q' s']; [cbn in S2; lia|]. cbn [dp_good] in G2. destruct G2 as ((l2' & -> & N2 & L2) & SB2).
    assert (EQ : r = firstn i r ++ q :: q' :: s') by (rewrite <- SK; symmetry; apply firstn_skipn).
    assert (NR : r <> []) by (intros ->; destruct i; discriminate).
    assert (RES : exists l1', l1 = p :: l1' /\ l1' <> [] /\ subsequence (removelast l1) (p :: firstn i r)).
    { cbn [dp_good] in G1. destruct (firstn i r) as [|z w].
      - subst l1. exists [p]. split; [reflexivity|]. split; [discriminate|]. cbn. apply sub_refl.
      - destruct G1 as ((l1' & -> & N1 & L1) & SB1). exists l1'. split; [reflexivity|]. split; [exact N1|]. apply sub_removelast, SB1. }
    destruct RES as (l1' & -> & N1 & SB1). exists (removelast (p :: l1') ++ q :: l2'). split; [reflexivity|].
    destruct l1' as [|z w]; [congruence|]. change (removelast (p :: z :: w)) with (p :: removelast (z :: w)) in *.
    cbn [dp_good]. destruct r as [|r0 r1]; [congruence|]. split.
    + exists (removelast (z :: w) ++ q :: l2'). cbn [app]. split; [reflexivity|]. split; [destruct (removelast (z :: w)); discriminate|].
      rewrite (last_app_ne _ (q :: l2') p q) by discriminate. rewrite last_cons, L2. rewrite EQ. rewrite (last_app_ne _ (q :: q' :: s') p q) by discriminate. rewrite (last_cons _ q q). reflexivity.
    + replace (p :: r0 :: r1) with ((p :: firstn i (r0 :: r1)) ++ q :: q' :: s') by (cbn [app]; rewrite <- EQ; reflexivity). apply sub_app; [exact SB1|exact SB2].
  - exists [p; last r p]. split; [reflexivity|]. destruct r as [|r0 r1]; [reflexivity|]. cbn [dp_good]. split.
    + exists [last (r0 :: r1) p]. split; [reflexivity|]. split; [discriminate|reflexivity].
    + apply sub_ends; [reflexivity|discriminate].
Qed.
Lemma dp_diverges eps : ngtb n0 eps = true -> forall k (ps : list (pt2 NM)), ps <> [] -> (forall p r, ngtb (fst (dp_farthest p r)) eps = true) -> douglas_peucker k ps eps = None.
Proof.
  intros NE. induction k as [|k IH]; intros ps N G; [reflexivity|]. destruct ps as [|p r]; [congruence|]. cbn [douglas_peucker].
  pose proof (G p r) as Q. pose proof (dp_index p r) as DI. destruct (dp_farthest p r) as [d i]. cbn [fst snd] in *. rewrite Q.
  destruct DI as [[= -> ->]|DI].
  - cbn [firstn skipn]. destruct k; [reflexivity|]. change (douglas_peucker (S k) [] eps) with (Some (@Ok ErrorKind (list (pt2 NM)) [])). cbv iota. rewrite IH by assumption. reflexivity.
  - rewrite (IH (firstn i (p :: r))); [reflexivity| |exact G]. destruct i; [lia|discriminate].
Qed.
End DP.
(** ** The distance compared with epsilon *)
Lemma line_distance_R (p a b : pt2 RN) : x2 a <> x2 b -> distance_point_line p a b * dist_2d a b = Rabs (turn a b p).
Proof.
  destruct p as [c1 c2], a as [a1 a2], b as [b1 b2]. cbn [x2]. change (T RN) with R in *. intros N.
  assert (D : a1 * a1 - 2 * a1 * b1 + a2 * a2 - 2 * a2 * b2 + b1 * b1 + b2 * b2 <> 0).
  { replace (a1 * a1 - 2 * a1 * b1 + a2 * a2 - 2 * a2 * b2 + b1 * b1 + b2 * b2) with (Rsqr (a1 - b1) + Rsqr (a2 - b2)) by (unfold Rsqr; ring).
    assert (0 < Rsqr (a1 - b1)) by (apply Rsqr_pos_lt; lra). pose proof (Rle_0_sqr (a2 - b2)). lra. }
  assert (ND : a1 - b1 <> 0) by lra.
  assert (L : dist_2d (@mk2 RN a1 a2) (@mk2 RN b1 b2) = sqrt (Rsqr (a1 - b1) + Rsqr (a2 - b2))) by (unfold dist_2d, sqr_dist_2d; rewrite !nsq_R; cbn [x2 y2 RN nadd nsub nsqrt]; f_equal; unfold Rsqr; ring).
  rewrite L. unfold distance_point_line, turn. cbn [x2 y2]. rewrite !nsq_R, R_n2. cbn [nsqrt RN nadd nsub nmul ndiv].
  rewrite <- sqrt_mult_alt.
  - rewrite <- sqrt_Rsqr_abs. f_equal. unfold Rsqr. field. split; assumption.
  - rewrite <- !Rsqr_pow2. apply Rplus_le_le_0_compat; apply Rle_0_sqr.
Qed.
Lemma dp_negative {NM num} (L : OrdLaws NM num) (eps : T NM) : ngtb n0 eps = true -> forall k (ps : list (pt2 NM)), ps <> [] -> douglas_peucker k ps eps = None.
Proof.
  intros G k ps N. apply dp_diverges; [exact G|exact N|]. intros p r. unfold dp_farthest. generalize (combine (seq 1 (length r - 1)) (removelast r)). intros l.
  assert (H : ngtb (fst (@n0 NM, O)) eps = true) by exact G. revert H. generalize (@n0 NM, O). induction l as [|ip l IH]; intros s H; [exact H|]. cbn [fold_left]. apply IH.
  unfold dp_step. destruct (ngtb (distance_point_line (snd ip) p (last r p)) (fst s)) eqn:E; [|exact H]. cbn [fst].
  rewrite (gtb_ltb L) in *. exact (ltb_trans L _ _ _ H E).
Qed.
Lemma dp_single {NM} (eps : T NM) p k : ngtb n0 eps = false -> douglas_peucker (S k) [p] eps = Some (Ok [p; p]).
Proof. intros G. cbn [douglas_peucker]. assert (D : dp_farthest p [] = (@n0 NM, O)) by reflexivity. rewrite D, G. reflexivity. Qed.
