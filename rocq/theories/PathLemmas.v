(** Lemmas about lengths of paths. *)
From Verif Require Import Base BaseLemmas Num NumLemmas BBoxModel GeomSpec VecModel FloatSpec FloatBridge RootLemmas DistSpec DistLemmas DistLemmas2 DistLemmas3 CloudModel CloudSpec CloudLemmas PathModel PathSpec.
From Coq Require Import Floats.SpecFloat Reals Lra Lia Psatz.
From Flocq Require Import Core.
Local Open Scope R_scope.

(** ** Exact paths *)
Section Exact.
Context {P : Type} (d : P -> P -> R).
Hypothesis sym : forall a b, d a b = d b a.
Hypothesis refl : forall a, d a a = 0.
Hypothesis tri : forall a b c, d a c <= d a b + d b c.
Lemma d_pos a b : 0 <= d a b.
Proof. pose proof (tri a b a) as H. rewrite refl, (sym b a) in H. lra. Qed.
Lemma path_split a x b : path d (a ++ x :: b) = path d (a ++ [x]) + path d (x :: b).
Proof.
  induction a as [|y a IH]; [cbn [app path]; ring|]. destruct a as [|z a]; cbn [app] in *.
  - cbn [path]. ring.
  - change (d y z + path d (z :: a ++ x :: b) = d y z + path d (z :: a ++ [x]) + path d (x :: b)). rewrite IH. ring.
Qed.
Lemma path_rev l : path d (rev l) = path d l.
Proof.
  induction l as [|x l IH]; [reflexivity|]. cbn [rev]. destruct l as [|y l]; [reflexivity|].
  cbn [rev] in *. rewrite <- app_assoc. cbn [app]. rewrite path_split, IH. cbn [path]. rewrite (sym y x). ring.
Qed.
Lemma path_insert a p b : path d (a ++ b) <= path d (a ++ p :: b).
Proof.
  induction a as [|x a IH]; cbn [app].
  - destruct b as [|y b]; cbn [path]; [lra|]. pose proof (d_pos p y). lra.
  - destruct a as [|y a]; cbn [app] in *.
    + destruct b as [|y b]; cbn [path]; [pose proof (d_pos x p); lra|]. pose proof (tri x p y). lra.
    + change (d x y + path d (y :: a ++ b) <= d x y + path d (y :: a ++ p :: b)). lra.
Qed.
Lemma cyc_rot a b : path d (closed (a ++ b)) = path d (closed (b ++ a)).
Proof.
  unfold closed. destruct a as [|x a]; [rewrite app_nil_r; reflexivity|]. destruct b as [|y b]; [rewrite app_nil_r; reflexivity|].
  cbn [app firstn]. rewrite <- !app_assoc. cbn [app].
  change (path d ((x :: a) ++ y :: (b ++ [x])) = path d ((y :: b) ++ x :: (a ++ [y]))). rewrite (path_split (x :: a) y), (path_split (y :: b) x). cbn [app]. ring.
Qed.
Lemma cyc_rev l : path d (closed (rev l)) = path d (closed l).
Proof.
  destruct l as [|x l]; [reflexivity|]. cbn [rev]. rewrite cyc_rot. unfold closed. cbn [app firstn].
  replace (x :: rev l ++ [x]) with (rev (x :: l ++ [x])); [apply path_rev|]. cbn [rev]. rewrite rev_app_distr. reflexivity.
Qed.
Lemma cyc_insert a p b : path d (closed (a ++ b)) <= path d (closed (a ++ p :: b)).
Proof.
  rewrite (cyc_rot a b), (cyc_rot a (p :: b)). cbn [app]. destruct (b ++ a) as [|x l]; [unfold closed; cbn [app firstn path]; rewrite refl; lra|].
  unfold closed. cbn [app firstn]. change (path d ((x :: l) ++ [x]) <= d p x + path d ((x :: l) ++ [p])). rewrite !path_app.
  pose proof (tri (last l x) p x). lra.
Qed.
Lemma path_map (f : P -> P) c : (forall a b, d (f a) (f b) = c * d a b) -> forall l, path d (map f l) = c * path d l.
Proof.
  intros F. induction l as [|x [|y l] IH]; cbn [map path]; [ring|ring|]. cbn [map path] in IH. rewrite F, IH. ring.
Qed.
Lemma closed_map (f : P -> P) l : closed (map f l) = map f (closed l).
Proof. unfold closed. rewrite map_app. destruct l; reflexivity. Qed.
End Exact.

(** ** Sums of doubles that are not negative *)
Definition band (j : nat) (x D : R) : Prop := D * ((1 - 4 * ur) * (1 - ur) ^ j) <= x <= D * ((1 + 4 * ur) * (1 + ur) ^ j).
Lemma pow_lo u j : 0 <= u <= 1 -> 1 - INR j * u <= (1 - u) ^ j <= 1.
Proof.
  intros U. induction j as [|j IH]; [cbn; lra|]. rewrite S_INR. cbn [pow]. pose proof (pos_INR j). assert (0 <= (1 - u) ^ j) by (apply pow_le; lra). nra.
Qed.
Lemma pow_hi u j : 0 <= u -> INR j * u <= 1 / 2 -> 1 <= (1 + u) ^ j <= 1 + 2 * (INR j * u).
Proof.
  intros U. induction j as [|j IH]; [cbn; lra|]. rewrite S_INR. intros H. cbn [pow]. pose proof (pos_INR j) as J. assert (Q : INR j * u <= 1 / 2) by nra. specialize (IH Q).
  assert (K : u * (INR j * u) <= u * (1 / 2)) by (apply Rmult_le_compat_l; lra).
  assert (L : (1 + u) * (1 + u) ^ j <= (1 + u) * (1 + 2 * (INR j * u))) by (apply Rmult_le_compat_l; lra).
  assert (L' : (1 + u) * 1 <= (1 + u) * (1 + u) ^ j) by (apply Rmult_le_compat_l; lra). lra.
Qed.
Lemma band_wide j x D : 0 <= D -> INR j * ur <= / 1000 -> band j x D -> Rabs (x - D) <= D * (INR (j + 4) * (2 * ur)).
Proof.
  intros P J [A B]. pose proof ur_small as U. destruct (pow_lo ur j ltac:(lra)) as [L1 L2]. destruct (pow_hi ur j ltac:(lra) ltac:(lra)) as [H1 H2].
  pose proof (pos_INR j) as I. assert (IJ : 0 <= INR j * ur) by (apply Rmult_le_pos; lra). rewrite plus_INR. change (INR 4) with (1 + 1 + 1 + 1).
  apply Rabs_le. split.
  - assert (M : D * (1 - (INR j + 4) * (2 * ur)) <= D * ((1 - 4 * ur) * (1 - ur) ^ j)); [|lra]. apply Rmult_le_compat_l; [exact P|]. nra.
  - assert (M : D * ((1 + 4 * ur) * (1 + ur) ^ j) <= D * (1 + (INR j + 4) * (2 * ur))); [|lra]. apply Rmult_le_compat_l; [exact P|]. nra.
Qed.
Lemma band_0 x D : Rabs (x - D) <= D * (4 * ur) -> band 0 x D.
Proof. intros H. apply Rabs_le_inv in H. unfold band. cbn [pow]. lra. Qed.
Lemma band_up j x D : 0 <= D -> band j x D -> band (S j) x D.
Proof.
  intros P [A B]. pose proof ur_small as U. split.
  - eapply Rle_trans; [|exact A]. apply Rmult_le_compat_l; [exact P|]. apply Rmult_le_compat_l; [lra|]. cbn [pow]. assert (0 <= (1 - ur) ^ j) by (apply pow_le; lra). nra.
  - eapply Rle_trans; [exact B|]. apply Rmult_le_compat_l; [exact P|]. apply Rmult_le_compat_l; [lra|]. cbn [pow]. assert (0 <= (1 + ur) ^ j) by (apply pow_le; lra). nra.
Qed.
Lemma band_mono j k x D : (j <= k)%nat -> 0 <= D -> band j x D -> band k x D.
Proof. intros L P B. induction L as [|k L IH]; [exact B|]. apply band_up; assumption. Qed.
Lemma band_sum j x D y E : 0 <= D -> 0 <= E -> band j x D -> band j y E -> band j (x + y) (D + E).
Proof. intros _ _ [A B] [C F]. split; lra. Qed.
Lemma band_round j x D eps : 0 <= D -> Rabs eps <= ur -> band j x D -> band (S j) (x * (1 + eps)) D.
Proof.
  intros P H [A B]. apply Rabs_le_inv in H. pose proof ur_small as U. assert (0 <= (1 - ur) ^ j) by (apply pow_le; lra). assert (0 <= (1 + ur) ^ j) by (apply pow_le; lra).
  assert (XP : 0 <= x). { eapply Rle_trans; [|exact A]. apply Rmult_le_pos; [exact P|]. apply Rmult_le_pos; lra. } unfold band. cbn [pow]. split.
  - replace (D * ((1 - 4 * ur) * ((1 - ur) * (1 - ur) ^ j))) with (D * ((1 - 4 * ur) * (1 - ur) ^ j) * (1 - ur)) by ring. apply Rmult_le_compat; try lra. apply Rmult_le_pos; [exact P|]. apply Rmult_le_pos; lra.
  - replace (D * ((1 + 4 * ur) * ((1 + ur) * (1 + ur) ^ j))) with (D * ((1 + 4 * ur) * (1 + ur) ^ j) * (1 + ur)) by ring. apply Rmult_le_compat; lra.
Qed.

(** The loop over the points. *)
Section Loop.
Context {P : Type} (fd : P -> P -> T F64) (td : P -> P -> R).
(** One step: [acc] is the sum so far of [D], made of [j] additions of distances of at most 2^511. *)
Lemma sum_step j (acc x : T F64) D E : (INR j <= 2 ^ 40) -> nn acc -> nn x -> 0 <= D <= INR j * bp 511 -> 0 <= E <= bp 511 ->
  band j (key acc) D -> band 0 (key x) E -> nn (nadd acc x) /\ band (S j) (key (nadd acc x)) (D + E).
Proof.
  intros J NA NX [D0 D1] [E0 E1] BA BX. destruct (add_key acc x NA NX) as [N K]. split; [exact N|]. rewrite K.
  assert (BS : band j (key acc + key x) (D + E)) by (apply band_sum; auto; apply (band_mono 0); auto; lia).
  pose proof ur_small as U. assert (JU : INR j * ur <= / 1000).
  { assert (UU : ur <= / 1000 * / 2 ^ 40) by (unfold ur; change (bp (-52)) with (/ 4503599627370496); lra).
    assert (2 ^ 40 * ur <= / 1000) by lra. assert (INR j * ur <= 2 ^ 40 * ur) by (apply Rmult_le_compat_r; lra). lra. }
  assert (UP : key acc + key x <= bp 600).
  { pose proof (band_wide j _ _ (Rplus_le_le_0_compat _ _ D0 E0) JU BS) as W. apply Rabs_le_inv in W. rewrite plus_INR in W. change (INR 4) with (1 + 1 + 1 + 1) in W.
    assert (DE : D + E <= (2 ^ 40 + 1) * bp 511). { pose proof (bp_pos 511). assert (INR j * bp 511 <= 2 ^ 40 * bp 511) by (apply Rmult_le_compat_r; lra). lra. }
    assert (W2 : (D + E) * ((INR j + (1 + 1 + 1 + 1)) * (2 * ur)) <= (D + E) * 1) by (apply Rmult_le_compat_l; lra).
    assert (BB : bp 600 = bp 89 * bp 511) by (rewrite <- bpow_plus; reflexivity). rewrite BB. change (bp 89) with 618970019642690137449562112.
    pose proof (bp_pos 511). lra. }
  destruct (rk_below _ 600 UP ltac:(lia)) as [R _]. rewrite R. destruct (add_rel (key acc) (key x) (key_fmt _ NA) (key_fmt _ NX)) as (eps & EB & EQ). rewrite EQ.
  apply band_round; [lra|exact EB|exact BS].
Qed.
Hypothesis ok : P -> P -> Prop.
Hypothesis dist_ok : forall a b, ok a b -> nn (fd b a) /\ band 0 (key (fd b a)) (td a b) /\ 0 <= td a b <= bp 511.
Lemma loop_band ps : forall p j acc D, INR (j + length ps) <= 2 ^ 40 -> nn acc -> 0 <= D <= INR j * bp 511 -> band j (key acc) D ->
  (forall a b, In (a, b) (steps (p :: ps)) -> ok a b) ->
  nn (length_from fd p ps acc) /\ band (j + length ps) (key (length_from fd p ps acc)) (D + path td (p :: ps)) /\ 0 <= D + path td (p :: ps) <= INR (j + length ps) * bp 511.
Proof.
  induction ps as [|q r IH]; intros p j acc D J N DB B S.
  - cbn [length length_from path] in *. rewrite Nat.add_0_r, Rplus_0_r in *. auto.
  - destruct (dist_ok p q (S p q (or_introl eq_refl))) as (ND & BD & DD). cbn [length] in J. rewrite plus_INR, S_INR in J. pose proof (pos_INR (length r)) as LR. pose proof (bp_pos 511) as B5.
    destruct (sum_step j acc (fd q p) D (td p q) ltac:(lra) N ND DB DD B BD) as [N' B'].
    assert (SB : 0 <= D + td p q <= INR (Datatypes.S j) * bp 511) by (rewrite S_INR; lra).
    specialize (IH q (Datatypes.S j) (nadd acc (fd q p)) (D + td p q)). cbn [length length_from].
    assert (J' : INR (Datatypes.S j + length r) <= 2 ^ 40) by (rewrite plus_INR, S_INR; lra).
    specialize (IH J' N' SB B' (fun a b I => S a b (or_intror I))).
    replace (j + Datatypes.S (length r))%nat with (Datatypes.S j + length r)%nat by lia.
    replace (D + path td (p :: q :: r)) with (D + td p q + path td (q :: r)) by (cbn [path]; ring). exact IH.
Qed.
(** Without any bound the sum is a number that is not negative. *)
Hypothesis fine : P -> Prop.
Hypothesis dist_nn : forall a b, fine a -> fine b -> nn (fd b a).
Lemma loop_nn ps : forall p acc, nn acc -> Forall fine (p :: ps) -> nn (length_from fd p ps acc).
Proof.
  induction ps as [|q r IH]; intros p acc N F; [exact N|]. cbn [length_from]. apply IH; [|exact (Forall_inv_tail F)].
  apply add_key; [exact N|]. apply dist_nn; [exact (Forall_inv F)|exact (Forall_inv (Forall_inv_tail F))].
Qed.
Lemma loop_app ps : forall p acc q, length_from fd p (ps ++ [q]) acc = nadd (length_from fd p ps acc) (fd q (last ps p)).
Proof. induction ps as [|x r IH]; intros p acc q; [reflexivity|]. cbn [app length_from]. rewrite IH, last_cons. reflexivity. Qed.
End Loop.
Lemma add_grows (x y : T F64) : nn x -> nn y -> fle x (nadd x y).
Proof.
  intros X Y. destruct (add_key x y X Y) as [N K]. apply fle_key; [exact X|exact N|]. rewrite K. pose proof (key_nn x X). pose proof (key_nn y Y).
  rewrite <- (rk_fix (key x)) at 1; [apply rk_le; lra|apply key_fmt, X|lra].
Qed.
