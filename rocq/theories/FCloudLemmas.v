(** Proofs about the single precision cloud. *)
From Verif Require Import Base BaseLemmas Num NumLemmas BBoxModel BBoxLemmas GeomSpec FloatSpec FloatBridge ByteModel ByteSpec ByteLemmas FCloudModel FCloudSpec.
From Coq Require Import Floats.SpecFloat Reals Lra Lia ZifyBool ZifyNat ZifyN.
From Flocq Require Import Core BinarySingleNaN.
Notation finite := FloatSpec.finite.

(** ** single precision arithmetic *)
#[local] Instance Q24 : FLX.Prec_gt_0 24 := eq_refl _.
#[local] Instance N24 : Prec_lt_emax 24 128 := eq_refl _.
#[local] Instance valid_exp_f32 : Valid_exp (FLT_exp (-149) 24). Proof. apply FLT_exp_valid. reflexivity. Qed.
Notation b32 := (binary_float 24 128).
Lemma top32 : powerRZ 2 128 = bpow radix2 128. Proof. change 2%R with (IZR radix2). symmetry. apply bpow_powerRZ. Qed.
Lemma round32_0 : round32 0 = 0%R. Proof. apply round_0. apply valid_rnd_N. Qed.
Lemma round32_le x y : (x <= y -> round32 x <= round32 y)%R. Proof. apply round_le; auto with typeclass_instances. Qed.
Lemma lift32 x : is_f32 x -> exists b : b32, x = B2SF b.
Proof. intros H. exists (SF2B x H). symmetry. apply B2SF_SF2B. Qed.
Lemma fval_B32 (b : b32) : fval (B2SF b) = B2R b.
Proof. rewrite fval_SF2R. destruct b; reflexivity. Qed.
Lemma finite_B32 (b : b32) : finite (B2SF b) <-> is_finite b = true.
Proof. destruct b; cbn; split; auto; try discriminate; contradiction. Qed.
Lemma binary_normalize_equiv32 m e szero :
  SpecFloat.binary_normalize 24 128 m e szero = B2SF (binary_normalize 24 128 Q24 N24 mode_NE m e szero).
Proof. case m as [|p|p]; [now simpl|..]; simpl; rewrite B2SF_SF2B; apply (binary_round_equiv' 24 128). Qed.
Lemma add32_equiv (x y : b32) : add32 (B2SF x) (B2SF y) = B2SF (Bplus mode_NE x y).
Proof.
  unfold add32. destruct x as [sx|sx| |sx mx ex Bx], y as [sy|sy| |sy my ey By]; [now (trivial || simpl; case Bool.eqb)..|].
  apply binary_normalize_equiv32.
Qed.
Lemma add32_f32 x y : is_f32 x -> is_f32 y -> is_f32 (add32 x y).
Proof. intros X Y. destruct (lift32 x X) as [a ->], (lift32 y Y) as [b ->]. rewrite add32_equiv. apply valid_binary_B2SF. Qed.
Lemma b32_neg (b : b32) : (B2R b < 0)%R -> Bsign b = true.
Proof.
  destruct b as [| | |[] m e H]; cbn [B2R Bsign]; intros L; try reflexivity; try lra.
  exfalso. pose proof (F2R_gt_0 radix2 (Float radix2 (Zpos m) e) ltac:(reflexivity)). cbn [cond_Zopp] in L. lra.
Qed.
Lemma b32_pos (b : b32) : (0 < B2R b)%R -> Bsign b = false.
Proof.
  destruct b as [| | |[] m e H]; cbn [B2R Bsign]; intros L; try reflexivity; try lra.
  exfalso. pose proof (F2R_lt_0 radix2 (Float radix2 (Zneg m) e) ltac:(reflexivity)). cbn [cond_Zopp Z.opp] in L. lra.
Qed.
Lemma add32_val x y : is_f32 x -> is_f32 y -> finite x -> finite y -> rounds32 (fval x + fval y) (add32 x y).
Proof.
  intros X Y FX FY. destruct (lift32 x X) as [a ->], (lift32 y Y) as [b ->]. rewrite !fval_B32. apply finite_B32 in FX, FY.
  rewrite add32_equiv. pose proof (Bplus_correct _ _ Q24 N24 mode_NE a b FX FY) as H.
  change (fexp 24 128) with (FLT_exp (-149) 24) in H. change (round_mode mode_NE) with ZnearestE in H. change (round radix2 (FLT_exp (-149) 24) ZnearestE) with round32 in H.
  unfold rounds32. rewrite top32. destruct (Rlt_bool_spec (Rabs (round32 (B2R a + B2R b))) (bpow radix2 128)) as [L|L].
  - left. destruct H as (H1 & H2 & _). split; [exact L|]. rewrite finite_B32, fval_B32. auto.
  - right. destruct H as (H1 & H2). rewrite H1. change (binary_overflow 24 128 mode_NE (Bsign a)) with (S754_infinity (Bsign a)).
    assert (Z : (B2R a + B2R b <> 0)%R).
    { intros Z. rewrite Z, round32_0, Rabs_R0 in L. pose proof (bpow_gt_0 radix2 128). lra. }
    destruct (Rle_lt_dec 0 (B2R a + B2R b)) as [P|P].
    + left. assert (Q : (0 <= round32 (B2R a + B2R b))%R) by (rewrite <- round32_0; apply round32_le; lra).
      rewrite Rabs_pos_eq in L by exact Q. split; [exact L|]. f_equal.
      destruct (Rle_lt_dec (B2R a) 0) as [A|A]; [rewrite H2|]; apply b32_pos; lra.
    + right. assert (Q : (round32 (B2R a + B2R b) <= 0)%R) by (rewrite <- round32_0; apply round32_le; lra).
      rewrite Rabs_left1 in L by exact Q. split; [lra|]. f_equal.
      destruct (Rle_lt_dec 0 (B2R a)) as [A|A]; [rewrite H2|]; apply b32_neg; lra.
Qed.
(** ** widening keeps the order *)
Lemma widen_not_finite x : ~ finite x -> widen x = x.
Proof. destruct x; cbn; intros H; try reflexivity; exfalso; apply H; exact I. Qed.
Lemma widen_finite x : is_f32 x -> (finite (widen x) <-> finite x).
Proof.
  intros V. split; intros F; [|exact (proj1 (proj2 (widen_spec x V F)))]. destruct x; try exact I; exact F.
Qed.
Lemma cmp32_val x y : is_f32 x -> is_f32 y -> finite x -> finite y -> SFcompare x y = Some (Rcompare (fval x) (fval y)).
Proof.
  intros X Y FX FY. destruct (lift32 x X) as [a ->], (lift32 y Y) as [b ->]. rewrite !fval_B32.
  apply finite_B32 in FX, FY. rewrite <- (Bcompare_correct _ _ a b FX FY). reflexivity.
Qed.
Lemma sign_infinity_cmp (s : bool) (x : spec_float) : finite x -> SFcompare x (S754_infinity s) = Some (if s then Gt else Lt) /\ SFcompare (S754_infinity s) x = Some (if s then Lt else Gt).
Proof. destruct x as [?|?| |? ? ?]; try contradiction; destruct s; split; reflexivity. Qed.
Lemma widen_cmp x y : is_f32 x -> is_f32 y -> SFcompare (widen x) (widen y) = SFcompare x y.
Proof.
  intros X Y.
  assert (DX : finite x \/ ~ finite x) by (destruct x; cbn; auto). assert (DY : finite y \/ ~ finite y) by (destruct y; cbn; auto).
  destruct DX as [FX|FX], DY as [FY|FY].
  - destruct (widen_spec x X FX) as (A & B & _), (widen_spec y Y FY) as (C & D & _). rewrite (cmp32_val x y X Y FX FY), <- A, <- C. apply ncmp_val; auto using widen_double.
  - rewrite (widen_not_finite y FY). destruct y as [?|s| |? ? ?]; cbn in FY; try (exfalso; apply FY; exact I); [|destruct (widen x), x; reflexivity].
    rewrite (proj1 (sign_infinity_cmp s x FX)). apply sign_infinity_cmp, widen_finite; assumption.
  - rewrite (widen_not_finite x FX). destruct x as [?|s| |? ? ?]; cbn in FX; try (exfalso; apply FX; exact I); [|destruct (widen y), y; reflexivity].
    rewrite (proj2 (sign_infinity_cmp s y FY)). apply sign_infinity_cmp, widen_finite; assumption.
  - rewrite (widen_not_finite x FX), (widen_not_finite y FY). reflexivity.
Qed.
Lemma widen_fle x y : is_f32 x -> is_f32 y -> (fle (widen x) (widen y) <-> fle x y).
Proof. intros X Y. unfold fle, SFleb. rewrite widen_cmp by assumption. reflexivity. Qed.
Lemma widen_flt x y : is_f32 x -> is_f32 y -> (flt (widen x) (widen y) <-> flt x y).
Proof. intros X Y. unfold flt, SFltb. rewrite widen_cmp by assumption. reflexivity. Qed.
Lemma widen_number x : is_f32 x -> (number (widen x) <-> number x).
Proof.
  intros V. unfold number. destruct x as [s|s| |s m e]; try reflexivity. split; [discriminate|]. intros _ E. pose proof (widen_finite _ V) as [_ F]. rewrite E in F. destruct (F I).
Qed.

(** ** what is kept *)
Lemma rounds32_narrow s m e : let x := S754_finite s m e in rounds32 (fval x) (narrow x) /\ sign_of (narrow x) = Some s.
Proof.
  intros x. pose proof (convert_val 24 128 Q24 N24 s m e) as C. cbv zeta in C. fold x in C. fold (narrow x) in C. unfold rounds32. rewrite top32.
  change (rndp 24 128 (fval x)) with (round32 (fval x)) in C. destruct (Rlt_bool_spec (Rabs (round32 (fval x))) (bpow radix2 128)) as [L|L].
  - destruct C as (A & B & D). split; [left; auto|exact D].
  - rewrite C. split; [|reflexivity]. right.
    assert (Z : (0 < IZR (Z.pos m) * powerRZ 2 e)%R) by (apply Rmult_lt_0_compat; [apply IZR_lt; lia|apply powerRZ_lt; lra]).
    assert (FV : fval x = ((if s then -1 else 1) * IZR (Z.pos m) * powerRZ 2 e)%R) by reflexivity.
    destruct s.
    + right. assert (Q : (round32 (fval x) <= 0)%R) by (rewrite <- round32_0; apply round32_le; rewrite FV; lra).
      rewrite Rabs_left1 in L by exact Q. split; [lra|reflexivity].
    + left. assert (Q : (0 <= round32 (fval x))%R) by (rewrite <- round32_0; apply round32_le; rewrite FV; lra).
      rewrite Rabs_pos_eq in L by exact Q. split; [exact L|reflexivity].
Qed.
Lemma widen_rounds r x : is_f32 x -> rounds32 r x -> rounds32 r (widen x).
Proof.
  intros V [(A & B & C)|[(A & ->)|(A & ->)]]; [left|right; left|right; right]; try (split; [exact A|reflexivity]).
  destruct (widen_spec x V B) as (D & E & _). split; [exact A|]. split; [exact E|]. rewrite D. exact C.
Qed.
Lemma widen_sign x : is_f32 x -> sign_of (widen x) = sign_of x.
Proof. intros V. destruct x as [s|s| |s m e]; try reflexivity. apply (widen_spec _ V I). Qed.
Lemma narrow_kept x : kept x (widen (narrow x)).
Proof.
  split; [apply widen_double|]. split.
  - intros F. destruct x as [s|s| |s m e]; try contradiction.
    + split; [|reflexivity]. left. cbn [fval narrow convert widen]. rewrite round32_0, Rabs_R0. split; [apply powerRZ_lt; lra|]. split; [exact I|reflexivity].
    + destruct (rounds32_narrow s m e) as [A B]. split; [apply widen_rounds; [apply narrow_f32|exact A]|]. rewrite widen_sign by apply narrow_f32. exact B.
  - intros F. destruct x as [s|s| |s m e]; try reflexivity; exfalso; apply F; exact I.
Qed.

(** ** the flat vector *)
Definition narrow3 (p : pt3 F64) : list spec_float := [narrow (px p); narrow (py p); narrow (pz p)].
Definition keep3 (p : pt3 F64) : pt3 F64 := mk3 (widen (narrow (px p))) (widen (narrow (py p))) (widen (narrow (pz p))).
Lemma keep3_kept p : kept3 p (keep3 p).
Proof. intros ax [-> | [-> | ->]]; apply narrow_kept. Qed.
Fixpoint flat (ts : list (pt3 F64)) : fcloud := match ts with [] => [] | p :: r => px p :: py p :: pz p :: flat r end.
Lemma flat_app a b : flat (a ++ b) = flat a ++ flat b.
Proof. induction a as [|p a IH]; [reflexivity|]. cbn. rewrite IH. reflexivity. Qed.
Lemma flat_len ts : lenN (flat ts) = (3 * lenN ts)%N.
Proof. induction ts as [|p r IH]; [reflexivity|]. unfold lenN in *. cbn [flat length]. lia. Qed.
Lemma triples_flat : forall ts r, (length r < 3)%nat -> fc_triples (flat ts ++ r) = ts.
Proof.
  induction ts as [|p ts IH]; intros r L; [destruct r as [|? [|? [|? ?]]]; try reflexivity; cbn in L; lia|].
  cbn. rewrite IH by exact L. destruct p; reflexivity.
Qed.
Fixpoint rest3 (d : fcloud) : fcloud := match d with a :: b :: c :: r => rest3 r | _ => d end.
Lemma three_ind (P : fcloud -> Prop) : P [] -> (forall a, P [a]) -> (forall a b, P [a; b]) -> (forall a b c r, P r -> P (a :: b :: c :: r)) -> forall d, P d.
Proof.
  intros P0 P1 P2 P3. fix F 1. intros d. destruct d as [ | a d]; [exact P0|]. destruct d as [ | b d]; [exact (P1 a)|]. destruct d as [ | c d]; [exact (P2 a b)|]. exact (P3 a b c d (F d)).
Qed.
Lemma flat_triples d : d = flat (fc_triples d) ++ rest3 d /\ (length (rest3 d) < 3)%nat.
Proof.
  induction d as [|a|a b|a b c r [IH L]] using three_ind; cbn; try (split; [reflexivity|lia]). split; [|exact L]. rewrite <- IH. reflexivity.
Qed.
Lemma nth_flat ts r : (length r < 3)%nat -> forall i, 
  nthN (flat ts ++ r) (3 * i) = match nthN ts i with Some p => Some (px p) | None => nthN r (3 * (i - lenN ts)) end /\
  nthN (flat ts ++ r) (3 * i + 1) = match nthN ts i with Some p => Some (py p) | None => nthN r (3 * (i - lenN ts) + 1) end /\
  nthN (flat ts ++ r) (3 * i + 2) = match nthN ts i with Some p => Some (pz p) | None => nthN r (3 * (i - lenN ts) + 2) end.
Proof.
  intros L. induction ts as [|p ts IH]; intros i.
  - cbn [flat app nthN]. change (lenN (@nil (pt3 F64))) with 0%N. rewrite N.sub_0_r. auto.
  - destruct (N.eq_dec i 0) as [->|NZ]; [cbn; auto|]. destruct (IH (i - 1)%N) as (A & B & C).
    assert (E : forall k, (k < 3)%N -> nthN (flat (p :: ts) ++ r) (3 * i + k) = nthN (flat ts ++ r) (3 * (i - 1) + k)).
    { intros k K. cbn [flat app nthN]. destruct (N.eqb_spec (3 * i + k) 0); [lia|]. destruct (N.eqb_spec (3 * i + k - 1) 0); [lia|]. destruct (N.eqb_spec (3 * i + k - 1 - 1) 0); [lia|]. f_equal. lia. }
    pose proof (E 0%N ltac:(lia)) as E0. rewrite !N.add_0_r in E0. rewrite E0, (E 1%N), (E 2%N) by lia. rewrite A, B, C.
    cbn [nthN]. destruct (N.eqb_spec i 0); [contradiction|]. replace (i - lenN (p :: ts))%N with (i - 1 - lenN ts)%N by (unfold lenN; cbn [length]; lia). auto.
Qed.
Lemma at_small dbg i k : (i < index_limit)%N -> (k < 3)%N -> fc_at dbg i k = Ok (3 * i + k)%N.
Proof.
  unfold index_limit. intros I K. unfold fc_at. destruct (dbg && (2 ^ 64 <=? 3 * i + k)%N) eqn:E; [lia|]. unfold w64. rewrite (N.mod_small (3 * i)) by lia. rewrite N.mod_small by lia. reflexivity.
Qed.
Lemma get_small dbg d i : (i < index_limit)%N -> fc_get dbg d i = Ok (match nthN d (3 * i), nthN d (3 * i + 1), nthN d (3 * i + 2) with Some x, Some y, Some z => Some (mk3 (widen x) (widen y) (widen z)) | _, _, _ => None end).
Proof.
  intros I. unfold fc_get, fc_coord. rewrite !at_small by (try exact I; lia). cbn [obind]. rewrite N.add_0_r.
  destruct (nthN d (3 * i)); cbn [option_map]; [|reflexivity]. destruct (nthN d (3 * i + 1)); cbn [option_map]; [|reflexivity]. destruct (nthN d (3 * i + 2)); reflexivity.
Qed.
Lemma get_flat dbg ts r i : (length r < 3)%nat -> (i < index_limit)%N -> fc_get dbg (flat ts ++ r) i = Ok (option_map widen3 (nthN ts i)).
Proof.
  intros L I. rewrite get_small by exact I. destruct (nth_flat ts r L i) as (-> & -> & ->). destruct (nthN ts i) as [p|] eqn:E; [reflexivity|].
  assert (X : nthN r (3 * (i - lenN ts) + 2) = None) by (apply nthN_None_ge; unfold lenN; lia). rewrite X.
  destruct (nthN r (3 * (i - lenN ts))), (nthN r (3 * (i - lenN ts) + 1)); reflexivity.
Qed.
Lemma len_flat ts r : (length r < 3)%nat -> fc_len (flat ts ++ r) = lenN ts.
Proof. intros L. unfold fc_len. rewrite lenN_app, flat_len. symmetry. apply (N.div_unique _ _ _ (lenN r)); unfold lenN; lia. Qed.
(** what any data reads as *)
Lemma reads_any dbg d : reads dbg d (map widen3 (fc_triples d)).
Proof.
  destruct (flat_triples d) as [E L]. split.
  - rewrite E at 1. rewrite len_flat by exact L. symmetry. apply lenN_map.
  - intros i I. rewrite E at 1. rewrite get_flat by assumption. rewrite nthN_map. reflexivity.
Qed.
Lemma reads_fun dbg d a b : (lenN d < 2 ^ 63)%N -> reads dbg d a -> reads dbg d b -> a = b.
Proof.
  intros L [A1 A2] [B1 B2]. apply list_eq_nthN. intros i. destruct (N.lt_ge_cases i index_limit) as [I|I].
  - specialize (A2 i I). specialize (B2 i I). congruence.
  - unfold fc_len, index_limit in *. rewrite (proj2 (nthN_None_ge a i)), (proj2 (nthN_None_ge b i)); [reflexivity| |]; pose proof (N.div_le_upper_bound (lenN d) 3 (2 ^ 62) ltac:(lia) ltac:(lia)); lia.
Qed.
Definition cons3 (t : pt3 F64) (l : fcloud) : fcloud := px t :: py t :: pz t :: l.
Lemma setN_flat (ts : list (pt3 F64)) (i : N) (p q : pt3 F64) : nthN ts i = Some q ->
  setN (setN (setN (flat ts) (3 * i) (px p)) (3 * i + 1) (py p)) (3 * i + 2) (pz p) = flat (setN ts i p).
Proof.
  revert i. induction ts as [|t ts IH]; intros i H; [discriminate|]. destruct (N.eq_dec i 0) as [->|NZ]; [reflexivity|].
  cbn [nthN] in H. destruct (N.eqb_spec i 0); [lia|]. specialize (IH (i - 1)%N H).
  assert (E : forall l k v, (k < 3)%N -> setN (cons3 t l) (3 * i + k) v = cons3 t (setN l (3 * (i - 1) + k) v)).
  { intros l k v K. unfold cons3. cbn [setN]. destruct (N.eqb_spec (3 * i + k) 0); [lia|]. destruct (N.eqb_spec (3 * i + k - 1) 0); [lia|]. destruct (N.eqb_spec (3 * i + k - 1 - 1) 0); [lia|]. replace (3 * i + k - 1 - 1 - 1)%N with (3 * (i - 1) + k)%N by lia. reflexivity. }
  pose proof (fun l v => E l 0%N v ltac:(lia)) as E0. setoid_rewrite N.add_0_r in E0. change (flat (t :: ts)) with (cons3 t (flat ts)). rewrite E0, (E _ 1%N), (E _ 2%N) by lia. rewrite IH. cbn [setN]. destruct (N.eqb_spec i 0); [lia|reflexivity].
Qed.
Definition nar3 (p : pt3 F64) : pt3 F64 := @mk3 F64 (narrow (px p)) (narrow (py p)) (narrow (pz p)).
Lemma set_flat dbg ts i p : (i < index_limit)%N -> 
  match fc_set dbg (flat ts) i p with
  | (d, Ok _) => (i < lenN ts)%N /\ d = flat (setN ts i (nar3 p))
  | (d, Panic) => (lenN ts <= i)%N
  | (_, Err _) => False
  end.
Proof.
  intros I. unfold fc_set, fc_put. rewrite !at_small by (try exact I; lia). rewrite N.add_0_r, flat_len.
  destruct (N.ltb_spec (3 * i) (3 * lenN ts)) as [L|L]; [|lia]. rewrite setN_lenN, flat_len. destruct (N.ltb_spec (3 * i + 1) (3 * lenN ts)); [|lia].
  rewrite !setN_lenN, flat_len. destruct (N.ltb_spec (3 * i + 2) (3 * lenN ts)); [|lia]. split; [lia|].
  destruct (nthN_lt_Some ts i ltac:(lia)) as [q Q]. exact (setN_flat ts i (nar3 p) q Q).
Qed.
Lemma push_flat ts p : fc_push (flat ts) p = flat (ts ++ [nar3 p]).
Proof. rewrite flat_app. reflexivity. Qed.
Lemma run_flat dbg : forall ops ps, Forall op_in_range ops -> 
  match fc_run dbg (flat (map nar3 ps)) ops with
  | Ok d => exists qs, plain_run ps ops = Some qs /\ d = flat (map nar3 qs)
  | Err _ => False
  | Panic => plain_run ps ops = None
  end.
Proof.
  induction ops as [|[p|i p] ops IH]; intros ps F; [exists ps; auto| |]; inversion F as [|? ? O F']; subst; cbn [fc_run plain_run].
  - rewrite push_flat. specialize (IH (ps ++ [p]) F'). rewrite map_app in IH. exact IH.
  - pose proof (set_flat dbg (map nar3 ps) i p O) as S. rewrite lenN_map in S. destruct (fc_set dbg (flat (map nar3 ps)) i p) as [d [[]|e|]]; [|destruct S|].
    + destruct S as [L ->]. destruct (N.ltb_spec i (lenN ps)); [|lia]. specialize (IH (setN ps i p) F'). rewrite setN_map in IH. exact IH.
    + destruct (N.ltb_spec i (lenN ps)); [lia|reflexivity].
Qed.

(** ** bounding box *)
Definition f32_3 (p : pt3 F64) : Prop := is_f32 (px p) /\ is_f32 (py p) /\ is_f32 (pz p).
Lemma triples_f32 (d : fcloud) : Forall is_f32 d -> Forall f32_3 (fc_triples d).
Proof.
  induction d as [|a|a b|a b c r IH] using three_ind; intros F; cbn; auto. inversion F as [|? ? A F1]; subst. inversion F1 as [|? ? B F2]; subst. inversion F2 as [|? ? C F3]; subst.
  constructor; [repeat split; assumption|auto].
Qed.
Lemma box_loop_axes ps : forall mn mx, 
  fc_box_loop ps mn mx = (mk3 (@fmin F64 (map px ps) (px mn)) (@fmin F64 (map py ps) (py mn)) (@fmin F64 (map pz ps) (pz mn)), mk3 (@fmax F64 (map px ps) (px mx)) (@fmax F64 (map py ps) (py mx)) (@fmax F64 (map pz ps) (pz mx))).
Proof.
  induction ps as [|p r IH]; intros mn mx; [destruct mn, mx; reflexivity|]. cbn [fc_box_loop]. rewrite IH. reflexivity.
Qed.
Lemma widen_min lo vs : Forall is_f32 vs -> is_min lo vs -> is_min (widen lo) (map widen vs).
Proof.
  intros F [I B]. rewrite Forall_forall in F. split; [apply in_map, I|]. intros v V. apply in_map_iff in V. destruct V as (w & <- & W). apply widen_fle; auto.
Qed.
Lemma widen_max hi vs : Forall is_f32 vs -> is_max hi vs -> is_max (widen hi) (map widen vs).
Proof.
  intros F [I B]. rewrite Forall_forall in F. split; [apply in_map, I|]. intros v V. apply in_map_iff in V. destruct V as (w & <- & W). apply widen_fle; auto.
Qed.
Lemma box_spec (d : fcloud) : Forall is_f32 d -> Forall number d -> 
  let qs := map widen3 (fc_triples d) in
  if (lenN qs <=? 2)%N then fc_bounding_box_maybe d = None else tight_box qs (fc_bounding_box_maybe d).
Proof.
  intros F NU qs. unfold fc_bounding_box_maybe. pose proof (proj1 (reads_any false d)) as L. unfold fc_len in L. fold qs in L. rewrite L.
  destruct (N.leb_spec (lenN qs) 2) as [Z|Z]; [reflexivity|]. pose proof (triples_f32 d F) as F3.
  assert (N3 : Forall number3 (fc_triples d)).
  { clear - NU. induction d as [|a|a b|a b c r IH] using three_ind; cbn; auto. inversion NU as [|? ? A F1]; subst. inversion F1 as [|? ? B F2]; subst. inversion F2 as [|? ? C F4]; subst.
    constructor; [intros ax [-> | [-> | ->]]; assumption|auto]. }
  unfold qs in *. clear qs L. destruct (fc_triples d) as [|p r]; [cbn in Z; lia|]. rewrite box_loop_axes.
  assert (AX : forall ax : pt3 F64 -> T F64, axis3 ax -> is_min (@fmin F64 (map ax r) (ax p)) (map ax (p :: r)) /\ is_max (@fmax F64 (map ax r) (ax p)) (map ax (p :: r)) /\ Forall is_f32 (map ax (p :: r))).
  { intros ax A. assert (NN : Forall number (map ax (p :: r))) by (apply Forall_map; eapply Forall_impl; [|exact N3]; intros q Q; apply Q, A). cbn [map] in *. inversion NN; subst.
    split; [apply fmin_f; assumption|]. split; [apply fmax_f; assumption|]. change (ax p :: map ax r) with (map ax (p :: r)). apply Forall_map. eapply Forall_impl; [|exact F3]. intros q (Q1 & Q2 & Q3). destruct A as [-> | [-> | ->]]; assumption. }
  set (mn := widen3 _). set (mx := widen3 (mk3 (fmax _ _) _ _)).
  assert (W : forall ax : pt3 F64 -> T F64, axis3 ax -> is_min (ax mn) (map ax (map widen3 (p :: r))) /\ is_max (ax mx) (map ax (map widen3 (p :: r)))).
  { intros ax A. destruct (AX ax A) as (M1 & M2 & M3). pose proof (widen_min _ _ M3 M1) as W1. pose proof (widen_max _ _ M3 M2) as W2. rewrite map_map in *.
    destruct A as [-> | [-> | ->]]; split; assumption. }
  assert (NB : number3 mn /\ number3 mx).
  { assert (NW : forall ax v, axis3 ax -> In v (map ax (map widen3 (p :: r))) -> number v).
    { intros ax v A V. rewrite map_map in V. apply in_map_iff in V. destruct V as (q & <- & Q). rewrite Forall_forall in N3, F3. specialize (N3 q Q). destruct (F3 q Q) as (Q1 & Q2 & Q3).
      destruct A as [-> | [-> | ->]]; apply widen_number; try assumption; apply N3; unfold axis3; auto. }
    split; intros ax A; destruct (W ax A) as [[I1 _] [I2 _]]; eapply NW; eassumption. }
  pose proof (bb3_new_spec mn mx (proj1 NB) (proj2 NB)) as S. destruct (bb3_new mn mx) as [b|e|]; [| |destruct S]; cbn [to_option tight_box].
  - destruct S as [-> O]. intros ax A. destruct (W ax A) as [W1 W2]. cbn [min3 max3]. auto.
  - destruct e; try contradiction.
    + exfalso. destruct S as [_ (ax & A & X)]. destruct (W ax A) as [W1 W2]. exact (min_le_max _ _ _ W1 W2 X).
    + destruct S as (ax & A & X). exists ax. split; [exact A|]. destruct (W ax A) as [W1 W2]. exact (min_max_same _ _ _ W1 W2 X).
Qed.

(** ** moving *)
Lemma move_triples x y z (d : fcloud) : fc_triples (fc_move_by d x y z) = map (fun p : pt3 F64 => @mk3 F64 (add32 (px p) (narrow x)) (add32 (py p) (narrow y)) (add32 (pz p) (narrow z))) (fc_triples d).
Proof. induction d as [|a|a b|a b c r IH] using three_ind; cbn; try reflexivity. rewrite IH. reflexivity. Qed.
Lemma move_f32 x y z (d : fcloud) : Forall is_f32 d -> Forall is_f32 (fc_move_by d x y z).
Proof.
  induction d as [|a|a b|a b c r IH] using three_ind; intros F; cbn; try exact F. inversion F as [|? ? A F1]; subst. inversion F1 as [|? ? B F2]; subst. inversion F2 as [|? ? C F3]; subst.
  repeat (constructor; [apply add32_f32; [assumption|apply narrow_f32]|]). auto.
Qed.
Lemma add32_moved a s : is_f32 a -> moved32 (widen a) s (widen (add32 a (narrow s))).
Proof.
  intros A. exists (widen (narrow s)). split; [apply narrow_kept|]. intros FA FS. pose proof (narrow_f32 s) as N. apply (widen_finite a A) in FA. apply (widen_finite _ N) in FS.
  rewrite (proj1 (widen_spec a A FA)), (proj1 (widen_spec _ N FS)). apply widen_rounds; [apply add32_f32; assumption|]. apply add32_val; assumption.
Qed.
Lemma triples_finite (d : fcloud) : Forall finite d -> Forall (fun p : pt3 F64 => finite (px p) /\ finite (py p) /\ finite (pz p)) (fc_triples d).
Proof.
  induction d as [|a|a b|a b c r IH] using three_ind; intros F; cbn; auto. inversion F as [|? ? A F1]; subst. inversion F1 as [|? ? B F2]; subst. inversion F2 as [|? ? C F3]; subst.
  constructor; [repeat split; assumption|auto].
Qed.
Lemma kept_finite s s' : finite s -> (Rabs (fval s) <= powerRZ 2 127)%R -> kept s s' -> finite s'.
Proof.
  intros F B (_ & K & _). destruct (K F) as [[(_ & X & _)|[(X & _)|(X & _)]] _]; [exact X| |]; exfalso.
  all: assert (E : powerRZ 2 127 = bpow radix2 127) by (change 2%R with (IZR radix2); symmetry; apply bpow_powerRZ).
  all: assert (G : round32 (bpow radix2 127) = bpow radix2 127) by (apply round_generic; [apply valid_rnd_N|apply generic_format_bpow; vm_compute; discriminate]).
  all: assert (G' : round32 (- bpow radix2 127) = (- bpow radix2 127)%R) by (apply round_generic; [apply valid_rnd_N|apply generic_format_opp, generic_format_bpow; vm_compute; discriminate]).
  all: rewrite top32 in X; pose proof (bpow_lt radix2 127 128 ltac:(lia)) as PT; rewrite E in B; apply Rabs_le_inv in B.
  - pose proof (round32_le _ _ (proj2 B)). lra.
  - pose proof (round32_le _ _ (proj1 B)). lra.
Qed.
