(** Lemmas about saving through writers. *)
From Verif Require Import Base BaseLemmas Num MeshModel MeshAlgoModel VecModel IoModel ByteModel PlyModel PlySpec StlModel WriterModel WriterSpec.
Open Scope nat_scope.

Section Programs.
Context {E : Type} (P R : wevent -> Prop) (e : E).
(** [f] hands over [t] and ends with [x], or fails within [t]. *)
Definition prog (f : writer -> outcome E unit * writer) (t : bytes) (x : outcome E unit) : Prop :=
  forall calls out, Forall P calls -> exists calls' o r, f (mkw calls out) = (r, mkw calls' (out ++ o)) /\ Forall P calls' /\
    (r = x /\ o = t \/ r = Err e /\ exists rest, rest <> [] /\ t = o ++ rest) /\ (Forall R calls -> r = x /\ o = t /\ Forall R calls').
Lemma prog_nil : prog (fun w => (Ok tt, w)) [] (Ok tt).
Proof. intros calls out F. exists calls, [], (Ok tt). rewrite app_nil_r. repeat split; auto. Qed.
Lemma prog_panic : prog (fun w => (Panic, w)) [] Panic.
Proof. intros calls out F. exists calls, [], Panic. rewrite app_nil_r. repeat split; auto. Qed.
Lemma prog_then f t g u x : prog f t (Ok tt) -> prog g u x -> prog (fun w => andthen (f w) g) (t ++ u) x.
Proof.
  intros HF HG calls out F. destruct (HF calls out F) as (c1 & o1 & r1 & E1 & F1 & D1 & R1). rewrite E1.
  destruct D1 as [[-> ->]|(-> & rest & NE & T)].
  - cbn [andthen]. destruct (HG c1 (out ++ t) F1) as (c2 & o2 & r2 & E2 & F2 & D2 & R2). exists c2, (t ++ o2), r2. rewrite E2, app_assoc. repeat split; auto.
    + destruct D2 as [[-> ->]|(-> & rest & NE & T)]; [left; auto|right]. split; [reflexivity|]. exists rest. rewrite T, app_assoc. auto.
    + destruct (R1 H) as (_ & _ & R1'). apply R2, R1'.
    + destruct (R1 H) as (_ & _ & R1'). destruct (R2 R1') as (_ & -> & _). reflexivity.
    + destruct (R1 H) as (_ & _ & R1'). apply R2, R1'.
  - cbn [andthen]. exists c1, o1, (Err e). repeat split; auto.
    + right. split; [reflexivity|]. exists (rest ++ u). split; [destruct rest; [contradiction|discriminate]|]. rewrite T, <- app_assoc. reflexivity.
    + destruct (R1 H) as (X & _). discriminate X.
    + destruct (R1 H) as (X & _). discriminate X.
    + apply R1, H.
Qed.
Lemma prog_then_panic f t g : prog f t Panic -> prog (fun w => andthen (f w) g) t Panic.
Proof.
  intros HF calls out F. destruct (HF calls out F) as (c1 & o1 & r1 & E1 & F1 & D1 & R1). rewrite E1. exists c1, o1, r1.
  destruct D1 as [[-> ->]|(-> & D1)]; cbn [andthen]; repeat split; auto; apply R1; assumption.
Qed.
Lemma prog_ext f g t x : (forall w, f w = g w) -> prog f t x -> prog g t x.
Proof. intros H HF calls out F. destruct (HF calls out F) as (c & o & r & E1 & D). exists c, o, r. rewrite <- H. auto. Qed.
(** write_all *)
Lemma put_prog b : (forall v, R v -> match v with Takes n => n <> 0 | WInterrupted => True | WFailure => False end) -> prog (put e b) b (Ok tt).
Proof.
  intros RR calls. unfold put. cbn [w_calls w_out]. revert b. induction calls as [|v calls IH]; intros b out F.
  - exists [], b, (Ok tt). destruct b; cbn [write_all_to]; rewrite ?app_nil_r; repeat split; auto.
  - inversion F as [|? ? F1 F2]; subst. destruct b as [|c b]; [exists (v :: calls), [], (Ok tt); cbn [write_all_to]; rewrite app_nil_r; repeat split; auto|].
    set (d := c :: b). assert (ND : d <> []) by discriminate. cbn [write_all_to]. fold d. change (match d with [] => _ | _ :: _ => ?x end) with x. destruct v as [[|n]| |].
    + exists calls, [], (Err e). rewrite app_nil_r. split; [reflexivity|]. split; [exact F2|]. split; [right; split; [reflexivity|exists d; auto]|]. intros H. inversion H as [|? ? H1 H2]; subst. destruct (RR _ H1). reflexivity.
    + destruct (IH (skipn (S n) d) (out ++ firstn (S n) d) F2) as (c' & o & r & E1 & F' & D & RD). exists c', (firstn (S n) d ++ o), r. rewrite E1, app_assoc. split; [reflexivity|]. split; [exact F'|]. split.
      * destruct D as [[-> ->]|(-> & rest & NE & T)]; [left; split; [reflexivity|apply firstn_skipn]|right]. split; [reflexivity|]. exists rest. split; [exact NE|]. rewrite <- app_assoc, <- T. symmetry. apply firstn_skipn.
      * intros H. inversion H; subst. destruct RD as (-> & -> & RD); [assumption|]. split; [reflexivity|]. split; [apply firstn_skipn|exact RD].
    + destruct (IH d out F2) as (c' & o & r & E1 & F' & D & RD). exists c', o, r. rewrite E1. split; [reflexivity|]. split; [exact F'|]. split; [exact D|]. intros H. inversion H; subst. auto.
    + exists calls, [], (Err e). rewrite app_nil_r. split; [reflexivity|]. split; [exact F2|]. split; [right; split; [reflexivity|exists d; auto]|]. intros H. inversion H as [|? ? H1 H2]; subst. destruct (RR _ H1).
Qed.
(** write *)
Lemma write_prog b : b <> [] -> (forall v, P v -> match v with Takes n => length b <= n | _ => True end) -> (forall v, R v -> match v with Takes n => True | _ => False end) -> prog (write_to e b) b (Ok tt).
Proof.
  intros NE PP RR calls out F. unfold write_to. cbn [w_calls w_out]. destruct calls as [|v calls]; [exists [], b, (Ok tt); repeat split; auto|]. inversion F as [|? ? F1 F2]; subst. destruct v as [n| |].
  - exists calls, b, (Ok tt). rewrite (firstn_all2 b) by (apply (PP _ F1)). repeat split; auto. inversion H; assumption.
  - exists calls, [], (Err e). rewrite app_nil_r. split; [reflexivity|]. split; [exact F2|]. split; [right; split; [reflexivity|exists b; auto]|]. intros H. inversion H as [|? ? H1 H2]; subst. destruct (RR _ H1).
  - exists calls, [], (Err e). rewrite app_nil_r. split; [reflexivity|]. split; [exact F2|]. split; [right; split; [reflexivity|exists b; auto]|]. intros H. inversion H as [|? ? H1 H2]; subst. destruct (RR _ H1).
Qed.
Lemma each_prog bs : Forall (fun b => b <> [] /\ forall v, P v -> match v with Takes n => length b <= n | _ => True end) bs -> (forall v, R v -> match v with Takes n => True | _ => False end) ->
  prog (write_each e bs) (concat bs) (Ok tt).
Proof.
  intros F RR. induction F as [|b bs [NE PP] F IH]; [apply prog_nil|]. cbn [write_each concat]. apply (prog_then (write_to e b)); [apply write_prog; assumption|exact IH].
Qed.
Lemma computed_prog {A} (x : outcome E A) a f t y : x = Ok a -> prog (f a) t y -> prog (computed x f) t y.
Proof. intros -> H. exact H. Qed.
Lemma computed_panic {A} (x : outcome E A) f : x = Panic -> prog (computed x f) [] Panic.
Proof. intros ->. apply prog_panic. Qed.
(** Loops: [like f x] says that [f] hands over the text of [x]. *)
Definition like {A} (text : A -> bytes) (f : writer -> outcome E unit * writer) {F} (x : outcome F A) : Prop :=
  match x with Ok a => prog f (text a) (Ok tt) | Err _ => False | Panic => exists t, prog f t Panic end.
Lemma for_collect f g : (forall i, like all_bytes (f i) (g i)) -> forall n i, like all_bytes (for_write n i f) (collect_range n i g).
Proof.
  intros H. induction n as [|n IH]; intros i; cbn [for_write collect_range]; [apply prog_nil|]. specialize (H i). specialize (IH (i + 1)%N). destruct (g i) as [a|z|]; cbn [like obind] in *; [|contradiction|].
  - destruct (collect_range n (i + 1) g) as [b|z|]; cbn [like obind] in *; [|contradiction|].
    + unfold all_bytes. rewrite flat_map_app. apply (prog_then (f i)); assumption.
    + destruct IH as [t IH]. exists (all_bytes a ++ t). apply (prog_then (f i)); assumption.
  - destruct H as [t H]. exists t. apply (prog_then_panic (f i)); assumption.
Qed.
Lemma for_ranged f (g : N -> res bytes) : (forall i, like (fun t => t) (f i) (g i)) -> forall n i out,
  match for_range n i (fun i out => obind (g i) (fun t => Ok (out ++ t))) out with
  | Ok out' => exists t, out' = out ++ t /\ prog (for_write n i f) t (Ok tt) | Err _ => False | Panic => exists t, prog (for_write n i f) t Panic end.
Proof.
  intros H. induction n as [|n IH]; intros i out; cbn [for_write for_range]; [exists []; rewrite app_nil_r; split; [reflexivity|apply prog_nil]|].
  specialize (H i). destruct (g i) as [a|z|]; cbn [like obind] in *; [|contradiction|].
  - specialize (IH (i + 1)%N (out ++ a)). destruct (for_range n (i + 1) _ (out ++ a)) as [b|z|]; [|contradiction|].
    + destruct IH as (t & -> & IH). exists (a ++ t). rewrite app_assoc. split; [reflexivity|]. apply (prog_then (f i)); assumption.
    + destruct IH as [t IH]. exists (a ++ t). apply (prog_then (f i)); assumption.
  - destruct H as [t H]. exists t. apply (prog_then_panic (f i)); assumption.
Qed.
End Programs.
