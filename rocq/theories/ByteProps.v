(** Binary numbers: C72 *)
From Verif Require Import Base BaseLemmas Num GeomSpec FloatSpec FloatBridge IoModel ByteModel ByteSpec ByteLemmas.
From Coq Require Import Floats.SpecFloat Reals Lra Lia.
From Flocq Require Import Core.
Open Scope nat_scope.

(** Unsigned numbers: exactly [n] bytes are consumed, and they are the encoding of the result. *)
Theorem C72_read_unsigned : forall en n s, 
  match read_unsigned en n s with
  | Some (v, rest) => exists b, s = b ++ rest /\ length b = n /\ encodes en b v
  | None => length s < n
  end.
Proof.
  intros en n s. unfold read_unsigned, read_uint. destruct (take_bytes n s) as [[b r]|] eqn:E; unfold take_bytes in E; destruct (length s <? n) eqn:L; try discriminate.
  - injection E as <- <-. apply Nat.ltb_ge in L. exists (firstn n s). split; [symmetry; apply firstn_skipn|]. split; [apply firstn_length_le, L|apply uint_encodes].
  - apply Nat.ltb_lt, L.
Qed.
Print Assumptions C72_read_unsigned.
(** An encoding determines the number, so reading an encoding gives the encoded number. *)
Theorem C72_decode_encode : forall en b v rest, encodes en b v -> read_unsigned en (length b) (b ++ rest) = Some (v, rest).
Proof. intros en b v rest E. unfold read_unsigned. rewrite read_uint_app by reflexivity. f_equal. f_equal. apply (encodes_unique en b); [apply uint_encodes|exact E]. Qed.
Print Assumptions C72_decode_encode.
(** Every number in range has an encoding in both orders; reversing the bytes swaps the orders. *)
Theorem C72_encoding_exists : forall en n v, (v < 256 ^ N.of_nat n)%N -> exists b, length b = n /\ encodes en b v.
Proof.
  intros en n v H. destruct en.
  - exists (rev (be_bytes n v)). rewrite rev_length, be_bytes_length. split; [reflexivity|]. pose proof (le_encodes (rev (be_bytes n v))) as E. rewrite <- be_le, be_value_bytes in E by exact H. exact E.
  - exists (be_bytes n v). rewrite be_bytes_length. split; [reflexivity|]. pose proof (be_encodes (be_bytes n v)) as E. rewrite be_value_bytes in E by exact H. exact E.
Qed.
Print Assumptions C72_encoding_exists.
Theorem C72_reversed : forall b rest, read_unsigned Big (length b) (rev b ++ rest) = read_unsigned Little (length b) (b ++ rest).
Proof. intros b rest. unfold read_unsigned. rewrite (read_uint_app Little) by reflexivity. rewrite (read_uint_app Big) by apply rev_length. rewrite be_le, rev_involutive. reflexivity. Qed.
Print Assumptions C72_reversed.
(** Signed numbers: two's complement. *)
Theorem C72_read_signed : forall en n s, 0 < n ->
  match read_signed en n s, read_unsigned en n s with
  | Some (z, rest), Some (v, rest') => rest = rest' /\ (- 2 ^ (8 * Z.of_nat n - 1) <= z < 2 ^ (8 * Z.of_nat n - 1))%Z /\ (z mod 2 ^ (8 * Z.of_nat n) = Z.of_N v)%Z
  | None, None => True
  | _, _ => False
  end.
Proof.
  intros en n s N0. pose proof (C72_read_unsigned en n s) as U. unfold read_signed. unfold read_unsigned in *. destruct (read_uint en n s) as [[v r]|]; [|exact I]. split; [reflexivity|].
  destruct U as (b & _ & L & B & _). rewrite L in B. destruct (signed_range n v N0 B) as [R D]. split; [exact R|].
  assert (E2 : (Z.of_N (256 ^ N.of_nat n) = 2 ^ (8 * Z.of_nat n))%Z) by (rewrite N2Z.inj_pow, nat_N_Z; change (Z.of_N 256) with (2 ^ 8)%Z; rewrite <- Z.pow_mul_r by lia; reflexivity).
  assert (P : (0 < 2 ^ (8 * Z.of_nat n))%Z) by (apply Z.pow_pos_nonneg; lia).
  destruct D as [D|D]; [rewrite Z.mod_small by lia; lia|]. symmetry. apply (Z.mod_unique _ _ (-1)); lia.
Qed.
Print Assumptions C72_read_signed.

(** Doubles: the fields of the encoded number give the value of the IEEE 754 standard. *)
Theorem C72_read_f64 : forall en b s e m rest, encodes en b (Z.to_N ((if s : bool then 2 ^ 63 else 0) + e * 2 ^ 52 + m)) -> length b = 8 -> (0 <= m < 2 ^ 52)%Z -> (0 <= e < 2 ^ 11)%Z ->
  exists x, read_f64 en (b ++ rest) = Some (x, rest) /\ is_double x /\
    ((e < 2047)%Z -> finite x /\ fval x = ieee_value 52 1023 s e m /\ sign_of x = Some s) /\
    (e = 2047%Z -> x = if (m =? 0)%Z then S754_infinity s else S754_nan).
Proof.
  intros en b s e m rest E L M H. eexists. split; [unfold read_f64; pose proof (C72_decode_encode en b _ rest E) as D; unfold read_unsigned in D; rewrite L in D; rewrite D; reflexivity|].
  split; [apply (decode_valid 52 11); try lia; destruct (fields 52 11 ltac:(lia) ltac:(lia) s e m M H) as (_ & _ & _ & X); change (52 + 11)%Z with 63%Z in X; rewrite Z2N.id by apply X; apply X|].
  unfold f64_of_bits. change (2 ^ 63)%Z with (2 ^ (52 + 11))%Z. rewrite decode_fields by (lia || assumption). change (3 - 2 ^ (11 - 1) - (52 + 1))%Z with (-1074)%Z. change (2 ^ 11 - 1)%Z with 2047%Z. split.
  - intros H'. unfold ieee_value. destruct (e =? 0)%Z eqn:Q.
    + apply Z.eqb_eq in Q. subst e. change (Z.max 0 1 - 1023 - 52)%Z with (-1074)%Z. destruct m as [|p|p]; [|split; [exact I|split; reflexivity]|lia]. split; [exact I|]. split; [|reflexivity]. cbn [fval]. lra.
    + apply Z.eqb_neq in Q. destruct (e =? 2047)%Z eqn:Q2; [apply Z.eqb_eq in Q2; lia|]. destruct (m + 2 ^ 52)%Z as [|p|p] eqn:Q3; [lia| |lia]. split; [exact I|]. split; [|reflexivity].
      cbn [fval]. rewrite <- Q3. replace (Z.max e 1 - 1023 - 52)%Z with (e - 1 + -1074)%Z by lia. rewrite Z.add_comm. reflexivity.
  - intros ->. cbn [Z.eqb Pos.eqb]. destruct m; reflexivity.
Qed.
Print Assumptions C72_read_f64.
Theorem C72_read_f32 : forall en b s e m rest, encodes en b (Z.to_N ((if s : bool then 2 ^ 31 else 0) + e * 2 ^ 23 + m)) -> length b = 4 -> (0 <= m < 2 ^ 23)%Z -> (0 <= e < 2 ^ 8)%Z ->
  exists x, read_f32 en (b ++ rest) = Some (x, rest) /\ is_f32 x /\
    ((e < 255)%Z -> finite x /\ fval x = ieee_value 23 127 s e m /\ sign_of x = Some s) /\
    (e = 255%Z -> x = if (m =? 0)%Z then S754_infinity s else S754_nan).
Proof.
  intros en b s e m rest E L M H. eexists. split; [unfold read_f32; pose proof (C72_decode_encode en b _ rest E) as D; unfold read_unsigned in D; rewrite L in D; rewrite D; reflexivity|].
  split; [apply (decode_valid 23 8); try lia; destruct (fields 23 8 ltac:(lia) ltac:(lia) s e m M H) as (_ & _ & _ & X); change (23 + 8)%Z with 31%Z in X; rewrite Z2N.id by apply X; apply X|].
  unfold f32_of_bits. change (2 ^ 31)%Z with (2 ^ (23 + 8))%Z. rewrite decode_fields by (lia || assumption). change (3 - 2 ^ (8 - 1) - (23 + 1))%Z with (-149)%Z. change (2 ^ 8 - 1)%Z with 255%Z. split.
  - intros H'. unfold ieee_value. destruct (e =? 0)%Z eqn:Q.
    + apply Z.eqb_eq in Q. subst e. change (Z.max 0 1 - 127 - 23)%Z with (-149)%Z. destruct m as [|p|p]; [|split; [exact I|split; reflexivity]|lia]. split; [exact I|]. split; [|reflexivity]. cbn [fval]. lra.
    + apply Z.eqb_neq in Q. destruct (e =? 255)%Z eqn:Q2; [apply Z.eqb_eq in Q2; lia|]. destruct (m + 2 ^ 23)%Z as [|p|p] eqn:Q3; [lia| |lia]. split; [exact I|]. split; [|reflexivity].
      cbn [fval]. rewrite <- Q3. replace (Z.max e 1 - 127 - 23)%Z with (e - 1 + -149)%Z by lia. rewrite Z.add_comm. reflexivity.
  - intros ->. cbn [Z.eqb Pos.eqb]. destruct m; reflexivity.
Qed.
Print Assumptions C72_read_f32.
(** Short input is an error for all types. *)
Theorem C72_short : forall en s, (length s < 8 -> read_f64 en s = None) /\ (length s < 4 -> read_f32 en s = None) /\ forall n, length s < n -> read_unsigned en n s = None /\ read_signed en n s = None.
Proof.
  intros en s. unfold read_f64, read_f32, read_unsigned, read_signed, read_uint. split; [intros L; rewrite take_short by exact L; reflexivity|]. split; [intros L; rewrite take_short by exact L; reflexivity|]. intros n L. rewrite take_short by exact L. split; reflexivity.
Qed.
Print Assumptions C72_short.
(** What to_be_bytes writes is read back, for all doubles. *)
Theorem C72_f64_round_trip : forall x rest, is_double x -> read_f64 Big (be_bytes 8 (f64_bits x) ++ rest) = Some (x, rest).
Proof.
  intros x rest D. unfold read_f64. rewrite read_uint_app by apply be_bytes_length. rewrite be_value_bytes; [f_equal; f_equal; apply (decode_encode 52 11); [lia|lia|exact D]|].
  pose proof (encode_bound 52 11 ltac:(lia) ltac:(lia) x D) as B. unfold f64_bits. apply N2Z.inj_lt. rewrite N2Z.inj_pow. exact B.
Qed.
Print Assumptions C72_f64_round_trip.
Theorem C72_f32_round_trip : forall x rest, is_f32 x -> read_f32 Big (be_bytes 4 (f32_bits x) ++ rest) = Some (x, rest).
Proof.
  intros x rest D. unfold read_f32. rewrite read_uint_app by apply be_bytes_length. rewrite be_value_bytes; [f_equal; f_equal; apply (decode_encode 23 8); [lia|lia|exact D]|].
  pose proof (encode_bound 23 8 ltac:(lia) ltac:(lia) x D) as B. unfold f32_bits. apply N2Z.inj_lt. rewrite N2Z.inj_pow. exact B.
Qed.
Print Assumptions C72_f32_round_trip.
(** f32 as f64 keeps the number; f64 as f32 rounds to the nearest f32 and undoes it. *)
Theorem C72_f32_as_f64 : forall x, is_f32 x -> is_double (widen x) /\ (finite x -> finite (widen x) /\ fval (widen x) = fval x /\ sign_of (widen x) = sign_of x) /\ narrow (widen x) = x.
Proof. intros x V. split; [apply widen_double|]. split; [intros F; destruct (widen_spec x V F) as (A & B & C); auto|apply narrow_widen, V]. Qed.
Print Assumptions C72_f32_as_f64.
Theorem C72_f64_as_f32 : forall x, is_double x -> finite x -> is_f32 (narrow x) /\
  let r := round radix2 (FLT_exp (-149) 24) ZnearestE (fval x) in
  ((Rabs r < powerRZ 2 128)%R -> finite (narrow x) /\ fval (narrow x) = r /\ sign_of (narrow x) = sign_of x) /\ ((powerRZ 2 128 <= Rabs r)%R -> exists s, narrow x = S754_infinity s /\ sign_of x = Some s).
Proof.
  intros x D F. split; [apply narrow_f32|]. cbv zeta. destruct x as [s|s| |s m e]; try contradiction.
  - unfold fval. rewrite round_0 by apply valid_rnd_N. split; [intros _; repeat split|]. intros H. exfalso. rewrite Rabs_R0 in H. pose proof (powerRZ_lt 2 128 ltac:(lra)). lra.
  - pose proof (convert_val 24 128 P24 M24 s m e) as C. cbv zeta in C. unfold rndp in C. change (powerRZ 2 128) with (powerRZ (IZR radix2) 128). rewrite <- bpow_powerRZ.
    change (round radix2 (FLT_exp (-149) 24) ZnearestE (fval (S754_finite s m e))) with (round radix2 (SpecFloat.fexp 24 128) ZnearestE (fval (S754_finite s m e))).
    fold (narrow (S754_finite s m e)) in C. split; intros H.
    + rewrite Rlt_bool_true in C by exact H. destruct C as (A & B & E). auto.
    + rewrite Rlt_bool_false in C by exact H. exists s. split; [exact C|reflexivity].
Qed.
Print Assumptions C72_f64_as_f32.
Example C72_case : read_unsigned Little 2 (map ascii_of_nat [1; 2; 9]) = Some (513%N, [ascii_of_nat 9]) /\ read_unsigned Big 2 (map ascii_of_nat [1; 2; 9]) = Some (258%N, [ascii_of_nat 9]) /\
  read_signed Little 2 (map ascii_of_nat [254; 255]) = Some ((-2)%Z, []) /\ encodes Big (map ascii_of_nat [64; 20; 0; 0; 0; 0; 0; 0]) (Z.to_N (1025 * 2 ^ 52 + 4 * 2 ^ 48)) /\
  read_f64 Big (map ascii_of_nat [64; 20; 0; 0; 0; 0; 0; 0]) = Some (fz 5, []) /\ read_f32 Little (map ascii_of_nat [0; 0; 160; 64]) = Some (narrow (fz 5), []) /\ widen (narrow (fz 5)) = fz 5.
Proof.
  split; [reflexivity|]. split; [reflexivity|]. split; [reflexivity|]. split; [split; [reflexivity|]; intros i L; do 8 (destruct i as [|i]; [reflexivity|]); cbn in L; lia|]. split; [vmeq|split; vmeq].
Qed.

(** Arrays of numbers from bytes: all and only the inputs of the right size are accepted. *)
Theorem C72_array : forall en size n b, 0 < size ->
  match array_from_bytes en size n b with
  | Ok vs => length b = size * n /\ length vs = n /\ forall i, i < n -> encodes en (firstn size (skipn (i * size) b)) (nth i vs 0%N)
  | Err e => e = SizeMismatch /\ length b <> size * n
  | Panic => False
  end.
Proof.
  intros en size n b S0. unfold array_from_bytes. destruct (length b =? size * n) eqn:L; [|split; [reflexivity|apply Nat.eqb_neq, L]]. apply Nat.eqb_eq in L.
  assert (G : forall k i, (i + k) * size <= length b -> exists vs, from_slices en size b k i = Ok vs /\ length vs = k /\ forall j, j < k -> encodes en (firstn size (skipn ((i + j) * size) b)) (nth j vs 0%N)).
  { induction k as [|k IH]; intros i H; [exists []; repeat split; cbn; lia|]. cbn [from_slices]. unfold slice.
    destruct (i * size <=? (i + 1) * size) eqn:C1; [|apply Nat.leb_gt in C1; nia]. destruct ((i + 1) * size <=? length b) eqn:C2; [|apply Nat.leb_gt in C2; nia]. cbn [andb obind].
    replace ((i + 1) * size - i * size) with size by nia. unfold from_slice. assert (LF : length (firstn size (skipn (i * size) b)) = size) by (apply firstn_length_le; rewrite skipn_length; nia). rewrite LF, Nat.eqb_refl. cbn [obind].
    destruct (IH (i + 1) ltac:(lia)) as (vs & A & B & C). rewrite A. cbn [obind]. eexists. split; [reflexivity|]. split; [cbn [length]; lia|]. intros [|j] Lj.
    - rewrite Nat.add_0_r. cbn [nth]. apply uint_encodes.
    - cbn [nth]. replace (i + S j) with (i + 1 + j) by lia. apply C. lia. }
  destruct (G n 0 ltac:(cbn [Nat.add]; lia)) as (vs & A & B & C). rewrite A. split; [exact L|]. split; [exact B|exact C].
Qed.
Print Assumptions C72_array.
(** The big endian slice conversion checks the size wrongly: for elements of more than one byte it
    rejects every non-empty input of the right size, and panics on what it accepts. *)
Theorem C72_slice_be_refuted : forall size n b, 1 < size -> 0 < n ->
  (length b = size * n -> slice_from_bytes_be size n b = Err SizeMismatch) /\ (n = size * length b -> slice_from_bytes_be size n b = Panic).
Proof.
  intros size n b S1 N0. unfold slice_from_bytes_be. split; intros L.
  - destruct (size * length b =? n) eqn:E; [apply Nat.eqb_eq in E; nia|reflexivity].
  - rewrite <- L, Nat.eqb_refl. assert (G : forall k i, (i + k) * size > length b -> 0 < k -> from_slices Big size b k i = Panic).
    { induction k as [|k IH]; intros i H K; [lia|]. cbn [from_slices]. unfold slice. destruct (i * size <=? (i + 1) * size) eqn:C1; [|apply Nat.leb_gt in C1; nia]. destruct ((i + 1) * size <=? length b) eqn:C2; [|reflexivity].
      cbn [andb obind]. apply Nat.leb_le in C2. replace ((i + 1) * size - i * size) with size by nia. unfold from_slice. assert (LF : length (firstn size (skipn (i * size) b)) = size) by (apply firstn_length_le; rewrite skipn_length; nia). rewrite LF, Nat.eqb_refl. cbn [obind].
      rewrite IH; [reflexivity|nia|]. destruct k; [nia|lia]. }
    apply G; nia.
Qed.
Print Assumptions C72_slice_be_refuted.
Example C72_slice_be_case : slice_from_bytes_be 2 1 (map ascii_of_nat [1; 2]) = Err SizeMismatch /\ slice_from_bytes_be 2 2 (map ascii_of_nat [1]) = Panic /\
  array_from_bytes Little 2 2 (map ascii_of_nat [1; 2; 3; 4]) = Ok [513%N; 1027%N].
Proof. repeat split. Qed.
