(** BitsProofs.v -- lemmas about bit access. *)
From Verif Require Import Base ModelCommon SpecBits PositionProofs.
From Coq Require Import ZifyBool ZifyNat ZifyN NArith.
Ltac Zify.zify_post_hook ::= Z.div_mod_to_equations.
Arguments Z.pow : simpl never.
Arguments Z.mul : simpl never.
Arguments Z.add : simpl never.
Arguments Z.sub : simpl never.
Arguments Z.of_nat : simpl never.

Lemma Z_of_byte_range : forall b, 0 <= Z_of_byte b < 256.
Proof.
  intros b. unfold Z_of_byte. pose proof (Byte.to_N_bounded b). lia.
Qed.

Lemma Z_of_byte_of_Z : forall z, Z_of_byte (byte_of_Z z) = z mod 256.
Proof.
  intros z. unfold byte_of_Z.
  destruct (Byte.of_N (Z.to_N (z mod 256))) as [b|] eqn:E.
  - apply Byte.to_of_N in E. unfold Z_of_byte. rewrite E. lia.
  - apply Byte.of_N_None_iff in E. lia.
Qed.

Lemma byte_of_Z_of_byte : forall b, byte_of_Z (Z_of_byte b) = b.
Proof.
  intros b. unfold byte_of_Z. pose proof (Z_of_byte_range b) as R.
  rewrite Z.mod_small by exact R. unfold Z_of_byte. rewrite N2Z.id, Byte.of_to_N. reflexivity.
Qed.

Definition bit_of_bool (b : bool) : Bit := if b then Bit1 else Bit0.
Definition bool_of_bit (b : Bit) : bool := match b with Bit1 => true | Bit0 => false end.

Lemma get_bit_spec : forall b i, 0 <= i < 8 ->
  get_bit b i = Some (bit_of_bool (Z.testbit (Z_of_byte b) (7 - i))).
Proof.
  intros b i Hi. unfold get_bit. replace (i <? 8) with true by lia.
  rewrite land_pow2_zero by lia.
  destruct (Z.testbit (Z_of_byte b) (7 - i)); reflexivity.
Qed.

Lemma be_value_range : forall a, 0 <= be_value a < 2 ^ (8 * Z.of_nat (length a)).
Proof.
  induction a as [|x a IH]; cbn [be_value length].
  - change (2 ^ (8 * Z.of_nat 0)) with 1. lia.
  - pose proof (Z_of_byte_range x) as R. unfold Z_of_byte in R.
    replace (8 * Z.of_nat (S (length a))) with (8 + 8 * Z.of_nat (length a)) by lia.
    rewrite Z.pow_add_r by lia. change (2 ^ 8) with 256.
    set (k := 2 ^ (8 * Z.of_nat (length a))) in *. nia.
Qed.

Lemma slice_get_cons : forall {A} (x : A) l i, 0 <= i ->
  slice_get (x :: l) (1 + i) = slice_get l i.
Proof.
  intros A x l i Hi. unfold slice_get. cbn [length].
  destruct (Z.ltb_spec i (Z.of_nat (length l))); destruct (Z.ltb_spec (1 + i) (Z.of_nat (S (length l)))); try lia; auto.
  replace (Z.to_nat (1 + i)) with (S (Z.to_nat i)) by lia. reflexivity.
Qed.

Lemma msb_bit_cons : forall x a j, 0 <= j ->
  get_bit_at_index_from_msb (x :: a) (8 + j) = get_bit_at_index_from_msb a j.
Proof.
  intros x a j Hj. unfold get_bit_at_index_from_msb.
  replace ((8 + j) / 8) with (1 + j / 8) by lia.
  replace ((8 + j) mod 8) with (j mod 8) by lia.
  rewrite slice_get_cons by lia. reflexivity.
Qed.

Lemma msb_bit_head : forall x a j, 0 <= j < 8 ->
  get_bit_at_index_from_msb (x :: a) j = get_bit x j.
Proof.
  intros x a j Hj. unfold get_bit_at_index_from_msb.
  replace (j / 8) with 0 by lia. replace (j mod 8) with j by lia.
  unfold slice_get. cbn [length]. replace (0 <? Z.of_nat (S (length a))) with true by lia.
  reflexivity.
Qed.

Lemma msb_bit_value : forall a j, 0 <= j < 8 * Z.of_nat (length a) ->
  get_bit_at_index_from_msb a j =
    Some (bit_of_bool (Z.testbit (be_value a) (8 * Z.of_nat (length a) - 1 - j))).
Proof.
  induction a as [|x a IH]; intros j Hj; cbn [length] in Hj.
  - change (Z.of_nat 0) with 0 in Hj. lia.
  - cbn [be_value length]. pose proof (be_value_range a) as R.
    destruct (Z.ltb_spec j 8).
    + rewrite msb_bit_head by lia. rewrite get_bit_spec by lia. do 2 f_equal.
      replace (8 * Z.of_nat (S (length a)) - 1 - j) with (7 - j + 8 * Z.of_nat (length a)) by lia.
      rewrite <- Z.div_pow2_bits by lia. f_equal.
      fold (Z_of_byte x). apply Z.div_unique with (r := be_value a); [left; exact R|ring].
    + replace j with (8 + (j - 8)) at 1 by lia. rewrite msb_bit_cons by lia.
      rewrite IH by lia. do 2 f_equal.
      replace (8 * Z.of_nat (S (length a)) - 1 - j) with (8 * Z.of_nat (length a) - 1 - (j - 8)) by lia.
      symmetry. rewrite <- (Z.mod_pow2_bits_low _ (8 * Z.of_nat (length a))) by lia. f_equal.
      symmetry. apply Z.mod_unique with (q := Z.of_N (Byte.to_N x)); [left; exact R|ring].
Qed.

Lemma msb_bit_none : forall a j, 8 * Z.of_nat (length a) <= j ->
  get_bit_at_index_from_msb a j = None.
Proof.
  intros a j Hj. unfold get_bit_at_index_from_msb, slice_get.
  destruct (Z.ltb_spec (j / 8) (Z.of_nat (length a))); [lia|]. reflexivity.
Qed.

(** * u64 big-endian bytes *)
Lemma u64_to_be_bytes_length : forall z, length (u64_to_be_bytes z) = 8%nat.
Proof. reflexivity. Qed.

Lemma be_value_u64 : forall z, 0 <= z < U64 -> be_value (u64_to_be_bytes z) = z.
Proof.
  intros z Hz. unfold u64_to_be_bytes. cbn [map be_value length].
  repeat match goal with |- context [Z.of_N (to_N (byte_of_Z ?w))] =>
    change (Z.of_N (to_N (byte_of_Z w))) with (Z_of_byte (byte_of_Z w));
    rewrite (Z_of_byte_of_Z w) end.
  unfold U64 in Hz.
  repeat match goal with |- context [2 ^ ?e] =>
    let v := eval vm_compute in (2 ^ e) in change (2 ^ e) with v end.
  change (2 ^ 64) with 18446744073709551616 in Hz.
  rewrite Z.div_1_r.
  assert (D : forall a b, 0 < b -> z / (a * b) = z / a / b \/ a <= 0).
  { intros a b Hb. destruct (Z.ltb_spec 0 a); [left; symmetry; apply Z.div_div; lia|right; lia]. }
  destruct (D 256 256 ltac:(lia)) as [D1|]; [|lia].
  destruct (D 65536 256 ltac:(lia)) as [D2|]; [|lia].
  destruct (D 16777216 256 ltac:(lia)) as [D3|]; [|lia].
  destruct (D 4294967296 256 ltac:(lia)) as [D4|]; [|lia].
  destruct (D 1099511627776 256 ltac:(lia)) as [D5|]; [|lia].
  destruct (D 281474976710656 256 ltac:(lia)) as [D6|]; [|lia].
  change (256 * 256) with 65536 in D1. change (65536 * 256) with 16777216 in D2.
  change (16777216 * 256) with 4294967296 in D3. change (4294967296 * 256) with 1099511627776 in D4.
  change (1099511627776 * 256) with 281474976710656 in D5.
  change (281474976710656 * 256) with 72057594037927936 in D6.
  rewrite D6, D5, D4, D3, D2, D1. clear D D1 D2 D3 D4 D5 D6.
  lia.
Qed.

Lemma u64_to_be_bytes_inj : forall x y, 0 <= x < U64 -> 0 <= y < U64 ->
  u64_to_be_bytes x = u64_to_be_bytes y -> x = y.
Proof.
  intros x y Hx Hy E. rewrite <- (be_value_u64 x Hx), <- (be_value_u64 y Hy), E. reflexivity.
Qed.

Lemma u64_instruction : forall z o, 0 <= z < U64 -> 0 <= o < 64 ->
  get_instruction (u64_to_be_bytes z) o =
    Some (if Z.testbit z (63 - o) then IRight else ILeft).
Proof.
  intros z o Hz Ho. unfold get_instruction.
  rewrite msb_bit_value by (rewrite u64_to_be_bytes_length; lia).
  rewrite u64_to_be_bytes_length, be_value_u64 by exact Hz.
  replace (8 * Z.of_nat 8 - 1 - o) with (63 - o) by lia.
  destruct (Z.testbit z (63 - o)); reflexivity.
Qed.
