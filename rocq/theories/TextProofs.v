(** TextProofs.v -- hexadecimal text. *)
From Verif Require Import Base ModelText SpecText.
From Coq Require Import ZifyBool ZifyNat ZifyN.
Ltac Zify.zify_post_hook ::= Z.div_mod_to_equations.

Lemma byte_range : forall b, 0 <= Z_of_byte b < 256.
Proof. intros b; destruct b; vm_compute; split; congruence. Qed.
Lemma byte_inj : forall a b, Z_of_byte a = Z_of_byte b -> a = b.
Proof.
  intros a b E. unfold Z_of_byte in E. apply N2Z.inj in E.
  assert (Q : Byte.of_N (Byte.to_N a) = Byte.of_N (Byte.to_N b)) by (rewrite E; reflexivity).
  rewrite !Byte.of_to_N in Q. congruence.
Qed.
Lemma byte_of_Z_of_byte : forall b, byte_of_Z (Z_of_byte b) = b.
Proof. intros b; destruct b; reflexivity. Qed.
Lemma Z_of_byte_of_Z : forall z, 0 <= z < 256 -> Z_of_byte (byte_of_Z z) = z.
Proof.
  assert (A : forallb (fun n => Z_of_byte (byte_of_Z (Z.of_nat n)) =? Z.of_nat n) (seq 0 256) = true) by (vm_compute; reflexivity).
  rewrite forallb_forall in A. intros z Hz. specialize (A (Z.to_nat z)).
  rewrite Z2Nat.id in A by lia. apply Z.eqb_eq, A, in_seq. lia.
Qed.

Lemma hex_digit_lower : forall v, 0 <= v < 16 -> lower_digit (hex_digit v) v.
Proof.
  assert (A : forallb (fun n => let v := Z.of_nat n in
    (v <? 10) && (Z_of_byte (hex_digit v) =? 48 + v) || (10 <=? v) && (Z_of_byte (hex_digit v) =? 97 + (v - 10))) (seq 0 16) = true)
    by (vm_compute; reflexivity).
  rewrite forallb_forall in A. intros v Hv. specialize (A (Z.to_nat v)). cbv zeta in A.
  rewrite Z2Nat.id in A by lia. unfold lower_digit.
  assert (I : In (Z.to_nat v) (seq 0 16)) by (apply in_seq; lia). specialize (A I). lia.
Qed.
Lemma hex_val_spec : forall c v, hex_val c = Some v <-> any_digit c v.
Proof.
  intros c v. unfold hex_val, any_digit, lower_digit. cbv zeta. pose proof (byte_range c).
  destruct ((48 <=? Z_of_byte c) && (Z_of_byte c <=? 57)) eqn:A; [split; [intros E; injection E as <-|intros; f_equal]; lia|].
  destruct ((97 <=? Z_of_byte c) && (Z_of_byte c <=? 102)) eqn:B; [split; [intros E; injection E as <-|intros; f_equal]; lia|].
  destruct ((65 <=? Z_of_byte c) && (Z_of_byte c <=? 70)) eqn:C; [split; [intros E; injection E as <-|intros; f_equal]; lia|].
  split; [discriminate|]. lia.
Qed.
Lemma any_digit_range : forall c v, any_digit c v -> 0 <= v < 16.
Proof. unfold any_digit, lower_digit. lia. Qed.

Lemma number_app : forall r a b, number r (a ++ b) = number r a * r ^ Z.of_nat (length b) + number r b.
Proof.
  intros r a b. unfold number. rewrite fold_left_app. generalize (fold_left (fun a d => r * a + d) a 0) as x.
  induction b as [|d b IH] using rev_ind; intros x.
  - cbn [fold_left length Z.of_nat]. rewrite Z.pow_0_r. lia.
  - rewrite !fold_left_app. cbn [fold_left]. rewrite IH, app_length. cbn [length].
    rewrite Nat2Z.inj_add, Z.pow_add_r by lia. change (Z.of_nat 1) with 1. rewrite Z.pow_1_r.
    generalize (r ^ Z.of_nat (length b)). intros. ring.
Qed.
Lemma number_cons : forall r d b, number r (d :: b) = d * r ^ Z.of_nat (length b) + number r b.
Proof. intros r d b. change (d :: b) with ([d] ++ b). rewrite number_app. unfold number at 1. cbn [fold_left]. lia. Qed.
Lemma number_range : forall r ds, 0 < r -> Forall (fun d => 0 <= d < r) ds -> 0 <= number r ds < r ^ Z.of_nat (length ds).
Proof.
  intros r ds Hr F. induction F as [|d ds Hd _ IH].
  - cbn. lia.
  - rewrite number_cons. cbn [length]. rewrite Nat2Z.inj_succ, Z.pow_succ_r by lia.
    assert (0 < r ^ Z.of_nat (length ds)) by (apply Z.pow_pos_nonneg; lia). nia.
Qed.
Lemma digit_split : forall p x y x' y', 0 <= x < p -> 0 <= x' < p -> y * p + x = y' * p + x' -> y = y' /\ x = x'.
Proof. intros. assert (y = y') by nia. subst. split; lia. Qed.

Definition bytes_number (l : list byte) : Z := number 256 (map Z_of_byte l).
Lemma bytes_number_range : forall l, 0 <= bytes_number l < 256 ^ Z.of_nat (length l).
Proof.
  intros l. pose proof (number_range 256 (map Z_of_byte l) ltac:(lia)) as R. rewrite map_length in R. apply R.
  apply Forall_forall. intros z I. apply in_map_iff in I as (b & <- & _). apply byte_range.
Qed.

(** A text spells at most one list of bytes of each length, and the decoder finds it. *)
Lemma decode_spec : forall t l, hex_decode t = Some l <-> spells any_digit t l.
Proof.
  assert (P : forall n t l, (length t <= n)%nat -> hex_decode t = Some l <-> spells any_digit t l).
  { induction n as [|n IH]; intros t l Hn.
    - destruct t; [|cbn in Hn; lia]. cbn [hex_decode]. split.
      + intros E. injection E as <-. split; [reflexivity|]. exists []. split; [constructor|reflexivity].
      + intros [L _]. destruct l; [reflexivity|cbn in L; lia].
    - destruct t as [|c [|d t]].
      + cbn [hex_decode]. split.
        * intros E. injection E as <-. split; [reflexivity|]. exists []. split; [constructor|reflexivity].
        * intros [L _]. destruct l; [reflexivity|cbn in L; lia].
      + cbn [hex_decode]. split; [discriminate|]. intros [L _]. cbn in L. lia.
      + cbn [hex_decode]. cbn [length] in Hn. split.
        * destruct (hex_val c) as [x|] eqn:X; [|discriminate]. destruct (hex_val d) as [y|] eqn:Y; [|discriminate].
          destruct (hex_decode t) as [l'|] eqn:D; [|discriminate]. intros E.
          assert (El : byte_of_Z (16 * x + y) :: l' = l) by congruence. subst l.
          apply IH in D; [|lia]. destruct D as (L & ds & F & N). apply hex_val_spec in X, Y.
          pose proof (any_digit_range _ _ X). pose proof (any_digit_range _ _ Y).
          split; [cbn [length]; lia|]. exists (x :: y :: ds). split; [constructor; [exact X|constructor; [exact Y|exact F]]|].
          cbn [map]. rewrite !number_cons, Z_of_byte_of_Z by lia. rewrite N, map_length. cbn [length].
          assert (Ld : length ds = length t) by (clear -F; induction F; cbn; congruence).
          rewrite Nat2Z.inj_succ, Z.pow_succ_r by lia. rewrite Ld, L, Nat2Z.inj_mul, Z.pow_mul_r by lia.
          change (16 ^ Z.of_nat 2) with 256. ring.
        * intros (L & ds & F & N). inversion F as [|? x ? ds' X F' E1 E2]; subst. inversion F' as [|? y ? ds2 Y F2 E1 E2]; subst.
          destruct l as [|b l]; [cbn in L; lia|]. cbn [length] in L.
          pose proof (any_digit_range _ _ X). pose proof (any_digit_range _ _ Y).
          apply hex_val_spec in X, Y. rewrite X, Y.
          assert (Ld : length ds2 = length t) by (clear -F2; induction F2; cbn; congruence).
          assert (R : 0 <= number 16 ds2 < 16 ^ Z.of_nat (length ds2)).
          { apply number_range; [lia|]. clear -F2. induction F2; constructor; [eapply any_digit_range; eassumption|assumption]. }
          pose proof (bytes_number_range l) as R'. unfold bytes_number in R'. pose proof (byte_range b).
          cbn [map] in N. rewrite !number_cons, map_length in N. cbn [length] in N.
          rewrite Nat2Z.inj_succ, Z.pow_succ_r in N by lia.
          assert (P : 16 ^ Z.of_nat (length ds2) = 256 ^ Z.of_nat (length l)).
          { replace (length ds2) with (2 * length l)%nat by lia. rewrite Nat2Z.inj_mul, Z.pow_mul_r by lia. reflexivity. }
          rewrite P in *. generalize dependent (256 ^ Z.of_nat (length l)). intros p R P N Rl.
          destruct (digit_split p (number 16 ds2) (16 * x + y) (number 256 (map Z_of_byte l)) (Z_of_byte b)) as [Eb En]; [lia|lia|lia|].
          assert (D : hex_decode t = Some l).
          { apply IH; [lia|]. split; [lia|]. exists ds2. split; [exact F2|exact En]. }
          rewrite D, Eb, byte_of_Z_of_byte. reflexivity. }
  intros t l. apply (P (length t)). lia.
Qed.

Lemma hex_encode_cons : forall b l, hex_encode (b :: l) =
  hex_digit (Z_of_byte b / 16) :: hex_digit (Z_of_byte b mod 16) :: hex_encode l.
Proof. reflexivity. Qed.
Lemma hex_encode_length : forall l, length (hex_encode l) = (2 * length l)%nat.
Proof. induction l as [|b l IH]; [reflexivity|]. rewrite hex_encode_cons. cbn [length]. lia. Qed.

Lemma encode_spells : forall l, spells lower_digit (hex_encode l) l.
Proof.
  intros l. split; [apply hex_encode_length|]. induction l as [|b l (ds & F & N)].
  - exists []. split; [constructor|reflexivity].
  - exists (Z_of_byte b / 16 :: Z_of_byte b mod 16 :: ds). pose proof (byte_range b). split.
    + rewrite hex_encode_cons. constructor; [apply hex_digit_lower; lia|]. constructor; [apply hex_digit_lower; lia|exact F].
    + assert (Ld : length ds = (2 * length l)%nat) by (rewrite <- hex_encode_length; clear -F; induction F; cbn; congruence).
      cbn [map]. rewrite !number_cons, map_length, N. cbn [length].
      rewrite Nat2Z.inj_succ, Z.pow_succ_r, Ld, Nat2Z.inj_mul, Z.pow_mul_r by lia. change (16 ^ Z.of_nat 2) with 256.
      generalize (256 ^ Z.of_nat (length l)). intros p. lia.
Qed.
Lemma lower_any : forall t l, spells lower_digit t l -> spells any_digit t l.
Proof.
  intros t l (L & ds & F & N). split; [exact L|]. exists ds. split; [|exact N].
  clear -F. induction F; constructor; [left; assumption|assumption].
Qed.
Lemma lower_digit_inj : forall c c' v, lower_digit c v -> lower_digit c' v -> c = c'.
Proof. unfold lower_digit. intros. apply byte_inj. lia. Qed.
Lemma digits_eq : forall n ds ds', length ds = n -> length ds' = n -> Forall (fun d => 0 <= d < 16) ds ->
  Forall (fun d => 0 <= d < 16) ds' -> number 16 ds = number 16 ds' -> ds = ds'.
Proof.
  induction n as [|n IH]; intros ds ds' L L' F F' N.
  - destruct ds; [|discriminate]. destruct ds'; [reflexivity|discriminate].
  - destruct ds as [|d ds]; [discriminate|]. destruct ds' as [|d' ds']; [discriminate|].
    injection L as L. injection L' as L'. inversion F; inversion F'; subst.
    rewrite !number_cons, L' in N. pose proof (number_range 16 ds ltac:(lia) ltac:(assumption)) as R.
    pose proof (number_range 16 ds' ltac:(lia) ltac:(assumption)) as R'. rewrite L' in R'.
    destruct (digit_split (16 ^ Z.of_nat (length ds)) (number 16 ds) d (number 16 ds') d' R R' N) as [-> E].
    f_equal. apply (IH ds ds'); auto.
Qed.
Lemma encode_unique : forall t l, spells lower_digit t l -> t = hex_encode l.
Proof.
  intros t l (L & ds & F & N). destruct (encode_spells l) as (L' & ds' & F' & N').
  assert (Ln : forall (P : byte -> Z -> Prop) a b, Forall2 P a b -> length b = length a) by (clear; intros P a b F; induction F; cbn; congruence).
  assert (Rg : forall a b, Forall2 lower_digit a b -> Forall (fun d => 0 <= d < 16) b)
    by (clear; intros a b F; induction F; constructor; [unfold lower_digit in *; lia|assumption]).
  assert (E : ds = ds').
  { apply (digits_eq (length t)); [apply (Ln _ _ _ F)|rewrite (Ln _ _ _ F'); lia|apply (Rg _ _ F)|apply (Rg _ _ F')|]. congruence. }
  subst ds'. clear -F F'. revert F'. generalize (hex_encode l) as t'. clear l. induction F as [|c v t ds D F IH]; intros t' F'; inversion F'; subst.
  - reflexivity.
  - f_equal; [eapply lower_digit_inj; eassumption|]. apply IH. assumption.
Qed.

Lemma C80_encode_lemma : forall l t, spells lower_digit t l <-> t = hex_encode l.
Proof. intros l t. split; [apply encode_unique|intros ->; apply encode_spells]. Qed.
Lemma hex_round : forall l, hex_decode (hex_encode l) = Some l.
Proof. intros l. apply decode_spec, lower_any, encode_spells. Qed.
Lemma hex_encode_inj : forall a b, hex_encode a = hex_encode b -> a = b.
Proof. intros a b E. assert (Q : hex_decode (hex_encode a) = hex_decode (hex_encode b)) by (rewrite E; reflexivity). rewrite !hex_round in Q. congruence. Qed.
