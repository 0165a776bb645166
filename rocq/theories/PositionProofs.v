(** PositionProofs.v -- lemmas about in-order positions. *)
From Verif Require Import Base ModelCommon SpecBinary SpecBinaryFacts.
From Coq Require Import ZifyBool ZifyNat ZifyN.
Ltac Zify.zify_post_hook ::= Z.div_mod_to_equations.
Arguments Z.pow : simpl never.
Arguments Z.mul : simpl never.
Arguments Z.add : simpl never.
Arguments Z.sub : simpl never.
Arguments Nat.pow : simpl never.

Notation P2 h := (2 ^ Z.of_nat h).

Lemma P2_S : forall h, P2 (S h) = 2 * P2 h.
Proof. intros h. rewrite Nat2Z.inj_succ, Z.pow_succ_r by lia. reflexivity. Qed.
Lemma P2_pos : forall h, 0 < P2 h.
Proof. intros h. apply Z.pow_pos_nonneg; lia. Qed.
Lemma P2_split : forall a b, (a <= b)%nat -> P2 b = P2 (b - a) * P2 a.
Proof. intros a b Hab. rewrite <- Z.pow_add_r by lia. f_equal. lia. Qed.
Lemma P2_le : forall a b, (a <= b)%nat -> P2 a <= P2 b.
Proof. intros; apply Z.pow_le_mono_r; lia. Qed.
Lemma P2_lt : forall a b, (a < b)%nat -> P2 a < P2 b.
Proof. intros; apply Z.pow_lt_mono_r; lia. Qed.
Lemma P2_nat : forall h, Z.of_nat (2 ^ h) = P2 h.
Proof. intros h. rewrite Nat2Z.inj_pow. reflexivity. Qed.

Lemma U64_P2 : U64 = P2 64. Proof. reflexivity. Qed.
Lemma I63_P2 : 2 ^ 63 = P2 63. Proof. reflexivity. Qed.

(** * Heights *)
Lemma trailing_zeros_loop_spec : forall h f k, (h < f)%nat ->
  trailing_zeros_loop f ((2 * k + 1) * P2 h) = Z.of_nat h.
Proof.
  induction h as [|h IH]; intros f k Hf; (destruct f as [|f]; [lia|]); cbn [trailing_zeros_loop].
  - change (P2 0) with 1. rewrite Z.mul_1_r.
    replace (Z.odd (2 * k + 1)) with true; [reflexivity|].
    symmetry. rewrite Z.add_comm, Z.odd_add_mul_2. reflexivity.
  - rewrite P2_S.
    replace ((2 * k + 1) * (2 * P2 h)) with (2 * ((2 * k + 1) * P2 h)) by ring.
    rewrite Z.odd_mul. change (Z.odd 2) with false. cbn [andb].
    rewrite Z.mul_comm, Z.div_mul by lia.
    rewrite IH by lia. lia.
Qed.

Lemma pos_height_index : forall h b, (h < 64)%nat -> pos_height (index_of h b) = Z.of_nat h.
Proof.
  intros h b Hh. unfold pos_height, trailing_zeros, index_of.
  rewrite U64_P2, (P2_split h 64) by lia.
  replace (64 - h)%nat with (S (63 - h)) by lia. rewrite P2_S.
  replace (2 * P2 (63 - h) * P2 h - 1 - ((2 * Z.of_nat b + 1) * P2 h - 1))
    with ((2 * (P2 (63 - h) - Z.of_nat b - 1) + 1) * P2 h) by ring.
  apply trailing_zeros_loop_spec; lia.
Qed.

Lemma pos_height_max : pos_height (U64 - 1) = 64.
Proof. vm_compute; reflexivity. Qed.

Lemma index_of_nonneg : forall h b, 0 <= index_of h b.
Proof. intros h b. unfold index_of. pose proof (P2_pos h). nia. Qed.

Lemma index_of_S : forall h b, index_of (S h) b = (2 * Z.of_nat b + 1) * (2 * P2 h) - 1.
Proof. intros. unfold index_of. rewrite P2_S. reflexivity. Qed.

Lemma index_of_0 : forall b, index_of 0 b = 2 * Z.of_nat b.
Proof. intros b. unfold index_of. change (P2 0) with 1. lia. Qed.

Lemma pos_is_leaf_0 : forall b, pos_is_leaf (index_of 0 b) = true.
Proof. intros b. unfold pos_is_leaf. rewrite index_of_0. lia. Qed.

Lemma pos_is_leaf_S : forall h b, pos_is_leaf (index_of (S h) b) = false.
Proof.
  intros h b. unfold pos_is_leaf. rewrite index_of_S.
  pose proof (P2_pos h). set (q := P2 h) in *.
  replace ((2 * Z.of_nat b + 1) * (2 * q) - 1) with (2 * ((2 * Z.of_nat b + 1) * q) - 1) by ring.
  generalize ((2 * Z.of_nat b + 1) * q). intros z. lia.
Qed.

Lemma pos_is_node_S : forall h b, pos_is_node (index_of (S h) b) = true.
Proof. intros. unfold pos_is_node. rewrite pos_is_leaf_S. reflexivity. Qed.
Lemma pos_is_node_0 : forall b, pos_is_node (index_of 0 b) = false.
Proof. intros. unfold pos_is_node. rewrite pos_is_leaf_0. reflexivity. Qed.

Lemma index_of_inj : forall h b h' b', index_of h b = index_of h' b' -> h = h' /\ b = b'.
Proof.
  assert (A : forall h b h' b', (h <= h')%nat -> index_of h b = index_of h' b' -> h = h' /\ b = b').
  { induction h as [|h IH]; intros b h' b' Hle E.
    - destruct h' as [|h'].
      + rewrite !index_of_0 in E. lia.
      + pose proof (pos_is_leaf_0 b) as L0. pose proof (pos_is_leaf_S h' b') as L1. congruence.
    - destruct h' as [|h']; [lia|].
      rewrite !index_of_S in E.
      destruct (IH b h' b') as [E1 E2]; [lia| |lia].
      unfold index_of. nia. }
  intros h b h' b' E. destruct (Nat.le_gt_cases h h') as [L|L].
  - apply A; assumption.
  - destruct (A h' b' h b) as [E1 E2]; [lia|congruence|]. split; congruence.
Qed.

Lemma index_of_exists : forall z, 0 <= z < U64 - 1 ->
  exists h b, (h <= 63)%nat /\ z = index_of h b.
Proof.
  assert (A : forall k z, 0 <= z < P2 k - 1 -> exists h b, (h < k)%nat /\ z = index_of h b).
  { induction k as [|k IH]; intros z Hz.
    - change (P2 0) with 1 in Hz. lia.
    - rewrite P2_S in Hz. destruct (Z.even z) eqn:Ev.
      + exists 0%nat, (Z.to_nat (z / 2)). split; [lia|].
        rewrite index_of_0. apply Z.even_spec in Ev. destruct Ev as [m Hm]. lia.
      + rewrite <- Z.negb_odd in Ev. apply negb_false_iff in Ev.
        apply Z.odd_spec in Ev. destruct Ev as [m Hm].
        destruct (IH m) as (h & b & Hh & Eq); [lia|].
        exists (S h), b. split; [lia|]. rewrite index_of_S. unfold index_of in Eq. lia. }
  intros z Hz. rewrite U64_P2 in Hz. destruct (A 64%nat z Hz) as (h & b & Hh & E).
  exists h, b. split; [lia|exact E].
Qed.

(** * Offsets *)
Lemma i64_ovf_in : forall pr z, - 2 ^ 63 <= z < 2 ^ 63 -> i64_ovf pr z = Val z.
Proof.
  intros pr z Hz. unfold i64_ovf, in_i64.
  destruct (Z.leb_spec (- 2 ^ 63) z); destruct (Z.ltb_spec z (2 ^ 63)); try lia. reflexivity.
Qed.
Lemma i64_ovf_release : forall pr z, overflow_checks pr = false -> exists k, i64_ovf pr z = Val (z + k * U64).
Proof.
  intros pr z Hc. unfold i64_ovf. rewrite Hc. destruct (in_i64 z).
  - exists 0. f_equal. lia.
  - unfold as_i64. assert (0 < U64) by reflexivity.
    destruct (_ <? _).
    + exists (- (z / U64)). f_equal. pose proof (Z.div_mod z U64 ltac:(lia)). lia.
    + exists (- (z / U64) - 1). f_equal. pose proof (Z.div_mod z U64 ltac:(lia)). lia.
Qed.
Lemma u64_ovf_in : forall pr z, 0 <= z < U64 -> u64_ovf pr z = Val z.
Proof.
  intros pr z Hz. unfold u64_ovf, in_u64.
  destruct (Z.leb_spec 0 z); destruct (Z.ltb_spec z U64); try lia. reflexivity.
Qed.
Lemma u32_ovf_in : forall pr z, 0 <= z < 2 ^ 32 -> u32_ovf pr z = Val z.
Proof.
  intros pr z Hz. unfold u32_ovf.
  destruct (Z.leb_spec 0 z); destruct (Z.ltb_spec z (2 ^ 32)); try lia. reflexivity.
Qed.
Lemma usize_ovf_in : forall pr z, 0 <= z < 2 ^ 32 -> usize_ovf pr z = Val z.
Proof.
  intros pr z Hz. unfold usize_ovf. destruct (usize_width pr); [apply u32_ovf_in; exact Hz|].
  apply u64_ovf_in. unfold U64. lia.
Qed.
Lemma usize_nonneg : forall pr z o, usize_ovf pr z = Val o -> 0 <= o.
Proof.
  intros pr z o E. unfold usize_ovf, u32_ovf, u64_ovf, in_u64, as_u64 in E. destruct (usize_width pr).
  - destruct ((0 <=? z) && (z <? 2 ^ 32)) eqn:B; [injection E as <-; lia|].
    destruct (overflow_checks pr); [discriminate|]. injection E as <-. apply Z.mod_pos_bound. reflexivity.
  - destruct ((0 <=? z) && (z <? U64)) eqn:B; [injection E as <-; lia|].
    destruct (overflow_checks pr); [discriminate|]. injection E as <-. apply Z.mod_pos_bound. reflexivity.
Qed.
Lemma as_i64_cases : forall p, 0 <= p < U64 ->
  (p < 2 ^ 63 /\ as_i64 p = p) \/ (2 ^ 63 <= p /\ as_i64 p = p - U64).
Proof.
  intros p Hp. unfold as_i64. rewrite Z.mod_small by exact Hp.
  destruct (Z.ltb_spec p (2 ^ 63)); [left|right]; lia.
Qed.

Lemma pos_offset_ok : forall pr p s d t,
  0 <= p < U64 -> 0 <= t < U64 -> t = p + s * d -> - 2 ^ 63 <= s * d < 2 ^ 63 ->
  (overflow_checks pr = false \/ (p < 2 ^ 63 <-> t < 2 ^ 63)) ->
  pos_offset pr p s d = Val t.
Proof.
  intros pr p s d t Hp Ht E Hsd Hside. unfold pos_offset.
  rewrite i64_ovf_in by exact Hsd. cbn [obind].
  assert (Fin : forall k, as_u64 (t + k * U64) = t).
  { intros k. unfold as_u64. rewrite Z.mod_add by (unfold U64; lia). apply Z.mod_small; lia. }
  assert (HU : U64 = 2 * 2 ^ 63) by reflexivity.
  destruct Hside as [Hc|Hside].
  - destruct (i64_ovf_release pr (as_i64 p + s * d) Hc) as [k ->]. cbn [obind]. f_equal.
    destruct (as_i64_cases p Hp) as [[_ ->]|[_ ->]].
    + replace (p + s * d + k * U64) with (t + k * U64) by lia. apply Fin.
    + replace (p - U64 + s * d + k * U64) with (t + (k - 1) * U64) by lia. apply Fin.
  - destruct (as_i64_cases p Hp) as [[L ->]|[L ->]].
    + rewrite i64_ovf_in by lia. cbn [obind]. f_equal.
      replace (p + s * d) with (t + 0 * U64) by lia. apply Fin.
    + rewrite i64_ovf_in by lia. cbn [obind]. f_equal.
      replace (p - U64 + s * d) with (t + (-1) * U64) by lia. apply Fin.
Qed.

Lemma shl1_i64_ok : forall pr k, (k <= 62)%nat -> shl1_i64 pr (Z.of_nat k) = Val (P2 k).
Proof.
  intros pr k Hk. unfold shl1_i64, shift_amount.
  replace (Z.of_nat k <? 64) with true by lia. cbn [obind].
  f_equal. unfold as_i64, U64.
  assert (P2 k <= P2 62) by (apply P2_le; lia). pose proof (P2_pos k).
  change (P2 62) with 4611686018427387904 in *.
  rewrite Z.mod_small by (change (2 ^ 64) with 18446744073709551616; lia).
  change (2 ^ 63) with 9223372036854775808.
  destruct (_ <? _) eqn:L; lia.
Qed.

Lemma shl1_u64_ok : forall pr k, (k <= 63)%nat -> shl1_u64 pr (Z.of_nat k) = Val (P2 k).
Proof.
  intros pr k Hk. unfold shl1_u64, shift_amount.
  replace (Z.of_nat k <? 64) with true by lia. cbn [obind].
  f_equal. unfold as_u64, U64.
  assert (P2 k <= P2 63) by (apply P2_le; lia). pose proof (P2_pos k).
  change (P2 63) with 9223372036854775808 in *.
  rewrite Z.mod_small by (change (2 ^ 64) with 18446744073709551616; lia). reflexivity.
Qed.

(** * Orientation and direction *)
Lemma land_pow2_zero : forall p k, 0 <= k -> (Z.land p (2 ^ k) =? 0) = negb (Z.testbit p k).
Proof.
  intros p k Hk.
  assert (E : Z.land p (2 ^ k) = if Z.testbit p k then 2 ^ k else 0).
  { apply Z.bits_inj'. intros m Hm. rewrite Z.land_spec, Z.pow2_bits_eqb by lia.
    destruct (Z.eqb_spec k m) as [->|N].
    - destruct (Z.testbit p m); cbn [andb];
        [rewrite Z.pow2_bits_true by lia; reflexivity|rewrite Z.bits_0; reflexivity].
    - rewrite andb_false_r. destruct (Z.testbit p k).
      + rewrite Z.pow2_bits_false by lia. reflexivity.
      + rewrite Z.bits_0. reflexivity. }
  rewrite E. assert (0 < 2 ^ k) by (apply Z.pow_pos_nonneg; lia).
  destruct (Z.testbit p k); cbn [negb]; lia.
Qed.

Lemma index_of_testbit : forall h b,
  Z.testbit (index_of h b) (Z.of_nat (S h)) = Nat.odd b.
Proof.
  intros h b.
  assert (D : index_of h b / P2 (S h) = Z.of_nat b).
  { unfold index_of. rewrite P2_S. pose proof (P2_pos h).
    symmetry. apply Z.div_unique with (r := P2 h - 1); [left; lia|ring]. }
  rewrite Nat.odd_bitwise || idtac.
  destruct (Nat.odd b) eqn:O.
  - apply Z.testbit_true; [lia|]. rewrite D.
    apply Nat.odd_spec in O. destruct O as [m Hm]. lia.
  - apply Z.testbit_false; [lia|]. rewrite D.
    rewrite <- Nat.negb_even in O. apply negb_false_iff in O.
    apply Nat.even_spec in O. destruct O as [m Hm]. lia.
Qed.

Lemma pos_direction_ok : forall pr h b, (h <= 62)%nat ->
  pos_direction pr (index_of h b) = Val (if Nat.odd b then -1 else 1).
Proof.
  intros pr h b Hh. unfold pos_direction, pos_orientation.
  rewrite pos_height_index by lia.
  replace (Z.of_nat h + 1) with (Z.of_nat (S h)) by lia.
  rewrite shl1_u64_ok by lia. cbn [obind].
  rewrite land_pow2_zero by lia. rewrite index_of_testbit.
  destruct (Nat.odd b); reflexivity.
Qed.

(** * Halves: positions of height at most 61 do not straddle 2^63 with their sibling *)
Lemma half_multiple : forall h a, (h <= 63)%nat -> (a * P2 h < 2 ^ 63 <-> (a + 1) * P2 h <= 2 ^ 63).
Proof.
  intros h a Hh. rewrite I63_P2, (P2_split h 63) by lia.
  pose proof (P2_pos h). rewrite <- Z.mul_lt_mono_pos_r, <- Z.mul_le_mono_pos_r by lia. lia.
Qed.

Lemma range_multiple : forall h a, (h <= 64)%nat -> (a * P2 h < U64 <-> (a + 1) * P2 h <= U64).
Proof.
  intros h a Hh. rewrite U64_P2, (P2_split h 64) by lia.
  pose proof (P2_pos h). rewrite <- Z.mul_lt_mono_pos_r, <- Z.mul_le_mono_pos_r by lia. lia.
Qed.

Lemma odd_double : forall c, Nat.odd (2 * c) = false.
Proof. intros c. rewrite Nat.odd_mul. reflexivity. Qed.
Lemma odd_double1 : forall c, Nat.odd (2 * c + 1) = true.
Proof. intros c. apply Nat.odd_spec. exists c. lia. Qed.

(** In the lemmas below [index_of h b < U64] says that the position is a u64. *)
Lemma pos_parent_left : forall pr h c, (h <= 62)%nat -> index_of h (2 * c) < U64 ->
  pos_parent pr (index_of h (2 * c)) = Val (index_of (S h) c).
Proof.
  intros pr h c Hh Hr. unfold pos_parent. rewrite pos_height_index by lia.
  rewrite shl1_i64_ok by lia. cbn [obind].
  rewrite pos_direction_ok by lia. cbn [obind]. rewrite odd_double.
  pose proof (index_of_nonneg h (2 * c)) as N0.
  pose proof (index_of_nonneg (S h) c) as N1.
  pose proof (P2_pos h) as Q. assert (P2 h <= P2 62) as Q62 by (apply P2_le; lia).
  change (P2 62) with 4611686018427387904 in Q62.
  pose proof (half_multiple (S h) (2 * Z.of_nat c) ltac:(lia)) as HM.
  pose proof (range_multiple (S h) (2 * Z.of_nat c) ltac:(lia)) as RM.
  rewrite P2_S in HM, RM. rewrite index_of_S in *. unfold index_of in *.
  rewrite Nat2Z.inj_mul in *. change (Z.of_nat 2) with 2 in *.
  set (q := P2 h) in *. set (c' := Z.of_nat c) in *.
  change (2 ^ 63) with 9223372036854775808 in *.
  unfold U64 in *. change (2 ^ 64) with 18446744073709551616 in *.
  apply pos_offset_ok; unfold U64; change (2 ^ 63) with 9223372036854775808;
    change (2 ^ 64) with 18446744073709551616; try lia.
Qed.

Lemma pos_parent_right : forall pr h c, (h <= 61)%nat \/ (overflow_checks pr = false /\ (h <= 62)%nat) ->
  index_of h (2 * c + 1) < U64 ->
  pos_parent pr (index_of h (2 * c + 1)) = Val (index_of (S h) c).
Proof.
  intros pr h c Hh Hr. unfold pos_parent. rewrite pos_height_index by lia.
  rewrite shl1_i64_ok by lia. cbn [obind].
  rewrite pos_direction_ok by lia. cbn [obind]. rewrite odd_double1.
  pose proof (index_of_nonneg h (2 * c + 1)) as N0.
  pose proof (index_of_nonneg (S h) c) as N1.
  pose proof (P2_pos h) as Q. assert (P2 h <= P2 62) as Q62 by (apply P2_le; lia).
  change (P2 62) with 4611686018427387904 in Q62.
  assert (HM : overflow_checks pr = false \/ ((h <= 61)%nat /\
            (Z.of_nat c * P2 (S (S h)) < 2 ^ 63 <-> (Z.of_nat c + 1) * P2 (S (S h)) <= 2 ^ 63))).
  { destruct Hh as [Hh|[-> _]]; [right|left; reflexivity].
    split; [exact Hh|apply half_multiple; lia]. }
  pose proof (range_multiple (S h) (2 * Z.of_nat c + 1) ltac:(lia)) as RM.
  rewrite !P2_S in HM. rewrite !P2_S in RM. rewrite index_of_S in *. unfold index_of in *.
  rewrite Nat2Z.inj_add, Nat2Z.inj_mul in *.
  change (Z.of_nat 2) with 2 in *. change (Z.of_nat 1) with 1 in *.
  set (q := P2 h) in *. set (c' := Z.of_nat c) in *.
  change (2 ^ 63) with 9223372036854775808 in *.
  unfold U64 in *. change (2 ^ 64) with 18446744073709551616 in *.
  apply pos_offset_ok; unfold U64; change (2 ^ 63) with 9223372036854775808;
    change (2 ^ 64) with 18446744073709551616; try lia.
  destruct HM as [HM|[_ HM]]; [left; exact HM|right; lia].
Qed.

Lemma pos_sibling_left : forall pr h c, (h <= 61)%nat -> index_of h (2 * c) < U64 ->
  pos_sibling pr (index_of h (2 * c)) = Val (index_of h (2 * c + 1)).
Proof.
  intros pr h c Hh Hr. unfold pos_sibling. rewrite pos_height_index by lia.
  replace (Z.of_nat h + 1) with (Z.of_nat (S h)) by lia.
  rewrite shl1_i64_ok by lia. cbn [obind].
  rewrite pos_direction_ok by lia. cbn [obind]. rewrite odd_double.
  pose proof (index_of_nonneg h (2 * c)) as N0.
  pose proof (index_of_nonneg h (2 * c + 1)) as N1.
  pose proof (P2_pos h) as Q. assert (P2 h <= P2 61) as Q62 by (apply P2_le; lia).
  change (P2 61) with 2305843009213693952 in Q62.
  pose proof (half_multiple (S (S h)) (Z.of_nat c) ltac:(lia)) as HM.
  pose proof (range_multiple (S (S h)) (Z.of_nat c) ltac:(lia)) as RM.
  rewrite !P2_S in HM. rewrite !P2_S in RM. rewrite P2_S. unfold index_of in *.
  rewrite Nat2Z.inj_add, Nat2Z.inj_mul in *.
  change (Z.of_nat 2) with 2 in *. change (Z.of_nat 1) with 1 in *.
  set (q := P2 h) in *. set (c' := Z.of_nat c) in *.
  change (2 ^ 63) with 9223372036854775808 in *.
  unfold U64 in *. change (2 ^ 64) with 18446744073709551616 in *.
  apply pos_offset_ok; unfold U64; change (2 ^ 63) with 9223372036854775808;
    change (2 ^ 64) with 18446744073709551616; try lia.
Qed.

Lemma pos_sibling_right : forall pr h c, (h <= 61)%nat -> index_of h (2 * c + 1) < U64 ->
  pos_sibling pr (index_of h (2 * c + 1)) = Val (index_of h (2 * c)).
Proof.
  intros pr h c Hh Hr. unfold pos_sibling. rewrite pos_height_index by lia.
  replace (Z.of_nat h + 1) with (Z.of_nat (S h)) by lia.
  rewrite shl1_i64_ok by lia. cbn [obind].
  rewrite pos_direction_ok by lia. cbn [obind]. rewrite odd_double1.
  pose proof (index_of_nonneg h (2 * c)) as N0.
  pose proof (index_of_nonneg h (2 * c + 1)) as N1.
  pose proof (P2_pos h) as Q. assert (P2 h <= P2 61) as Q62 by (apply P2_le; lia).
  change (P2 61) with 2305843009213693952 in Q62.
  pose proof (half_multiple (S (S h)) (Z.of_nat c) ltac:(lia)) as HM.
  pose proof (range_multiple (S (S h)) (Z.of_nat c) ltac:(lia)) as RM.
  rewrite !P2_S in HM. rewrite !P2_S in RM. rewrite P2_S. unfold index_of in *.
  rewrite Nat2Z.inj_add, Nat2Z.inj_mul in *.
  change (Z.of_nat 2) with 2 in *. change (Z.of_nat 1) with 1 in *.
  set (q := P2 h) in *. set (c' := Z.of_nat c) in *.
  change (2 ^ 63) with 9223372036854775808 in *.
  unfold U64 in *. change (2 ^ 64) with 18446744073709551616 in *.
  apply pos_offset_ok; unfold U64; change (2 ^ 63) with 9223372036854775808;
    change (2 ^ 64) with 18446744073709551616; try lia.
Qed.

Lemma pos_left_child_ok : forall pr h c, (h <= 62)%nat -> index_of (S h) c < U64 ->
  pos_left_child pr (index_of (S h) c) = Val (index_of h (2 * c)).
Proof.
  intros pr h c Hh Hr. unfold pos_left_child, pos_child, assert.
  rewrite pos_is_node_S. cbn [obind]. rewrite pos_height_index by lia.
  replace (Z.of_nat (S h) - 1) with (Z.of_nat h) by lia.
  rewrite shl1_i64_ok by lia. cbn [obind].
  pose proof (index_of_nonneg h (2 * c)) as N0.
  pose proof (index_of_nonneg (S h) c) as N1.
  pose proof (P2_pos h) as Q. assert (P2 h <= P2 62) as Q62 by (apply P2_le; lia).
  change (P2 62) with 4611686018427387904 in Q62.
  pose proof (half_multiple (S h) (2 * Z.of_nat c) ltac:(lia)) as HM.
  rewrite !P2_S in HM. rewrite index_of_S in *. unfold index_of in *.
  rewrite Nat2Z.inj_mul in *. change (Z.of_nat 2) with 2 in *.
  set (q := P2 h) in *. set (c' := Z.of_nat c) in *.
  change (2 ^ 63) with 9223372036854775808 in *.
  unfold U64 in *. change (2 ^ 64) with 18446744073709551616 in *.
  apply pos_offset_ok; unfold U64; change (2 ^ 63) with 9223372036854775808;
    change (2 ^ 64) with 18446744073709551616; try lia.
Qed.

Lemma pos_right_child_ok : forall pr h c, (h <= 61)%nat \/ (overflow_checks pr = false /\ (h <= 62)%nat) ->
  index_of (S h) c < U64 ->
  pos_right_child pr (index_of (S h) c) = Val (index_of h (2 * c + 1)).
Proof.
  intros pr h c Hh Hr. unfold pos_right_child, pos_child, assert.
  rewrite pos_is_node_S. cbn [obind]. rewrite pos_height_index by lia.
  replace (Z.of_nat (S h) - 1) with (Z.of_nat h) by lia.
  rewrite shl1_i64_ok by lia. cbn [obind].
  pose proof (index_of_nonneg h (2 * c + 1)) as N0.
  pose proof (index_of_nonneg (S h) c) as N1.
  pose proof (P2_pos h) as Q. assert (P2 h <= P2 62) as Q62 by (apply P2_le; lia).
  change (P2 62) with 4611686018427387904 in Q62.
  assert (HM : overflow_checks pr = false \/ ((h <= 61)%nat /\
            (Z.of_nat c * P2 (S (S h)) < 2 ^ 63 <-> (Z.of_nat c + 1) * P2 (S (S h)) <= 2 ^ 63))).
  { destruct Hh as [Hh|[-> _]]; [right|left; reflexivity].
    split; [exact Hh|apply half_multiple; lia]. }
  pose proof (range_multiple (S (S h)) (Z.of_nat c) ltac:(lia)) as RM.
  rewrite !P2_S in HM. rewrite !P2_S in RM. rewrite index_of_S in *. unfold index_of in *.
  rewrite Nat2Z.inj_add, Nat2Z.inj_mul in *.
  change (Z.of_nat 2) with 2 in *. change (Z.of_nat 1) with 1 in *.
  set (q := P2 h) in *. set (c' := Z.of_nat c) in *.
  change (2 ^ 63) with 9223372036854775808 in *.
  unfold U64 in *. change (2 ^ 64) with 18446744073709551616 in *.
  apply pos_offset_ok; unfold U64; change (2 ^ 63) with 9223372036854775808;
    change (2 ^ 64) with 18446744073709551616; try lia.
  destruct HM as [HM|[_ HM]]; [left; exact HM|right; lia].
Qed.
