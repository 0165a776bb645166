(** CommonProofs.v -- proofs of the properties of positions, bits, serialization,
    storage map and hash inputs. *)
From Coq Require Import Arith Lia ZifyBool ZifyNat ZifyN.
From Verif Require Import Base Storage ModelCommon ModelBinary ModelSparse ModelSum SpecBinary SpecBits
  SpecPosition SpecCommon RunsCommon SpecBinaryFacts PositionProofs BitsProofs PathProofs StorageProofs.
Ltac Zify.zify_post_hook ::= Z.div_mod_to_equations.

(** * Positions *)
Lemma even_odd_cases : forall b : nat, exists c, (b = 2 * c \/ b = 2 * c + 1)%nat.
Proof.
  intros b. exists (b / 2)%nat. lia.
Qed.

Lemma height_lt : forall p h b, p = index_of h b -> (h <= 63)%nat -> pos_height p = Z.of_nat h.
Proof. intros. subst. apply pos_height_index. lia. Qed.

Lemma index_range : forall p, 0 <= p < 2 ^ 64 -> pos_height p <= 63 ->
  exists h b, (h <= 63)%nat /\ p = index_of h b /\ pos_height p = Z.of_nat h.
Proof.
  intros p Hp Hh. destruct (Z.eq_dec p (U64 - 1)) as [->|N].
  - rewrite pos_height_max in Hh. lia.
  - destruct (index_of_exists p) as (h & b & Hb & ->); [unfold U64 in *; lia|].
    exists h, b. repeat split; auto. apply pos_height_index. lia.
Qed.

Lemma parent_ok : forall pr h b, (h <= 61)%nat -> index_of h b < U64 ->
  pos_parent pr (index_of h b) = Val (index_of (S h) (b / 2)).
Proof.
  intros pr h b Hh Hr. destruct (even_odd_cases b) as [c [->| ->]].
  - replace (2 * c / 2)%nat with c by lia. apply pos_parent_left; auto; lia.
  - replace ((2 * c + 1) / 2)%nat with c by lia. apply pos_parent_right; auto; lia.
Qed.

Lemma sib_double : forall c, sib (2 * c) = (2 * c + 1)%nat.
Proof. intros c. unfold sib. rewrite odd_double. reflexivity. Qed.
Lemma sib_double1 : forall c, sib (2 * c + 1) = (2 * c)%nat.
Proof. intros c. unfold sib. rewrite odd_double1. lia. Qed.

Lemma sibling_ok : forall pr h b, (h <= 61)%nat -> index_of h b < U64 ->
  pos_sibling pr (index_of h b) = Val (index_of h (sib b)).
Proof.
  intros pr h b Hh Hr. destruct (even_odd_cases b) as [c [->| ->]].
  - rewrite sib_double. apply pos_sibling_left; auto; lia.
  - rewrite sib_double1. apply pos_sibling_right; auto; lia.
Qed.

(** The parent and the sibling of a u64 position are u64 positions. *)
Lemma block_bound : forall h b, (h <= 63)%nat -> (index_of h b < U64 <-> Z.of_nat (S b) * (2 * P2 h) <= U64).
Proof.
  intros h b Hh. unfold index_of. rewrite U64_P2, (P2_split (S h) 64) by lia. rewrite P2_S.
  pose proof (P2_pos h). set (q := P2 h) in *. set (r := P2 (64 - S h)).
  split; intros L.
  - assert (Z.of_nat b < r) by nia. nia.
  - nia.
Qed.

Lemma parent_bound : forall h b, (h <= 62)%nat -> index_of h b < U64 -> index_of (S h) (b / 2) < U64.
Proof.
  intros h b Hh Hr. apply block_bound in Hr; [|lia].
  destruct (even_odd_cases b) as [c Hc].
  assert (E : (b / 2)%nat = c) by lia. rewrite E. unfold index_of. rewrite P2_S.
  rewrite U64_P2, (P2_split (S (S h)) 64) in * by lia. rewrite !P2_S in *.
  pose proof (P2_pos h). set (q := P2 h) in *. set (r := P2 (64 - S (S h))) in *.
  assert (Z.of_nat c < r) by (destruct Hc; subst b; nia). nia.
Qed.

Lemma sib_bound : forall h b, (h <= 62)%nat -> index_of h b < U64 -> index_of h (sib b) < U64.
Proof.
  intros h b Hh Hr. pose proof (parent_bound h b Hh Hr) as B.
  apply block_bound in B; [|lia]. apply block_bound; [lia|].
  rewrite P2_S in B. pose proof (P2_pos h). set (q := P2 h) in *.
  destruct (even_odd_cases b) as [c [->| ->]].
  - rewrite sib_double. replace (2 * c / 2)%nat with c in B by lia. nia.
  - rewrite sib_double1. replace ((2 * c + 1) / 2)%nat with c in B by lia. nia.
Qed.

Lemma children_bound : forall h b, (h <= 62)%nat -> index_of (S h) b < U64 ->
  index_of h (2 * b) < U64 /\ index_of h (2 * b + 1) < U64.
Proof.
  intros h b Hh B. apply block_bound in B; [|lia]. rewrite P2_S in B. pose proof (P2_pos h).
  set (q := P2 h) in *. split; (apply block_bound; [lia|]); fold q; nia.
Qed.

Lemma index_of_gt : forall h b, 0 <= index_of h b.
Proof. intros. apply index_of_nonneg. Qed.

Lemma C22_lemma : forall pr h b, (h <= 61)%nat -> index_of h b < 2 ^ 64 ->
  pos_parent pr (index_of h b) = Val (index_of (S h) (b / 2)) /\
  pos_sibling pr (index_of h b) = Val (index_of h (sib b)) /\
  ((h <= 60)%nat -> pos_uncle pr (index_of h b) = Val (index_of (S h) (sib (b / 2)))) /\
  (forall g, h = S g ->
     pos_left_child pr (index_of h b) = Val (index_of g (2 * b)) /\
     pos_right_child pr (index_of h b) = Val (index_of g (2 * b + 1))).
Proof.
  intros pr h b Hh Hr. change (2 ^ 64) with U64 in Hr.
  split; [|split; [|split]].
  - apply parent_ok; auto.
  - apply sibling_ok; auto.
  - intros Hh'. unfold pos_uncle. rewrite parent_ok by auto. cbn [obind].
    apply sibling_ok; [lia|]. apply parent_bound; auto; lia.
  - intros g ->. split; [apply pos_left_child_ok|apply pos_right_child_ok]; auto; lia.
Qed.

Lemma C19_down : forall pr p, 0 <= p < 2 ^ 64 -> pos_is_node p = true -> pos_height p <= 61 + 1 ->
  exists l r, pos_left_child pr p = Val l /\ pos_right_child pr p = Val r /\
    0 <= l < p /\ p < r < 2 ^ 64 /\ p - l = r - p /\
    pos_height l = pos_height p - 1 /\ pos_height r = pos_height p - 1 /\
    pos_parent pr l = Val p /\ pos_parent pr r = Val p.
Proof.
  intros pr p Hp Hn Hh. destruct (index_range p Hp) as (h & b & H63 & -> & E); [lia|].
  destruct h as [|h]; [rewrite pos_is_node_0 in Hn; discriminate|].
  rewrite E in Hh |- *. change (2 ^ 64) with U64 in *.
  exists (index_of h (2 * b)), (index_of h (2 * b + 1)).
  pose proof (children_bound h b ltac:(lia) (proj2 Hp)) as [B1 B2].
  pose proof (index_of_nonneg h (2 * b)). pose proof (P2_pos h).
  rewrite !pos_height_index by lia.
  split; [apply pos_left_child_ok; lia|]. split; [apply pos_right_child_ok; lia|].
  split; [unfold index_of in *; rewrite P2_S; nia|].
  split; [unfold index_of in *; rewrite P2_S; nia|].
  split; [unfold index_of in *; rewrite P2_S; lia|].
  split; [lia|]. split; [lia|].
  split; [rewrite pos_parent_left by (auto; lia); reflexivity|].
  apply pos_parent_right; auto; lia.
Qed.

Lemma C19_up : forall pr p, 0 <= p < 2 ^ 64 -> pos_height p <= 61 ->
  exists q, pos_parent pr p = Val q /\ 0 <= q < 2 ^ 64 /\ pos_height q = pos_height p + 1 /\
    pos_is_node q = true /\
    (pos_left_child pr q = Val p \/ pos_right_child pr q = Val p).
Proof.
  intros pr p Hp Hh. destruct (index_range p Hp) as (h & b & H63 & -> & E); [lia|].
  rewrite E in Hh |- *. change (2 ^ 64) with U64 in *.
  exists (index_of (S h) (b / 2)). rewrite pos_height_index by lia.
  pose proof (parent_bound h b ltac:(lia) (proj2 Hp)).
  split; [apply parent_ok; lia|]. split; [split; auto; apply index_of_nonneg|].
  split; [lia|]. split; [apply pos_is_node_S|].
  destruct (even_odd_cases b) as [c [Hc|Hc]]; [left|right]; replace (b / 2)%nat with c in * by lia.
  - rewrite pos_left_child_ok by (auto; lia). congruence.
  - rewrite pos_right_child_ok by (auto; lia). congruence.
Qed.

Lemma C20_lemma : forall pr p, 0 <= p < 2 ^ 64 -> pos_height p <= 61 ->
  exists s q, pos_sibling pr p = Val s /\ 0 <= s < 2 ^ 64 /\ s <> p /\
    pos_height s = pos_height p /\ pos_sibling pr s = Val p /\
    pos_parent pr p = Val q /\ pos_parent pr s = Val q /\
    (pos_height p <= 60 -> exists u, pos_uncle pr p = Val u /\ pos_sibling pr q = Val u /\
       pos_uncle pr s = Val u /\ pos_height u = pos_height p + 1).
Proof.
  intros pr p Hp Hh. destruct (index_range p Hp) as (h & b & H63 & -> & E); [lia|].
  rewrite E in Hh |- *. change (2 ^ 64) with U64 in *.
  exists (index_of h (sib b)), (index_of (S h) (b / 2)).
  pose proof (sib_bound h b ltac:(lia) (proj2 Hp)) as SB.
  pose proof (parent_bound h b ltac:(lia) (proj2 Hp)) as PB.
  assert (SS : sib (sib b) = b /\ (sib b / 2 = b / 2)%nat /\ sib b <> b).
  { destruct (even_odd_cases b) as [c [->| ->]].
    - rewrite sib_double, sib_double1. lia.
    - rewrite sib_double1, sib_double. lia. }
  destruct SS as (S1 & S2 & S3).
  assert (PS : pos_parent pr (index_of h (sib b)) = Val (index_of (S h) (b / 2))).
  { rewrite parent_ok by (auto; lia). rewrite S2. reflexivity. }
  split; [apply sibling_ok; lia|]. split; [split; auto; apply index_of_nonneg|].
  split; [intros X; apply index_of_inj in X; lia|].
  split; [apply pos_height_index; lia|].
  split; [rewrite sibling_ok by (auto; lia); rewrite S1; reflexivity|].
  split; [apply parent_ok; lia|]. split; [exact PS|].
  intros H60. exists (index_of (S h) (sib (b / 2))). unfold pos_uncle.
  rewrite PS, parent_ok by (auto; lia). cbn [obind].
  rewrite sibling_ok by (auto; lia). repeat split; auto.
  rewrite pos_height_index by lia. lia.
Qed.

Lemma C21_pair : forall p, 0 <= p < 2 ^ 64 - 1 ->
  exists h i, p = Z.of_nat i * 2 ^ (Z.of_nat h + 1) + 2 ^ Z.of_nat h - 1 /\
    pos_height p = Z.of_nat h /\ (pos_is_leaf p = true <-> h = O) /\
    forall h' i', p = Z.of_nat i' * 2 ^ (Z.of_nat h' + 1) + 2 ^ Z.of_nat h' - 1 -> h' = h /\ i' = i.
Proof.
  intros p Hp. destruct (index_of_exists p) as (h & b & Hh & ->); [unfold U64; lia|].
  assert (F : forall h b, index_of h b = Z.of_nat b * 2 ^ (Z.of_nat h + 1) + 2 ^ Z.of_nat h - 1).
  { intros h' b'. unfold index_of. rewrite Z.pow_add_r by lia. lia. }
  exists h, b. split; [apply F|]. split; [apply pos_height_index; lia|]. split.
  - destruct h; [rewrite pos_is_leaf_0|rewrite pos_is_leaf_S]; split; auto; discriminate.
  - intros h' b' X. rewrite <- F in X. apply index_of_inj in X. intuition.
Qed.

Lemma C21_leaf : forall pr i, 0 <= i < 2 ^ 63 ->
  exists p, pos_from_leaf_index pr i = Val p /\ pos_is_leaf p = true /\ pos_leaf_index p = Val i.
Proof.
  intros pr i Hi. exists (i * 2). unfold pos_from_leaf_index, pos_leaf_index, pos_is_leaf, assert.
  rewrite u64_ovf_in by (unfold U64; lia). replace (i * 2 mod 2 =? 0) with true by lia.
  cbn [obind]. repeat split. f_equal. lia.
Qed.

Lemma C21_leaf_inv : forall pr p, 0 <= p < 2 ^ 64 ->
  (pos_is_leaf p = true -> exists i, pos_leaf_index p = Val i /\ 0 <= i < 2 ^ 63 /\ pos_from_leaf_index pr i = Val p) /\
  (pos_is_leaf p = false -> pos_leaf_index p = Panic).
Proof.
  intros pr p Hp. unfold pos_leaf_index, assert. split; intros E; rewrite E; cbn [obind]; auto.
  exists (p / 2). unfold pos_is_leaf in E. split; auto. split; [lia|].
  unfold pos_from_leaf_index. rewrite u64_ovf_in by (unfold U64; lia). f_equal. lia.
Qed.

(** * Paths *)
Lemma C23_lemma : forall pr k i, (k <= 62)%nat -> (i < 2 ^ k)%nat ->
  position_iter pr (index_of k 0) (index_of 0 i) =
    Val ((index_of k 0, index_of k 0) :: path_below k i).
Proof. intros. apply position_iter_ok; auto. left; auto. Qed.

Lemma C23_shape : forall k i,
  map fst ((index_of k 0, index_of k 0) :: path_below k i) =
    index_of k 0 :: map (fun h => index_of h (i / 2 ^ h)) (rev (seq 0 k)).
Proof.
  intros k i. cbn [map fst]. f_equal. induction k as [|k IH]; auto.
  rewrite seq_S, rev_app_distr. cbn. f_equal. exact IH.
Qed.

Lemma node_exists_represent : forall n h b, (b * 2 ^ h < n)%nat ->
  let x := represent n h b in node_exists n (fst x) (snd x) = true /\ (fst x <= h)%nat /\ (snd x * 2 ^ fst x = b * 2 ^ h)%nat.
Proof.
  intros n h. induction h as [|h IH]; intros b Hb; cbn [represent].
  - assert (E : node_exists n 0 b = true) by (cbn; rewrite Nat.pow_0_r in Hb; apply Nat.ltb_lt; lia).
    rewrite E. cbn [fst snd]. auto.
  - destruct (node_exists n (S h) b) eqn:E; cbn [fst snd]; auto.
    assert (B : (2 * b * 2 ^ h < n)%nat) by (rewrite pow2_S in Hb; lia).
    specialize (IH (2 * b)%nat B). cbn beta zeta in IH. destruct IH as (A1 & A2 & A3).
    repeat split; auto. rewrite A3, pow2_S. lia.
Qed.

Lemma tree_path_fst : forall n i h side,
  map fst (tree_path n h i side) =
    map (fun h => index_of h (ancestor i h)) (filter (fun h => node_exists n h (ancestor i h)) (down_from h)).
Proof.
  intros n i. induction h as [|h IH]; intros side; cbn [tree_path down_from filter].
  - destruct (node_exists n 0 (ancestor i 0)); reflexivity.
  - destruct (node_exists n (S h) (ancestor i (S h))); cbn [map fst]; [f_equal|]; apply IH.
Qed.

Lemma tree_path_exists : forall n i h side, (snd side * 2 ^ fst side < n)%nat ->
  Forall (fun x => exists_in n (fst x) /\ exists_in n (snd x)) (tree_path n h i side).
Proof.
  intros n i.
  assert (R : forall side, (snd side * 2 ^ fst side < n)%nat ->
    exists_in n (index_of_pair (represent n (fst side) (snd side)))).
  { intros side Hs. destruct (node_exists_represent n _ _ Hs) as [A _].
    eexists _, _. split; [reflexivity|exact A]. }
  induction h as [|h IH]; intros side Hs; cbn [tree_path].
  - destruct (node_exists n 0 (ancestor i 0)) eqn:E; [|constructor].
    constructor; [|constructor]. split; [eexists _, _; split; [reflexivity|exact E]|apply R; exact Hs].
  - destruct (node_exists n (S h) (ancestor i (S h))) eqn:E; [|apply IH; exact Hs].
    constructor; [split; [eexists _, _; split; [reflexivity|exact E]|apply R; exact Hs]|].
    apply IH. cbn [fst snd]. cbn [node_exists] in E. apply Nat.ltb_lt in E.
    destruct (ancestor_cases i h) as [(A & B & _)|(A & B & _)]; rewrite B; [lia|].
    pose proof (pow2_pos h). nia.
Qed.

Lemma C24_lemma : forall pr n i k, (i < n)%nat -> (n <= 2 ^ k)%nat -> (k <= 62)%nat ->
  exists path, position_path pr (index_of k 0) (index_of 0 i) (Z.of_nat n) = Val path /\
    path = tree_path n k i (k, O) /\
    map fst path =
      map (fun h => index_of h (ancestor i h)) (filter (fun h => node_exists n h (ancestor i h)) (down_from k)) /\
    Forall (fun x => exists_in n (fst x) /\ exists_in n (snd x)) path.
Proof.
  intros pr n i k Hi Hn Hk. exists (tree_path n k i (k, O)).
  split; [apply position_path_ok; auto; left; auto|]. split; [reflexivity|].
  split; [apply tree_path_fst|]. apply tree_path_exists. cbn. lia.
Qed.

(** * Bits *)
Lemma C25_lemma : forall a j, 0 <= j ->
  get_bit_at_index_from_msb a j =
    if j <? 8 * Z.of_nat (length a)
    then Some (if Z.testbit (be_value a) (8 * Z.of_nat (length a) - 1 - j) then Bit1 else Bit0)
    else None.
Proof.
  intros a j Hj. destruct (Z.ltb_spec j (8 * Z.of_nat (length a))).
  - rewrite msb_bit_value by lia. reflexivity.
  - apply msb_bit_none. lia.
Qed.

Lemma bits_of_length : forall a, length (bits_of a) = (8 * length a)%nat.
Proof.
  unfold bits_of. induction a as [|x a IH]; auto. cbn [map concat length].
  rewrite app_length, IH. cbn. lia.
Qed.

Lemma bits_of_byte_nth : forall x j, (j < 8)%nat ->
  nth_error (bits_of_byte x) j = Some (Z.testbit (Z_of_byte x) (7 - Z.of_nat j)).
Proof.
  intros x j Hj. unfold bits_of_byte, Z_of_byte.
  do 8 (destruct j as [|j]; [destruct x; reflexivity|]). lia.
Qed.

Lemma bits_of_nth : forall a j, (j < 8 * length a)%nat ->
  exists b, nth_error (bits_of a) j = Some b /\
    get_bit_at_index_from_msb a (Z.of_nat j) = Some (bit_of_bool b).
Proof.
  induction a as [|x a IH]; intros j Hj; cbn [length] in Hj; [lia|].
  unfold bits_of. cbn [map concat]. fold (bits_of a).
  destruct (Nat.lt_ge_cases j 8) as [L|L].
  - exists (Z.testbit (Z_of_byte x) (7 - Z.of_nat j)). split.
    + rewrite nth_error_app1 by (cbn; lia). apply bits_of_byte_nth; auto.
    + rewrite msb_bit_head by lia. apply get_bit_spec. lia.
  - rewrite nth_error_app2 by (cbn; lia). cbn [length bits_of_byte map].
    destruct (IH (j - 8)%nat) as (b & A & B); [lia|]. exists b. split; [exact A|].
    replace (Z.of_nat j) with (8 + Z.of_nat (j - 8)) by lia.
    rewrite msb_bit_cons by lia. exact B.
Qed.

Lemma Some_inj : forall {A} (x y : A), Some x = Some y -> x = y.
Proof. intros A x y E. congruence. Qed.

Lemma bits_of_inj : forall a b, length a = length b -> bits_of a = bits_of b -> a = b.
Proof.
  induction a as [|x a IH]; intros [|y b] L E; try discriminate; auto.
  unfold bits_of in E. cbn [map concat] in E.
  assert (E1 : bits_of_byte x = bits_of_byte y /\ bits_of a = bits_of b).
  { unfold bits_of. remember (concat (map bits_of_byte a)) as ra. remember (concat (map bits_of_byte b)) as rb.
    unfold bits_of_byte in *. cbn [map] in *. cbn [app] in E. inversion E. split; congruence. }
  destruct E1 as [E1 E2]. injection L as L. f_equal; [|apply IH; auto].
  assert (Z_of_byte x = Z_of_byte y).
  { apply Z.bits_inj'. intros n Hn. destruct (Z.lt_ge_cases n 8) as [B|B].
    - pose proof (bits_of_byte_nth x (7 - Z.to_nat n) ltac:(lia)) as Hx.
      pose proof (bits_of_byte_nth y (7 - Z.to_nat n) ltac:(lia)) as Hy.
      rewrite E1 in Hx. rewrite Hx in Hy. apply Some_inj in Hy.
      replace (7 - Z.of_nat (7 - Z.to_nat n)) with n in Hy by lia. exact Hy.
    - pose proof (Z_of_byte_range x). pose proof (Z_of_byte_range y).
      rewrite !Z.bits_above_log2; auto; try lia.
      + destruct (Z.eq_dec (Z_of_byte y) 0) as [->|]; [cbn; lia|]. apply Z.log2_lt_pow2; [lia|].
        assert (2 ^ 8 <= 2 ^ n) by (apply Z.pow_le_mono_r; lia). change (2 ^ 8) with 256 in *. lia.
      + destruct (Z.eq_dec (Z_of_byte x) 0) as [->|]; [cbn; lia|]. apply Z.log2_lt_pow2; [lia|].
        assert (2 ^ 8 <= 2 ^ n) by (apply Z.pow_le_mono_r; lia). change (2 ^ 8) with 256 in *. lia. }
  rewrite <- (byte_of_Z_of_byte x), <- (byte_of_Z_of_byte y). congruence.
Qed.

Lemma lcp_firstn : forall a b, firstn (lcp a b) a = firstn (lcp a b) b.
Proof.
  induction a as [|x a IH]; intros [|y b]; cbn; auto.
  destruct (Bool.eqb x y) eqn:E; cbn; auto. apply Bool.eqb_prop in E. subst. f_equal. apply IH.
Qed.

Lemma lcp_max : forall a b c, (c <= length a)%nat -> (c <= length b)%nat ->
  firstn c a = firstn c b -> (c <= lcp a b)%nat.
Proof.
  induction a as [|x a IH]; intros [|y b] c La Lb E; cbn in *; try lia.
  destruct c as [|c]; [lia|]. cbn in E. inversion E; subst. rewrite Bool.eqb_reflx.
  apply le_n_S. apply IH; auto; lia.
Qed.

Lemma lcp_sym : forall a b, lcp a b = lcp b a.
Proof.
  induction a as [|x a IH]; intros [|y b]; cbn; auto.
  rewrite (IH b). destruct x, y; reflexivity.
Qed.

Lemma lcp_le : forall a b, (lcp a b <= length a)%nat.
Proof.
  induction a as [|x a IH]; intros [|y b]; cbn; try lia.
  destruct (Bool.eqb x y); [|lia]. specialize (IH b). lia.
Qed.

Lemma common_prefix_loop_ok : forall a b n i, length a = length b -> (i + n = 8 * length a)%nat ->
  common_prefix_loop a b n (Z.of_nat i) = Val (Z.of_nat (lcp (skipn i (bits_of a)) (skipn i (bits_of b)))).
Proof.
  intros a b n. induction n as [|n IH]; intros i L E; cbn [common_prefix_loop].
  - rewrite skipn_all2 by (rewrite bits_of_length; lia). reflexivity.
  - destruct (bits_of_nth a i ltac:(lia)) as (x & Nx & ->).
    destruct (bits_of_nth b i ltac:(lia)) as (y & Ny & ->).
    assert (SK : forall (l : list bool) z, nth_error l i = Some z -> skipn i l = z :: skipn (S i) l).
    { clear. induction i as [|i IH]; intros [|w l] z E; cbn in *; try discriminate; [congruence|auto]. }
    rewrite (SK _ _ Nx), (SK _ _ Ny). cbn [lcp].
    replace (bit_eqb (bit_of_bool x) (bit_of_bool y)) with (Bool.eqb x y) by (destruct x, y; reflexivity).
    destruct (Bool.eqb x y); [|reflexivity].
    replace (Z.of_nat i + 1) with (Z.of_nat (S i)) by lia. rewrite IH by lia.
    cbn [obind]. f_equal. lia.
Qed.

Lemma common_prefix_count_ok : forall a b, length a = length b ->
  common_prefix_count a b = Val (Z.of_nat (lcp (bits_of a) (bits_of b))).
Proof. intros a b L. apply (common_prefix_loop_ok a b (8 * length a) 0); auto. Qed.

Lemma C26_lemma : forall a b, length a = length b ->
  exists c, common_prefix_count a b = Val (Z.of_nat c) /\
    common_prefix_count b a = Val (Z.of_nat c) /\
    (c <= 8 * length a)%nat /\ agree c a b /\
    (forall c', (c' <= 8 * length a)%nat -> agree c' a b -> (c' <= c)%nat) /\
    (c = (8 * length a)%nat <-> a = b).
Proof.
  intros a b L. exists (lcp (bits_of a) (bits_of b)).
  assert (LB : length (bits_of b) = length (bits_of a)) by (rewrite !bits_of_length; congruence).
  rewrite !common_prefix_count_ok by auto. rewrite (lcp_sym (bits_of b)).
  assert (LE := lcp_le (bits_of a) (bits_of b)). rewrite bits_of_length in LE.
  split; [reflexivity|]. split; [reflexivity|]. split; [exact LE|]. split; [apply lcp_firstn|]. split.
  - intros c' Hc A. apply lcp_max; auto; rewrite ?LB, bits_of_length; auto.
  - split.
    + intros E. apply bits_of_inj; auto. pose proof (lcp_firstn (bits_of a) (bits_of b)) as F.
      rewrite E in F. rewrite !firstn_all2 in F by (rewrite bits_of_length; lia). exact F.
    + intros <-. apply Nat.le_antisymm; auto. rewrite <- bits_of_length at 1. apply lcp_max; auto.
Qed.

(** * Serialization *)
Lemma C27_lemma :
  (forall n, snode_try_from (sprim_of_node n) = Ok n) /\
  (forall p n, snode_try_from p = Ok n -> sprim_of_node n = p) /\
  (forall h b lo hi, (b = x00 \/ b = x01) <-> exists n, snode_try_from (h, b, lo, hi) = Ok n) /\
  (forall h b lo hi, b <> x00 -> b <> x01 ->
     snode_try_from (h, b, lo, hi) = Err (DPrefixError (InvalidPrefix b))) /\
  (forall n, bnode_of_prim (bprim_of_node n) = n) /\
  (forall p, bprim_of_node (bnode_of_prim p) = p).
Proof.
  split; [intros [h [] lo hi]; reflexivity|].
  split. { intros [[[h b] lo] hi] n E. destruct b; cbn in E; try discriminate; inversion E; reflexivity. }
  split. { intros h b lo hi. split.
    - intros [->| ->]; eexists; reflexivity.
    - intros [n E]. destruct b; cbn in E; try discriminate; auto. }
  split. { intros h b lo hi A B. destruct b; try contradiction; reflexivity. }
  split; [intros []|intros []]; reflexivity.
Qed.

(** * The storage map *)
Lemma C28_lemma : forall (K V : Type) (keqb : K -> K -> bool) (keqb_eq : forall a b, keqb a b = true <-> a = b) os,
  exists m xs, smap_run (V := V) keqb os smap_new = (m, map Ok xs) /\
    map_run (fun _ => None) os xs (smap_lookup keqb m).
Proof.
  intros K V keqb KE.
  assert (G : forall os (m : @smap K V), exists m' xs, smap_run keqb os m = (m', map Ok xs) /\
    map_run (smap_lookup keqb m) os xs (smap_lookup keqb m')).
  { induction os as [|o os IH]; intros m.
    - exists m, []. split; [reflexivity|constructor].
    - assert (St : exists m1 a, smap_op keqb o m = (m1, Ok a) /\
        map_step (smap_lookup keqb m) o a (smap_lookup keqb m1)).
      { destruct o as [k|k|k v|k]; cbn.
        - eexists _, _. split; [reflexivity|]. constructor.
        - eexists _, _. split; [reflexivity|].
          destruct (smap_lookup keqb m k) eqn:E; [eapply step_has|apply step_has_not]; eauto.
        - eexists _, _. split; [reflexivity|]. constructor.
          + cbn. rewrite (proj2 (KE k k) eq_refl). reflexivity.
          + intros x N. cbn. rewrite (keqb_neq keqb KE x k N), (smap_lookup_erase keqb KE), (keqb_neq keqb KE x k N). reflexivity.
        - eexists _, _. split; [reflexivity|]. constructor.
          + rewrite (smap_lookup_erase keqb KE), (proj2 (KE k k) eq_refl). reflexivity.
          + intros x N. rewrite (smap_lookup_erase keqb KE), (keqb_neq keqb KE x k N). reflexivity. }
      destruct St as (m1 & a & E1 & S1). destruct (IH m1) as (m2 & xs & E2 & S2).
      exists m2, (a :: xs). cbn [smap_run]. rewrite E1, E2. split; [reflexivity|].
      econstructor; eauto. }
  intros os. apply (G os []).
Qed.

(** * Hash inputs *)
Lemma app_len_inj : forall {A} (a b c d : list A), length a = length c -> a ++ b = c ++ d -> a = c /\ b = d.
Proof.
  induction a as [|x a IH]; intros b [|y c] d L E; try discriminate; auto.
  injection E as -> E. injection L as L. destruct (IH b c d L E) as [-> ->]. auto.
Qed.

Lemma C56_binary_lemma : exists (leaf_input : list byte -> list byte) (node_input : bytes32 -> bytes32 -> list byte),
  (forall H d, leaf_sum H d = H (leaf_input d)) /\
  (forall H l r, node_sum H (b32 l) (b32 r) = H (node_input l r)) /\
  (forall d d', leaf_input d = leaf_input d' -> d = d') /\
  (forall l r l' r', node_input l r = node_input l' r' -> l = l' /\ r = r') /\
  (forall d l r, hd_error (leaf_input d) <> hd_error (node_input l r)) /\
  (forall d, leaf_input d <> []) /\ (forall l r, node_input l r <> []).
Proof.
  exists (fun d => x00 :: d), (fun l r => x01 :: b32 l ++ b32 r).
  split; [reflexivity|]. split; [reflexivity|]. split; [intros d d' E; congruence|].
  split. { intros l r l' r' E. injection E as E. apply app_len_inj in E; [|rewrite !b32_length; reflexivity].
    destruct E as [E1 E2]. split; apply bytes32_ext; auto. }
  split; [intros d l r E; discriminate E|]. split; discriminate.
Qed.

Lemma cons_tl : forall {A} (x y : A) l l', x :: l = y :: l' -> l = l'.
Proof. intros A x y l l' E. congruence. Qed.

Lemma C56_sum_lemma : exists (leaf_input : Z -> list byte -> list byte)
    (node_input : Z -> bytes32 -> Z -> bytes32 -> list byte),
  (forall H f d, sum_leaf_sum H f d = H (leaf_input f d)) /\
  (forall H f l g r, sum_node_sum H f (b32 l) g (b32 r) = H (node_input f l g r)) /\
  (forall f d f' d', 0 <= f < 2 ^ 64 -> 0 <= f' < 2 ^ 64 ->
     leaf_input f d = leaf_input f' d' -> f = f' /\ d = d') /\
  (forall f l g r f' l' g' r', 0 <= f < 2 ^ 64 -> 0 <= f' < 2 ^ 64 -> 0 <= g < 2 ^ 64 -> 0 <= g' < 2 ^ 64 ->
     node_input f l g r = node_input f' l' g' r' -> f = f' /\ l = l' /\ g = g' /\ r = r') /\
  (forall f d f' l g r, hd_error (leaf_input f d) <> hd_error (node_input f' l g r)) /\
  (forall f d, leaf_input f d <> []) /\ (forall f l g r, node_input f l g r <> []).
Proof.
  exists (fun f d => x00 :: u64_to_be_bytes f ++ d),
    (fun f l g r => x01 :: u64_to_be_bytes f ++ b32 l ++ u64_to_be_bytes g ++ b32 r).
  split; [reflexivity|]. split; [reflexivity|].
  split. { intros f d f' d' Hf Hf' E. apply cons_tl in E.
    apply app_len_inj in E; [|reflexivity]. destruct E as [E1 E2].
    split; auto. apply u64_to_be_bytes_inj; auto. }
  split. { intros f l g r f' l' g' r' A B C D E. apply cons_tl in E.
    apply app_len_inj in E; [|reflexivity]. destruct E as [E1 E].
    apply app_len_inj in E; [|rewrite !b32_length; reflexivity]. destruct E as [E2 E].
    apply app_len_inj in E; [|reflexivity]. destruct E as [E3 E4].
    split; [apply u64_to_be_bytes_inj; auto|]. split; [apply bytes32_ext; auto|].
    split; [apply u64_to_be_bytes_inj; auto|apply bytes32_ext; auto]. }
  split; [intros f d f' l g r E; discriminate E|]. split; discriminate.
Qed.

(** Sparse nodes: the placeholder is not hashed at all. *)
Lemma C56_sparse_lemma : exists (input : Prefix -> bytes32 -> bytes32 -> list byte),
  (forall H n, snode_is_placeholder n = false ->
     snode_hash H n = H (input (sn_prefix n) (sn_bytes_lo n) (sn_bytes_hi n))) /\
  (forall H n, snode_is_placeholder n = true -> snode_hash H n = zero_sum) /\
  (forall p a b p' a' b', input p a b = input p' a' b' -> p = p' /\ a = a' /\ b = b') /\
  (forall a b a' b', hd_error (input PLeaf a b) <> hd_error (input PNode a' b')) /\
  (forall p a b, input p a b <> []).
Proof.
  exists (fun p a b => prefix_byte p :: b32 a ++ b32 b).
  split. { intros H n E. unfold snode_hash. rewrite E. unfold sum_all. f_equal. cbn [concat app].
    rewrite app_nil_r. reflexivity. }
  split. { intros H n E. unfold snode_hash. rewrite E. reflexivity. }
  split. { intros p a b p' a' b' E. injection E as E1 E.
    apply app_len_inj in E; [|rewrite !b32_length; reflexivity]. destruct E as [E2 E3].
    split; [destruct p, p'; try discriminate E1; reflexivity|]. split; apply bytes32_ext; auto. }
  split; [intros a b a' b' E; discriminate E|]. discriminate.
Qed.
