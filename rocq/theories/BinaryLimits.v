(** BinaryLimits.v -- where the binary tree stops working: indices and leaf counts at
    the end of the u64 range, and what a failed push leaves behind. *)
From Verif Require Import Base Storage ModelCommon ModelBinary SpecBinary SpecBinaryFacts
  SpecPosition SpecBits PositionProofs BitsProofs PathProofs HeadsProofs StorageProofs Runs
  BinaryProofs BinaryReadProofs BinaryMain.
From Coq Require Import Arith ZifyBool ZifyNat ZifyN.
Ltac Zify.zify_post_hook ::= Z.div_mod_to_equations.
Arguments Z.pow : simpl never.
Arguments Z.mul : simpl never.
Arguments Z.add : simpl never.
Arguments Z.sub : simpl never.
Arguments Z.of_nat : simpl never.
Arguments Nat.pow : simpl never.
Arguments Nat.mul : simpl never.
Arguments Nat.div : simpl never.
Arguments Nat.add : simpl never.

Lemma u64_ovf_debug : forall pr z, overflow_checks pr = true -> U64 <= z -> u64_ovf pr z = Panic.
Proof.
  intros pr z Hc Hz. unfold u64_ovf, in_u64. replace (z <? U64) with false by lia.
  rewrite andb_false_r, Hc. reflexivity.
Qed.

Section Limits.
Variable H : list byte -> bytes32.
Context {St E : Type}.
Variable st : StorageT St Z BPrimitive E.
Variable view : St -> Z -> option BPrimitive.
Hypothesis L : Lawful st view.

Lemma prove_max_debug : forall pr (t : BTree St), overflow_checks pr = true -> bt_prove H pr st (2 ^ 64 - 1) t = (t, Panic).
Proof.
  intros pr t Hc. unfold bt_prove, bind, get_state, lift. rewrite u64_ovf_debug; [reflexivity|exact Hc|].
  unfold U64. lia.
Qed.

Lemma prove_max_release : forall pr ds s0 t, overflow_checks pr = false -> Infallible st -> (forall k, view s0 k = None) ->
  Z.of_nat (length ds) < 2 ^ 63 ->
  bt_push_all H pr st ds (bt_new s0) = (t, Val (Ok tt)) ->
  exists t', bt_prove H pr st (2 ^ 64 - 1) t = (t', Val (Err (BLoadError (2 ^ 64 - 1)))).
Proof.
  intros pr ds s0 t Hc Inf Hs HN Ep.
  assert (HM : Z.of_nat (length ds) <= 2 ^ 63) by lia.
  pose proof (reach_binv H pr st view L ds s0 t HM Ep) as Hi.
  pose proof (C12_lemma H pr st view L ds s0 t Hs HM Ep) as Ex.
  unfold bt_prove. unfold bind at 1, get_state at 1. unfold bind at 1, lift at 1.
  replace (u64_ovf pr (2 ^ 64 - 1 + 1)) with (@Val Z 0) by (unfold u64_ovf; rewrite Hc; vm_compute; reflexivity).
  rewrite (binv_count _ _ _ _ Hi). replace (0 >? Z.of_nat (length ds)) with false by lia.
  unfold bind at 1, lift at 1. rewrite root_position_ok by (unfold count_ok; rewrite Hc; exact HN).
  unfold bind at 1, lift at 1. unfold pos_from_leaf_index.
  replace (u64_ovf pr ((2 ^ 64 - 1) * 2)) with (@Val Z (2 ^ 64 - 2)) by (unfold u64_ovf; rewrite Hc; vm_compute; reflexivity).
  unfold bind_try at 1, bind at 1.
  destruct (bt_get_cases st view L (2 ^ 64 - 2) t) as (t1 & R & [G|(e & G & F)]); [|contradiction].
  rewrite G. destruct (view (bt_storage t) (2 ^ 64 - 2)) as [p|] eqn:V.
  - exfalso. apply Ex in V. destruct V as (h & b & Hb & Ek & _).
    destruct h as [|h].
    + rewrite index_of_0 in Ek. change (2 ^ 0)%nat with 1%nat in Hb. lia.
    + rewrite index_of_S in Ek. pose proof (P2_pos h). nia.
  - exists t1. reflexivity.
Qed.

(** * Load at the end of the range *)
Lemma log2_up_63 : forall n, 2 ^ 62 <= n < 2 ^ 63 -> Z.log2_up (n + 1) = 63.
Proof. intros n Hn. apply Z.log2_up_unique; lia. Qed.

Lemma load_debug_panics : forall pr n s, overflow_checks pr = true -> 2 ^ 62 <= n < 2 ^ 64 -> bt_load pr st n s = (s, Panic).
Proof.
  intros pr n s Hc Hn. unfold bt_load, bind, lift.
  assert (P : bt_peak_positions pr n = Panic); [|rewrite P; reflexivity].
  unfold bt_peak_positions.
  destruct (Z.eq_dec n (2 ^ 64 - 1)) as [->|N1].
  { rewrite u64_ovf_debug by (solve [exact Hc | unfold U64; lia]). reflexivity. }
  rewrite u64_ovf_in by (unfold U64; lia). cbn [obind].
  rewrite u64_ovf_in by (unfold U64; lia). cbn [obind].
  unfold pos_from_leaf_index. replace (n + 1 - 1) with n by lia.
  destruct (Z_le_dec (2 ^ 63) n) as [N2|N2].
  { rewrite u64_ovf_debug by (solve [exact Hc | unfold U64; lia]). reflexivity. }
  rewrite u64_ovf_in by (unfold U64; lia). cbn [obind].
  unfold bt_root_position. rewrite u64_ovf_in by (unfold U64; lia). cbn [obind].
  unfold next_power_of_two. replace (n + 1 <=? 1) with false by lia.
  rewrite log2_up_63 by lia. rewrite u64_ovf_in by (unfold U64; lia). cbn [obind].
  rewrite u64_ovf_in by (unfold U64; lia). cbn [obind].
  unfold position_path_iter_new. rewrite u64_ovf_in by (unfold U64; lia). cbn [obind].
  unfold pos_from_leaf_index. replace (n + 1 - 1) with n by lia.
  rewrite u64_ovf_in by (unfold U64; lia). cbn [obind].
  unfold path_iter_new. cbn [pn_key_size_in_bits pn_height PositionNode].
  replace (pos_height (2 ^ 63 - 1)) with 63 by (vm_compute; reflexivity).
  rewrite usize_ovf_in by lia. cbn [obind].
  unfold position_path_next.
  assert (Q : forall f, position_path_next_loop pr (S f)
    {| pp_rightmost_position := n * 2; pp_current_side_node := None;
       pp_path_iter := {| it_leaf := n * 2; it_current := Some (Ok (2 ^ 63 - 1), Ok (2 ^ 63 - 1));
                          it_current_offset := 64 - 63 |} |} = Panic).
  { intros f. cbn [position_path_next_loop pp_path_iter]. unfold run_unit, path_iter_next.
    cbn [it_current it_leaf it_current_offset pn_is_node pn_leaf_key pn_left_child pn_right_child PositionNode].
    replace (pos_is_node (2 ^ 63 - 1)) with true by (vm_compute; reflexivity).
    unfold pos_leaf_key, pos_leaf_index, pos_is_leaf, assert.
    replace (n * 2 mod 2 =? 0) with true by lia. cbn [obind]. unfold bind at 1, lift at 1.
    replace (n * 2 / 2) with n by lia.
    rewrite u64_instruction by (unfold U64; lia).
    unfold bind, lift.
    replace (pos_right_child pr (2 ^ 63 - 1)) with (@Panic Z) by (destruct pr as [[] [] []]; [vm_compute; reflexivity..|discriminate Hc|discriminate Hc|discriminate Hc|discriminate Hc]).
    replace (pos_left_child pr (2 ^ 63 - 1)) with (@Val Z (2 ^ 62 - 1)) by (destruct pr as [[] [] []]; [vm_compute; reflexivity..|discriminate Hc|discriminate Hc|discriminate Hc|discriminate Hc]).
    destruct (Z.testbit n (63 - (64 - 63))); reflexivity. }
  rewrite Q. reflexivity.
Qed.

(** * Failed push *)
Lemma push_even_error : forall pr ds t d t' e, binv H view ds t -> Nat.even (length ds) = true ->
  Z.of_nat (length ds) < 2 ^ 63 ->
  bt_push H pr st d t = (t', Val (Err e)) ->
  bt_head t' = bt_head t /\ bt_leaves_count t' = bt_leaves_count t.
Proof.
  intros pr ds t d t' e [Ic Ih Is] Ev HN Ep.
  unfold bt_push in Ep. unfold bind at 1, get_state at 1 in Ep. unfold bind at 1, lift at 1 in Ep.
  unfold bnode_create_leaf, pos_from_leaf_index in Ep. rewrite Ic in Ep.
  rewrite u64_ovf_in in Ep by (change U64 with (2 * 2 ^ 63); lia). cbn [obind] in Ep.
  unfold bind_try at 1, bind at 1 in Ep. unfold bt_insert at 1 in Ep.
  destruct (s_insert st _ _ (bt_storage t)) as [s' [p|e']].
  2:{ inversion Ep; subst. auto. }
  exfalso. unfold bind at 1, get_state at 1 in Ep. unfold bind at 1, bt_set_head at 1 in Ep.
  cbn [bt_storage bt_head bt_leaves_count] in Ep.
  unfold bt_join_all_subtrees in Ep. unfold bind_try at 1 in Ep. unfold bind at 1 in Ep.
  unfold bind at 1, get_state at 1 in Ep. cbn [bt_head length bt_join_all_subtrees_loop] in Ep.
  unfold bind at 1, get_state at 1 in Ep. cbn [bt_head] in Ep.
  assert (Fin : forall t2 : BTree St, bt_leaves_count t2 = Z.of_nat (length ds) ->
    (t0 <- get_state ;; n <- lift (u64_ovf pr (bt_leaves_count t0 + 1)) ;;
      _ <- bt_set_leaves_count n ;; ret (Ok tt)) t2 = (t', Val (Err e)) -> False).
  { intros t2 Hc E2. unfold bind, get_state, lift, bt_set_leaves_count, ret in E2.
    rewrite Hc in E2. rewrite u64_ovf_in in E2 by (change U64 with (2 * 2 ^ 63); lia). discriminate E2. }
  destruct (bt_head t) as [|y l] eqn:Hl.
  - unfold ret at 1 in Ep. eapply Fin; [|exact Ep]. exact Ic.
  - destruct (Heads_cons_inv _ _ _ _ _ Ih) as (k & b & _ & Hm & [Py _] & _).
    change (2 ^ 0)%nat with 1%nat in Hm. rewrite Nat.mul_1_r in Hm.
    assert (Bk : (k <= 63)%nat).
    { apply (complete_bounds k (2 * b) (length ds)); [lia|unfold max_leaves; lia]. }
    assert (k <> 0)%nat.
    { intros ->. apply Nat.even_spec in Ev. destruct Ev as [c Ec]. change (2 ^ 0)%nat with 1%nat in Hm. lia. }
    cbn [bn_position] in Ep. rewrite Py in Ep.
    replace (Z.of_nat (length ds) * 2) with (index_of 0 (length ds)) in Ep by (rewrite index_of_0; lia).
    rewrite !pos_height_index in Ep by lia.
    replace (Z.of_nat 0 =? Z.of_nat k) with false in Ep by lia.
    unfold ret at 1 in Ep. eapply Fin; [|exact Ep]. exact Ic.
Qed.

Lemma C11_partial_lemma : forall pr ds s0 t d t' e, Nat.even (length ds) = true ->
  Z.of_nat (length ds) < 2 ^ 63 ->
  bt_push_all H pr st ds (bt_new s0) = (t, Val (Ok tt)) ->
  bt_push H pr st d t = (t', Val (Err e)) ->
  bt_root H pr t' = bt_root H pr t /\ bt_leaves_count t' = bt_leaves_count t.
Proof.
  intros pr ds s0 t d t' e Ev HN Ep Ef.
  assert (HM : Z.of_nat (length ds) <= 2 ^ 63) by lia.
  pose proof (reach_binv H pr st view L ds s0 t HM Ep) as Hi.
  destruct (push_even_error pr ds t d t' e Hi Ev HN Ef) as [A B].
  split; [|exact B]. unfold bt_root, bt_root_node. rewrite A. reflexivity.
Qed.
End Limits.
