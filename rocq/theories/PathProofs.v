(** PathProofs.v -- lemmas about the path iterator and the position path. *)
From Verif Require Import Base ModelCommon SpecBinary SpecBinaryFacts SpecPosition SpecBits
  PositionProofs BitsProofs.
From Coq Require Import ZifyBool ZifyNat ZifyN.
Ltac Zify.zify_post_hook ::= Z.div_mod_to_equations.
Arguments Z.pow : simpl never.
Arguments Z.mul : simpl never.
Arguments Z.add : simpl never.
Arguments Z.sub : simpl never.
Arguments Z.of_nat : simpl never.
Arguments Nat.pow : simpl never.
Arguments Nat.mul : simpl never.
Arguments Nat.div : simpl never.

(** The heights whose nodes have computable children; see pos_right_child_ok. *)
Definition root_ok (pr : profile) (h : nat) : Prop := (h <= 62)%nat \/ (overflow_checks pr = false /\ (h <= 63)%nat).

Lemma root_ok_le : forall pr h h', (h' <= h)%nat -> root_ok pr h -> root_ok pr h'.
Proof. intros pr h h' Hle [A|[A B]]; [left|right]; try split; auto; lia. Qed.

Lemma ancestor_step : forall i h, ancestor i (S h) = (ancestor i h / 2)%nat.
Proof.
  intros i h. unfold ancestor. rewrite pow2_S, Nat.mul_comm.
  rewrite Nat.div_div; auto; pose proof (pow2_pos h); lia.
Qed.

Lemma ancestor_0 : forall i, ancestor i 0 = i.
Proof. intros i. unfold ancestor. change (2 ^ 0)%nat with 1%nat. apply Nat.div_1_r. Qed.

Lemma ancestor_cases : forall i h,
  (ancestor i h = 2 * ancestor i (S h) /\ sib (ancestor i h) = 2 * ancestor i (S h) + 1 /\ Nat.odd (ancestor i h) = false)%nat \/
  (ancestor i h = 2 * ancestor i (S h) + 1 /\ sib (ancestor i h) = 2 * ancestor i (S h) /\ Nat.odd (ancestor i h) = true)%nat.
Proof.
  intros i h. rewrite ancestor_step. set (b := ancestor i h).
  destruct (Nat.odd b) eqn:O; unfold sib; rewrite O.
  - right. apply Nat.odd_spec in O. destruct O as [m ->].
    replace ((2 * m + 1) / 2)%nat with m by lia. lia.
  - left. rewrite <- Nat.negb_even in O. destruct (Nat.even b) eqn:Ev; [|discriminate].
    apply Nat.even_spec in Ev. destruct Ev as [m ->].
    replace (2 * m / 2)%nat with m by lia. lia.
Qed.

Lemma ancestor_testbit : forall i h,
  Z.testbit (Z.of_nat i) (Z.of_nat h) = Nat.odd (ancestor i h).
Proof.
  intros i h. rewrite Z.testbit_odd, Z.shiftr_div_pow2 by lia.
  unfold ancestor. rewrite <- P2_nat, <- Nat2Z.inj_div.
  generalize (i / 2 ^ h)%nat. intros m.
  rewrite <- Nat.negb_even, <- Z.negb_even. f_equal.
  destruct (Nat.even m) eqn:Ev.
  - apply Nat.even_spec in Ev. destruct Ev as [k ->].
    rewrite Z.even_spec. exists (Z.of_nat k). lia.
  - assert (O : Nat.odd m = true) by (rewrite <- Nat.negb_even, Ev; reflexivity).
    apply Nat.odd_spec in O. destruct O as [k ->].
    rewrite <- Z.negb_odd. assert (Z.odd (Z.of_nat (2 * k + 1)) = true).
    { rewrite Z.odd_spec. exists (Z.of_nat k). lia. }
    rewrite H. reflexivity.
Qed.

Lemma ancestor_top : forall i h, (i < 2 ^ h)%nat -> ancestor i h = 0%nat.
Proof. intros. unfold ancestor. apply Nat.div_small. auto. Qed.

Lemma ancestor_le : forall i h, (ancestor i h * 2 ^ h <= i)%nat.
Proof.
  intros i h. unfold ancestor. rewrite Nat.mul_comm. apply Nat.mul_div_le.
  pose proof (pow2_pos h); lia.
Qed.
Lemma ancestor_gt : forall i h, (i < (ancestor i h + 1) * 2 ^ h)%nat.
Proof.
  intros i h. unfold ancestor. rewrite Nat.mul_comm, Nat.add_1_r.
  apply Nat.mul_succ_div_gt. pose proof (pow2_pos h); lia.
Qed.

(** All nodes below height [k] of a block inside [2^k] leaves, [k <= 63], are u64s. *)
Lemma index_of_bound : forall h b k, (h <= k)%nat -> (k <= 63)%nat -> ((b + 1) * 2 ^ h <= 2 ^ k)%nat ->
  index_of h b < U64.
Proof.
  intros h b k Hhk Hk Hb. unfold index_of.
  assert (E : Z.of_nat ((b + 1) * 2 ^ h) <= Z.of_nat (2 ^ k)) by lia.
  rewrite Nat2Z.inj_mul, !P2_nat in E.
  assert (P2 k <= P2 63) by (apply P2_le; lia).
  pose proof (P2_pos h). change U64 with (2 * P2 63). nia.
Qed.

Lemma ancestor_bound : forall i h k, (h <= k)%nat -> (i < 2 ^ k)%nat ->
  ((ancestor i h + 1) * 2 ^ h <= 2 ^ k)%nat.
Proof.
  intros i h k Hhk Hi. replace k with ((k - h) + h)%nat in * by lia.
  rewrite Nat.pow_add_r in *. apply Nat.mul_le_mono_r.
  assert (ancestor i h < 2 ^ (k - h))%nat; [|lia].
  unfold ancestor. apply Nat.div_lt_upper_bound; [pose proof (pow2_pos h); lia|lia].
Qed.

Lemma node_bound : forall i h k pr, (h <= k)%nat -> (i < 2 ^ k)%nat -> root_ok pr k ->
  index_of h (ancestor i h) < U64.
Proof.
  intros i h k pr Hhk Hi Hk. apply index_of_bound with (k := k); auto.
  - destruct Hk as [|[_ ?]]; lia.
  - apply ancestor_bound; auto.
Qed.

(** * One step of the iterator *)
Definition step_iter (i h : nat) (side : Z) : PathIter Z Empty_set :=
  Build_PathIter (index_of 0 i) (Some (Ok (index_of h (ancestor i h)), Ok side)) (64 - Z.of_nat h).
Definition done_iter (i : nat) : PathIter Z Empty_set :=
  Build_PathIter (index_of 0 i) None 64.

Lemma pos_leaf_key_ok : forall i, pos_leaf_key (index_of 0 i) = Val (u64_to_be_bytes (Z.of_nat i)).
Proof.
  intros i. unfold pos_leaf_key, pos_leaf_index, assert. rewrite pos_is_leaf_0. cbn [obind].
  rewrite index_of_0. do 2 f_equal. lia.
Qed.

Lemma small_nat : forall i k pr, (i < 2 ^ k)%nat -> root_ok pr k -> 0 <= Z.of_nat i < U64.
Proof.
  intros i k pr Hi Hk. assert (Z.of_nat i < Z.of_nat (2 ^ k)) by lia. rewrite P2_nat in H.
  assert (P2 k <= P2 63) by (apply P2_le; destruct Hk as [|[_ ?]]; lia).
  assert (P2 63 < U64) by reflexivity. lia.
Qed.

Lemma iter_step_S : forall pr i k h side, (i < 2 ^ k)%nat -> root_ok pr k -> (S h <= k)%nat ->
  path_iter_next (PositionNode pr) (step_iter i (S h) side) tt =
    (tt, Val (it_current (step_iter i (S h) side),
              step_iter i h (index_of h (sib (ancestor i h))))).
Proof.
  intros pr i k h side Hi Hk Hh. unfold path_iter_next, step_iter. cbn [it_current it_leaf it_current_offset].
  cbn [pn_is_node PositionNode pn_leaf_key pn_left_child pn_right_child]. rewrite pos_is_node_S.
  rewrite pos_leaf_key_ok. unfold bind at 1, lift at 1.
  assert (B : index_of (S h) (ancestor i (S h)) < U64) by (apply node_bound with (k := k) (pr := pr); auto).
  rewrite u64_instruction; [|apply small_nat with (k := k) (pr := pr); auto|destruct Hk as [|[_ ?]]; lia].
  replace (63 - (64 - Z.of_nat (S h))) with (Z.of_nat h) by lia.
  rewrite ancestor_testbit.
  assert (L := pos_left_child_ok pr h (ancestor i (S h)) ltac:(destruct Hk as [|[_ ?]]; lia) B).
  assert (R := pos_right_child_ok pr h (ancestor i (S h))
     ltac:(destruct Hk as [|[? ?]]; [left|right]; try split; auto; lia) B).
  replace (64 - Z.of_nat (S h) + 1) with (64 - Z.of_nat h) by lia.
  destruct (ancestor_cases i h) as [(E1 & E2 & O)|(E1 & E2 & O)]; rewrite O;
    unfold bind, lift, ret; rewrite L, R, E2, E1; reflexivity.
Qed.

Lemma iter_step_0 : forall pr i side,
  path_iter_next (PositionNode pr) (step_iter i 0 side) tt =
    (tt, Val (it_current (step_iter i 0 side), done_iter i)).
Proof.
  intros pr i side. unfold path_iter_next, step_iter, done_iter. cbn [it_current it_leaf it_current_offset].
  cbn [pn_is_node PositionNode]. rewrite pos_is_node_0. reflexivity.
Qed.

Lemma iter_done : forall pr i,
  path_iter_next (PositionNode pr) (done_iter i) tt = (tt, Val (None, done_iter i)).
Proof. reflexivity. Qed.

Lemma iter_new : forall pr k i, root_ok pr k -> (i < 2 ^ k)%nat ->
  path_iter_new pr (PositionNode pr) (index_of k 0) (index_of 0 i) =
    Val (step_iter i k (index_of k 0)).
Proof.
  intros pr k i Hk Hi. unfold path_iter_new. cbn [pn_key_size_in_bits PositionNode pn_height].
  rewrite pos_height_index by (destruct Hk as [|[_ ?]]; lia).
  rewrite usize_ovf_in by (destruct Hk as [|[_ ?]]; lia). cbn [obind].
  unfold step_iter. rewrite ancestor_top by exact Hi. reflexivity.
Qed.

(** * The whole walk *)
Lemma position_iter_collect_ok : forall pr i k h f side, (i < 2 ^ k)%nat -> root_ok pr k ->
  (h <= k)%nat -> (h + 2 <= f)%nat ->
  position_iter_collect pr f (step_iter i h side) =
    Val ((index_of h (ancestor i h), side) :: path_below h i).
Proof.
  intros pr i k. induction h as [|h IH]; intros f side Hi Hk Hh Hf;
    (destruct f as [|f]; [lia|]); cbn [position_iter_collect].
  - rewrite iter_step_0. unfold step_iter. cbn [snd obind it_current].
    destruct f as [|f]; [lia|]. cbn [position_iter_collect]. rewrite iter_done. reflexivity.
  - rewrite (iter_step_S pr i k h) by auto. unfold step_iter at 1. cbn [snd obind it_current].
    rewrite IH by (auto; lia). reflexivity.
Qed.

Lemma position_iter_ok : forall pr k i, root_ok pr k -> (i < 2 ^ k)%nat ->
  position_iter pr (index_of k 0) (index_of 0 i) =
    Val ((index_of k 0, index_of k 0) :: path_below k i).
Proof.
  intros pr k i Hk Hi. unfold position_iter. rewrite iter_new by auto. cbn [obind].
  rewrite (position_iter_collect_ok pr i k k) by (auto; destruct Hk as [|[_ ?]]; lia).
  rewrite ancestor_top by exact Hi. reflexivity.
Qed.

(** * The position path *)
Lemma index_of_le_rightmost : forall n h b, (0 < n)%nat ->
  (index_of h b <=? 2 * (Z.of_nat n - 1)) = node_exists n h b.
Proof.
  intros n h b Hn. destruct h as [|h]; cbn [node_exists].
  - rewrite index_of_0. lia.
  - rewrite index_of_S.
    assert (E : Z.of_nat ((2 * b + 1) * 2 ^ h) = (2 * Z.of_nat b + 1) * P2 h).
    { rewrite Nat2Z.inj_mul, P2_nat. lia. }
    set (x := ((2 * b + 1) * 2 ^ h)%nat) in *.
    replace ((2 * Z.of_nat b + 1) * (2 * P2 h)) with (2 * Z.of_nat x) by (rewrite E; ring).
    lia.
Qed.

Lemma side_descend_ok : forall pr n h b f, (0 < n)%nat -> (h <= 63)%nat -> (h <= f)%nat ->
  index_of h b < U64 -> (b * 2 ^ h < n)%nat ->
  side_descend pr f (2 * (Z.of_nat n - 1)) (index_of h b) = Val (index_of_pair (represent n h b)).
Proof.
  intros pr n. induction h as [|h IH]; intros b f Hn Hh Hf Hb Hlt.
  - change (2 ^ 0)%nat with 1%nat in Hlt.
    destruct f; cbn [side_descend represent]; rewrite (index_of_le_rightmost n) by exact Hn;
      cbn [node_exists]; replace (b <? n)%nat with true by lia; reflexivity.
  - destruct f as [|f]; [lia|]. cbn [side_descend represent].
    rewrite (index_of_le_rightmost n) by exact Hn.
    destruct (node_exists n (S h) b); [reflexivity|].
    rewrite pos_left_child_ok by (auto; lia). cbn [obind].
    apply IH; auto; try lia.
    + rewrite index_of_S in Hb. unfold index_of. pose proof (P2_pos h). nia.
    + rewrite pow2_S in Hlt. lia.
Qed.

Definition pp_iter (n : nat) (saved : option Z) (it : PathIter Z Empty_set) : PositionPathIter :=
  {| pp_rightmost_position := 2 * (Z.of_nat n - 1); pp_current_side_node := saved; pp_path_iter := it |}.

Definition pp_after (n i h : nat) : PositionPathIter :=
  pp_iter n None match h with O => done_iter i | S h' => step_iter i h' (index_of h' (sib (ancestor i h'))) end.

Lemma pp_done : forall pr n i f saved, (0 < f)%nat ->
  position_path_next_loop pr f (pp_iter n saved (done_iter i)) =
    Val (None, pp_iter n saved (done_iter i)).
Proof. intros pr n i f saved Hf. destruct f; [lia|]. reflexivity. Qed.

(** Collecting, with explicit fuel for the first call of [next]. *)
Definition pp_collect_from (pr : profile) (fi fo : nat) (it : PositionPathIter) : out (list (Z * Z)) :=
  '(item, it') <-! position_path_next_loop pr fi it ;;
  match item with
  | None => Val []
  | Some x => xs <-! position_path_collect pr fo it' ;; Val (x :: xs)
  end.

Lemma pp_collect_unfold : forall pr f it,
  position_path_collect pr (S f) it = pp_collect_from pr 66 f it.
Proof. intros. cbn [position_path_collect]. unfold position_path_next, pp_collect_from. reflexivity. Qed.

Lemma side_exists : forall n i h, (i < n)%nat -> node_exists n (S h) (ancestor i (S h)) = true ->
  (sib (ancestor i h) * 2 ^ h < n)%nat.
Proof.
  intros n i h Hi He. cbn [node_exists] in He. apply Nat.ltb_lt in He.
  destruct (ancestor_cases i h) as [(E1 & E2 & _)|(E1 & E2 & _)]; rewrite E2; nia.
Qed.

Lemma sib_bound : forall i h k pr, (S h <= k)%nat -> (i < 2 ^ k)%nat -> root_ok pr k ->
  index_of h (sib (ancestor i h)) < U64.
Proof.
  intros i h k pr Hh Hi Hk. apply index_of_bound with (k := k); [lia|destruct Hk as [|[_ ?]]; lia|].
  pose proof (ancestor_bound i (S h) k Hh Hi) as B. rewrite pow2_S in B.
  destruct (ancestor_cases i h) as [(E1 & E2 & _)|(E1 & E2 & _)]; rewrite E2; nia.
Qed.

Lemma pp_collect_ok : forall pr n i k, (i < n)%nat -> (i < 2 ^ k)%nat -> root_ok pr k ->
  forall h fi fo sh sb saved cur, (h <= k)%nat -> (h + 1 <= fi)%nat -> (h + 1 <= fo)%nat ->
  match saved with Some s => s | None => cur end = index_of sh sb ->
  (sh <= 63)%nat -> index_of sh sb < U64 -> (sb * 2 ^ sh < n)%nat ->
  pp_collect_from pr fi fo (pp_iter n saved (step_iter i h cur)) =
    Val (tree_path n h i (sh, sb)).
Proof.
  intros pr n i k Hin Hik Hk. induction h as [|h IH];
    intros fi fo sh sb saved cur Hh Hfi Hfo Hside Hsh Hsb Hslt;
    (destruct fi as [|fi]; [lia|]); unfold pp_collect_from; cbn [position_path_next_loop];
    cbn [pp_path_iter pp_iter pp_rightmost_position pp_current_side_node]; unfold run_unit.
  - rewrite iter_step_0. cbn [snd obind]. unfold step_iter. cbn [it_current].
    rewrite (index_of_le_rightmost n) by lia. rewrite ancestor_0. cbn [tree_path].
    rewrite ancestor_0. cbn [node_exists]. replace (i <? n)%nat with true by lia.
    assert (Es : match saved with Some n0 => n0 | None => cur end = index_of sh sb) by exact Hside.
    rewrite Es. rewrite side_descend_ok by (auto; lia). cbn [obind].
    destruct fo as [|fo]; [lia|]. cbn [position_path_collect]. unfold position_path_next.
    fold (pp_iter n None (done_iter i)). rewrite pp_done by lia. reflexivity.
  - rewrite (iter_step_S pr i k h) by auto. cbn [snd obind]. unfold step_iter at 1. cbn [it_current].
    rewrite (index_of_le_rightmost n) by lia. cbn [tree_path].
    destruct (node_exists n (S h) (ancestor i (S h))) eqn:Ex.
    + rewrite Hside. rewrite side_descend_ok by (auto; lia). cbn [obind fst snd].
      destruct fo as [|fo]; [lia|]. rewrite pp_collect_unfold.
      fold (pp_iter n None (step_iter i h (index_of h (sib (ancestor i h))))).
      rewrite (IH 66%nat fo h (sib (ancestor i h)) None); auto; try lia.
      * destruct Hk as [|[_ ?]]; lia.
      * destruct Hk as [|[_ ?]]; lia.
      * apply sib_bound with (k := k) (pr := pr); auto.
      * apply side_exists; auto.
    + match goal with |- context [position_path_next_loop pr fi ?it] =>
        change it with (pp_iter n (match saved with None => Some cur | Some n0 => Some n0 end)
           (step_iter i h (index_of h (sib (ancestor i h))))) end.
      fold (pp_collect_from pr fi fo (pp_iter n (match saved with None => Some cur | Some n0 => Some n0 end)
           (step_iter i h (index_of h (sib (ancestor i h)))))).
      apply IH; auto; try lia. destruct saved; exact Hside.
Qed.

Lemma root_ok_63 : forall pr k, root_ok pr k -> (k <= 63)%nat.
Proof. intros pr k [|[_ ?]]; lia. Qed.

Lemma position_path_iter_new_ok : forall pr n i k, (i < n)%nat -> (n <= 2 ^ k)%nat -> root_ok pr k ->
  position_path_iter_new pr (index_of k 0) (index_of 0 i) (Z.of_nat n) =
    Val (pp_iter n None (step_iter i k (index_of k 0))).
Proof.
  intros pr n i k Hi Hn Hk. unfold position_path_iter_new.
  assert (Hn' : Z.of_nat n <= P2 63).
  { assert (Z.of_nat n <= Z.of_nat (2 ^ k)) by lia. rewrite P2_nat in H.
    assert (P2 k <= P2 63) by (apply P2_le; apply root_ok_63 in Hk; lia). lia. }
  change (P2 63) with 9223372036854775808 in Hn'.
  rewrite u64_ovf_in by (unfold U64; lia). cbn [obind].
  unfold pos_from_leaf_index. rewrite u64_ovf_in by (unfold U64; lia). cbn [obind].
  rewrite iter_new by (auto; lia). cbn [obind]. unfold pp_iter.
  replace ((Z.of_nat n - 1) * 2) with (2 * (Z.of_nat n - 1)) by ring. reflexivity.
Qed.

Lemma root_bound : forall k, (k <= 63)%nat -> index_of k 0 < U64.
Proof. intros k Hk. apply index_of_bound with (k := k); auto. lia. Qed.

Lemma position_path_from_ok : forall pr n i k fo, (i < n)%nat -> (n <= 2 ^ k)%nat -> root_ok pr k ->
  (k + 2 <= fo)%nat ->
  position_path_collect pr fo (pp_iter n None (step_iter i k (index_of k 0))) =
    Val (tree_path n k i (k, O)).
Proof.
  intros pr n i k fo Hi Hn Hk Hfo. destruct fo as [|fo]; [lia|]. rewrite pp_collect_unfold.
  pose proof (root_ok_63 pr k Hk).
  apply pp_collect_ok with (k := k); auto; try lia. apply root_bound; lia.
Qed.

Lemma position_path_ok : forall pr n i k, (i < n)%nat -> (n <= 2 ^ k)%nat -> root_ok pr k ->
  position_path pr (index_of k 0) (index_of 0 i) (Z.of_nat n) = Val (tree_path n k i (k, O)).
Proof.
  intros pr n i k Hi Hn Hk. unfold position_path.
  rewrite position_path_iter_new_ok by auto. cbn [obind].
  pose proof (root_ok_63 pr k Hk). apply position_path_from_ok; auto; lia.
Qed.

(** * The sides of a path *)
Fixpoint sides (n h i : nat) : list (nat * nat) :=
  match h with
  | O => []
  | S h' => if node_exists n (S h') (ancestor i (S h'))
            then represent n h' (sib (ancestor i h')) :: sides n h' i
            else sides n h' i
  end.

Lemma tree_path_sides : forall n i h side, (i < n)%nat ->
  map snd (tree_path n h i side) =
    index_of_pair (represent n (fst side) (snd side)) :: map index_of_pair (sides n h i).
Proof.
  intros n i. induction h as [|h IH]; intros side Hi; cbn [tree_path sides].
  - rewrite ancestor_0. cbn [node_exists]. replace (i <? n)%nat with true by lia. reflexivity.
  - destruct (node_exists n (S h) (ancestor i (S h))) eqn:Ex.
    + cbn [map snd]. rewrite IH by exact Hi. reflexivity.
    + apply IH; exact Hi.
Qed.

Lemma represent_exists : forall n h b, (b * 2 ^ h < n)%nat ->
  node_exists n (fst (represent n h b)) (snd (represent n h b)) = true /\
  (fst (represent n h b) <= h)%nat.
Proof.
  intros n. induction h as [|h IH]; intros b Hb; cbn [represent].
  - change (2 ^ 0)%nat with 1%nat in Hb. cbn [node_exists]. replace (b <? n)%nat with true by lia.
    cbn. split; [apply Nat.ltb_lt|]; lia.
  - destruct (node_exists n (S h) b) eqn:Ex; [split; [exact Ex|cbn; lia]|].
    destruct (IH (2 * b)%nat) as [A B]; [rewrite pow2_S in Hb; lia|]. split; [exact A|lia].
Qed.
