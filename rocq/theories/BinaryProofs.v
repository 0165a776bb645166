(** BinaryProofs.v -- lemmas about the binary tree: push, root, load, prove. *)
From Verif Require Import Base Storage ModelCommon ModelBinary SpecBinary SpecBinaryFacts
  SpecPosition PositionProofs PathProofs HeadsProofs StorageProofs Runs.
From Coq Require Import Arith ZifyBool ZifyNat ZifyN.
Ltac Zify.zify_post_hook ::= Z.div_mod_to_equations.
Arguments Z.pow : simpl never.
Arguments Z.mul : simpl never.
Arguments Z.add : simpl never.
Arguments Z.sub : simpl never.
Arguments Z.of_nat : simpl never.
Arguments Nat.pow : simpl never.
Arguments Nat.mul : simpl never.
Arguments Nat.div : simpl never.
Arguments Nat.add : simpl never.

Definition max_leaves : Z := 2 ^ 63.

Lemma complete_bounds : forall h b N, ((b + 1) * 2 ^ h <= N)%nat -> Z.of_nat N <= max_leaves ->
  (h <= 63)%nat /\ index_of h b < U64.
Proof.
  intros h b N Hb HN.
  assert (E : Z.of_nat ((b + 1) * 2 ^ h) <= 2 ^ 63) by (unfold max_leaves in HN; lia).
  rewrite Nat2Z.inj_mul, P2_nat in E.
  assert (h <= 63)%nat.
  { destruct (le_lt_dec h 63); auto. assert (P2 64 <= P2 h) by (apply P2_le; lia).
    change (P2 64) with (2 * 2 ^ 63) in *. nia. }
  split; auto. unfold index_of. change U64 with (2 * 2 ^ 63). pose proof (P2_pos h). nia.
Qed.

Lemma half_bounds : forall h b N, ((2 * b + 1) * 2 ^ h < N)%nat -> Z.of_nat N <= max_leaves ->
  (h <= 62)%nat /\ index_of h (2 * b) < U64 /\ index_of (S h) b < U64.
Proof.
  intros h b N Hb HN.
  assert (E : Z.of_nat ((2 * b + 1) * 2 ^ h) < 2 ^ 63) by (unfold max_leaves in HN; lia).
  rewrite Nat2Z.inj_mul, P2_nat in E.
  assert (h <= 62)%nat.
  { destruct (le_lt_dec h 62); auto. assert (P2 63 <= P2 h) by (apply P2_le; lia).
    change (P2 63) with (2 ^ 63) in *. nia. }
  split; auto. rewrite index_of_S. unfold index_of. change U64 with (2 * 2 ^ 63).
  pose proof (P2_pos h). nia.
Qed.

Section Binary.
Variable H : list byte -> bytes32.
Variable pr : profile.
Notation mth := (mth H).

(** [x] is the right node for block (h, b) of [ds]. *)
Definition right_node (ds : list (list byte)) (h b : nat) (x : BNode) : Prop :=
  bn_position x = index_of h b /\ bn_hash x = mth (block h b ds).

Definition right_prim (ds : list (list byte)) (h b : nat) : BPrimitive :=
  (index_of h b, mth (block h b ds)).

Lemma right_node_prim : forall ds h b x, right_node ds h b x -> bprim_of_node x = right_prim ds h b.
Proof. intros ds h b x [A B]. unfold bprim_of_node, right_prim. rewrite A, B. reflexivity. Qed.

Lemma right_node_of_prim : forall ds h b, right_node ds h b (bnode_of_prim (right_prim ds h b)).
Proof. intros. split; reflexivity. Qed.

Lemma right_node_det : forall ds h b x y, right_node ds h b x -> right_node ds h b y -> x = y.
Proof. intros ds h b [p q] [p' q'] [A B] [C D]. cbn in *. subst. reflexivity. Qed.

Lemma right_node_app : forall ds e h b x, ((b + 1) * 2 ^ h <= length ds)%nat ->
  right_node ds h b x -> right_node (ds ++ e) h b x.
Proof. intros ds e h b x Hb [A B]. split; auto. rewrite block_app by exact Hb. exact B. Qed.

Lemma create_node_ok : forall ds h m x y, ((2 * m + 1) * 2 ^ h < length ds)%nat ->
  Z.of_nat (length ds) <= max_leaves ->
  right_node ds h (2 * m) y -> bn_hash x = mth (block h (2 * m + 1) ds) ->
  exists j, bnode_create_node H pr y x = Val j /\ right_node ds (S h) m j.
Proof.
  intros ds h m x y Hm HN [Py Hy] Hx. destruct (half_bounds h m _ Hm HN) as (B1 & B2 & _).
  unfold bnode_create_node. rewrite Py, pos_parent_left by auto. cbn [obind].
  eexists. split; [reflexivity|]. split; [reflexivity|]. cbn [bn_hash].
  rewrite Hy, Hx. unfold node_sum. rewrite mth_block_S by exact Hm. reflexivity.
Qed.

Section Storage.
Context {St E : Type}.
Variable st : StorageT St Z BPrimitive E.
Variable view : St -> Z -> option BPrimitive.
Hypothesis L : Lawful st view.

(** Every complete block is stored. *)
Definition store_full (ds : list (list byte)) (s : St) : Prop :=
  forall h b, ((b + 1) * 2 ^ h <= length ds)%nat -> view s (index_of h b) = Some (right_prim ds h b).

(** A write done while pushing the leaf number [n]: only blocks ending exactly there. *)
Definition only_new (n : nat) (s s' : St) : Prop :=
  forall k, (forall h b, ((b + 1) * 2 ^ h = n + 1)%nat -> k <> index_of h b) -> view s' k = view s k.

Lemma only_new_refl : forall n s, only_new n s s.
Proof. intros n s k _. reflexivity. Qed.
Lemma only_new_trans : forall n a b c, only_new n a b -> only_new n b c -> only_new n a c.
Proof. intros n a b c H1 H2 k Hk. rewrite H2, H1 by assumption. reflexivity. Qed.

Lemma only_new_full : forall ds s s', only_new (length ds) s s' -> store_full ds s -> store_full ds s'.
Proof.
  intros ds s s' Ho Hs h b Hb. rewrite Ho; [apply Hs; exact Hb|].
  intros h' b' E' C. apply index_of_inj in C. destruct C as [-> ->]. lia.
Qed.

Record binv (ds : list (list byte)) (t : BTree St) : Prop := {
  binv_count : bt_leaves_count t = Z.of_nat (length ds);
  binv_heads : Heads (right_node ds) 0 (length ds) (bt_head t);
  binv_store : store_full ds (bt_storage t)
}.

(** The blocks ending at leaf number [n] are written in order of height: below some height
    they hold what belongs there, from there on they are as before. *)
Definition prefix_new (n : nat) (ds : list (list byte)) (s s' : St) : Prop :=
  exists h0, forall h b, ((b + 1) * 2 ^ h = n + 1)%nat ->
  ((h < h0)%nat -> view s' (index_of h b) = Some (right_prim ds h b)) /\
  ((h0 <= h)%nat -> view s' (index_of h b) = view s (index_of h b)).

(** An insertion of a block ending at the new leaf. *)
Lemma insert_cases : forall n h b v t, ((b + 1) * 2 ^ h = n + 1)%nat ->
  (exists s', bt_insert st (index_of h b) v t =
     (Build_BTree s' (bt_head t) (bt_leaves_count t), Val (Ok tt)) /\
     only_new n (bt_storage t) s' /\ view s' (index_of h b) = Some v /\
     forall k, k <> index_of h b -> view s' k = view (bt_storage t) k) \/
  (exists s' e, bt_insert st (index_of h b) v t =
     (Build_BTree s' (bt_head t) (bt_leaves_count t), Val (Err (BStorageError e))) /\
     only_new n (bt_storage t) s' /\ ~ Infallible st /\
     (view s' (index_of h b) = Some v \/ view s' (index_of h b) = view (bt_storage t) (index_of h b)) /\
     forall k, k <> index_of h b -> view s' k = view (bt_storage t) k).
Proof.
  intros n h b v t Hn. unfold bt_insert.
  destruct (s_insert st (index_of h b) v (bt_storage t)) as [s' [p|e]] eqn:Ei.
  - left. exists s'. destruct (law_insert_ok _ _ L _ _ _ _ _ Ei) as (_ & A & B).
    repeat split; auto. intros k Hk. apply B. apply Hk. exact Hn.
  - right. exists s', e. repeat split.
    + intros k Hk. destruct (law_insert_err _ _ L _ _ _ _ _ Ei) as [A|[_ A]]; apply A.
      apply Hk; exact Hn.
    + intros (_ & I & _). destruct (I (index_of h b) v (bt_storage t)) as (s2 & p & Eq). congruence.
    + destruct (law_insert_err _ _ L _ _ _ _ _ Ei) as [A|[A _]]; auto.
    + intros k Hk. destruct (law_insert_err _ _ L _ _ _ _ _ Ei) as [A|[_ A]]; auto.
Qed.

Lemma end_height_unique : forall n h b b', ((b + 1) * 2 ^ h = n + 1)%nat ->
  ((b' + 1) * 2 ^ h = n + 1)%nat -> b = b'.
Proof. intros n h b b' E1 E2. pose proof (pow2_pos h). rewrite <- E2 in E1. apply Nat.mul_cancel_r in E1; lia. Qed.

(** A failed write of the block of height [h], those below being right. *)
Lemma failed_prefix : forall n ds h b s s', ((b + 1) * 2 ^ h = n + 1)%nat ->
  (forall h' b', ((b' + 1) * 2 ^ h' = n + 1)%nat -> (h' < h)%nat ->
     view s (index_of h' b') = Some (right_prim ds h' b')) ->
  (view s' (index_of h b) = Some (right_prim ds h b) \/ view s' (index_of h b) = view s (index_of h b)) ->
  (forall k, k <> index_of h b -> view s' k = view s k) ->
  prefix_new n ds s s'.
Proof.
  intros n ds h b s s' Hn Hs [A|A] B; [exists (S h)|exists h]; intros h' b' E'; split; intros Hh.
  - destruct (Nat.eq_dec h' h) as [->|Ne].
    + rewrite (end_height_unique _ _ _ _ E' Hn). exact A.
    + rewrite B; [apply Hs; auto; lia|]. intros C. apply index_of_inj in C. lia.
  - apply B. intros C. apply index_of_inj in C. lia.
  - rewrite B; [apply Hs; auto|]. intros C. apply index_of_inj in C. lia.
  - destruct (Nat.eq_dec h' h) as [->|Ne].
    + rewrite (end_height_unique _ _ _ _ E' Hn). exact A.
    + apply B. intros C. apply index_of_inj in C. lia.
Qed.

(** ... seen from an earlier state which differs only below that height. *)
Lemma prefix_new_before : forall n ds h s0 s s',
  (forall h' b', ((b' + 1) * 2 ^ h' = n + 1)%nat -> (h' <= h)%nat ->
     view s (index_of h' b') = Some (right_prim ds h' b')) ->
  (forall h' b', ((b' + 1) * 2 ^ h' = n + 1)%nat -> (h < h')%nat ->
     view s (index_of h' b') = view s0 (index_of h' b')) ->
  prefix_new n ds s s' -> prefix_new n ds s0 s'.
Proof.
  intros n ds h s0 s s' Hr Hu (h0 & Hp). exists (Nat.max h0 (S h)). intros h' b' E'.
  destruct (Hp h' b' E') as [P1 P2]. split; intros Hh.
  - destruct (le_lt_dec h0 h') as [G|]; [|auto]. rewrite P2 by exact G. apply Hr; auto. lia.
  - rewrite P2 by lia. apply Hu; auto. lia.
Qed.

(** Result of the carry loop: success, or an error with the old blocks intact. *)
Lemma join_loop_ok : forall ds d,
  let ds' := ds ++ [d] in let n := length ds in
  Z.of_nat (n + 1) <= max_leaves ->
  forall f t h m x l,
  bt_head t = x :: l -> (length l < f)%nat ->
  ((m + 1) * 2 ^ h = n + 1)%nat ->
  right_node ds' h m x -> Heads (right_node ds') h m l ->
  (forall h' b', ((b' + 1) * 2 ^ h' = n + 1)%nat -> (h' <= h)%nat ->
     view (bt_storage t) (index_of h' b') = Some (right_prim ds' h' b')) ->
  exists t' r, bt_join_all_subtrees_loop H pr st f t = (t', Val r) /\
    bt_leaves_count t' = bt_leaves_count t /\ only_new n (bt_storage t) (bt_storage t') /\
    ((r = Ok tt /\ Heads (right_node ds') 0 (n + 1) (bt_head t') /\
      forall h' b', ((b' + 1) * 2 ^ h' = n + 1)%nat ->
        view (bt_storage t') (index_of h' b') = Some (right_prim ds' h' b')) \/
     ((exists e, r = Err (BStorageError e)) /\ ~ Infallible st /\
      prefix_new n ds' (bt_storage t) (bt_storage t'))).
Proof.
  intros ds d ds' n HN. induction f as [|f IH]; intros t h m x l Ht Hf Hm Hx Hl Hst; [lia|].
  cbn [bt_join_all_subtrees_loop]. unfold bind at 1, get_state at 1. rewrite Ht.
  assert (Hlen : length ds' = (n + 1)%nat) by (unfold ds'; rewrite app_length; reflexivity).
  (* stopping: the new list is right *)
  assert (Stop : Nat.even m = true ->
    Heads (right_node ds') 0 (n + 1) (x :: l) /\
      forall h' b', ((b' + 1) * 2 ^ h' = n + 1)%nat ->
        view (bt_storage t) (index_of h' b') = Some (right_prim ds' h' b')).
  { intros Ev. apply Nat.even_spec in Ev. destruct Ev as [c ->]. split.
    - rewrite <- Hm. apply Heads_down. constructor; [|exact Hx].
      apply Heads_even_inv; exact Hl.
    - intros h' b' E'. apply Hst; [exact E'|]. destruct (le_lt_dec h' h) as [|G]; auto. exfalso.
      replace h' with (S (h' - S h) + h)%nat in E' by lia.
      rewrite Nat.pow_add_r, pow2_S in E'. rewrite <- E' in Hm.
      pose proof (pow2_pos h). rewrite Nat.mul_assoc in Hm. apply Nat.mul_cancel_r in Hm; [|lia]. lia. }
  destruct l as [|y l].
  - apply Heads_nil_inv in Hl.
    subst m. destruct (Stop eq_refl) as [A B].
    exists t, (Ok tt). unfold ret. rewrite Ht. repeat split; auto using only_new_refl.
  - pose proof Hx as [Px Hx'].
    destruct (Heads_cons_inv _ _ _ _ _ Hl) as (k & b & Hk & Hmk & [Py Hy] & Hl').
    destruct (complete_bounds h m (n + 1) ltac:(lia) HN) as [B1 B2].
    assert (C2 : ((2 * b + 1) * 2 ^ k <= n + 1)%nat) by lia.
    destruct (complete_bounds k (2 * b) (n + 1) C2 HN) as [B3 B4].
    rewrite Px, Py, !pos_height_index by lia.
    destruct (Nat.even m) eqn:Ev.
    + assert (k <> h).
      { intros ->. apply Nat.even_spec in Ev. destruct Ev as [c ->].
        pose proof (pow2_pos h). apply Nat.mul_cancel_r in Hmk; lia. }
      replace (Z.of_nat h =? Z.of_nat k) with false by lia.
      destruct (Stop eq_refl) as [A B].
      exists t, (Ok tt). unfold ret. rewrite Ht. repeat split; auto using only_new_refl.
    + assert (Od : Nat.odd m = true) by (rewrite <- Nat.negb_even, Ev; reflexivity).
      apply Nat.odd_spec in Od. destruct Od as [c Ec].
      assert (Hl2 : right_node ds' h (2 * c) y /\ Heads (right_node ds') (S h) c l).
      { rewrite Ec in Hl. apply Heads_odd_inv; exact Hl. }
      destruct Hl2 as [Hy2 Hl2].
      assert (k = h).
      { destruct Hy2 as [Q _]. rewrite Q in Py. apply index_of_inj in Py. lia. }
      subst k. replace (Z.of_nat h =? Z.of_nat h) with true by lia.
      unfold bind at 1, bt_set_head at 1. unfold bind at 1, lift at 1.
      subst m.
      destruct (create_node_ok ds' h c x y) as (j & Ej & Hj); auto.
      { rewrite Hlen. nia. } { rewrite Hlen. exact HN. }
      rewrite Ej.
      assert (Hn1 : ((c + 1) * 2 ^ S h = n + 1)%nat) by (rewrite pow2_S; lia).
      unfold bind_try at 1, bind at 1.
      replace (bn_position j) with (index_of (S h) c) by (symmetry; apply Hj).
      rewrite (right_node_prim _ _ _ _ Hj).
      match goal with |- context [bt_insert st ?k ?v ?t0] =>
        destruct (insert_cases n (S h) c v t0 Hn1) as [(s' & Ei & A1 & A2 & A3)|(s' & e & Ei & A1 & A2 & A3 & A4)];
        rewrite Ei end; cbn [bt_storage bt_head bt_leaves_count] in *.
      * unfold bind at 1, bt_set_head at 1. cbn [bt_storage bt_head bt_leaves_count].
        match goal with |- context [bt_join_all_subtrees_loop H pr st f ?t1] =>
          assert (Hst' : forall h' b', ((b' + 1) * 2 ^ h' = n + 1)%nat -> (h' <= S h)%nat ->
            view (bt_storage t1) (index_of h' b') = Some (right_prim ds' h' b'));
          [|destruct (IH t1 (S h) c j l) as (t' & r & Er & C1 & C3 & C4)] end; cbn [bt_storage bt_head bt_leaves_count] in *; auto.
        -- intros h' b' E' Hh'. destruct (Nat.eq_dec h' (S h)) as [->|Nh].
           ++ assert (b' = c). { pose proof (pow2_pos (S h)). rewrite <- Hn1 in E'. apply Nat.mul_cancel_r in E'; lia. }
              subst b'. exact A2.
           ++ rewrite A3; [apply Hst; auto; lia|]. intros C. apply index_of_inj in C. lia.
        -- cbn [length] in Hf; lia.
        -- exists t', r. split; [exact Er|]. split; [exact C1|].
           split; [eapply only_new_trans; eauto|]. destruct C4 as [C4|(C4 & C5 & C6)]; [left; exact C4|].
           right. split; [exact C4|]. split; [exact C5|].
           apply prefix_new_before with (h := S h) (s := s'); auto.
           intros h' b' E' Hh'. apply A3. intros C. apply index_of_inj in C. lia.
      * exists (Build_BTree s' [] (bt_leaves_count t)), (Err (BStorageError e)).
        unfold ret. split; [reflexivity|]. split; [reflexivity|]. split; [exact A1|]. right.
        split; [eauto|]. split; [exact A2|].
        eapply failed_prefix; eauto. intros h' b' E' Hh'. apply Hst; auto. lia.
Qed.

Lemma push_ok : forall ds d t, binv ds t -> Z.of_nat (length ds + 1) <= max_leaves ->
  exists t' r, bt_push H pr st d t = (t', Val r) /\
    only_new (length ds) (bt_storage t) (bt_storage t') /\
    ((r = Ok tt /\ binv (ds ++ [d]) t') \/
     ((exists e, r = Err (BStorageError e)) /\ ~ Infallible st /\ bt_leaves_count t' = bt_leaves_count t /\
      prefix_new (length ds) (ds ++ [d]) (bt_storage t) (bt_storage t'))).
Proof.
  intros ds d t [Ic Ih Is] HN. set (n := length ds) in *. set (ds' := ds ++ [d]).
  assert (Hlen : length ds' = (n + 1)%nat) by (unfold ds'; rewrite app_length; reflexivity).
  assert (Blk : block 0 n ds' = [d]).
  { apply block_0. unfold ds'. rewrite nth_error_app2 by lia. replace (n - length ds)%nat with O by (unfold n; lia). reflexivity. }
  unfold bt_push. unfold bind at 1, get_state at 1. unfold bind at 1, lift at 1.
  unfold bnode_create_leaf, pos_from_leaf_index. rewrite Ic.
  rewrite u64_ovf_in by (change U64 with (2 * 2 ^ 63); unfold max_leaves in HN; lia). cbn [obind].
  replace (Z.of_nat n * 2) with (index_of 0 n) by (rewrite index_of_0; lia).
  set (x := {| bn_position := index_of 0 n; bn_hash := leaf_sum H d |}).
  assert (Hx : right_node ds' 0 n x).
  { split; [reflexivity|]. cbn. rewrite Blk. reflexivity. }
  unfold bind_try at 1, bind at 1. rewrite (right_node_prim _ _ _ _ Hx). cbn [bn_position x].
  assert (Hn1 : ((n + 1) * 2 ^ 0 = n + 1)%nat) by (change (2 ^ 0)%nat with 1%nat; lia).
  destruct (insert_cases n 0 n (right_prim ds' 0 n) t Hn1) as [(s' & Ei & A1 & A2 & A3)|(s' & e & Ei & A1 & A2 & A3 & A4)];
    rewrite Ei; cbn [bt_storage bt_head bt_leaves_count] in *.
  2:{ exists (Build_BTree s' (bt_head t) (bt_leaves_count t)), (Err (BStorageError e)).
      unfold ret. split; [reflexivity|]. split; [exact A1|]. right. split; [eauto|]. split; [exact A2|].
      split; [cbn; congruence|]. eapply failed_prefix; eauto. intros; lia. }
  unfold bind at 1, get_state at 1. cbn [bt_storage bt_head bt_leaves_count].
  unfold bind at 1, bt_set_head at 1. cbn [bt_storage bt_head bt_leaves_count].
  unfold bt_join_all_subtrees. unfold bind_try at 1. unfold bind at 1. unfold bind at 1, get_state at 1.
  cbn [bt_head].
  match goal with |- context [bt_join_all_subtrees_loop H pr st ?f ?t1] =>
    destruct (join_loop_ok ds d HN f t1 0 n x (bt_head t)) as (t' & r & Er & C1 & C3 & C4);
    cbn [bt_storage bt_head bt_leaves_count] in *; auto end.
  - apply Heads_impl with (P := right_node ds); [|exact Ih].
    intros h' b y Hb. apply right_node_app. change (2 ^ 0)%nat with 1%nat in Hb. fold n. lia.
  - intros h' b' E' Hh'. assert (h' = 0)%nat by lia. subst h'. change (2 ^ 0)%nat with 1%nat in E'.
    replace b' with n by (unfold n in *; lia). exact A2.
  - idtac.
    rewrite Er. fold n in C3, C4. fold ds' in C4.
    destruct C4 as [(-> & D1 & D2)|((e & ->) & D2 & D3)].
    + unfold bind at 1, get_state at 1. rewrite C1, Ic. unfold bind at 1, lift at 1.
      rewrite u64_ovf_in by (change U64 with (2 * 2 ^ 63); unfold max_leaves in HN; lia).
      unfold bind at 1, bt_set_leaves_count at 1, ret.
      eexists _, (Ok tt). split; [reflexivity|]. cbn [bt_storage]. split.
      * eapply only_new_trans; eauto.
      * left. split; auto. constructor; cbn [bt_storage bt_head bt_leaves_count].
        -- rewrite Hlen. lia.
        -- rewrite Hlen. exact D1.
        -- intros h b Hb. rewrite Hlen in Hb.
           destruct (Nat.eq_dec ((b + 1) * 2 ^ h) (n + 1)) as [Eq|Ne]; [apply D2; exact Eq|].
           assert (Hb' : ((b + 1) * 2 ^ h <= n)%nat) by lia.
           pose proof (only_new_trans _ _ _ _ A1 C3) as O.
           rewrite O.
           ++ rewrite (Is h b Hb'). unfold right_prim, ds'. rewrite block_app by exact Hb'. reflexivity.
           ++ intros h1 b1 E1 C. apply index_of_inj in C. destruct C as [-> ->]. lia.
    + unfold ret. eexists t', _. split; [reflexivity|]. split; [eapply only_new_trans; eauto|].
      right. split; [eauto|]. split; [exact D2|]. split; [congruence|].
      apply prefix_new_before with (h := 0%nat) (s := s'); auto.
      * intros h' b' E' Hh'. assert (h' = 0)%nat by lia. subst h'.
        rewrite (end_height_unique _ _ _ _ E' Hn1). exact A2.
      * intros h' b' E' Hh'. apply A3. intros C. apply index_of_inj in C. lia.
Qed.

Lemma binv_new : forall s, binv [] (bt_new s).
Proof.
  intros s. constructor; cbn.
  - reflexivity.
  - constructor.
  - intros h b Hb. pose proof (pow2_pos h). cbn in Hb. nia.
Qed.

Lemma push_all_ok : forall es ds t, Infallible st -> binv ds t ->
  Z.of_nat (length (ds ++ es)) <= max_leaves ->
  exists t', bt_push_all H pr st es t = (t', Val (Ok tt)) /\ binv (ds ++ es) t'.
Proof.
  induction es as [|e es IH]; intros ds t Inf Hi HN.
  - exists t. rewrite app_nil_r. split; auto.
  - cbn [bt_push_all]. unfold bind_try, bind.
    assert (HN' : Z.of_nat (length ds + 1) <= max_leaves).
    { rewrite app_length in HN. cbn [length] in HN. lia. }
    destruct (push_ok ds e t Hi HN') as (t1 & r & Er & _ & [(-> & Hi')|(_ & C & _)]); [|contradiction].
    rewrite Er. replace (ds ++ e :: es) with ((ds ++ [e]) ++ es) in * by (rewrite <- app_assoc; reflexivity).
    apply IH; auto.
Qed.
End Storage.
End Binary.
