(** SumProofs.v -- lemmas about Merkle sum trees: push and root. *)
From Verif Require Import Base Storage ModelCommon ModelSum SpecBinary SpecBinaryFacts SpecPosition
  SpecSum PositionProofs PathProofs HeadsProofs RunsSum.
From Coq Require Import Arith ZifyBool ZifyNat ZifyN.
Ltac Zify.zify_post_hook ::= Z.div_mod_to_equations.
Arguments Z.pow : simpl never.
Arguments Z.mul : simpl never.
Arguments Z.add : simpl never.
Arguments Z.sub : simpl never.
Arguments Z.of_nat : simpl never.
Arguments Nat.pow : simpl never.
Arguments Nat.mul : simpl never.
Arguments Nat.div : simpl never.
Arguments Nat.add : simpl never.
Arguments Nat.log2 : simpl never.
Arguments Nat.log2_up : simpl never.
Arguments split_point : simpl never.

Section Spec.
Variable H : list byte -> bytes32.
Variable fee : list leaf -> Z.
Notation mst := (mst H fee).
Notation mst_fuel := (mst_fuel H fee).
Notation mst_inputs := (mst_inputs H fee).
Notation mst_inputs_fuel := (mst_inputs_fuel H fee).

Lemma mst_fuel_step : forall f ls, (2 <= length ls)%nat ->
  mst_fuel (S f) ls =
    let k := split_point (length ls) in
    H (sum_node_input (fee (firstn k ls)) (mst_fuel f (firstn k ls)) (fee (skipn k ls)) (mst_fuel f (skipn k ls))).
Proof. intros f [|a [|b ls]] Hl; cbn [length] in Hl; try lia. reflexivity. Qed.

Lemma mst_fuel_enough : forall f ls, (length ls <= f)%nat -> mst_fuel f ls = mst ls.
Proof.
  unfold SpecSum.mst.
  enough (A : forall f g ls, (length ls <= f)%nat -> (length ls <= g)%nat ->
            mst_fuel f ls = mst_fuel g ls) by (intros; apply A; lia).
  induction f as [|f IH]; intros g ls Hf Hg.
  - destruct ls; [|cbn [length] in Hf; lia]. destruct g; reflexivity.
  - destruct ls as [|a [|b ls]].
    + destruct g; reflexivity.
    + destruct g; reflexivity.
    + destruct g as [|g]; [cbn [length] in Hg; lia|].
      assert (Hl : (2 <= length (a :: b :: ls))%nat) by (cbn [length]; lia).
      rewrite !mst_fuel_step by exact Hl. cbv zeta.
      destruct (split_point_bounds _ Hl) as [[Hk1 Hk2] _].
      rewrite (IH g (firstn _ _)) by (rewrite firstn_length; lia).
      rewrite (IH g (skipn _ _)) by (rewrite skipn_length; lia). reflexivity.
Qed.

Lemma mst_split : forall ls, (2 <= length ls)%nat ->
  mst ls = let k := split_point (length ls) in
    H (sum_node_input (fee (firstn k ls)) (mst (firstn k ls)) (fee (skipn k ls)) (mst (skipn k ls))).
Proof.
  intros ls Hl. destruct (split_point_bounds _ Hl) as [[Hk1 Hk2] _].
  destruct (length ls) as [|n] eqn:En; [lia|].
  rewrite <- (mst_fuel_enough (S n)) by lia.
  rewrite mst_fuel_step by lia. cbv zeta. rewrite En.
  rewrite !mst_fuel_enough; [reflexivity| |]; rewrite ?firstn_length, ?skipn_length; lia.
Qed.

Lemma mst_inputs_fuel_step : forall f ls, (2 <= length ls)%nat ->
  mst_inputs_fuel (S f) ls =
    let k := split_point (length ls) in
    sum_node_input (fee (firstn k ls)) (mst (firstn k ls)) (fee (skipn k ls)) (mst (skipn k ls))
            :: mst_inputs_fuel f (firstn k ls) ++ mst_inputs_fuel f (skipn k ls).
Proof. intros f [|a [|b ls]] Hl; cbn [length] in Hl; try lia. reflexivity. Qed.

Lemma mst_inputs_fuel_enough : forall f ls, (length ls <= f)%nat -> mst_inputs_fuel f ls = mst_inputs ls.
Proof.
  unfold SpecSum.mst_inputs.
  enough (A : forall f g ls, (length ls <= f)%nat -> (length ls <= g)%nat ->
            mst_inputs_fuel f ls = mst_inputs_fuel g ls) by (intros; apply A; lia).
  induction f as [|f IH]; intros g ls Hf Hg.
  - destruct ls; [|cbn [length] in Hf; lia]. destruct g; reflexivity.
  - destruct ls as [|a [|b ls]].
    + destruct g; reflexivity.
    + destruct g; reflexivity.
    + destruct g as [|g]; [cbn [length] in Hg; lia|].
      assert (Hl : (2 <= length (a :: b :: ls))%nat) by (cbn [length]; lia).
      rewrite !mst_inputs_fuel_step by exact Hl. cbv zeta.
      destruct (split_point_bounds _ Hl) as [[Hk1 Hk2] _].
      rewrite (IH g (firstn _ _)) by (rewrite firstn_length; lia).
      rewrite (IH g (skipn _ _)) by (rewrite skipn_length; lia). reflexivity.
Qed.

Lemma mst_inputs_split : forall ls, (2 <= length ls)%nat ->
  mst_inputs ls = let k := split_point (length ls) in
    sum_node_input (fee (firstn k ls)) (mst (firstn k ls)) (fee (skipn k ls)) (mst (skipn k ls))
      :: mst_inputs (firstn k ls) ++ mst_inputs (skipn k ls).
Proof.
  intros ls Hl. destruct (split_point_bounds _ Hl) as [[Hk1 Hk2] _].
  destruct (length ls) as [|n] eqn:En; [lia|].
  rewrite <- (mst_inputs_fuel_enough (S n)) by lia.
  rewrite mst_inputs_fuel_step by lia. cbv zeta. rewrite En.
  rewrite !mst_inputs_fuel_enough; [reflexivity| |]; rewrite ?firstn_length, ?skipn_length; lia.
Qed.

(** * The node of a list of leaves *)
Definition node_for (ls : list leaf) : MNode :=
  let k := split_point (length ls) in
  {| mn_height := Z.of_nat (Nat.log2_up (length ls));
     mn_hash := mst ls;
     mn_fee := fee ls;
     mn_left_child_key := if (length ls <=? 1)%nat then None else Some (mst (firstn k ls));
     mn_right_child_key := if (length ls <=? 1)%nat then None else Some (mst (skipn k ls)) |}.

Lemma log2_up_join : forall h n, (2 ^ h < n <= 2 ^ S h)%nat -> Nat.log2_up n = S h.
Proof. intros h n Hn. apply Nat.log2_up_unique; cbn [Nat.pred]; lia. Qed.

Lemma node_for_join : forall h l r, length l = (2 ^ h)%nat -> (0 < length r <= 2 ^ h)%nat ->
  node_for (l ++ r) =
    {| mn_height := Z.of_nat h + 1;
       mn_hash := H (sum_node_input (fee l) (mst l) (fee r) (mst r));
       mn_fee := fee (l ++ r);
       mn_left_child_key := Some (mst l);
       mn_right_child_key := Some (mst r) |}.
Proof.
  intros h l r Hl Hr. pose proof (pow2_pos h). unfold node_for.
  rewrite app_length. replace (length l + length r <=? 1)%nat with false by lia.
  assert (SP : split_point (length l + length r) = (2 ^ h)%nat).
  { apply split_point_pow; rewrite ?pow2_S; lia. }
  rewrite SP. rewrite mst_split by (rewrite app_length; lia). cbv zeta. rewrite app_length, SP.
  rewrite <- Hl, firstn_app, skipn_app, Nat.sub_diag, firstn_all, skipn_all. cbn [firstn skipn app].
  rewrite app_nil_r. f_equal. rewrite Hl. rewrite (log2_up_join h) by (rewrite pow2_S; lia). lia.
Qed.

Lemma node_for_height : forall ls h, length ls = (2 ^ h)%nat -> mn_height (node_for ls) = Z.of_nat h.
Proof. intros ls h Hl. cbn. rewrite Hl, Nat.log2_up_pow2 by lia. reflexivity. Qed.

(** * The content of a storage after a list of writes of nodes *)
Definition upd (v : bytes32 -> option MNode) (ls : list leaf) (k : bytes32) : option MNode :=
  if b32_eqb k (mst ls) then Some (node_for ls) else v k.
Fixpoint wr (L : list (list leaf)) (v : bytes32 -> option MNode) : bytes32 -> option MNode :=
  match L with
  | [] => v
  | ls :: L' => wr L' (upd v ls)
  end.

Lemma wr_ext : forall L v v', (forall k, v k = v' k) -> forall k, wr L v k = wr L v' k.
Proof.
  induction L as [|ls L IH]; intros v v' Hv k; cbn [wr]; auto.
  apply IH. intros k'. unfold upd. rewrite Hv. reflexivity.
Qed.

Lemma wr_app : forall L L' v k, wr (L ++ L') v k = wr L' (wr L v) k.
Proof. induction L as [|ls L IH]; intros L' v k; cbn [wr app]; auto. Qed.

(** The entry under [k] is the old one or one of the written nodes with that hash; if one was
    written the old entry is gone. *)
Lemma wr_cases : forall L v k,
  (exists ls, In ls L /\ k = mst ls /\ wr L v k = Some (node_for ls)) \/
  ((forall ls, In ls L -> k <> mst ls) /\ wr L v k = v k).
Proof.
  induction L as [|ls L IH]; intros v k; cbn [wr].
  - right. split; auto.
  - destruct (IH (upd v ls) k) as [(ls' & I & E & W)|(N & W)].
    + left. exists ls'. split; [right|]; auto.
    + rewrite W. unfold upd. destruct (b32_eqb k (mst ls)) eqn:Q.
      * apply b32_eqb_eq in Q. left. exists ls. split; [left|]; auto.
      * apply b32_eqb_neq in Q. right. split; auto. intros l' [<-|I]; auto.
Qed.

(** * The model *)
Section Model.
Variable pr : profile.
Variable good : list leaf -> Prop.
Hypothesis good_app : forall a b, good (a ++ b) -> good a /\ good b.
Hypothesis fee_one : forall l, good [l] -> fee [l] = fst l.
Hypothesis fee_app : forall a b, good (a ++ b) -> u64_ovf pr (fee a + fee b) = Val (fee (a ++ b)).
Context {St E : Type}.
Variable st : StorageT St bytes32 MNode E.
Variable view : St -> bytes32 -> option MNode.
Hypothesis L : Lawful st view.

Definition sum_limit : Z := 2 ^ 64.

Lemma good_block : forall ds h b, good ds -> good (block h b ds).
Proof.
  intros ds h b G. unfold block.
  rewrite <- (firstn_skipn (b * 2 ^ h) ds) in G. apply good_app in G. destruct G as [_ G].
  rewrite <- (firstn_skipn (2 ^ h) (skipn (b * 2 ^ h) ds)) in G. apply good_app in G. apply G.
Qed.

Lemma insert_ok : forall ls t,
  exists s' r W, mt_insert st (mst ls) (node_for ls) t = (Build_MTree s' (mt_head t), Val r) /\
    (W = [] \/ W = [ls]) /\ (forall k, view s' k = wr W (view (mt_storage t)) k) /\
    ((r = Ok tt /\ W = [ls]) \/ ((exists e, r = Err e) /\ ~ Infallible st)).
Proof.
  intros ls t. unfold mt_insert.
  assert (U : forall s', view s' (mst ls) = Some (node_for ls) ->
    (forall k', k' <> mst ls -> view s' k' = view (mt_storage t) k') ->
    forall k, view s' k = wr [ls] (view (mt_storage t)) k).
  { intros s' A B k. cbn [wr]. unfold upd. destruct (b32_eqb k (mst ls)) eqn:Q.
    - apply b32_eqb_eq in Q. subst. exact A.
    - apply b32_eqb_neq in Q. auto. }
  destruct (s_insert st (mst ls) (node_for ls) (mt_storage t)) as [s' [p|e]] eqn:Ei.
  - destruct (law_insert_ok _ _ L _ _ _ _ _ Ei) as (_ & A & B).
    exists s', (Ok tt), [ls]. split; [reflexivity|]. split; auto.
  - assert (NI : ~ Infallible st).
    { intros (_ & I & _). destruct (I (mst ls) (node_for ls) (mt_storage t)) as (s2 & q & Eq). congruence. }
    destruct (law_insert_err _ _ L _ _ _ _ _ Ei) as [A|[A B]].
    + exists s', (Err e), []. split; [reflexivity|]. split; auto. split; auto. right. split; eauto.
    + exists s', (Err e), [ls]. split; [reflexivity|]. split; auto. split; auto. right. split; eauto.
Qed.

Lemma u32_ok : forall z, 0 <= z < 2 ^ 32 -> u32_ovf pr z = Val z.
Proof.
  intros z Hz. unfold u32_ovf. destruct (Z.leb_spec 0 z); destruct (Z.ltb_spec z (2 ^ 32)); try lia. reflexivity.
Qed.

Lemma join_ok : forall h l r t, length l = (2 ^ h)%nat -> (0 < length r <= 2 ^ h)%nat -> (h <= 64)%nat ->
  good (l ++ r) ->
  exists s' res W, mt_join_subtrees H pr st (node_for l) (node_for r) t = (Build_MTree s' (mt_head t), Val res) /\
    (W = [] \/ W = [l ++ r]) /\ (forall k, view s' k = wr W (view (mt_storage t)) k) /\
    ((res = Ok (node_for (l ++ r)) /\ W = [l ++ r]) \/ ((exists e, res = Err e) /\ ~ Infallible st)).
Proof.
  intros h l r t Hl Hr Hh G. unfold mt_join_subtrees.
  rewrite (node_for_height l h Hl).
  unfold bind at 1, lift at 1. rewrite u32_ok by (change (2 ^ 32) with 4294967296; lia).
  unfold bind at 1, lift at 1. unfold mnode_create_node. cbn [mn_fee mn_hash node_for].
  rewrite fee_app by exact G. cbn [obind].
  assert (EQ : {| mn_height := Z.of_nat h + 1;
         mn_hash := sum_node_sum H (fee l) (mst l) (fee r) (mst r); mn_fee := fee (l ++ r);
         mn_left_child_key := Some (mst l); mn_right_child_key := Some (mst r) |} = node_for (l ++ r)).
  { rewrite (node_for_join h) by auto. reflexivity. }
  rewrite EQ. change (mn_hash (node_for (l ++ r))) with (mst (l ++ r)).
  unfold bind_try, bind.
  destruct (insert_ok (l ++ r) t) as (s' & res & W & Ei & HW & Hv & [[-> Wl]|[[e ->] NI]]); rewrite Ei.
  - exists s', (Ok (node_for (l ++ r))), W. repeat split; auto.
  - exists s', (Err e), W. repeat split; auto. right. split; eauto.
Qed.

Definition rnode (ds : list leaf) (h b : nat) (x : MNode) : Prop := x = node_for (block h b ds).

(** Written lists are non-empty truncated blocks of [ds]. *)
Definition blocks_of (ds : list leaf) (W : list (list leaf)) : Prop :=
  Forall (fun ls => exists h b, ls = block h b ds /\ ls <> []) W.

Lemma blocks_of_app : forall ds W W', blocks_of ds W -> blocks_of ds W' -> blocks_of ds (W ++ W').
Proof. intros. apply Forall_app. auto. Qed.

Lemma height_small : forall h b n, ((b + 1) * 2 ^ h <= n)%nat -> Z.of_nat n <= sum_limit -> (h <= 64)%nat.
Proof.
  intros h b n Hb Hn. destruct (le_lt_dec h 64); auto.
  assert (E' : Z.of_nat ((b + 1) * 2 ^ h) <= sum_limit) by lia.
  rewrite Nat2Z.inj_mul, P2_nat in E'. assert (P2 65 <= P2 h) by (apply P2_le; lia).
  unfold sum_limit in E'. change (2 ^ 64) with 18446744073709551616 in E'.
  change (P2 65) with 36893488147419103232 in *. nia.
Qed.

Lemma block_nonempty : forall (ds : list leaf) h b, (b * 2 ^ h < length ds)%nat -> block h b ds <> [].
Proof.
  intros ds h b Hb C. apply (f_equal (@length leaf)) in C. rewrite block_length_eq in C.
  pose proof (pow2_pos h). cbn [length] in C. lia.
Qed.

(** The carry loop of [push]. *)
Lemma sum_join_loop_ok : forall ds, good ds -> Z.of_nat (length ds) <= sum_limit ->
  forall f t h m x l,
  mt_head t = x :: l -> (length l < f)%nat ->
  ((m + 1) * 2 ^ h = length ds)%nat ->
  rnode ds h m x -> Heads (rnode ds) h m l ->
  exists t' r W, mt_join_all_subtrees_loop H pr st f t = (t', Val r) /\
    blocks_of ds W /\ (forall k, view (mt_storage t') k = wr W (view (mt_storage t)) k) /\
    ((r = Ok tt /\ Heads (rnode ds) 0 (length ds) (mt_head t') /\
      forall h' b', ((b' + 1) * 2 ^ h' = length ds)%nat -> (h < h')%nat -> In (block h' b' ds) W) \/
     ((exists e, r = Err e) /\ ~ Infallible st)).
Proof.
  intros ds G HN. induction f as [|f IH]; intros t h m x l Ht Hf Hm Hx Hl; [lia|].
  cbn [mt_join_all_subtrees_loop]. unfold bind at 1, get_state at 1. rewrite Ht.
  assert (Stop : Nat.even m = true ->
    Heads (rnode ds) 0 (length ds) (x :: l) /\
      forall h' b', ((b' + 1) * 2 ^ h' = length ds)%nat -> (h < h')%nat -> In (block h' b' ds) []).
  { intros Ev. apply Nat.even_spec in Ev. destruct Ev as [c ->]. split.
    - rewrite <- Hm. apply Heads_down. constructor; [|exact Hx].
      apply Heads_even_inv; exact Hl.
    - intros h' b' E' G'. exfalso.
      replace h' with (S (h' - S h) + h)%nat in E' by lia.
      rewrite Nat.pow_add_r, pow2_S in E'. rewrite <- E' in Hm.
      pose proof (pow2_pos h). rewrite Nat.mul_assoc in Hm. apply Nat.mul_cancel_r in Hm; [|lia]. lia. }
  assert (Done : Nat.even m = true -> exists t' r W, (t, Val (Ok tt)) = (t', Val r) /\
    blocks_of ds W /\ (forall k, view (mt_storage t') k = wr W (view (mt_storage t)) k) /\
    ((r = Ok tt /\ Heads (rnode ds) 0 (length ds) (mt_head t') /\
      forall h' b', ((b' + 1) * 2 ^ h' = length ds)%nat -> (h < h')%nat -> In (block h' b' ds) W) \/
     ((exists e : E, r = Err e) /\ ~ Infallible st))).
  { intros Ev. destruct (Stop Ev) as [A B]. exists t, (Ok tt), []. rewrite Ht.
    repeat split; auto. constructor. }
  destruct l as [|y l].
  - apply Heads_nil_inv in Hl. subst m. apply Done. reflexivity.
  - destruct (Heads_cons_inv _ _ _ _ _ Hl) as (k & b & Hk & Hmk & Hy & Hl').
    assert (C2 : ((2 * b + 1) * 2 ^ k <= length ds)%nat) by lia.
    assert (Bx : length (block h m ds) = (2 ^ h)%nat) by (apply block_length; lia).
    assert (By : length (block k (2 * b) ds) = (2 ^ k)%nat) by (apply block_length; lia).
    unfold rnode in Hx, Hy. rewrite Hx, Hy.
    rewrite (node_for_height _ h Bx), (node_for_height _ k By).
    destruct (Nat.even m) eqn:Ev.
    + assert (k <> h).
      { intros ->. apply Nat.even_spec in Ev. destruct Ev as [c ->].
        pose proof (pow2_pos h). apply Nat.mul_cancel_r in Hmk; lia. }
      replace (Z.of_nat h =? Z.of_nat k) with false by lia.
      unfold ret. apply Done. reflexivity.
    + assert (Od : Nat.odd m = true) by (rewrite <- Nat.negb_even, Ev; reflexivity).
      apply Nat.odd_spec in Od. destruct Od as [c Ec].
      assert (Hl2 : rnode ds h (2 * c) y /\ Heads (rnode ds) (S h) c l).
      { rewrite Ec in Hl. apply Heads_odd_inv; exact Hl. }
      destruct Hl2 as [Hy2 Hl2].
      assert (k = h).
      { destruct (le_lt_dec k h); [lia|]. exfalso. pose proof (pow2_pos h).
        replace k with (S (k - S h) + h)%nat in Hmk by lia. rewrite Nat.pow_add_r, pow2_S, Nat.mul_assoc in Hmk.
        apply Nat.mul_cancel_r in Hmk; lia. }
      subst k. assert (b = c). { pose proof (pow2_pos h). apply Nat.mul_cancel_r in Hmk; lia. }
      subst b. replace (Z.of_nat h =? Z.of_nat h) with true by lia.
      unfold bind at 1, mt_set_head at 1. unfold bind_try at 1. unfold bind at 1.
      assert (Hn1 : ((c + 1) * 2 ^ S h = length ds)%nat) by (rewrite pow2_S; lia).
      assert (BS : block (S h) c ds = block h (2 * c) ds ++ block h m ds) by (rewrite block_S, Ec; reflexivity).
      pose proof (pow2_pos h).
      destruct (join_ok h (block h (2 * c) ds) (block h m ds) (Build_MTree (mt_storage t) [])) as
        (s' & res & W & Ej & HW & Hv & D); auto.
      { rewrite Bx. lia. } { apply (height_small h (2 * c) (length ds)); lia. }
      { rewrite <- BS. apply good_block; exact G. }
      rewrite Ej. cbn [mt_storage mt_head] in Hv |- *.
      assert (BW : blocks_of ds W).
      { destruct HW as [->| ->]; constructor; [|constructor]. exists (S h), c. rewrite BS. split; auto.
        rewrite <- BS. apply block_nonempty. rewrite <- Hn1. pose proof (pow2_pos (S h)). nia. }
      destruct D as [[-> Wj]|[[e ->] NI]].
      * unfold bind at 1, mt_set_head at 1. cbn [mt_storage].
        match goal with |- context [mt_join_all_subtrees_loop H pr st f ?t1] =>
          destruct (IH t1 (S h) c (node_for (block (S h) c ds)) l) as (t' & r & W' & Er & C1 & C3 & C4) end; auto.
        { cbn. rewrite BS. reflexivity. } { cbn [length] in Hf. lia. } { reflexivity. }
        exists t', r, (W ++ W'). rewrite Er. split; [reflexivity|]. split; [apply blocks_of_app; auto|].
        split. { intros k. rewrite C3, wr_app. apply wr_ext. cbn [mt_storage]. exact Hv. }
        destruct C4 as [(-> & D1 & D2)|D]; [left|right; exact D].
        split; auto. split; auto. intros h' b' E' Hh. apply in_or_app.
        destruct (Nat.eq_dec h' (S h)) as [->|Nh].
        -- left. assert (b' = c). { pose proof (pow2_pos (S h)). rewrite <- Hn1 in E'. apply Nat.mul_cancel_r in E'; lia. }
           subst b'. rewrite Wj, BS. left. reflexivity.
        -- right. apply D2; auto. lia.
      * unfold ret. exists (Build_MTree s' []), (Err e), W. split; [reflexivity|]. split; auto. split; auto.
        right. split; eauto.
Qed.

Lemma mpush_ok : forall ds x t, Heads (rnode ds) 0 (length ds) (mt_head t) ->
  good (ds ++ [x]) -> Z.of_nat (length ds + 1) <= sum_limit ->
  exists t' r W, mt_push H pr st (fst x) (snd x) t = (t', Val r) /\
    blocks_of (ds ++ [x]) W /\ (forall k, view (mt_storage t') k = wr W (view (mt_storage t)) k) /\
    ((r = Ok tt /\ Heads (rnode (ds ++ [x])) 0 (length ds + 1) (mt_head t') /\
      forall h' b', ((b' + 1) * 2 ^ h' = length ds + 1)%nat -> In (block h' b' (ds ++ [x])) W) \/
     ((exists e, r = Err e) /\ ~ Infallible st /\ (Nat.Even (length ds) -> mt_head t' = mt_head t))).
Proof.
  intros ds x t Ih G HN. set (n := length ds) in *. set (ds' := ds ++ [x]) in *.
  assert (Hlen : length ds' = (n + 1)%nat) by (unfold ds'; rewrite app_length; reflexivity).
  assert (Blk : block 0 n ds' = [x]).
  { apply block_0. unfold ds'. rewrite nth_error_app2 by lia. replace (n - length ds)%nat with O by (unfold n; lia). reflexivity. }
  assert (G1 : good [x]) by (apply good_app in G; apply G).
  unfold mt_push. cbv zeta.
  assert (EL : mnode_create_leaf H (fst x) (snd x) = node_for [x]).
  { unfold mnode_create_leaf, node_for. cbn [length]. rewrite (fee_one x G1).
    change (1 <=? 1)%nat with true. cbv iota. destruct x as [f d]; reflexivity. }
  rewrite EL. change (mn_hash (node_for [x])) with (mst [x]).
  unfold bind_try at 1. unfold bind at 1.
  destruct (insert_ok [x] t) as (s' & r & W & Ei & HW & Hv & D). rewrite Ei.
  assert (BW : blocks_of ds' W).
  { destruct HW as [->| ->]; constructor; [|constructor]. exists O, n. rewrite Blk. split; [reflexivity|discriminate]. }
  destruct D as [[-> Wl]|[[e ->] NI]].
  2:{ unfold ret. exists (Build_MTree s' (mt_head t)), (Err e), W. split; [reflexivity|]. split; auto. split; auto.
      right. split; eauto. }
  unfold bind at 1, get_state at 1. cbn [mt_head mt_storage].
  unfold bind at 1, mt_set_head at 1. cbn [mt_head mt_storage].
  unfold mt_join_all_subtrees. unfold bind_try at 1. unfold bind at 1. unfold bind at 1, get_state at 1. cbn [mt_head].
  match goal with |- context [mt_join_all_subtrees_loop H pr st ?f0 ?t1] =>
    destruct (sum_join_loop_ok ds' G ltac:(rewrite Hlen; exact HN) f0 t1 O n (node_for [x]) (mt_head t))
      as (t' & r & W' & Er & C1 & C3 & C4) end.
  - reflexivity.
  - cbn [length]. lia.
  - rewrite Hlen. change (2 ^ 0)%nat with 1%nat. lia.
  - unfold rnode. rewrite Blk. reflexivity.
  - apply Heads_impl with (P := rnode ds); [|exact Ih].
    intros h' b y Hb Hy. unfold rnode in *. unfold ds'. rewrite block_app; auto. change (2 ^ 0)%nat with 1%nat in Hb. fold n. lia.
  - rewrite Er. cbn [mt_storage] in C3. rewrite Hlen in C4. destruct C4 as [(-> & D1 & D2)|[[e ->] NI]].
    + unfold ret. exists t', (Ok tt), (W ++ W'). split; [reflexivity|]. split; [apply blocks_of_app; auto|].
      split. { intros k. rewrite C3, wr_app. apply wr_ext. exact Hv. }
      left. split; auto. split; auto. intros h' b' E'. apply in_or_app.
      destruct h' as [|h']; [left|right; apply D2; auto; lia].
      change (2 ^ 0)%nat with 1%nat in E'. replace b' with n by lia. rewrite Blk, Wl. left. reflexivity.
    + unfold ret. exists t', (Err e), (W ++ W'). split; [reflexivity|]. split; [apply blocks_of_app; auto|].
      split. { intros k. rewrite C3, wr_app. apply wr_ext. exact Hv. }
      right. split; eauto. split; auto. intros Ev. exfalso.
      (* an even number of leaves: nothing is joined *)
      clear - Er Ev Ih Hlen L. cbn [length] in Er. cbn [mt_join_all_subtrees_loop] in Er.
      unfold bind at 1, get_state at 1 in Er. cbn [mt_head] in Er.
      destruct (mt_head t) as [|y l]; [discriminate Er|].
      destruct (Heads_cons_inv _ _ _ _ _ Ih) as (k & b & Hk & Hmk & Hy & Hl').
      assert (k <> O). { intros ->. change (2 ^ 0)%nat with 1%nat in Hmk. destruct Ev as [c Ec]. lia. }
      assert (By : length (block k (2 * b) ds) = (2 ^ k)%nat).
      { apply block_length. change (2 ^ 0)%nat with 1%nat in Hmk. fold n. lia. }
      unfold rnode in Hy. rewrite Hy, (node_for_height _ k By), (node_for_height [x] 0 eq_refl) in Er.
      replace (Z.of_nat 0 =? Z.of_nat k) with false in Er by lia. discriminate Er.
Qed.

(** The loop of [root]. *)
Lemma root_loop_ok : forall ds, good ds -> Z.of_nat (length ds) <= sum_limit ->
  forall next h m t, Heads (rnode ds) h m next ->
  (m * 2 ^ h < length ds)%nat -> (length ds <= (m + 1) * 2 ^ h)%nat ->
  exists s' r W, mt_root_node_loop H pr st (node_for (block h m ds)) next t = (Build_MTree s' (mt_head t), Val r) /\
    blocks_of ds W /\ (forall k, view s' k = wr W (view (mt_storage t)) k) /\
    (r = Ok (node_for ds) \/ ((exists e, r = Err e) /\ ~ Infallible st)).
Proof.
  intros ds G HN. induction next as [|y next IH]; intros h m t Hh Hlt Hle; cbn [mt_root_node_loop].
  - apply Heads_nil_inv in Hh. subst m. exists (mt_storage t), (Ok (node_for ds)), [].
    rewrite block_all by lia. split; [destruct t; reflexivity|]. split; [constructor|]. auto.
  - destruct (Heads_cons_inv _ _ _ _ _ Hh) as (k & b & Hk & Hmk & Hy & Hl').
    pose proof (pow2_pos k).
    assert (LE : (length ds <= (2 * b + 1 + 1) * 2 ^ k)%nat).
    { assert (2 ^ h <= 2 ^ k)%nat by (apply pow2_le; lia). lia. }
    assert (EB : block h m ds = block k (2 * b + 1) ds).
    { unfold block. rewrite Hmk. rewrite !firstn_all2; auto; rewrite skipn_length; lia. }
    assert (By : length (block k (2 * b) ds) = (2 ^ k)%nat) by (apply block_length; lia).
    unfold rnode in Hy. rewrite EB, Hy. unfold bind_try at 1. unfold bind at 1.
    destruct (join_ok k (block k (2 * b) ds) (block k (2 * b + 1) ds) t) as (s1 & res & W & Ej & HW & Hv & D); auto.
    { rewrite block_length_eq. lia. } { apply (height_small k (2 * b) (length ds)); lia. }
    { rewrite <- block_S. apply good_block; exact G. }
    rewrite <- block_S in *. rewrite Ej.
    assert (BW : blocks_of ds W).
    { destruct HW as [->| ->]; constructor; [|constructor]. exists (S k), b. split; auto.
      apply block_nonempty. rewrite pow2_S. nia. }
    destruct D as [[-> Wj]|[[e ->] NI]].
    + destruct (IH (S k) b (Build_MTree s1 (mt_head t)) Hl') as (s2 & r & W' & Er & C1 & C3 & C4).
      { rewrite pow2_S. nia. } { rewrite pow2_S. nia. }
      rewrite Er. cbn [mt_head mt_storage] in *. exists s2, r, (W ++ W'). split; [reflexivity|].
      split; [apply blocks_of_app; auto|]. split; auto.
      intros q. rewrite C3, wr_app. apply wr_ext. exact Hv.
    + unfold ret. exists s1, (Err e), W. split; [reflexivity|]. split; auto. split; auto. right. split; eauto.
Qed.

Lemma mroot_ok : forall ds t, Heads (rnode ds) 0 (length ds) (mt_head t) ->
  good ds -> Z.of_nat (length ds) <= sum_limit -> H [] = empty_sum -> fee [] = 0 ->
  exists s' r W, mt_root H pr st t = (Build_MTree s' (mt_head t), Val r) /\
    blocks_of ds W /\ (forall k, view s' k = wr W (view (mt_storage t)) k) /\
    (r = Ok (fee ds, mst ds) \/ ((exists e, r = Err e) /\ ~ Infallible st)).
Proof.
  intros ds t Ih G HN He F0. unfold mt_root, mt_root_node. unfold bind_try at 1. unfold bind at 1.
  unfold bind at 1, get_state at 1. destruct (mt_head t) as [|x next] eqn:Eh.
  - apply Heads_nil_inv in Ih. apply length_zero_iff_nil in Ih. subst ds.
    exists (mt_storage t), (Ok (0, empty_sum)), []. unfold ret. rewrite <- Eh.
    split; [destruct t; reflexivity|]. split; [constructor|]. split; auto. left. rewrite F0, <- He. reflexivity.
  - destruct (Heads_cons_inv _ _ _ _ _ Ih) as (k & b & Hk & Hmk & Hx & Hl').
    change (2 ^ 0)%nat with 1%nat in Hmk. pose proof (pow2_pos k).
    unfold rnode in Hx. rewrite Hx.
    destruct (root_loop_ok ds G HN next k (2 * b) t) as (s' & r & W & Er & C1 & C3 & C4).
    { apply Heads_double. exact Hl'. } { nia. } { nia. }
    unfold bind_try at 1. unfold bind at 1. rewrite Er, Eh.
    destruct C4 as [->|[[e ->] NI]].
    + unfold ret. exists s', (Ok (fee ds, mst ds)), W. rewrite <- Hx. repeat split; auto.
    + unfold ret. exists s', (Err e), W. rewrite <- Hx. repeat split; auto. right. split; eauto.
Qed.
End Model.
End Spec.
