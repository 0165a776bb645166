(** BinaryAny.v -- binary trees on storages that fail at will, used on after failures. *)
From Verif Require Import Base Storage ModelCommon ModelBinary SpecBinary SpecBinaryFacts SpecPosition SpecBinaryAny
  PositionProofs PathProofs HeadsProofs StorageProofs Runs RunsCalls RunsRecover BinaryProofs BinaryReadProofs
  BinaryMain BinaryLimits RecoverProofs.
From Coq Require Import Arith ZifyBool ZifyNat ZifyN.
Ltac Zify.zify_post_hook ::= Z.div_mod_to_equations.
Arguments Z.pow : simpl never.
Arguments Z.mul : simpl never.
Arguments Z.add : simpl never.
Arguments Z.sub : simpl never.
Arguments Z.of_nat : simpl never.
Arguments Nat.pow : simpl never.
Arguments Nat.mul : simpl never.
Arguments Nat.div : simpl never.
Arguments Nat.add : simpl never.

Section Any.
Variable H : list byte -> bytes32.
Variable pr : profile.
Notation mth := (mth H).

(** [x] has the hash of block (h, b) of [ds]; its position is some position of that height
    whose leaves are not all among the first [N], the first of them being at most [C]. *)
Definition loose (N C : nat) (ds : list (list byte)) (h b : nat) (x : BNode) : Prop :=
  bn_hash x = mth (block h b ds) /\
  exists c, bn_position x = index_of h c /\ (N < (c + 1) * 2 ^ h)%nat /\ (c * 2 ^ h <= C)%nat.

Lemma limit_63 : leaf_limit pr <= 9223372036854775808.
Proof. unfold leaf_limit. destruct (overflow_checks pr); vm_compute; discriminate. Qed.

Lemma loose_height : forall h b n, ((b + 1) * 2 ^ h <= n)%nat -> Z.of_nat n < leaf_limit pr ->
  (h <= 61)%nat \/ (overflow_checks pr = false /\ (h <= 62)%nat).
Proof.
  intros h b n Hb Hn. unfold leaf_limit in Hn.
  assert (Q : forall k, (k < h)%nat -> P2 (S k) <= Z.of_nat n).
  { intros k Hk. assert (H0 : P2 (S k) <= P2 h) by (apply P2_le; lia). rewrite <- (P2_nat h) in H0. nia. }
  destruct (overflow_checks pr).
  - left. destruct (le_lt_dec h 61) as [|G]; auto. specialize (Q _ G). change (P2 62) with (2 ^ 62) in Q. lia.
  - right. split; auto. destruct (le_lt_dec h 62) as [|G]; auto. specialize (Q _ G). change (P2 63) with (2 ^ 63) in Q. lia.
Qed.

Lemma loose_range : forall h c C, (h <= 62)%nat -> (c * 2 ^ h <= C)%nat -> Z.of_nat C < leaf_limit pr -> index_of h c < U64.
Proof.
  intros h c C Hh Hc HC. pose proof limit_63 as L63. unfold index_of.
  apply Nat2Z.inj_le in Hc. rewrite Nat2Z.inj_mul, P2_nat in Hc.
  assert (E63 : exists q, 9223372036854775808 = q * P2 h).
  { exists (P2 (63 - h)). change 9223372036854775808 with (P2 63). apply P2_split. lia. }
  destruct E63 as (q & E63). change U64 with (2 * 9223372036854775808). rewrite E63 in *. pose proof (P2_pos h).
  assert (Z.of_nat c < q) by nia. nia.
Qed.

Lemma loose_app : forall N C ds e h b x, ((b + 1) * 2 ^ h <= length ds)%nat ->
  loose N C ds h b x -> loose N C (ds ++ e) h b x.
Proof. intros N C ds e h b x Hb [A B]. split; auto. rewrite block_app by exact Hb. exact A. Qed.

Lemma loose_more : forall N C C' ds h b x, (C <= C')%nat -> loose N C ds h b x -> loose N C' ds h b x.
Proof. intros N C C' ds h b x HC (A & c & B & D & F). split; auto. exists c. repeat split; auto. lia. Qed.

Lemma loose_join : forall N C ds h m x y, ((2 * m + 1) * 2 ^ h < length ds)%nat ->
  Z.of_nat (length ds) < leaf_limit pr -> Z.of_nat C < leaf_limit pr ->
  loose N C ds h (2 * m) y -> bn_hash x = mth (block h (2 * m + 1) ds) ->
  exists j, bnode_create_node H pr y x = Val j /\ loose N C ds (S h) m j.
Proof.
  intros N C ds h m x y Hm HN HC (Hy & c & Py & Pc & Pr) Hx.
  pose proof (loose_height h (2 * m) (length ds) ltac:(lia) HN) as Hh.
  pose proof (loose_range h c C ltac:(lia) Pr HC) as Hr.
  assert (Ep : pos_parent pr (bn_position y) = Val (index_of (S h) (c / 2))).
  { rewrite Py. destruct (Nat.Even_or_Odd c) as [[q ->]|[q ->]].
    - replace (2 * q / 2)%nat with q by lia. apply pos_parent_left; [lia|exact Hr].
    - replace ((2 * q + 1) / 2)%nat with q by lia. apply pos_parent_right; [exact Hh|exact Hr]. }
  unfold bnode_create_node. rewrite Ep. cbn [obind]. eexists. split; [reflexivity|].
  split; cbn [bn_hash bn_position].
  - rewrite Hy, Hx. unfold node_sum. rewrite mth_block_S by exact Hm. reflexivity.
  - exists (c / 2)%nat. split; [reflexivity|]. rewrite !pow2_S.
    pose proof (pow2_pos h). assert (2 * (c / 2) <= c /\ c + 1 <= 2 * (c / 2) + 2)%nat by lia. nia.
Qed.

Lemma root_loose : forall N C ds, Z.of_nat (length ds) < leaf_limit pr -> Z.of_nat C < leaf_limit pr ->
  forall next h m cur sc,
  Heads (loose N C ds) h m next -> bn_hash cur = mth (block h m ds) ->
  (m * 2 ^ h < length ds)%nat -> (length ds <= (m + 1) * 2 ^ h)%nat ->
  exists n sc', build_root_node H pr cur next sc = Val (n, sc') /\ bn_hash n = mth ds.
Proof.
  intros N C ds HN HC. induction next as [|y next IH]; intros h m cur sc Hh Hc Hlo Hhi; cbn [build_root_node].
  - apply Heads_nil_inv in Hh. subst m. rewrite block_all in Hc by lia. exists cur, sc. auto.
  - destruct (Heads_cons_inv _ _ _ _ _ Hh) as (k & b & Hk & Hm & Hy & Hnext).
    assert (Hp : (2 ^ h <= 2 ^ k)%nat) by (apply pow2_le; lia).
    assert (Hblk : block h m ds = block k (2 * b + 1) ds) by (apply block_same_start; nia).
    destruct (loose_join N C ds k b cur y) as (j & Ej & Hj); auto.
    { lia. } { rewrite <- Hblk. exact Hc. }
    rewrite Ej. cbn [obind]. destruct Hj as [Hj Pj].
    apply IH with (h := S k) (m := b).
    + exact Hnext.
    + exact Hj.
    + rewrite pow2_S. nia.
    + rewrite pow2_S. nia.
Qed.

Lemma root_node_loose : forall {St} N C ds (t : BTree St), Z.of_nat (length ds) < leaf_limit pr -> Z.of_nat C < leaf_limit pr ->
  Heads (loose N C ds) 0 (length ds) (bt_head t) -> ds <> [] ->
  exists n sc, bt_root_node H pr t smap_new = Val (Some n, sc) /\ bn_hash n = mth ds.
Proof.
  intros St N C ds t HN HC Hh Hne. unfold bt_root_node. destruct (bt_head t) as [|x l].
  { apply Heads_nil_inv in Hh. destruct ds; [contradiction|discriminate Hh]. }
  destruct (Heads_cons_inv _ _ _ _ _ Hh) as (k & b & _ & Hm & Hx & Hl).
  change (2 ^ 0)%nat with 1%nat in Hm. rewrite Nat.mul_1_r in Hm.
  destruct (root_loose N C ds HN HC l k (2 * b)%nat x smap_new) as (n & sc & E & A).
  - apply Heads_double. exact Hl.
  - apply Hx.
  - pose proof (pow2_pos k). nia.
  - lia.
  - exists n, sc. rewrite E. split; auto.
Qed.

Lemma root_any : forall {St} N C ds (t : BTree St), H [] = empty_sum -> Z.of_nat (length ds) < leaf_limit pr -> Z.of_nat C < leaf_limit pr ->
  Heads (loose N C ds) 0 (length ds) (bt_head t) -> bt_root H pr t = Val (mth ds).
Proof.
  intros St N C ds t HE HN HC Hh. destruct ds as [|d ds].
  - apply Heads_zero_inv in Hh. rewrite root_empty by exact Hh. rewrite mth_nil, HE. reflexivity.
  - destruct (root_node_loose N C (d :: ds) t HN HC Hh ltac:(discriminate)) as (n & sc & E & A).
    unfold bt_root. rewrite E. cbn [obind]. rewrite A. reflexivity.
Qed.

Section Storage.
Context {St E : Type}.
Variable st : StorageT St Z BPrimitive E.
Variable N : nat.

Lemma prove_loop_any : forall sc ks acc t, exists t' r, bt_prove_loop st sc ks acc t = (t', Val r) /\
  bt_head t' = bt_head t /\ bt_leaves_count t' = bt_leaves_count t.
Proof.
  intros sc. induction ks as [|k ks IH]; intros acc t; cbn [bt_prove_loop].
  - exists t, (Ok acc). auto.
  - unfold bind_try at 1, bind at 1. unfold bt_get, bst_get.
    destruct (s_get st k (bt_storage t)) as [s' [v|e]].
    + destruct (match smap_lookup Z.eqb sc k with Some p => Some p | None => v end) as [p|].
      * match goal with |- context [bt_prove_loop st sc ks ?a ?t0] => destruct (IH a t0) as (t' & r & Er & A & B) end.
        exists t', r. auto.
      * eexists _, _. split; [reflexivity|]. auto.
    + eexists _, _. split; [reflexivity|]. auto.
Qed.

Lemma prove_loose : forall C ds t i, Heads (loose N C ds) 0 (length ds) (bt_head t) ->
  bt_leaves_count t = Z.of_nat C -> (length ds <= C)%nat -> Z.of_nat C < leaf_limit pr -> 0 <= i < 2 ^ 64 - 1 ->
  exists t' o, bt_prove H pr st i t = (t', o) /\ bt_head t' = bt_head t /\ bt_leaves_count t' = bt_leaves_count t /\
    ((Z.of_nat C <= i /\ o = Val (Err (BInvalidProofIndex i))) \/
     (i < Z.of_nat C /\ ((exists e, o = Val (Err e)) \/ (ds <> [] /\ exists p, o = Val (Ok (mth ds, p))) \/ (ds = [] /\ o = Panic)))).
Proof.
  intros C ds t i Hh Hc Hlen HC Hi.
  pose proof (count_ok_limit _ _ HC) as HCo.
  unfold bt_prove. unfold bind at 1, get_state at 1. unfold bind at 1, lift at 1.
  rewrite u64_ovf_in by (unfold U64; lia). rewrite Hc.
  destruct (Z.gtb_spec (i + 1) (Z.of_nat C)) as [G|G].
  { eexists t, _. split; [reflexivity|]. repeat split; auto. left. split; [lia|reflexivity]. }
  unfold bind at 1, lift at 1. rewrite root_position_ok by exact HCo.
  unfold bind at 1, lift at 1. unfold pos_from_leaf_index.
  pose proof limit_63 as L63.
  rewrite u64_ovf_in by (unfold U64; change (2 ^ 64) with 18446744073709551616; lia).
  unfold bind_try at 1, bind at 1. unfold bt_get, bst_get.
  destruct (s_get st (i * 2) (bt_storage t)) as [s' [[prim|]|e]];
    try (eexists _, _; split; [reflexivity|]; repeat split; auto; right; split; [lia|]; left; eauto).
  set (t1 := Build_BTree s' (bt_head t) (bt_leaves_count t)).
  replace (i * 2) with (index_of 0 (Z.to_nat i)) by (rewrite index_of_0; lia).
  pose proof (root_height_spec C) as Hrs.
  unfold bind at 1, lift at 1.
  rewrite position_path_ok by (auto using root_height_ok; lia).
  unfold bind at 1, lift at 1.
  destruct (list_eq_dec (list_eq_dec Byte.byte_eq_dec) ds []) as [->|Ne].
  - apply Heads_zero_inv in Hh. unfold bt_root_node. rewrite Hh.
    eexists t1, _. split; [reflexivity|]. unfold t1. cbn [bt_head bt_leaves_count].
    split; [exact (eq_sym (eq_sym Hh)) || (rewrite Hh; reflexivity)|]. split; [exact Hc|]. right. split; [lia|]. right. right. auto.
  - destruct (root_node_loose N C ds t ltac:(lia)
      ltac:(lia) Hh Ne) as (n & sc & Er & Hn).
    rewrite Er.
    match goal with |- context [bt_prove_loop st sc ?ks ?a] => destruct (prove_loop_any sc ks a t1) as (t' & r & El & A & B) end.
    unfold bind_try, bind. rewrite El. destruct r as [p|e]; unfold ret; eexists t', _; (split; [reflexivity|]);
      (split; [exact A|]); (split; [rewrite B; exact Hc|]); right; (split; [lia|]).
    + right. left. split; auto. exists p. rewrite Hn. reflexivity.
    + left. eauto.
Qed.

(** What the insertions of the tree do to its storage. *)
Variable R : St -> St -> Prop.
Hypothesis R_refl : forall s, R s s.
Hypothesis R_trans : forall a b c, R a b -> R b c -> R a c.
Hypothesis R_insert : forall h c v s s' r, (N < (c + 1) * 2 ^ h)%nat ->
  s_insert st (index_of h c) v s = (s', r) -> R s s'.

Lemma join_loop_loose : forall C ds d,
  let ds' := ds ++ [d] in let n := length ds in
  Z.of_nat (n + 1) < leaf_limit pr -> Z.of_nat C < leaf_limit pr ->
  forall f t h m x l,
  bt_head t = x :: l -> (length l < f)%nat ->
  ((m + 1) * 2 ^ h = n + 1)%nat ->
  loose N C ds' h m x -> Heads (loose N C ds') h m l ->
  exists t' r, bt_join_all_subtrees_loop H pr st f t = (t', Val r) /\
    bt_leaves_count t' = bt_leaves_count t /\ R (bt_storage t) (bt_storage t') /\
    ((r = Ok tt /\ Heads (loose N C ds') 0 (n + 1) (bt_head t')) \/
     ((exists e, r = Err (BStorageError e)) /\ bt_head t' = [] /\ Nat.Odd m)).
Proof.
  intros C ds d ds' n HN HC. induction f as [|f IH]; intros t h m x l Ht Hf Hm Hx Hl; [lia|].
  cbn [bt_join_all_subtrees_loop]. unfold bind at 1, get_state at 1. rewrite Ht.
  assert (Hlen : length ds' = (n + 1)%nat) by (unfold ds'; rewrite app_length; reflexivity).
  assert (Stop : Nat.even m = true -> Heads (loose N C ds') 0 (n + 1) (x :: l)).
  { intros Ev. apply Nat.even_spec in Ev. destruct Ev as [c ->].
    rewrite <- Hm. apply Heads_down. constructor; [|exact Hx]. apply Heads_even_inv; exact Hl. }
  destruct l as [|y l].
  - apply Heads_nil_inv in Hl. subst m. exists t, (Ok tt). unfold ret. rewrite Ht. repeat split; auto.
  - pose proof Hx as (Hx' & cx & Px & _).
    destruct (Heads_cons_inv _ _ _ _ _ Hl) as (k & b & Hk & Hmk & Hy & Hl').
    pose proof Hy as (_ & cy & Py & _).
    pose proof (loose_height h m (n + 1) ltac:(lia) HN) as B1.
    pose proof (loose_height k (2 * b) (n + 1) ltac:(lia) HN) as B3.
    rewrite Px, Py, !pos_height_index by lia.
    destruct (Nat.even m) eqn:Ev.
    + assert (k <> h).
      { intros ->. apply Nat.even_spec in Ev. destruct Ev as [c ->].
        pose proof (pow2_pos h). apply Nat.mul_cancel_r in Hmk; lia. }
      replace (Z.of_nat h =? Z.of_nat k) with false by lia.
      exists t, (Ok tt). unfold ret. rewrite Ht. repeat split; auto.
    + assert (Od : Nat.odd m = true) by (rewrite <- Nat.negb_even, Ev; reflexivity).
      apply Nat.odd_spec in Od. pose proof Od as Od'. destruct Od as [c Ec].
      assert (Hl2 : loose N C ds' h (2 * c) y /\ Heads (loose N C ds') (S h) c l).
      { rewrite Ec in Hl. apply Heads_odd_inv; exact Hl. }
      destruct Hl2 as [Hy2 Hl2].
      assert (k = h).
      { destruct Hy2 as (_ & c2 & Q & _). rewrite Q in Py. apply index_of_inj in Py. lia. }
      subst k. replace (Z.of_nat h =? Z.of_nat h) with true by lia.
      unfold bind at 1, bt_set_head at 1. unfold bind at 1, lift at 1.
      subst m.
      destruct (loose_join N C ds' h c x y) as (j & Ej & Hj); auto.
      { rewrite Hlen. nia. } { rewrite Hlen. exact HN. }
      rewrite Ej.
      assert (Hn1 : ((c + 1) * 2 ^ S h = n + 1)%nat) by (rewrite pow2_S; lia).
      pose proof Hj as (_ & cj & Pj & Kj & _).
      unfold bind_try at 1, bind at 1. rewrite Pj. unfold bt_insert at 1. cbn [bt_storage bt_head bt_leaves_count].
      destruct (s_insert st (index_of (S h) cj) (bprim_of_node j) (bt_storage t)) as [s' a] eqn:Ei.
      pose proof (R_insert _ _ _ _ _ _ Kj Ei) as Ri.
      destruct a as [p|e].
      * unfold bind at 1, bt_set_head at 1. cbn [bt_storage bt_head bt_leaves_count].
        destruct (IH (Build_BTree s' (j :: l) (bt_leaves_count t)) (S h) c j l) as (t' & r & Er & C1 & C3 & C4);
          cbn [bt_storage bt_head bt_leaves_count] in *; auto.
        { cbn [length] in Hf; lia. }
        exists t', r. split; [exact Er|]. split; [exact C1|]. split; [eapply R_trans; eauto|].
        destruct C4 as [C4|(C4 & C5 & C6)]; [left; exact C4|]. right. repeat split; auto.
      * exists (Build_BTree s' [] (bt_leaves_count t)), (Err (BStorageError e)). unfold ret.
        split; [reflexivity|]. split; [reflexivity|]. split; [exact Ri|]. right. repeat split; auto. eauto.
Qed.

Lemma push_loose : forall C ds d t, Heads (loose N C ds) 0 (length ds) (bt_head t) ->
  bt_leaves_count t = Z.of_nat C -> (length ds <= C)%nat -> (N <= C)%nat -> Z.of_nat (C + 1) < leaf_limit pr ->
  exists t' r, bt_push H pr st d t = (t', Val r) /\ R (bt_storage t) (bt_storage t') /\
    ((r = Ok tt /\ bt_leaves_count t' = Z.of_nat (C + 1) /\ Heads (loose N (C + 1) (ds ++ [d])) 0 (length (ds ++ [d])) (bt_head t')) \/
     ((exists e, r = Err (BStorageError e)) /\ bt_leaves_count t' = Z.of_nat C /\
      (bt_head t' = bt_head t \/ (bt_head t' = [] /\ Nat.Odd (length ds))))).
Proof.
  intros C ds d t Hh Hc Hlen HNC HC. set (n := length ds) in *. set (ds' := ds ++ [d]).
  assert (Hlen' : length ds' = (n + 1)%nat) by (unfold ds'; rewrite app_length; reflexivity).
  assert (Blk : block 0 n ds' = [d]).
  { apply block_0. unfold ds'. rewrite nth_error_app2 by lia. replace (n - length ds)%nat with O by (unfold n; lia). reflexivity. }
  pose proof limit_63 as L63.
  unfold bt_push. unfold bind at 1, get_state at 1. unfold bind at 1, lift at 1.
  unfold bnode_create_leaf, pos_from_leaf_index. rewrite Hc.
  rewrite u64_ovf_in by (unfold U64; change (2 ^ 64) with 18446744073709551616; lia). cbn [obind].
  replace (Z.of_nat C * 2) with (index_of 0 C) by (rewrite index_of_0; lia).
  set (x := {| bn_position := index_of 0 C; bn_hash := leaf_sum H d |}).
  assert (K0 : (N < (C + 1) * 2 ^ 0)%nat) by (change (2 ^ 0)%nat with 1%nat; lia).
  assert (Hx : loose N C ds' 0 n x).
  { split; [cbn; rewrite Blk; reflexivity|]. exists C. split; [reflexivity|]. change (2 ^ 0)%nat with 1%nat. lia. }
  unfold bind_try at 1, bind at 1. cbn [bn_position x]. unfold bt_insert at 1.
  destruct (s_insert st (index_of 0 C) (bprim_of_node x) (bt_storage t)) as [s' a] eqn:Ei.
  pose proof (R_insert _ _ _ _ _ _ K0 Ei) as Ri.
  destruct a as [p|e].
  2:{ eexists _, _. unfold ret. split; [reflexivity|]. cbn [bt_storage bt_head bt_leaves_count]. split; [exact Ri|].
      right. split; eauto. }
  unfold bind at 1, get_state at 1. cbn [bt_storage bt_head bt_leaves_count].
  unfold bind at 1, bt_set_head at 1. cbn [bt_storage bt_head bt_leaves_count].
  unfold bt_join_all_subtrees. unfold bind_try at 1. unfold bind at 1. unfold bind at 1, get_state at 1.
  cbn [bt_head].
  match goal with |- context [bt_join_all_subtrees_loop H pr st ?f ?t1] =>
    destruct (join_loop_loose C ds d ltac:(fold n; lia)
      ltac:(lia) f t1 0%nat n x (bt_head t)) as (t' & r & Er & C1 & C3 & C4);
    cbn [bt_storage bt_head bt_leaves_count] in *; auto end.
  - change (2 ^ 0)%nat with 1%nat. fold n. lia.
  - apply Heads_impl with (P := loose N C ds); [|exact Hh].
    intros h' b y Hb. apply loose_app. change (2 ^ 0)%nat with 1%nat in Hb. fold n. lia.
  - rewrite Er. fold n in C4. fold ds' in C4.
    destruct C4 as [(-> & D1)|((e & ->) & D2 & D3)].
    + unfold bind at 1, get_state at 1. rewrite C1. unfold bind at 1, lift at 1.
      rewrite u64_ovf_in by (unfold U64; change (2 ^ 64) with 18446744073709551616; lia).
      unfold bind at 1, bt_set_leaves_count at 1, ret.
      eexists _, (Ok tt). split; [reflexivity|]. cbn [bt_storage bt_head bt_leaves_count]. split; [eapply R_trans; eauto|].
      left. split; auto. split; [lia|]. rewrite Hlen'. eapply Heads_impl; [|exact D1].
      intros h' b' y _ Q. eapply loose_more; [|exact Q]. lia.
    + unfold ret. eexists t', _. split; [reflexivity|]. split; [eapply R_trans; eauto|].
      right. split; [eauto|]. split; [lia|]. right. auto.
Qed.

End Storage.

Section History.
Context {St E : Type}.
Variable st : StorageT St Z BPrimitive E.
Hypothesis He : H [] = empty_sum.

Lemma calls_any : forall cs ds C t, Heads (loose 0 C ds) 0 (length ds) (bt_head t) ->
  bt_leaves_count t = Z.of_nat C -> (length ds <= C)%nat -> indices_ok cs -> Z.of_nat (C + length cs) < leaf_limit pr ->
  exists t' cs1 rs ds' C', bin_history H ds C cs1 (E:=E) rs ds' C' /\ bt_leaves_count t' = Z.of_nat C' /\
    ((cs = cs1 /\ bt_calls H pr st cs t = (t', Val rs)) \/
     (exists i cs2, cs = cs1 ++ CProve i :: cs2 /\ ds' = [] /\ i < Z.of_nat C' /\ bt_calls H pr st cs t = (t', Panic))).
Proof.
  induction cs as [|c cs IH]; intros ds C t Hh Hc Hlen Hix HC.
  - exists t, [], [], ds, C. split; [constructor|]. split; auto.
  - inversion Hix as [|? ? Hc0 Hix']; subst. cbn [length] in HC.
    (* gluing one answer to the answers of the rest *)
    assert (Glue : forall t1 a ds1 C1, bt_do H pr st c t = (t1, Val a) ->
      Heads (loose 0 C1 ds1) 0 (length ds1) (bt_head t1) -> bt_leaves_count t1 = Z.of_nat C1 ->
      (length ds1 <= C1 <= C + 1)%nat ->
      (forall cs1 rs ds' C', bin_history H ds1 C1 cs1 rs ds' C' -> bin_history H ds C (c :: cs1) (a :: rs) ds' C') ->
      exists t' cs1 rs ds' C', bin_history H ds C cs1 (E:=E) rs ds' C' /\ bt_leaves_count t' = Z.of_nat C' /\
        ((c :: cs = cs1 /\ bt_calls H pr st (c :: cs) t = (t', Val rs)) \/
         (exists i cs2, c :: cs = cs1 ++ CProve i :: cs2 /\ ds' = [] /\ i < Z.of_nat C' /\ bt_calls H pr st (c :: cs) t = (t', Panic)))).
    { intros t1 a ds1 C1 Ed Hh1 Hc1 Hl1 Hist.
      destruct (IH ds1 C1 t1 Hh1 Hc1 ltac:(lia) Hix' ltac:(lia)) as (t' & cs1 & rs & ds' & C' & B & D & F).
      exists t', (c :: cs1), (a :: rs), ds', C'. split; [apply Hist; exact B|]. split; [exact D|].
      assert (Q : bt_calls H pr st (c :: cs) t = (l <- bt_calls H pr st cs ;; ret (a :: l)) t1).
      { cbn [bt_calls]. unfold bind at 1. rewrite Ed. reflexivity. }
      rewrite Q. unfold bind.
      destruct F as [[Ecs F]|(i & cs2 & Ecs & F1 & F2 & F3)].
      - left. rewrite F. subst cs1. split; reflexivity.
      - right. exists i, cs2. rewrite F3. subst cs. repeat split; auto. }
    destruct c as [d|i|].
    + destruct (push_loose st 0 (fun _ _ => True) ltac:(auto) ltac:(auto) ltac:(auto) C ds d t Hh Hc Hlen ltac:(lia) ltac:(lia))
        as (t1 & r & Er & _ & [(-> & A & B)|((e & ->) & A & B)]).
      * apply (Glue t1 (APush (Ok tt)) (ds ++ [d]) (C + 1)%nat); auto.
        { cbn [bt_do]. unfold bind. rewrite Er. reflexivity. }
        { rewrite app_length. cbn [length]. lia. }
        { intros. constructor. auto. }
      * destruct B as [B|[B Od]].
        -- apply (Glue t1 (APush (Err (BStorageError e))) ds C); auto.
           { cbn [bt_do]. unfold bind. rewrite Er. reflexivity. }
           { rewrite B. exact Hh. } { lia. } { intros. apply BH_failed. auto. }
        -- apply (Glue t1 (APush (Err (BStorageError e))) [] C); auto.
           { cbn [bt_do]. unfold bind. rewrite Er. reflexivity. }
           { rewrite B. constructor. } { cbn [length]. lia. } { intros. apply BH_lost; auto. }
    + destruct (prove_loose st 0 C ds t i Hh Hc Hlen ltac:(lia) Hc0) as (t1 & o & Eo & A & B & D).
      destruct D as [(D & ->)|(D & [(e & ->)|[(Ne & p & ->)|(-> & ->)]])].
      * apply (Glue t1 (AProve (Err (BInvalidProofIndex i))) ds C); auto.
        { cbn [bt_do]. unfold bind. rewrite Eo. reflexivity. }
        { rewrite A. exact Hh. } { congruence. } { lia. } { intros. apply BH_no_index; auto. }
      * apply (Glue t1 (AProve (Err e)) ds C); auto.
        { cbn [bt_do]. unfold bind. rewrite Eo. reflexivity. }
        { rewrite A. exact Hh. } { congruence. } { lia. } { intros. apply BH_no_proof; auto. }
      * apply (Glue t1 (AProve (Ok (mth ds, p))) ds C); auto.
        { cbn [bt_do]. unfold bind. rewrite Eo. reflexivity. }
        { rewrite A. exact Hh. } { congruence. } { lia. } { intros. apply BH_proof; auto. }
      * exists t1, [], [], [], C. split; [constructor|]. split; [congruence|]. right. exists i, cs.
        repeat split; auto. cbn [bt_calls bt_do]. unfold bind. rewrite Eo. reflexivity.
    + apply (Glue t (ARoot (mth ds)) ds C); auto.
      { cbn [bt_do]. unfold bind, get_state, lift.
        rewrite (root_any 0 C ds t He) by (auto; lia). reflexivity. }
      { lia. } { intros. constructor. auto. }
Qed.

Lemma C85_lemma : forall cs s0, indices_ok cs -> Z.of_nat (length cs) < leaf_limit pr ->
  exists t' cs1 rs ds' n', bin_history H [] 0 cs1 (E:=E) rs ds' n' /\ bt_leaves_count t' = Z.of_nat n' /\
    ((cs = cs1 /\ bt_calls H pr st cs (bt_new s0) = (t', Val rs)) \/
     (exists i cs2, cs = cs1 ++ CProve i :: cs2 /\ ds' = [] /\ i < Z.of_nat n' /\
        bt_calls H pr st cs (bt_new s0) = (t', Panic))).
Proof.
  intros cs s0 Hix HC. apply calls_any; auto; cbn; try lia. constructor.
Qed.
End History.

(** * Entries of complete blocks survive *)
Section Kept.
Context {St E : Type}.
Variable st : StorageT St Z BPrimitive E.
Variable view : St -> Z -> option BPrimitive.
Hypothesis L : Lawful st view.

(** Only positions covering a leaf beyond the first [N] change. *)
Definition keeps (N : nat) (s s' : St) : Prop :=
  forall h b, ((b + 1) * 2 ^ h <= N)%nat -> view s' (index_of h b) = view s (index_of h b).

Lemma keeps_insert : forall N h c v s s' r, (N < (c + 1) * 2 ^ h)%nat ->
  s_insert st (index_of h c) v s = (s', r) -> keeps N s s'.
Proof.
  intros N h c v s s' r Hc Ei h' b' Hb.
  assert (Ne : index_of h' b' <> index_of h c).
  { intros Q. apply index_of_inj in Q. destruct Q as [-> ->]. lia. }
  destruct r as [p|e].
  - destruct (law_insert_ok _ _ L _ _ _ _ _ Ei) as (_ & _ & A). apply A. exact Ne.
  - destruct (law_insert_err _ _ L _ _ _ _ _ Ei) as [A|[_ A]]; apply A. exact Ne.
Qed.

Lemma keeps_full : forall N ds s s', length ds = N -> keeps N s s' -> store_full H view ds s -> store_full H view ds s'.
Proof. intros N ds s s' <- K F h b Hb. rewrite K by exact Hb. apply F. exact Hb. Qed.

(** The state of a tree that once was a tree of [ds]: it still is one of a list starting with [ds],
    or its subtrees were lost. *)
Definition aged (ds : list (list byte)) (C : nat) (t : BTree St) : Prop :=
  exists es, bt_leaves_count t = Z.of_nat C /\ (length (ds ++ es) <= C)%nat /\
    store_full H view (ds ++ es) (bt_storage t) /\
    ((C = length (ds ++ es) /\ binv H view (ds ++ es) t) \/
     (exists ls, (length ls <= C)%nat /\ Heads (loose (length (ds ++ es)) C ls) 0 (length ls) (bt_head t))).

Lemma aged_read_only : forall ds C t t', read_only view t t' -> aged ds C t -> aged ds C t'.
Proof.
  intros ds C t t' Ro (es & A & B & F & D). pose proof Ro as (R1 & R2 & R3).
  exists es. split; [congruence|]. split; auto. split; [eapply same_view_full; eauto|].
  destruct D as [[D1 D2]|(ls & D1 & D2)]; [left|right].
  - split; auto. eapply binv_read_only; eauto.
  - exists ls. split; auto. rewrite R1. exact D2.
Qed.

Lemma aged_push : forall ds C d t t' o, aged ds C t -> Z.of_nat (C + 1) < leaf_limit pr ->
  bt_push H pr st d t = (t', o) -> exists r, o = Val r /\ exists C', (C' <= C + 1)%nat /\ aged ds C' t'.
Proof.
  intros ds C d t t' o (es & A & B & F & D) HC Ep.
  destruct D as [[-> Hi]|(ls & D1 & D2)].
  - pose proof limit_63 as L63.
    assert (HM : Z.of_nat (length (ds ++ es) + 1) <= max_leaves) by (unfold max_leaves; change (2 ^ 63) with 9223372036854775808; lia).
    destruct (push_ok H pr st view L (ds ++ es) d t Hi HM) as (t1 & r & Er & O & D).
    rewrite Ep in Er. inversion Er; subst t1 o. exists r. split; auto.
    destruct D as [(-> & Hi')|((e & ->) & _ & Hcnt & _)].
    + exists (length (ds ++ es) + 1)%nat. split; [lia|]. exists (es ++ [d]). rewrite app_assoc.
      assert (Hl : (length ((ds ++ es) ++ [d]) = length (ds ++ es) + 1)%nat) by (rewrite app_length; reflexivity).
      pose proof Hi' as [I1 I2 I3]. rewrite <- Hl. split; [exact I1|]. split; [lia|]. split; [exact I3|]. left. auto.
    + exists (length (ds ++ es)). split; [lia|]. exists es.
      pose proof (only_new_full H view _ _ _ O F) as F'.
      split; [rewrite Hcnt; exact A|]. split; [lia|]. split; [exact F'|].
      destruct (push_error_head H pr st view _ _ _ _ _ Hi HM Ep) as [_ [Eh|[_ Eh]]].
      * left. split; auto. destruct Hi as [I1 I2 I3]. constructor; [congruence|rewrite Eh; exact I2|exact F'].
      * right. exists []. split; [cbn; lia|]. rewrite Eh. constructor.
  - set (N := length (ds ++ es)) in *.
    destruct (push_loose st N (keeps N) ltac:(intros ? ? ? ?; reflexivity)
      ltac:(intros a b c K1 K2 h q Hq; rewrite K2, K1 by exact Hq; reflexivity)
      (keeps_insert N) C ls d t D2 A D1 B HC) as (t1 & r & Er & K & D).
    rewrite Ep in Er. inversion Er; subst t1 o. exists r. split; auto.
    pose proof (keeps_full N _ _ _ eq_refl K F) as F'.
    destruct D as [(-> & Hcnt & Hh)|((e & ->) & Hcnt & Hh)].
    + exists (C + 1)%nat. split; [lia|]. exists es. split; [exact Hcnt|]. split; [fold N; lia|]. split; [exact F'|].
      right. exists (ls ++ [d]). split; [rewrite app_length; cbn [length]; lia|]. exact Hh.
    + exists C. split; [lia|]. exists es. split; [exact Hcnt|]. split; [exact B|]. split; [exact F'|].
      right. destruct Hh as [Hh|[Hh _]]; rewrite Hh; [exists ls; auto|exists []; split; [cbn; lia|constructor]].
Qed.

Lemma aged_calls : forall cs ds C t t' o, aged ds C t -> Z.of_nat (C + length cs) < leaf_limit pr ->
  bt_calls H pr st cs t = (t', o) -> exists C', aged ds C' t'.
Proof.
  induction cs as [|c cs IH]; intros ds C t t' o Ha HC Ec; cbn [bt_calls] in Ec.
  - inversion Ec; subst. eauto.
  - cbn [length] in HC.
    assert (Go : forall t1 o1, bt_do H pr st c t = (t1, o1) -> (exists C1, (C1 <= C + 1)%nat /\ aged ds C1 t1) ->
      exists C', aged ds C' t').
    { intros t1 o1 Ed (C1 & H1 & Ha1). unfold bind at 1 in Ec. rewrite Ed in Ec.
      destruct o1 as [a| |]; try (inversion Ec; subst; eauto; fail).
      unfold bind at 1 in Ec. destruct (bt_calls H pr st cs t1) as [t2 o2] eqn:E2.
      destruct (IH ds C1 t1 t2 o2 Ha1 ltac:(lia) E2) as (C2 & Ha2).
      exists C2. destruct o2; inversion Ec; subst; exact Ha2. }
    destruct c as [d|i|].
    + destruct (bt_push H pr st d t) as [t1 o1] eqn:Ep.
      destruct (aged_push ds C d t t1 o1 Ha ltac:(lia) Ep) as (r & -> & Q).
      apply (Go t1 (Val (APush r))); auto. cbn [bt_do]. unfold bind. rewrite Ep. reflexivity.
    + destruct (bt_prove H pr st i t) as [t1 o1] eqn:Ep.
      assert (Ha1 : aged ds C t1) by (eapply aged_read_only; [eapply prove_read_only; eauto|exact Ha]).
      destruct o1 as [r| |]; (eapply Go; [cbn [bt_do]; unfold bind; rewrite Ep; reflexivity|]); exists C; split; auto; lia.
    + assert (Et : exists o1, bt_do H pr st CRoot t = (t, o1)).
      { cbn [bt_do]. unfold bind, get_state, lift. destruct (bt_root H pr t); eexists; reflexivity. }
      destruct Et as (o1 & Et). apply (Go t o1 Et). exists C. split; auto. lia.
Qed.

Lemma aged_start : forall ds t, binv H view ds t -> aged ds (length ds) t.
Proof.
  intros ds t Hi. pose proof Hi as [A B F]. exists []. rewrite app_nil_r. split; auto. 
Qed.

Lemma C86_lemma : forall ds t cs t' o m, H [] = empty_sum -> recovers H pr st ds t ->
  Z.of_nat (length ds + length cs) < leaf_limit pr -> bt_calls H pr st cs t = (t', o) -> (m <= length ds)%nat ->
  exists s' r, bt_load pr st (Z.of_nat m) (bt_storage t') = (s', Val r) /\
    ok_or_fault st r (fun t2 => bt_root H pr t2 = Val (mth (firstn m ds)) /\ behaves_as H pr st (firstn m ds) t2).
Proof.
  intros ds t cs t' o m HE Hr HC Ec Hm. destruct (recovers_binv H pr st view L ds t Hr) as [Hi Hn].
  destruct (aged_calls cs ds (length ds) t t' o (aged_start ds t Hi) HC Ec) as (C' & es & _ & _ & F & _).
  assert (F' : store_full H view (firstn m ds) (bt_storage t')).
  { replace (firstn m ds) with (firstn m (ds ++ es)) by (rewrite firstn_app; replace (m - length ds)%nat with O by lia;
      cbn [firstn]; apply app_nil_r). apply store_full_firstn. exact F. }
  assert (HL : length (firstn m ds) = m) by (rewrite firstn_length; lia).
  assert (HN : Z.of_nat (length (firstn m ds)) < leaf_limit pr) by (rewrite HL; lia).
  destruct (load_full H pr st view L (firstn m ds) (bt_storage t') F' (count_ok_limit _ _ HN))
    as (s1 & r & Er & V & D).
  rewrite HL in Er. exists s1, r. split; [exact Er|].
  destruct D as [(t1 & -> & B & _)|(e & -> & Fa)]; [left|right; split; eauto].
  exists t1. split; auto. split.
  - apply root_is_mth; auto; [|apply B]. rewrite HL. pose proof (limit_max _ _ Hn). unfold max_leaves. lia.
  - eapply behaves_of_binv; eauto.
Qed.
End Kept.
End Any.
