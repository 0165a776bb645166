(** GrowthProofs.v -- how fast the storage grows. *)
From Verif Require Import Base Storage ModelCommon ModelBinary ModelSparse ModelSum SpecBinary SpecBinaryFacts SpecSum SpecSparse SpecCalls SpecCount SpecAlike
  SpecGrowth SpecMemory Runs RunsSum RunsCalls RunsSparse PositionProofs BinaryMain MemoryProofs CountProofs WitnessCount SparseSim.
From Coq Require Import Arith ZifyBool ZifyNat ZifyN.
Arguments Nat.add : simpl never.
Arguments Nat.mul : simpl never.

Section Grown.
Context {K V : Type}.
Implicit Types f : K -> option V.
Lemma grown_refl : forall n f, grown n f f.
Proof. intros n f. exists []. split; [cbn; lia|auto]. Qed.
Lemma grown_same : forall n f f', (forall k, f' k = f k) -> grown n f f'.
Proof. intros n f f' A. exists []. split; [cbn; lia|]. intros k. rewrite A. auto. Qed.
Lemma grown_mono : forall n m f f', grown n f f' -> (n <= m)%nat -> grown m f f'.
Proof. intros n m f f' (ks & A & B) Hm. exists ks. split; [lia|exact B]. Qed.
Lemma grown_trans : forall n m f f' f'', grown n f f' -> grown m f' f'' -> grown (n + m) f f''.
Proof.
  intros n m f f' f'' (ks & A & B) (ks' & A' & B'). exists (ks ++ ks'). split; [rewrite app_length; lia|].
  intros k Hk. rewrite in_app_iff. destruct (B' k Hk) as [Q|Q]; [|auto]. destruct (B k Q); auto.
Qed.
Lemma grown_one : forall n k0 f f', (forall k, k <> k0 -> f' k = f k) -> (1 <= n)%nat -> (forall a b : K, {a = b} + {a <> b}) -> grown n f f'.
Proof.
  intros n k0 f f' A Hn D. exists [k0]. split; [cbn; lia|]. intros k Hk. destruct (D k k0) as [->|N]; [right; left; reflexivity|].
  rewrite A in Hk by exact N. auto.
Qed.
End Grown.

Section Ops.
Context {S K V E : Type}.
Variable st : StorageT S K V E.
Variable view : S -> K -> option V.
Hypothesis L : Lawful st view.
Variable D : forall a b : K, {a = b} + {a <> b}.
Lemma get_grown : forall k s s' r, s_get st k s = (s', r) -> grown 0 (view s) (view s').
Proof. intros k s s' r Q. apply grown_same. exact (law_get_view _ _ L _ _ _ _ Q). Qed.
Lemma insert_grown : forall k v s s' r, s_insert st k v s = (s', r) -> grown 1 (view s) (view s').
Proof.
  intros k v s s' [p|e] Q.
  - apply law_insert_ok with (view := view) in Q; [|exact L]. apply (grown_one 1 k); [apply Q|lia|exact D].
  - apply law_insert_err with (view := view) in Q; [|exact L]. destruct Q as [Q|[_ Q]]; [apply grown_same; exact Q|apply (grown_one 1 k); [exact Q|lia|exact D]].
Qed.
Lemma remove_grown : forall k s s' r, s_remove st k s = (s', r) -> grown 0 (view s) (view s').
Proof.
  intros k s s' r Q.
  assert (A : (forall k', view s' k' = view s k') \/ (view s' k = None /\ forall k', k' <> k -> view s' k' = view s k')).
  { destruct r as [p|e]; [apply law_remove_ok with (view := view) in Q; [|exact L]; right; apply Q|exact (law_remove_err _ _ L _ _ _ _ Q)]. }
  destruct A as [A|[A B]]; [apply grown_same; exact A|]. exists []. split; [cbn; lia|]. intros k' Hk.
  destruct (D k' k) as [->|N]; [contradiction|]. rewrite B in Hk by exact N. auto.
Qed.
End Ops.

Notation push_count := SpecMemory.push_count.
(** * Binary trees *)
Section Binary.
Variable H : list byte -> bytes32.
Variable pr : profile.
Context {St E : Type}.
Variable st : StorageT St Z BPrimitive E.
Variable view : St -> Z -> option BPrimitive.
Hypothesis L : Lawful st view.
Notation vt t := (view (bt_storage t)).

Lemma binsert_grown : forall p v t t' o, bt_insert st p v t = (t', o) -> bt_head t' = bt_head t /\ grown 1 (vt t) (vt t').
Proof.
  intros p v t t' o Q. unfold bt_insert in Q. destruct (s_insert st p v (bt_storage t)) as [s r] eqn:I.
  apply (insert_grown st view L Z.eq_dec) in I. destruct r as [u|e]; injection Q as <- <-; auto.
Qed.
Lemma bloop_grown : forall f t t' o, bt_join_all_subtrees_loop H pr st f t = (t', o) ->
  exists j, (j + length (bt_head t') <= length (bt_head t))%nat /\ grown j (vt t) (vt t').
Proof.
  induction f as [|f IH]; intros t t' o Q; cbn [bt_join_all_subtrees_loop] in Q.
  - injection Q as <- <-. exists 0%nat. split; [lia|apply grown_refl].
  - unfold bind at 1, get_state at 1 in Q. destruct (bt_head t) as [|a [|b l]] eqn:Eh.
    + injection Q as <- <-. exists 0%nat. rewrite Eh. split; [cbn; lia|apply grown_refl].
    + injection Q as <- <-. exists 0%nat. rewrite Eh. split; [cbn; lia|apply grown_refl].
    + destruct (pos_height (bn_position a) =? pos_height (bn_position b)).
      2:{ injection Q as <- <-. exists 0%nat. rewrite Eh. split; [cbn; lia|apply grown_refl]. }
      unfold bind at 1, bt_set_head at 1 in Q. unfold bind at 1, lift in Q.
      destruct (bnode_create_node H pr b a) as [x| |]; try (injection Q as <- <-; exists 0%nat; cbn [bt_head length bt_storage]; split; [lia|apply grown_refl]).
      unfold bind_try at 1, bind at 1 in Q. destruct (bt_insert st _ _ _) as [t1 o1] eqn:I. apply binsert_grown in I. destruct I as [I1 I2].
      cbn [bt_head bt_storage] in I1, I2.
      destruct o1 as [[[]|e]| |]; try (injection Q as <- <-; exists 1%nat; rewrite I1; cbn [length]; split; [lia|exact I2]).
      unfold bind at 1, bt_set_head at 1 in Q. apply IH in Q. destruct Q as (j & J1 & J2). cbn [bt_head bt_storage length] in J1, J2.
      exists (1 + j)%nat. cbn [length]. split; [lia|]. eapply grown_trans; eassumption.
Qed.
Lemma bpush_grown : forall d t t' o, bt_push H pr st d t = (t', o) ->
  exists j, (j + length (bt_head t') <= length (bt_head t) + 2)%nat /\ grown j (vt t) (vt t').
Proof.
  intros d t t' o Q. unfold bt_push in Q. unfold bind at 1, get_state at 1 in Q. unfold bind at 1, lift in Q.
  destruct (bnode_create_leaf H pr (bt_leaves_count t) d) as [x| |];
    try (injection Q as <- <-; exists 0%nat; split; [lia|apply grown_refl]).
  unfold bind_try at 1, bind at 1 in Q. destruct (bt_insert st _ _ _) as [t1 o1] eqn:I. apply binsert_grown in I. destruct I as [I1 I2].
  destruct o1 as [[[]|e]| |]; try (injection Q as <- <-; exists 1%nat; rewrite I1; split; [lia|exact I2]).
  unfold bind at 1, get_state at 1 in Q. unfold bind at 1, bt_set_head at 1 in Q.
  unfold bind_try at 1, bind at 1, bt_join_all_subtrees, bind at 1, get_state at 1 in Q.
  destruct (bt_join_all_subtrees_loop _ _ _ _ _) as [t2 o2] eqn:J. apply bloop_grown in J. destruct J as (j & J1 & J2).
  cbn [bt_head bt_storage length] in J1, J2. rewrite I1 in J1.
  assert (G : (1 + j + length (bt_head t2) <= length (bt_head t) + 2)%nat /\ grown (1 + j) (vt t) (vt t2)) by (split; [lia|eapply grown_trans; eassumption]).
  exists (1 + j)%nat.
  destruct o2 as [[[]|e]| |]; try (injection Q as <- <-; exact G).
  unfold bind at 1, get_state at 1 in Q. unfold bind at 1, lift in Q.
  destruct (u64_ovf pr (bt_leaves_count t2 + 1)); try (injection Q as <- <-; exact G).
Qed.
Lemma bget_grown : forall k t t' o, bt_get st k t = (t', o) -> grown 0 (vt t) (vt t').
Proof.
  intros k t t' o Q. unfold bt_get, bst_get in Q. destruct (s_get st k (bt_storage t)) as [s r] eqn:G. apply (get_grown st view L) in G.
  destruct r; injection Q as <- <-; exact G.
Qed.
Lemma bprove_loop_grown : forall sc ps acc t t' o, bt_prove_loop st sc ps acc t = (t', o) -> grown 0 (vt t) (vt t').
Proof.
  intros sc. induction ps as [|p ps IH]; intros acc t t' o Q; cbn [bt_prove_loop] in Q.
  - injection Q as <- <-. apply grown_refl.
  - unfold bind_try at 1, bind at 1 in Q. destruct (bt_get st _ _) as [t1 o1] eqn:G. apply bget_grown in G.
    destruct o1 as [[v|e]| |]; try (injection Q as <- <-; exact G).
    destruct (smap_lookup Z.eqb sc p) as [x|]; [|destruct v as [x|]; [|injection Q as <- <-; exact G]];
      apply IH in Q; exact (grown_trans 0 0 _ _ _ G Q).
Qed.
Lemma bprove_grown : forall i t t' o, bt_prove H pr st i t = (t', o) -> grown 0 (vt t) (vt t').
Proof.
  intros i t t' o Q. unfold bt_prove in Q. unfold bind at 1, get_state at 1 in Q. unfold bind at 1, lift at 1 in Q.
  destruct (u64_ovf pr (i + 1)) as [sc| |]; try (injection Q as <- <-; apply grown_refl).
  destruct (sc >? bt_leaves_count t); [injection Q as <- <-; apply grown_refl|].
  unfold bind at 1, lift at 1 in Q. destruct (bt_root_position pr (bt_leaves_count t)) as [rp| |]; try (injection Q as <- <-; apply grown_refl).
  unfold bind at 1, lift at 1 in Q. destruct (pos_from_leaf_index pr i) as [lp| |]; try (injection Q as <- <-; apply grown_refl).
  unfold bind_try at 1 in Q. unfold bind at 1 in Q.
  destruct (bt_get st lp t) as [t1 [[r|e]| |]] eqn:Eg; apply bget_grown in Eg; try (injection Q as <- <-; exact Eg).
  destruct r as [prim|]; [|injection Q as <- <-; exact Eg].
  unfold bind at 1, lift at 1 in Q. destruct (position_path pr rp lp (bt_leaves_count t)) as [path| |]; try (injection Q as <- <-; exact Eg).
  unfold bind at 1, lift at 1 in Q. destruct (bt_root_node H pr t smap_new) as [[rn sc2]| |]; try (injection Q as <- <-; exact Eg).
  destruct rn as [rn|]; [|injection Q as <- <-; exact Eg]. unfold bind_try, bind in Q.
  match type of Q with context [bt_prove_loop st ?a ?b ?c ?t0] => destruct (bt_prove_loop st a b c t0) as [t2 o2] eqn:El end.
  apply bprove_loop_grown in El. pose proof (grown_trans 0 0 _ _ _ Eg El) as G. destruct o2 as [[r2|e2]| |]; injection Q as <- <-; exact G.
Qed.

Lemma bcalls_grown : forall cs t t' o, bt_calls H pr st cs t = (t', o) ->
  exists j, (j + length (bt_head t') <= length (bt_head t) + 2 * push_count cs)%nat /\ (push_count cs = 0%nat -> j = 0%nat) /\ grown j (vt t) (vt t').
Proof.
  induction cs as [|c cs IH]; intros t t' o Q; cbn [bt_calls] in Q.
  { injection Q as <- <-. exists 0%nat. split; [lia|split; [reflexivity|apply grown_refl]]. }
  unfold bind at 1 in Q. destruct (bt_do H pr st c t) as [t1 o1] eqn:Ed.
  assert (S1 : exists j, (j + length (bt_head t1) + 2 * push_count cs <= length (bt_head t) + 2 * push_count (c :: cs))%nat /\ (push_count cs <= push_count (c :: cs))%nat /\
    (push_count (c :: cs) = 0%nat -> j = 0%nat) /\ grown j (vt t) (vt t1)).
  { clear Q IH. destruct c as [d|i|]; cbn [bt_do push_count] in Ed |- *; unfold bind in Ed.
    - destruct (bt_push H pr st d t) as [t2 o2] eqn:Ep. apply bpush_grown in Ep. destruct Ep as (j & J1 & J2).
      exists j. destruct o2; injection Ed as <- <-; (split; [lia|split; [lia|split; [discriminate|exact J2]]]).
    - destruct (bt_prove H pr st i t) as [t2 o2] eqn:Ep. pose proof (prove_heads _ _ _ _ _ _ _ Ep) as Eh. apply bprove_grown in Ep. exists 0%nat.
      destruct o2; injection Ed as <- <-; (split; [rewrite Eh; lia|split; [lia|split; [reflexivity|exact Ep]]]).
    - unfold get_state, lift in Ed. exists 0%nat. destruct (bt_root H pr t); injection Ed as <- <-; (split; [lia|split; [lia|split; [reflexivity|apply grown_refl]]]). }
  destruct S1 as (j & J1 & K1 & K2 & J2).
  destruct o1 as [a| |]; try (injection Q as <- <-; exists j; split; [lia|split; [exact K2|exact J2]]).
  unfold bind at 1 in Q. destruct (bt_calls H pr st cs t1) as [t2 o2] eqn:Ec. apply IH in Ec. destruct Ec as (j' & J3 & K3 & J4).
  assert (G : grown (j + j') (vt t) (vt t2)) by (eapply grown_trans; eassumption).
  exists (j + j')%nat. destruct o2; injection Q as <- <-; (split; [lia|split; [intros Z0; rewrite (K2 Z0), K3 by lia; reflexivity|exact G]]).
Qed.
(** At most two new entries for a push, successful or not; nothing new otherwise. *)
Lemma C110_binary_lemma : forall cs t t' o, bt_calls H pr st cs t = (t', o) ->
  grown (length (bt_head t) + 2 * push_count cs) (vt t) (vt t') /\ (push_count cs = 0%nat -> grown 0 (vt t) (vt t')).
Proof.
  intros cs t t' o Q. apply bcalls_grown in Q. destruct Q as (j & J1 & K & J2). split; [apply (grown_mono _ _ _ _ J2); lia|].
  intros Z0. rewrite (K Z0) in J2. exact J2.
Qed.
End Binary.

(** * The exact number of entries of a binary tree *)
Fixpoint floors (K n : nat) : nat := match K with O => O | S K' => (n + floors K' (n / 2))%nat end.
Lemma floors_ones : forall K n, (n < 2 ^ K)%nat -> (floors K n + ones n = 2 * n)%nat.
Proof.
  induction K as [|K IH]; intros n Hn; [change (2 ^ 0)%nat with 1%nat in Hn; replace n with O by lia; reflexivity|].
  cbn [floors]. rewrite Nat.pow_succ_r' in Hn. destruct (Nat.Even_or_Odd n) as [[m ->]|[m ->]].
  - rewrite ones_double. replace (2 * m / 2)%nat with m by (rewrite Nat.mul_comm, Nat.div_mul; lia). specialize (IH m ltac:(lia)). lia.
  - rewrite ones_double1. replace ((2 * m + 1) / 2)%nat with m by (rewrite Nat.add_comm, Nat.mul_comm, Nat.div_add by lia; change (1 / 2)%nat with 0%nat; lia).
    specialize (IH m ltac:(lia)). lia.
Qed.
Definition nodes_at (n h : nat) : list (nat * nat) := map (fun b => (h, b)) (seq 0 (n / 2 ^ h)).
Definition node_pairs (n : nat) : list (nat * nat) := flat_map (nodes_at n) (seq 0 (S n)).
Lemma flat_length : forall K n h0, length (flat_map (nodes_at n) (seq h0 K)) = floors K (n / 2 ^ h0).
Proof.
  induction K as [|K IH]; intros n h0; [reflexivity|]. cbn [seq flat_map floors]. rewrite app_length, IH.
  unfold nodes_at. rewrite map_length, seq_length, Nat.div_div by (try apply Nat.pow_nonzero; lia).
  rewrite Nat.pow_succ_r'. rewrite (Nat.mul_comm 2). reflexivity.
Qed.
Lemma in_pairs : forall n h b, In (h, b) (node_pairs n) <-> ((b + 1) * 2 ^ h <= n)%nat.
Proof.
  intros n h b. unfold node_pairs, nodes_at. rewrite in_flat_map. pose proof (Nat.pow_nonzero 2 h ltac:(lia)) as Hz. split.
  - intros (h' & _ & I). apply in_map_iff in I. destruct I as (b' & Q & I). injection Q as -> ->. apply in_seq in I.
    pose proof (Nat.mul_div_le n (2 ^ h) Hz). nia.
  - intros Hb. exists h. split.
    + apply in_seq. pose proof (Nat.pow_gt_lin_r 2 h ltac:(lia)). nia.
    + apply in_map_iff. exists b. split; [reflexivity|]. apply in_seq.
      assert (b + 1 <= n / 2 ^ h)%nat by (apply Nat.div_le_lower_bound; lia). lia.
Qed.
Lemma pairs_nodup : forall K n h0, NoDup (flat_map (nodes_at n) (seq h0 K)).
Proof.
  induction K as [|K IH]; intros n h0; [constructor|]. cbn [seq flat_map].
  assert (A : forall l l' : list (nat * nat), NoDup l -> NoDup l' -> (forall x, In x l -> ~ In x l') -> NoDup (l ++ l')).
  { clear. induction l as [|x l IH]; intros l' N N' D; [exact N'|]. inversion N; subst. cbn [app]. constructor.
    - rewrite in_app_iff. intros [Q|Q]; [contradiction|]. apply (D x); [left; reflexivity|exact Q].
    - apply IH; auto. intros y Hy. apply D. right. exact Hy. }
  apply A; [|apply IH|].
  - unfold nodes_at. apply FinFun.Injective_map_NoDup; [intros a b Q; congruence|apply seq_NoDup].
  - intros [h b] I J. unfold nodes_at in I. apply in_map_iff in I. destruct I as (b' & Q & _). injection Q as -> ->.
    apply in_flat_map in J. destruct J as (h' & I' & J). unfold nodes_at in J. apply in_map_iff in J. destruct J as (b'' & Q & _). injection Q as -> _.
    apply in_seq in I'. lia.
Qed.
Lemma C110_exact_lemma : forall H pr St E (st : StorageT St Z BPrimitive E) view, Lawful st view ->
  forall ds s0 t, (forall k, view s0 k = None) -> Z.of_nat (length ds) <= 2 ^ 63 ->
  bt_push_all H pr st ds (bt_new s0) = (t, Val (Ok tt)) -> entries (2 * length ds - ones (length ds)) (view (bt_storage t)).
Proof.
  intros H pr St E st view L ds s0 t Em Hl R.
  exists (map (fun x => index_of (fst x) (snd x)) (node_pairs (length ds))). split; [|split].
  - rewrite map_length. unfold node_pairs. rewrite flat_length. change (2 ^ 0)%nat with 1%nat. rewrite Nat.div_1_r.
    pose proof (floors_ones (S (length ds)) (length ds)) as F. pose proof (Nat.pow_gt_lin_r 2 (S (length ds)) ltac:(lia)). lia.
  - assert (N : NoDup (node_pairs (length ds))) by apply pairs_nodup. revert N. generalize (node_pairs (length ds)). clear.
    induction l as [|[h b] l IH]; intros N; [constructor|]. inversion N; subst. cbn [map fst snd]. constructor; [|auto].
    intros I. apply in_map_iff in I. destruct I as ([h' b'] & Q & I). cbn [fst snd] in Q. apply index_of_inj in Q. destruct Q as [-> ->]. contradiction.
  - intros k. split.
    + intros Hk. destruct (view (bt_storage t) k) as [p|] eqn:V; [|contradiction].
      apply (C12_lemma H pr st view L ds s0 t Em Hl R) in V. destruct V as (h & b & Hb & -> & _).
      apply in_map_iff. exists (h, b). split; [reflexivity|]. apply in_pairs. exact Hb.
    + intros I. apply in_map_iff in I. destruct I as ([h b] & <- & I). apply in_pairs in I. cbn [fst snd].
      assert (V : view (bt_storage t) (index_of h b) = Some (index_of h b, mth H (block h b ds)))
        by (apply (C12_lemma H pr st view L ds s0 t Em Hl R); eauto).
      rewrite V. discriminate.
Qed.

(** * Sum trees *)
Section Sum.
Variable H : list byte -> bytes32.
Variable pr : profile.
Context {St E : Type}.
Variable st : StorageT St bytes32 MNode E.
Variable view : St -> bytes32 -> option MNode.
Hypothesis L : Lawful st view.
Notation vt t := (view (mt_storage t)).

Lemma b32_dec : forall a b : bytes32, {a = b} + {a <> b}.
Proof. intros a b. destruct (b32_eqb a b) eqn:Q; [left; apply b32_eqb_eq; exact Q|right; intros ->; rewrite b32_eqb_refl in Q; discriminate]. Defined.
Lemma minsert_grown : forall k v t t' o, mt_insert st k v t = (t', o) -> mt_head t' = mt_head t /\ grown 1 (vt t) (vt t').
Proof.
  intros p v t t' o Q. unfold mt_insert in Q. destruct (s_insert st p v (mt_storage t)) as [s r] eqn:I.
  apply (insert_grown st view L b32_dec) in I. destruct r as [u|e]; injection Q as <- <-; auto.
Qed.
Lemma join_grown : forall a b t t' o, mt_join_subtrees H pr st a b t = (t', o) -> mt_head t' = mt_head t /\ grown 1 (vt t) (vt t').
Proof.
  intros a b t t' o Q. unfold mt_join_subtrees in Q. unfold bind at 1, lift at 1 in Q.
  destruct (u32_ovf pr (mn_height a + 1)) as [h| |]; try (injection Q as <- <-; split; [reflexivity|apply grown_refl]).
  unfold bind at 1, lift at 1 in Q. destruct (mnode_create_node _ _ _ _ _ _ _) as [x| |]; try (injection Q as <- <-; split; [reflexivity|apply grown_refl]).
  unfold bind_try, bind in Q. destruct (mt_insert st _ _ _) as [t1 o1] eqn:I. apply minsert_grown in I.
  destruct o1 as [[u|e]| |]; injection Q as <- <-; exact I.
Qed.
Lemma mloop_grown : forall f t t' o, mt_join_all_subtrees_loop H pr st f t = (t', o) ->
  exists j, (j + length (mt_head t') <= length (mt_head t))%nat /\ grown j (vt t) (vt t').
Proof.
  induction f as [|f IH]; intros t t' o Q; cbn [mt_join_all_subtrees_loop] in Q.
  - injection Q as <- <-. exists 0%nat. split; [lia|apply grown_refl].
  - unfold bind at 1, get_state at 1 in Q. destruct (mt_head t) as [|a [|b l]] eqn:Eh.
    + injection Q as <- <-. exists 0%nat. rewrite Eh. split; [cbn; lia|apply grown_refl].
    + injection Q as <- <-. exists 0%nat. rewrite Eh. split; [cbn; lia|apply grown_refl].
    + destruct (mn_height a =? mn_height b).
      2:{ injection Q as <- <-. exists 0%nat. rewrite Eh. split; [cbn; lia|apply grown_refl]. }
      unfold bind at 1, mt_set_head at 1 in Q. unfold bind_try at 1, bind at 1 in Q.
      destruct (mt_join_subtrees H pr st _ _ _) as [t1 o1] eqn:I. apply join_grown in I. destruct I as [I1 I2].
      cbn [mt_head mt_storage] in I1, I2.
      destruct o1 as [[x|e]| |]; try (injection Q as <- <-; exists 1%nat; rewrite I1; cbn [length]; split; [lia|exact I2]).
      unfold bind at 1, mt_set_head at 1 in Q. apply IH in Q. destruct Q as (j & J1 & J2). cbn [mt_head mt_storage length] in J1, J2.
      exists (1 + j)%nat. cbn [length]. split; [lia|]. eapply grown_trans; eassumption.
Qed.
Lemma mpush_grown : forall f d t t' o, mt_push H pr st f d t = (t', o) ->
  exists j, (j + length (mt_head t') <= length (mt_head t) + 2)%nat /\ grown j (vt t) (vt t').
Proof.
  intros f d t t' o Q. unfold mt_push in Q.
  unfold bind_try at 1, bind at 1 in Q. destruct (mt_insert st _ _ _) as [t1 o1] eqn:I. apply minsert_grown in I. destruct I as [I1 I2].
  destruct o1 as [[[]|e]| |]; try (injection Q as <- <-; exists 1%nat; rewrite I1; split; [lia|exact I2]).
  unfold bind at 1, get_state at 1 in Q. unfold bind at 1, mt_set_head at 1 in Q.
  unfold bind_try at 1, bind at 1, mt_join_all_subtrees, bind at 1, get_state at 1 in Q.
  destruct (mt_join_all_subtrees_loop _ _ _ _ _) as [t2 o2] eqn:J. apply mloop_grown in J. destruct J as (j & J1 & J2).
  cbn [mt_head mt_storage length] in J1, J2. rewrite I1 in J1.
  assert (G : (1 + j + length (mt_head t2) <= length (mt_head t) + 2)%nat /\ grown (1 + j) (vt t) (vt t2)) by (split; [lia|eapply grown_trans; eassumption]).
  exists (1 + j)%nat. destruct o2 as [[[]|e]| |]; injection Q as <- <-; exact G.
Qed.
Lemma root_loop_grown : forall next cur t t' o, mt_root_node_loop H pr st cur next t = (t', o) ->
  mt_head t' = mt_head t /\ grown (length next) (vt t) (vt t').
Proof.
  induction next as [|y next IH]; intros cur t t' o Q; cbn [mt_root_node_loop] in Q; [injection Q as <- <-; split; [reflexivity|apply grown_refl]|].
  unfold bind_try at 1, bind at 1 in Q. destruct (mt_join_subtrees H pr st y cur t) as [t1 o1] eqn:J. apply join_grown in J. destruct J as [J1 J2].
  cbn [length]. assert (G1 : grown (S (length next)) (vt t) (vt t1)) by (apply (grown_mono _ _ _ _ J2); lia).
  destruct o1 as [[x|e]| |]; try (injection Q as <- <-; auto).
  apply IH in Q. destruct Q as [Q1 Q2]. split; [congruence|]. exact (grown_trans 1 _ _ _ _ J2 Q2).
Qed.
Lemma mroot_grown : forall t t' o, mt_root H pr st t = (t', o) -> mt_head t' = mt_head t /\ grown (length (mt_head t) - 1) (vt t) (vt t').
Proof.
  intros t t' o Q. unfold mt_root, mt_root_node in Q. unfold bind_try at 1 in Q. unfold bind at 1 in Q. unfold bind at 1, get_state at 1 in Q.
  destruct (mt_head t) as [|x next] eqn:Eh; [injection Q as <- <-; split; [exact Eh|apply grown_refl]|].
  unfold bind_try at 1 in Q. unfold bind at 1 in Q.
  destruct (mt_root_node_loop H pr st x next t) as [t2 o2] eqn:El. apply root_loop_grown in El. rewrite Eh in El.
  replace (length (x :: next) - 1)%nat with (length next) by (cbn [length]; lia).
  destruct o2 as [[nd|e]| |]; injection Q as <- <-; exact El.
Qed.
Lemma mrun_grown : forall M os n t t' o, 0 <= n -> n + Z.of_nat (length (pushed os)) < 2 ^ 64 -> light n (mt_head t) ->
  (Nat.log2 (Z.to_nat n + length (pushed os) + 1) <= M)%nat ->
  mt_run_all H pr st os t = (t', o) ->
  exists j, (j + length (mt_head t') <= length (mt_head t) + 2 * length (pushed os) + root_count os * (M - 1))%nat /\ grown j (vt t) (vt t').
Proof.
  intros M. induction os as [|op os IH]; intros n t t' o Hn0 Hn Hs HM Q; cbn [mt_run_all] in Q.
  { injection Q as <- <-. exists 0%nat. split; [generalize (root_count [] * (M - 1))%nat; intros x; lia|apply grown_refl]. }
  unfold bind at 1 in Q. destruct (mt_do H pr st op t) as [t1 o1] eqn:Ed.
  assert (Hn' : n + 1 <= 2 ^ 64) by lia.
  pose proof (do_light H pr st n op t t1 o1 Hn' Hn0 Hs Ed) as S1.
  set (n1 := match op with Push _ => n + 1 | Root => n end) in *.
  assert (En : n + Z.of_nat (length (pushed (op :: os))) = n1 + Z.of_nat (length (pushed os))).
  { unfold n1. destruct op; cbn [pushed length]; lia. }
  assert (Hl : (length (mt_head t) <= M)%nat).
  { rewrite <- (Z2Nat.id n) in Hs by exact Hn0. apply light_length in Hs. eapply Nat.le_trans; [exact Hs|].
    eapply Nat.le_trans; [|exact HM]. apply Nat.log2_le_mono. lia. }
  assert (G1 : exists j, (j + length (mt_head t1) + 2 * length (pushed os) + root_count os * (M - 1) <=
      length (mt_head t) + 2 * length (pushed (op :: os)) + root_count (op :: os) * (M - 1))%nat /\ grown j (vt t) (vt t1)).
  { clear Q IH. destruct op as [[f d]|]; cbn [mt_do] in Ed; unfold root_count; cbn [filter length pushed]; fold (root_count os).
    - unfold bind_try, bind in Ed. cbn [fst snd] in Ed. destruct (mt_push H pr st f d t) as [t2 o2] eqn:Ep. apply mpush_grown in Ep. destruct Ep as (j & J1 & J2).
      exists j. destruct o2 as [[u|e]| |]; injection Ed as <- <-; (split; [lia|exact J2]).
    - unfold bind_try, bind in Ed. destruct (mt_root H pr st t) as [t2 o2] eqn:Ep. apply mroot_grown in Ep. destruct Ep as [E1 E2].
      exists (length (mt_head t) - 1)%nat. destruct o2 as [[u|e]| |]; injection Ed as <- <-; (split; [rewrite E1; lia|exact E2]). }
  destruct G1 as (j & J1 & J2).
  set (x := (root_count os * (M - 1))%nat) in *. set (y := (root_count (op :: os) * (M - 1))%nat) in *. clearbody x y.
  destruct o1 as [a| |]; try (injection Q as <- <-; exists j; split; [lia|exact J2]).
  unfold bind at 1 in Q. destruct (mt_run_all H pr st os t1) as [t2 o2] eqn:Er.
  assert (Hn1 : 0 <= n1) by (unfold n1; destruct op; lia).
  rewrite En in Hn. apply (IH n1) in Er; [|exact Hn1|exact Hn|exact S1|].
  2:{ eapply Nat.le_trans; [|exact HM]. apply Nat.log2_le_mono. clearbody n1. lia. }
  destruct Er as (j' & J3 & J4). assert (G : grown (j + j') (vt t) (vt t2)) by (eapply grown_trans; eassumption).
  exists (j + j')%nat. destruct o2; injection Q as <- <-; (split; [lia|exact G]).
Qed.
Lemma C110_sum_lemma : forall os s0 t o, Z.of_nat (length (pushed os)) < 2 ^ 64 -> mt_run_all H pr st os (mt_new s0) = (t, o) ->
  grown (2 * length (pushed os) + root_count os * (Nat.log2 (length (pushed os) + 1) - 1)) (view s0) (vt t).
Proof.
  intros os s0 t o Hn Q. apply (mrun_grown (Nat.log2 (length (pushed os) + 1)) os 0) in Q; [|lia|lia|apply light_nil; lia|apply le_n].
  destruct Q as (j & J1 & J2). cbn [mt_new mt_head mt_storage length] in J1, J2.
  apply (grown_mono _ _ _ _ J2). set (x := (root_count os * _)%nat) in *. clearbody x. lia.
Qed.
End Sum.

(** * Sparse trees *)
Section Sparse.
Variable H : list byte -> bytes32.
Variable pr : profile.
Context {St E : Type}.
Variable st : StorageT St bytes32 SPrimitive E.
Variable view : St -> bytes32 -> option SPrimitive.
Hypothesis L : Lawful st view.

Lemma apply_inserts : forall o t t' r, sp_apply H pr (Counted st) o t = (t', r) ->
  (inserts (fst (sp_storage t')) <= inserts (fst (sp_storage t)) + if writing o then 259 else 256)%nat.
Proof.
  intros [k [|b v]|k] t t' r Q; cbn [sp_apply writing] in *.
  - destruct (C63_lemma H pr _ _ st k t t' r) as [_ C]. specialize (C (or_intror Q)). unfold at_most in C. lia.
  - destruct (C63_lemma H pr _ _ st k t t' r) as [C _]. specialize (C (b :: v) ltac:(discriminate) Q). unfold at_most in C. lia.
  - destruct (C63_lemma H pr _ _ st k t t' r) as [_ C]. specialize (C (or_introl Q)). unfold at_most in C. lia.
Qed.
Lemma run_inserts : forall os t t' r, sp_run_all H pr (Counted st) os t = (t', r) ->
  (inserts (fst (sp_storage t')) <= inserts (fst (sp_storage t)) + (259 * update_count os + 256 * delete_count os))%nat.
Proof.
  induction os as [|o os IH]; intros t t' r Q; cbn [sp_run_all] in Q; [injection Q as <- <-; lia|].
  unfold bind at 1 in Q. destruct (sp_apply H pr (Counted st) o t) as [t1 o1] eqn:A. apply apply_inserts in A.
  unfold update_count, delete_count in *. cbn [filter].
  destruct o1 as [a| |]; try (injection Q as <- <-; destruct (writing o); cbn [negb length]; lia).
  unfold bind at 1 in Q. destruct (sp_run_all H pr (Counted st) os t1) as [t2 o2] eqn:B. apply IH in B.
  destruct o2; injection Q as <- <-; destruct (writing o); cbn [negb length]; lia.
Qed.

(** The storage with counters beside the storage without, and the number of new entries. *)
Definition watched (i : nat) (f : bytes32 -> option SPrimitive) (a : counts * St) (b : St) : Prop :=
  snd a = b /\ (i <= inserts (fst a))%nat /\ grown (inserts (fst a) - i) f (view b).
Lemma watched_gets : forall i f, gets_alike (watched i f) (Counted st) st.
Proof.
  intros i f k [c s] b (A & B & C). cbn [snd fst] in *. subst b. cbn [Counted s_get]. destruct (s_get st k s) as [s' r] eqn:G.
  cbn [fst snd]. split; [|reflexivity]. split; [reflexivity|]. cbn [fst inserts snd]. split; [exact B|].
  apply (get_grown st view L) in G. rewrite <- (Nat.add_0_r (inserts c - i)). eapply grown_trans; eassumption.
Qed.
Lemma watched_inserts : forall i f, inserts_alike (watched i f) (Counted st) st.
Proof.
  intros i f k v [c s] b (A & B & C). cbn [snd fst] in *. subst b. cbn [Counted s_insert]. destruct (s_insert st k v s) as [s' r] eqn:G.
  cbn [fst snd]. split; [|unfold same_kind; destruct r; auto]. split; [reflexivity|]. cbn [fst inserts snd]. split; [lia|].
  apply (insert_grown st view L b32_dec) in G. replace (Datatypes.S (inserts c) - i)%nat with (inserts c - i + 1)%nat by lia.
  eapply grown_trans; eassumption.
Qed.
Lemma watched_removes : forall i f, removes_alike (watched i f) (Counted st) st.
Proof.
  intros i f k [c s] b (A & B & C). cbn [snd fst] in *. subst b. cbn [Counted s_remove]. destruct (s_remove st k s) as [s' r] eqn:G.
  cbn [fst snd]. split; [|unfold same_kind; destruct r; auto]. split; [reflexivity|]. cbn [fst inserts snd]. split; [exact B|].
  apply (remove_grown st view L b32_dec) in G. rewrite <- (Nat.add_0_r (inserts c - i)). eapply grown_trans; eassumption.
Qed.
Lemma C110_sparse_lemma : forall os t t' o, sp_run_all H pr st os t = (t', o) ->
  grown (259 * update_count os + 256 * delete_count os) (view (sp_storage t)) (view (sp_storage t')).
Proof.
  intros os [root s] t' o Q.
  destruct (C77_sparse_lemma H pr _ _ _ (watched 0 (view s)) (Counted st) st (watched_gets _ _) (watched_inserts _ _) (watched_removes _ _)) as [A _].
  specialize (A os (Build_SpTree root (no_calls, s)) (Build_SpTree root s)). destruct A as [A1 A2].
  { split; [reflexivity|]. split; [reflexivity|]. cbn [fst inserts no_calls sp_storage]. split; [lia|apply grown_refl]. }
  destruct (sp_run_all H pr (Counted st) os (Build_SpTree root (no_calls, s))) as [t1 o1] eqn:R. apply run_inserts in R.
  rewrite Q in A1. cbn [fst snd sp_storage inserts no_calls] in *. destruct A1 as (_ & _ & _ & G). apply (grown_mono _ _ _ _ G). lia.
Qed.
End Sparse.
