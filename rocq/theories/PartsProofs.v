(** PartsProofs.v -- proofs for leaves of a common block have common parts. *)
From Verif Require Import Base Storage ModelCommon ModelBinary SpecBinary SpecBinaryFacts Runs
  PositionProofs PathProofs HeadsProofs BinaryProofs BinaryReadProofs BinaryMain.
From Coq Require Import Arith ZifyBool ZifyNat ZifyN.
Arguments Nat.pow : simpl never.
Arguments Nat.mul : simpl never.
Arguments Z.pow : simpl never.
Arguments split_point : simpl never.

Section Parts.
Variable H : list byte -> bytes32.
Notation mth := (mth H).
Notation audit_path := (audit_path H).

(** The path of a leaf goes through its block, then on as for all leaves of the block. *)
Lemma block_path : forall n ds h b, (length ds <= n)%nat -> ((b + 1) * 2 ^ h <= length ds)%nat ->
  exists q, forall i, (i < 2 ^ h)%nat -> audit_path (b * 2 ^ h + i) ds = audit_path i (block h b ds) ++ q.
Proof.
  induction n as [|n IH]; intros ds h b Hn Hb; pose proof (pow2_pos h) as Ph; [lia|].
  destruct (Nat.le_gt_cases (length ds) (2 ^ h)) as [Full|More].
  - assert (b = 0)%nat by nia. subst b. exists []. intros i Hi. rewrite block_all by lia. rewrite app_nil_r. reflexivity.
  - assert (L2 : (2 <= length ds)%nat) by lia.
    destruct (split_point_bounds _ L2) as [[K1 K2] K3].
    assert (Pk : exists d, split_point (length ds) = (2 ^ (d + h))%nat).
    { pose proof (split_point_largest (length ds) h L2 More) as Q. unfold split_point in *.
      apply Nat.pow_le_mono_r_iff in Q; [|lia]. exists (Nat.log2 (length ds - 1) - h)%nat. f_equal. lia. }
    destruct Pk as [d Ed]. pose proof (pow2_pos d) as Pd. rewrite Nat.pow_add_r in Ed.
    set (k := split_point (length ds)) in *.
    destruct (Nat.le_gt_cases (b + 1) (2 ^ d)) as [Left|Right].
    + assert (Bk : ((b + 1) * 2 ^ h <= k)%nat) by nia.
      destruct (IH (firstn k ds) h b) as [q Q]; [rewrite firstn_length; lia|rewrite firstn_length; lia|].
      exists (q ++ [mth (skipn k ds)]). intros i Hi. rewrite audit_path_split by exact L2. cbv zeta. fold k.
      replace (b * 2 ^ h + i <? k)%nat with true by (symmetry; apply Nat.ltb_lt; lia).
      rewrite Q by exact Hi. rewrite <- (block_app h b (firstn k ds) (skipn k ds)) by (rewrite firstn_length; lia).
      rewrite firstn_skipn, app_assoc. reflexivity.
    + assert (Bk : (k <= b * 2 ^ h)%nat) by nia.
      destruct (IH (skipn k ds) h (b - 2 ^ d)%nat) as [q Q]; [rewrite skipn_length; lia|rewrite skipn_length; nia|].
      exists (q ++ [mth (firstn k ds)]). intros i Hi. rewrite audit_path_split by exact L2. cbv zeta. fold k.
      replace (b * 2 ^ h + i <? k)%nat with false by (symmetry; apply Nat.ltb_ge; lia).
      replace (b * 2 ^ h + i - k)%nat with ((b - 2 ^ d) * 2 ^ h + i)%nat by nia.
      rewrite Q by exact Hi. rewrite app_assoc. f_equal. f_equal. f_equal.
      unfold block. f_equal. rewrite <- skipn_plus. f_equal. nia.
Qed.

Lemma full_path_length : forall h i ds, length ds = (2 ^ h)%nat -> length (audit_path i ds) = h.
Proof.
  induction h as [|h IH]; intros i ds Hl.
  - change (2 ^ 0)%nat with 1%nat in Hl. destruct ds as [|a [|]]; try discriminate Hl. reflexivity.
  - rewrite pow2_S in Hl. rewrite <- (firstn_skipn (2 ^ h) ds). pose proof (pow2_pos h).
    rewrite (audit_path_join H h); rewrite ?firstn_length, ?skipn_length; try lia.
    destruct (Nat.ltb _ _); rewrite app_length; cbn [length]; rewrite IH; rewrite ?firstn_length, ?skipn_length; lia.
Qed.

Variable pr : profile.
Context {St E : Type}.
Variable st : StorageT St Z BPrimitive E.
Variable view : St -> Z -> option BPrimitive.
Hypothesis L : Lawful st view.

Lemma nth_block : forall {A} h b i (ds : list A), (i < 2 ^ h)%nat -> nth_error (block h b ds) i = nth_error ds (b * 2 ^ h + i).
Proof.
  intros A h b i ds Hi. unfold block.
  revert ds. induction (b * 2 ^ h)%nat as [|m IHm]; intros ds.
  - cbn [skipn Nat.add]. revert i Hi ds. induction (2 ^ h)%nat as [|e IHe]; intros i Hi ds; [lia|].
    destruct ds as [|x ds]; [destruct i; reflexivity|]. destruct i as [|i]; [reflexivity|]. cbn [firstn nth_error Nat.add]. apply (IHe i). lia.
  - destruct ds as [|x ds]; [cbn [skipn]; rewrite firstn_nil; destruct i; reflexivity|]. cbn [skipn Nat.add nth_error]. apply IHm.
Qed.

Lemma C108_lemma : Infallible st -> forall ds es s0, Z.of_nat (length (ds ++ es)) < leaf_limit pr ->
  exists t1 t2, bt_push_all H pr st ds (bt_new s0) = (t1, Val (Ok tt)) /\ bt_push_all H pr st es t1 = (t2, Val (Ok tt)) /\
  forall h b, ((b + 1) * 2 ^ h <= length ds)%nat ->
  exists t0 q1 q2, bt_push_all H pr st (block h b ds) (bt_new s0) = (t0, Val (Ok tt)) /\
  forall i, (i < 2 ^ h)%nat -> exists p t0' t1' t2', length p = (h + 1)%nat /\
    bt_prove H pr st (Z.of_nat i) t0 = (t0', Val (Ok (mth (block h b ds), p))) /\
    bt_prove H pr st (Z.of_nat (b * 2 ^ h + i)) t1 = (t1', Val (Ok (mth ds, p ++ q1))) /\
    bt_prove H pr st (Z.of_nat (b * 2 ^ h + i)) t2 = (t2', Val (Ok (mth (ds ++ es), p ++ q2))).
Proof.
  intros Inf ds es s0 HN. pose proof HN as HN'. rewrite app_length in HN'.
  assert (M : forall n, Z.of_nat n <= Z.of_nat (length (ds ++ es)) -> Z.of_nat n <= max_leaves).
  { intros n Hn. pose proof (limit_max _ _ HN). unfold max_leaves. lia. }
  assert (N1 : Z.of_nat (length ds) < leaf_limit pr) by lia.
  destruct (push_all_ok H pr st view L ds [] (bt_new s0) Inf (binv_new _ _ _)) as (t1 & E1 & I1); [cbn [app]; apply M; rewrite app_length; lia|].
  cbn [app] in I1.
  destruct (push_all_ok H pr st view L es ds t1 Inf I1) as (t2 & E2 & I2); [apply M; lia|].
  exists t1, t2. split; [exact E1|]. split; [exact E2|]. intros h b Hb.
  assert (Lb : length (block h b ds) = (2 ^ h)%nat) by (apply block_length; exact Hb).
  assert (Nb : Z.of_nat (length (block h b ds)) < leaf_limit pr) by nia.
  destruct (push_all_ok H pr st view L (block h b ds) [] (bt_new s0) Inf (binv_new _ _ _)) as (t0 & E0 & I0);
    [cbn [app]; apply M; rewrite app_length; nia|]. cbn [app] in I0.
  destruct (block_path _ ds h b (le_n _) Hb) as [q1 Q1].
  destruct (block_path _ (ds ++ es) h b (le_n _)) as [q2 Q2]; [rewrite app_length; lia|].
  rewrite block_app in Q2 by exact Hb.
  exists t0, q1, q2. split; [exact E0|]. intros i Hi.
  assert (Hd : exists d, nth_error (block h b ds) i = Some d).
  { destruct (nth_error (block h b ds) i) as [d|] eqn:D; [eauto|]. apply nth_error_None in D. lia. }
  destruct Hd as [d Hd]. pose proof Hd as Hd1. rewrite nth_block in Hd1 by exact Hi.
  assert (Hd2 : nth_error (ds ++ es) (b * 2 ^ h + i) = Some d).
  { rewrite nth_error_app1; [exact Hd1|]. apply nth_error_Some. rewrite Hd1. discriminate. }
  destruct (prove_ok H pr st view L _ t0 i d Inf I0 (count_ok_limit _ _ Nb) Hd) as (t0' & P0 & _).
  destruct (prove_ok H pr st view L _ t1 _ d Inf I1 (count_ok_limit _ _ N1) Hd1) as (t1' & P1 & _).
  destruct (prove_ok H pr st view L _ t2 _ d Inf I2 (count_ok_limit _ _ HN) Hd2) as (t2' & P2 & _).
  rewrite Q1 in P1 by exact Hi. rewrite Q2 in P2 by exact Hi.
  exists (hash_leaf H d :: audit_path i (block h b ds)), t0', t1', t2'.
  split; [cbn [length]; rewrite (full_path_length h) by exact Lb; lia|]. auto.
Qed.
End Parts.
