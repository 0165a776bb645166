(** ShareProofs.v -- binary tree objects that follow one log on a shared storage. *)
From Verif Require Import Base Storage ModelCommon ModelBinary SpecBinary SpecBinaryFacts
  SpecPosition PositionProofs PathProofs HeadsProofs StorageProofs Runs RunsShare BinaryProofs
  BinaryReadProofs BinaryMain BinaryLimits.
From Coq Require Import Arith ZifyBool ZifyNat ZifyN.
Ltac Zify.zify_post_hook ::= Z.div_mod_to_equations.
Arguments Z.pow : simpl never.
Arguments Z.of_nat : simpl never.
Arguments Nat.pow : simpl never.
Arguments Nat.mul : simpl never.
Arguments Nat.add : simpl never.

Section Share.
Variable H : list byte -> bytes32.
Variable pr : profile.
Context {St E : Type}.
Variable st : StorageT St Z BPrimitive E.
Variable view : St -> Z -> option BPrimitive.
Hypothesis L : Lawful st view.
Notation binv := (binv H view).

Lemma load_reads : forall n s s' r, bt_load pr st n s = (s', r) -> same_view view s s'.
Proof.
  intros n s s' r El. unfold bt_load, bind, lift in El.
  destruct (bt_peak_positions pr n) as [ps| |].
  2,3: inversion El; subst; apply same_view_refl.
  unfold bind_try, bind in El.
  assert (G : forall ps acc s s' r, bt_build_loop st ps acc s = (s', r) -> same_view view s s').
  { clear El. intros qs. induction qs as [|q qs IH]; intros acc x x' y El; cbn [bt_build_loop] in El.
    - inversion El; subst. apply same_view_refl.
    - unfold bind_try, bind in El. destruct (bst_get_cases st view L q x) as (x1 & V & [G|(e & G & _)]); rewrite G in El.
      + destruct (view x q) as [p|].
        * eapply same_view_trans; [exact V|]. eapply IH; eauto.
        * unfold ret in El. inversion El; subst. exact V.
      + unfold ret in El. inversion El; subst. exact V. }
  destruct (bt_build_loop st ps [] s) as [s1 o] eqn:Eb. pose proof (G _ _ _ _ _ Eb) as V.
  destruct o as [[hd|e]| |]; unfold get_state, ret in El; inversion El; subst; exact V.
Qed.

Section Log.
Variable log : list (list byte).

Definition sinv (top : nat) (os : list (nat * BTree unit)) (s : St) : Prop :=
  (top <= length log)%nat /\ Z.of_nat top < leaf_limit pr /\ store_full H view (firstn top log) s /\
  forall n o, In (n, o) os -> (n <= top)%nat /\ binv (firstn n log) (put_on s o).

Lemma firstn_len : forall n, (n <= length log)%nat -> length (firstn n log) = n.
Proof. intros n Hn. rewrite firstn_length. lia. Qed.

Lemma firstn_step : forall n d, nth_error log n = Some d -> firstn (n + 1) log = firstn n log ++ [d].
Proof.
  intros n. clear. revert n. induction log as [|x l IH]; intros [|n] d E1; cbn in E1; try discriminate.
  - inversion E1. reflexivity.
  - replace (S n + 1)%nat with (S (n + 1)) by lia. cbn [firstn app]. rewrite (IH n d E1). reflexivity.
Qed.

Lemma objects_on : forall top os s s', store_full H view (firstn top log) s' ->
  (forall n o, In (n, o) os -> (n <= top)%nat /\ binv (firstn n log) (put_on s o)) ->
  forall n o, In (n, o) os -> (n <= top)%nat /\ binv (firstn n log) (put_on s' o).
Proof.
  intros top os s s' F Ho n o Hin. destruct (Ho n o Hin) as [Hn [A B C]]. split; [exact Hn|].
  constructor; cbn in *; auto.
  replace (firstn n log) with (firstn n (firstn top log)) by (rewrite firstn_firstn; f_equal; lia).
  apply store_full_firstn. exact F.
Qed.

(** A block of the first leaves is the same in a longer beginning of the log. *)
Lemma block_firstn : forall m n h b, (m <= n)%nat -> (n <= length log)%nat -> ((b + 1) * 2 ^ h <= m)%nat ->
  right_prim H (firstn n log) h b = right_prim H (firstn m log) h b.
Proof.
  intros m n h b Hm Hn Hb. unfold right_prim. do 2 f_equal.
  replace (firstn m log) with (firstn m (firstn n log)) by (rewrite firstn_firstn; f_equal; lia).
  rewrite <- (firstn_skipn m (firstn n log)) at 1. apply block_app.
  rewrite firstn_length, firstn_len by lia. lia.
Qed.

Lemma push_full : forall top os s n o d t' r, sinv top os s -> In (n, o) os -> nth_error log n = Some d ->
  bt_push H pr st d (put_on s o) = (t', r) ->
  store_full H view (firstn top log) (bt_storage t') /\
  (r = Val (Ok tt) -> binv (firstn (n + 1) log) t').
Proof.
  intros top os s n o d t' r (Ht & HL & F & Ho) Hin Ed Ep. destruct (Ho n o Hin) as [Hn Hb].
  assert (Hlt : (n < length log)%nat) by (apply nth_error_Some; congruence).
  pose proof (limit_max _ _ HL) as HM.
  assert (HN : Z.of_nat (length (firstn n log) + 1) <= max_leaves) by (rewrite firstn_len by lia; unfold max_leaves; lia).
  destruct (push_ok H pr st view L (firstn n log) d (put_on s o) Hb HN) as (t1 & r1 & Er & O & C).
  rewrite Ep in Er. inversion Er; subst t1 r. clear Er. rewrite firstn_len in O, C by lia.
  rewrite <- (firstn_step n d Ed) in C. cbn [bt_storage put_on] in O, C. split.
  - intros h b Hh. rewrite firstn_len in Hh by lia.
    destruct (Nat.eq_dec ((b + 1) * 2 ^ h) (n + 1)) as [Eq|Ne].
    + assert (G : right_prim H (firstn top log) h b = right_prim H (firstn (n + 1) log) h b) by (apply block_firstn; lia).
      destruct C as [(_ & [_ _ F'])|(_ & _ & _ & h0 & P)].
      * rewrite G. apply F'. rewrite firstn_len by lia. lia.
      * destruct (le_lt_dec h0 h) as [Le|Lt].
        -- rewrite (proj2 (P h b Eq) Le). apply F. rewrite firstn_len by lia. lia.
        -- rewrite G. exact (proj1 (P h b Eq) Lt).
    + rewrite O; [apply F; rewrite firstn_len by lia; lia|].
      intros h' b' E' C'. apply index_of_inj in C'. destruct C' as [-> ->]. lia.
  - intros Hr. inversion Hr; subst r1. destruct C as [(_ & B)|((e & Ee) & _)]; [exact B|discriminate Ee].
Qed.

Lemma shared_sinv : forall top os s, shared H pr st log top os s -> sinv top os s.
Proof.
  intros top os s R. induction R as [s|top os s R IH|top os s m s' t R IH Hm El|top os s n s' r R IH El
    |top os s n o d t' R IH Hin Ed HN Ep|top os s n o d t' e R IH Hin Ed Ep|top os s n o i t' r R IH Hin Ep].
  - split; [lia|]. split; [unfold leaf_limit; destruct (overflow_checks pr); cbn; lia|]. split.
    + intros h b Hb. pose proof (pow2_pos h). cbn in Hb. nia.
    + intros n o [].
  - destruct IH as (Ht & HL & F & Ho). split; [exact Ht|]. split; [exact HL|]. split; [exact F|].
    intros n o [Eq|Hin]; [|exact (Ho n o Hin)]. inversion Eq; subst n o. split; [lia|].
    exact (binv_new H view s).
  - destruct IH as (Ht & HL & F & Ho). pose proof (load_reads _ _ _ _ El) as V.
    pose proof (same_view_full _ _ _ _ _ V F) as F'.
    split; [exact Ht|]. split; [exact HL|]. split; [exact F'|].
    intros n o [Eq|Hin]; [|exact (objects_on _ _ _ _ F' Ho n o Hin)]. inversion Eq; subst n o. split; [lia|].
    assert (Fm : store_full H view (firstn m log) s).
    { replace (firstn m log) with (firstn m (firstn top log)) by (rewrite firstn_firstn; f_equal; lia).
      apply store_full_firstn. exact F. }
    assert (HLm : Z.of_nat (length (firstn m log)) < leaf_limit pr) by (rewrite firstn_len by lia; lia).
    destruct (load_full H pr st view L (firstn m log) s Fm (count_ok_limit _ _ HLm)) as (s1 & r & Er & _ & C).
    rewrite firstn_len in Er by lia. rewrite El in Er. inversion Er; subst s1 r.
    destruct C as [(t1 & Et & B & Es)|(e & Et & _)]; [|discriminate Et]. inversion Et; subst t1. clear Et.
    destruct t as [x y z]. cbn in Es. subst x. exact B.
  - destruct IH as (Ht & HL & F & Ho). pose proof (load_reads _ _ _ _ El) as V.
    pose proof (same_view_full _ _ _ _ _ V F) as F'.
    split; [exact Ht|]. split; [exact HL|]. split; [exact F'|]. exact (objects_on _ _ _ _ F' Ho).
  - destruct (push_full _ _ _ _ _ _ _ _ IH Hin Ed Ep) as [F' B]. specialize (B eq_refl).
    destruct IH as (Ht & HL & F & Ho).
    assert (Hlt : (n < length log)%nat) by (apply nth_error_Some; congruence).
    assert (F2 : store_full H view (firstn (Nat.max top (n + 1)) log) (bt_storage t')).
    { destruct (Nat.max_spec top (n + 1)) as [[_ ->]|[_ ->]]; [exact (binv_store _ _ _ _ B)|exact F']. }
    split; [lia|]. split; [lia|]. split; [exact F2|].
    intros m o' [Eq|Hin'].
    + inversion Eq; subst m o'. split; [lia|]. destruct t' as [x y z]. exact B.
    + destruct (objects_on _ _ _ (bt_storage t') F' Ho m o' Hin') as [Hm Hb]. split; [lia|exact Hb].
  - destruct (push_full _ _ _ _ _ _ _ _ IH Hin Ed Ep) as [F' _].
    destruct IH as (Ht & HL & F & Ho). split; [exact Ht|]. split; [exact HL|]. split; [exact F'|].
    exact (objects_on _ _ _ _ F' Ho).
  - destruct IH as (Ht & HL & F & Ho). destruct (prove_read_only _ _ _ _ L _ _ _ _ Ep) as (_ & _ & V).
    pose proof (same_view_full _ _ _ _ _ V F) as F'.
    split; [exact Ht|]. split; [exact HL|]. split; [exact F'|]. exact (objects_on _ _ _ _ F' Ho).
Qed.

Lemma C105_lemma : forall top os s, H [] = empty_sum -> shared H pr st log top os s ->
  (forall n o, In (n, o) os -> (n <= top)%nat /\ bt_leaves_count o = Z.of_nat n /\
     bt_root H pr o = Val (mth H (firstn n log)) /\ behaves_as H pr st (firstn n log) (put_on s o)) /\
  (forall m, (m <= top)%nat -> exists s' r, bt_load pr st (Z.of_nat m) s = (s', Val r) /\
     ok_or_fault st r (fun t => bt_root H pr t = Val (mth H (firstn m log)) /\ behaves_as H pr st (firstn m log) t)).
Proof.
  intros top os s HE R. destruct (shared_sinv _ _ _ R) as (Ht & HL & F & Ho).
  pose proof (limit_max _ _ HL) as HM. split.
  - intros n o Hin. destruct (Ho n o Hin) as [Hn B]. split; [exact Hn|].
    split; [rewrite <- (firstn_len n) by lia; exact (binv_count _ _ _ _ B)|]. split.
    + change (bt_root H pr o) with (bt_root H pr (put_on s o)).
      apply (root_is_mth H pr (firstn n log) (put_on s o) HE).
      * rewrite firstn_len by lia. unfold max_leaves. lia.
      * exact (binv_heads _ _ _ _ B).
    + apply behaves_of_binv with (view := view); auto.
  - intros m Hm.
    assert (Fm : store_full H view (firstn m log) s).
    { replace (firstn m log) with (firstn m (firstn top log)) by (rewrite firstn_firstn; f_equal; lia).
      apply store_full_firstn. exact F. }
    assert (HLm : Z.of_nat (length (firstn m log)) < leaf_limit pr) by (rewrite firstn_len by lia; lia).
    destruct (load_full H pr st view L (firstn m log) s Fm (count_ok_limit _ _ HLm)) as (s1 & r & Er & _ & C).
    rewrite firstn_len in Er by lia. exists s1, r. split; [exact Er|].
    destruct C as [(t1 & -> & B & Es)|(e & -> & I)]; [left|right; eauto].
    exists t1. split; [reflexivity|]. split.
    + apply (root_is_mth H pr (firstn m log) t1 HE); [rewrite firstn_len by lia; unfold max_leaves; lia|exact (binv_heads _ _ _ _ B)].
    + apply behaves_of_binv with (view := view); auto.
Qed.
End Log.
End Share.
