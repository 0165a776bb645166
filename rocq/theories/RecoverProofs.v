(** RecoverProofs.v -- failed pushes of the binary tree, and recovery from them. *)
From Verif Require Import Base Storage ModelCommon ModelBinary SpecBinary SpecBinaryFacts
  SpecPosition PositionProofs PathProofs HeadsProofs StorageProofs Runs RunsRecover BinaryProofs
  BinaryReadProofs BinaryMain BinaryLimits.
From Coq Require Import Arith ZifyBool ZifyNat ZifyN.
Ltac Zify.zify_post_hook ::= Z.div_mod_to_equations.
Arguments Z.pow : simpl never.
Arguments Z.mul : simpl never.
Arguments Z.add : simpl never.
Arguments Z.sub : simpl never.
Arguments Z.of_nat : simpl never.
Arguments Nat.pow : simpl never.
Arguments Nat.mul : simpl never.
Arguments Nat.div : simpl never.
Arguments Nat.add : simpl never.

Section Recover.
Variable H : list byte -> bytes32.
Variable pr : profile.
Context {St E : Type}.
Variable st : StorageT St Z BPrimitive E.
Variable view : St -> Z -> option BPrimitive.
Hypothesis L : Lawful st view.
Notation binv := (binv H view).

(** * Histories keep the invariant *)
Lemma reloads_binv : forall n s t, reloads pr st n s t -> forall ds, n = Z.of_nat (length ds) ->
  store_full H view ds s -> Z.of_nat (length ds) < leaf_limit pr -> binv ds t.
Proof.
  intros n s t R. induction R as [s s' t El|s s' e t El R IH]; intros ds -> F HN.
  - destruct (load_full H pr st view L ds s F (count_ok_limit _ _ HN)) as (s1 & r & Er & V & C).
    rewrite El in Er. inversion Er; subst. destruct C as [(t1 & Et & B & _)|(e & Et & _)]; [|discriminate Et].
    inversion Et; subst. exact B.
  - destruct (load_full H pr st view L ds s F (count_ok_limit _ _ HN)) as (s1 & r & Er & V & C).
    rewrite El in Er. inversion Er; subst. apply IH; auto. eapply same_view_full; eauto.
Qed.

Lemma recovers_binv : forall ds t, recovers H pr st ds t ->
  binv ds t /\ Z.of_nat (length ds) < leaf_limit pr.
Proof.
  intros ds t R. induction R as [s|ds t d t' R IH HN Ep|ds t i t' o R IH Ep|ds t d t' e t2 R IH Ep Rl|ds t m t2 R IH Hm Rl].
  - split; [apply binv_new|]. unfold leaf_limit; destruct (overflow_checks pr); cbn; lia.
  - destruct IH as [Hi _]. pose proof (limit_max _ _ HN) as HM.
    destruct (push_ok H pr st view L ds d t Hi ltac:(unfold max_leaves; lia)) as (t1 & r & Er & _ & C).
    rewrite Ep in Er. inversion Er; subst. destruct C as [(_ & B)|((e & Ee) & _)]; [|discriminate Ee].
    split; [exact B|]. rewrite app_length. exact HN.
  - destruct IH as [Hi HN]. split; [|exact HN]. eapply binv_read_only; eauto. eapply prove_read_only; eauto.
  - destruct IH as [Hi HN]. split; [|exact HN]. pose proof (limit_max _ _ HN) as HM.
    destruct (push_ok H pr st view L ds d t Hi ltac:(unfold max_leaves; lia)) as (t1 & r & Er & O & _).
    rewrite Ep in Er. inversion Er; subst. eapply reloads_binv; eauto.
    eapply only_new_full; eauto. apply Hi.
  - destruct IH as [Hi HN]. pose proof (firstn_le m ds) as Hl.
    assert (HL : length (firstn m ds) = m) by (rewrite firstn_length; lia).
    split; [|lia]. refine (reloads_binv _ _ _ Rl (firstn m ds) _ _ _); [rewrite HL; reflexivity| |lia].
    apply store_full_firstn. apply Hi.
Qed.

(** * The tree object after a failed push *)
Lemma join_error_head : forall f t t' e,
  bt_join_all_subtrees_loop H pr st f t = (t', Val (Err e)) ->
  bt_head t' = [] /\ bt_leaves_count t' = bt_leaves_count t.
Proof.
  induction f as [|f IH]; intros t t' e E1; cbn [bt_join_all_subtrees_loop] in E1; [discriminate E1|].
  unfold bind at 1, get_state at 1 in E1. destruct (bt_head t) as [|x [|y l]]; try discriminate E1.
  destruct (pos_height (bn_position x) =? pos_height (bn_position y)); [|discriminate E1].
  unfold bind at 1, bt_set_head at 1 in E1. unfold bind at 1, lift at 1 in E1.
  destruct (bnode_create_node H pr y x) as [j| |]; try discriminate E1.
  unfold bind_try at 1, bind at 1 in E1. unfold bt_insert at 1 in E1. cbn [bt_storage bt_head bt_leaves_count] in E1.
  destruct (s_insert st _ _ (bt_storage t)) as [s' [p|e']].
  - unfold bind at 1, bt_set_head at 1 in E1. apply IH in E1. exact E1.
  - inversion E1; subst. cbn. auto.
Qed.

Lemma push_error_head : forall ds d t t' e, binv ds t -> Z.of_nat (length ds + 1) <= max_leaves ->
  bt_push H pr st d t = (t', Val (Err e)) ->
  bt_leaves_count t' = bt_leaves_count t /\
  (bt_head t' = bt_head t \/ (Nat.odd (length ds) = true /\ bt_head t' = [])).
Proof.
  intros ds d t t' e Hi HN Ep.
  destruct (Nat.even (length ds)) eqn:Ev.
  { destruct (push_even_error H st view pr ds t d t' e Hi Ev) as [A B]; auto. unfold max_leaves in HN; lia. }
  assert (Od : Nat.odd (length ds) = true) by (rewrite <- Nat.negb_even, Ev; reflexivity).
  destruct Hi as [Ic Ih Is].
  unfold bt_push in Ep. unfold bind at 1, get_state at 1 in Ep. unfold bind at 1, lift at 1 in Ep.
  unfold bnode_create_leaf, pos_from_leaf_index in Ep. rewrite Ic in Ep.
  rewrite u64_ovf_in in Ep by (change U64 with (2 * 2 ^ 63); unfold max_leaves in HN; lia). cbn [obind] in Ep.
  unfold bind_try at 1, bind at 1 in Ep. unfold bt_insert at 1 in Ep.
  destruct (s_insert st _ _ (bt_storage t)) as [s' [p|e']].
  2:{ inversion Ep; subst. auto. }
  unfold bind at 1, get_state at 1 in Ep. unfold bind at 1, bt_set_head at 1 in Ep.
  cbn [bt_storage bt_head bt_leaves_count] in Ep.
  unfold bt_join_all_subtrees in Ep. unfold bind_try at 1 in Ep. unfold bind at 1 in Ep.
  unfold bind at 1, get_state at 1 in Ep.
  match type of Ep with context [bt_join_all_subtrees_loop H pr st ?f ?t1] =>
    destruct (bt_join_all_subtrees_loop H pr st f t1) as [t2 [[u|e2]| |]] eqn:El end; try discriminate Ep.
  - unfold bind at 1, get_state at 1 in Ep. unfold bind at 1, lift at 1 in Ep.
    destruct (u64_ovf pr (bt_leaves_count t2 + 1)); try discriminate Ep.
  - inversion Ep; subst. destruct (join_error_head _ _ _ _ El) as [A B]. cbn in B. auto.
Qed.

(** A tree that lost its subtrees: the empty root, and every proof panics. *)
Lemma lost_root : forall (t : BTree St), bt_head t = [] -> bt_root H pr t = Val empty_sum.
Proof. intros t E1. apply root_empty. exact E1. Qed.

Lemma lost_prove : forall ds t i, bt_leaves_count t = Z.of_nat (length ds) -> bt_head t = [] ->
  store_full H view ds (bt_storage t) -> Z.of_nat (length ds) < leaf_limit pr -> (i < length ds)%nat ->
  exists t' o, bt_prove H pr st (Z.of_nat i) t = (t', o) /\
  (o = Panic \/ (~ Infallible st /\ exists e, o = Val (Err (BStorageError e)))).
Proof.
  intros ds t i Ic Eh Is HN Hi. pose proof (limit_max _ _ HN) as Hn'.
  unfold bt_prove. unfold bind at 1, get_state at 1. unfold bind at 1, lift at 1.
  rewrite u64_ovf_in by (change U64 with (2 * 2 ^ 63); lia).
  rewrite Ic. replace (Z.of_nat i + 1 >? Z.of_nat (length ds)) with false by lia.
  unfold bind at 1, lift at 1. rewrite root_position_ok by (apply count_ok_limit; exact HN).
  unfold bind at 1, lift at 1. unfold pos_from_leaf_index.
  rewrite u64_ovf_in by (change U64 with (2 * 2 ^ 63); lia).
  replace (Z.of_nat i * 2) with (index_of 0 i) by (rewrite index_of_0; lia).
  unfold bind_try at 1, bind at 1.
  destruct (bt_get_cases st view L (index_of 0 i) t) as (t1 & R & [G|(e & G & F)]); rewrite G.
  2:{ eexists t1, _. split; [reflexivity|]. right. split; eauto. }
  assert (Cp : ((i + 1) * 2 ^ 0 <= length ds)%nat) by (change (2 ^ 0)%nat with 1%nat; lia).
  rewrite (Is 0%nat i Cp).
  unfold bind at 1, lift at 1.
  pose proof (root_height_spec (length ds)) as Hrs.
  rewrite position_path_ok by (auto using root_height_ok, count_ok_limit; lia).
  unfold bind at 1, lift at 1. unfold bt_root_node. rewrite Eh.
  eexists t1, _. split; [reflexivity|]. left. reflexivity.
Qed.

(** * load(n + 1) after a failed push of leaf number n *)
Lemma odd_part : forall n, exists h c, (n + 1 = (2 * c + 1) * 2 ^ h)%nat.
Proof.
  intros n. induction n as [n IH] using (well_founded_induction lt_wf).
  destruct (Nat.odd (n + 1)) eqn:O.
  - apply Nat.odd_spec in O. destruct O as [c Hc]. exists O, c. change (2 ^ 0)%nat with 1%nat. lia.
  - assert (Ev : Nat.even (n + 1) = true) by (rewrite <- Nat.negb_odd, O; reflexivity).
    apply Nat.even_spec in Ev. destruct Ev as [m Hm].
    destruct (IH (m - 1)%nat ltac:(lia)) as (h & c & Hc). exists (S h), c. rewrite pow2_S. nia.
Qed.

Lemma end_below_odd : forall n h c h' b', (n + 1 = (2 * c + 1) * 2 ^ h)%nat ->
  ((b' + 1) * 2 ^ h' = n + 1)%nat -> (h' <= h)%nat.
Proof.
  intros n h c h' b' E1 E2. destruct (le_lt_dec h' h) as [|G]; auto. exfalso.
  replace h' with (S (h' - S h) + h)%nat in E2 by lia.
  rewrite Nat.pow_add_r, pow2_S in E2. rewrite E1 in E2. pose proof (pow2_pos h).
  rewrite Nat.mul_assoc in E2. apply Nat.mul_cancel_r in E2; [|lia]. lia.
Qed.

Lemma load_next : forall ds d t t' e, binv ds t -> Z.of_nat (length ds + 1) < leaf_limit pr ->
  (forall h b, ((b + 1) * 2 ^ h = length ds + 1)%nat -> view (bt_storage t) (index_of h b) = None) ->
  bt_push H pr st d t = (t', Val (Err e)) ->
  exists s' r, bt_load pr st (Z.of_nat (length ds + 1)) (bt_storage t') = (s', Val r) /\
  ((exists t2, r = Ok t2 /\ binv (ds ++ [d]) t2) \/
   (exists h b, is_peak (length ds + 1) h b /\ ((b + 1) * 2 ^ h = length ds + 1)%nat /\
      r = Err (BLoadError (index_of h b)) /\ view (bt_storage t') (index_of h b) = None) \/
   (~ Infallible st /\ exists e', r = Err (BStorageError e'))).
Proof.
  intros ds d t t' e Hi HN Hno Ep. pose proof (limit_max _ _ HN) as HM.
  destruct (push_ok H pr st view L ds d t Hi ltac:(unfold max_leaves; lia)) as (t1 & r & Er & O & C).
  rewrite Ep in Er. inversion Er; subst t1 r. clear Er.
  destruct C as [(Ee & _)|(_ & _ & _ & h0 & P)]; [discriminate Ee|].
  assert (Hl : length (ds ++ [d]) = (length ds + 1)%nat) by (rewrite app_length; reflexivity).
  destruct (odd_part (length ds)) as (h & c & Ec).
  assert (Eh : ((2 * c + 1) * 2 ^ h = length ds + 1)%nat) by lia.
  pose proof (only_new_full H view ds _ _ O (binv_store _ _ _ _ Hi)) as F.
  assert (Old : forall h' b', ((b' + 1) * 2 ^ h' <= length ds)%nat ->
    view (bt_storage t') (index_of h' b') = Some (right_prim H (ds ++ [d]) h' b')).
  { intros h' b' Hb. rewrite (F h' b' Hb). unfold right_prim. rewrite block_app by exact Hb. reflexivity. }
  destruct (le_lt_dec h0 h) as [G|G].
  - (* the last write did not happen *)
    assert (N : view (bt_storage t') (index_of h (2 * c)) = None).
    { rewrite (proj2 (P h (2 * c)%nat ltac:(lia)) G). apply Hno. lia. }
    destruct (load_cases pr st view L (length ds + 1) (bt_storage t')) as (s' & r & Er & V & C).
    { apply count_ok_limit. exact HN. }
    exists s', r. split; [exact Er|]. right.
    destruct C as [(prims & F2 & ->)|[(ps1 & [h1 b1] & ps2 & Epk & -> & Nv & A)|(e' & -> & I)]].
    + exfalso.
      assert (Hin : In (h, (2 * c)%nat) (peaks (root_height (length ds + 1)) (length ds + 1))).
      { apply peaks_is_peak. pose proof (root_height_spec (length ds + 1)) as Hr.
        assert (Pk : is_peak (length ds + 1) h (2 * c)).
        { unfold is_peak. rewrite pow2_S. pose proof (pow2_pos h).
          replace (2 * c / 2)%nat with c by lia. nia. }
        split; [|exact Pk]. eapply peak_height_lt; eauto. lia. }
      clear - F2 Hin N. induction F2 as [|p x ps xs Hx F2 IH]; [contradiction|].
      destruct Hin as [->|Hin]; [|auto]. change (index_of_pair (h, (2 * c)%nat)) with (index_of h (2 * c)) in Hx.
      congruence.
    + left. exists h1, b1. change (index_of_pair (h1, b1)) with (index_of h1 b1) in Nv.
      assert (Hin : In (h1, b1) (peaks (root_height (length ds + 1)) (length ds + 1))).
      { rewrite Epk. apply in_or_app. right. left. reflexivity. }
      pose proof (proj2 (proj1 (peaks_is_peak _ _ _ _) Hin)) as Pk.
      split; [exact Pk|]. split; [|split; [reflexivity|exact Nv]].
      destruct (Nat.eq_dec ((b1 + 1) * 2 ^ h1) (length ds + 1)) as [|Ne]; auto. exfalso.
      rewrite (Old h1 b1) in Nv; [discriminate Nv|]. unfold is_peak in Pk. lia.
    + right. split; eauto.
  - (* all writes were done, the acknowledgement of the last one was lost *)
    assert (F' : store_full H view (ds ++ [d]) (bt_storage t')).
    { intros h' b' Hb. rewrite Hl in Hb.
      destruct (Nat.eq_dec ((b' + 1) * 2 ^ h') (length ds + 1)) as [Eq|Ne]; [|apply Old; lia].
      apply (proj1 (P h' b' Eq)). pose proof (end_below_odd _ _ _ _ _ Ec Eq). lia. }
    rewrite <- Hl in HN |- *.
    destruct (load_full H pr st view L (ds ++ [d]) _ F' (count_ok_limit _ _ HN)) as (s' & r & El & V & C').
    exists s', r. split; [exact El|]. destruct C' as [(t2 & -> & B & _)|(e' & -> & I)]; [left|right; right]; eauto.
Qed.
End Recover.

(** * Statements *)
Section Statements.
Variable H : list byte -> bytes32.
Variable pr : profile.
Context {St E : Type}.
Variable st : StorageT St Z BPrimitive E.
Variable view : St -> Z -> option BPrimitive.
Hypothesis L : Lawful st view.
Hypothesis HE : H [] = empty_sum.

Lemma C67_lemma : forall ds t, recovers H pr st ds t ->
  bt_leaves_count t = Z.of_nat (length ds) /\ bt_root H pr t = Val (mth H ds) /\
  behaves_as H pr st ds t /\
  forall d t' e, bt_push H pr st d t = (t', Val (Err e)) ->
    ~ Infallible st /\
    exists s' r, bt_load pr st (Z.of_nat (length ds)) (bt_storage t') = (s', Val r) /\
      ok_or_fault st r (fun t2 => recovers H pr st ds t2).
Proof.
  intros ds t R. destruct (recovers_binv H pr st view L ds t R) as [Hi HN].
  pose proof (limit_max _ _ HN) as HM.
  split; [apply Hi|]. split.
  { apply root_is_mth; auto; [unfold max_leaves; lia|]. apply Hi. }
  split; [eapply behaves_of_binv; eauto|]. intros d t' e Ep.
  destruct (push_ok H pr st view L ds d t Hi ltac:(unfold max_leaves; lia)) as (t1 & r & Er & O & C).
  rewrite Ep in Er. inversion Er; subst.
  destruct C as [(Ee & _)|(_ & NI & _)]; [discriminate Ee|]. split; [exact NI|].
  pose proof (only_new_full H view ds _ _ O (binv_store _ _ _ _ Hi)) as F.
  destruct (load_full H pr st view L ds _ F (count_ok_limit _ _ HN)) as (s' & r & El & V & C').
  exists s', r. split; [exact El|]. destruct C' as [(t2 & -> & B & _)|(e' & -> & I)].
  - left. exists t2. split; [reflexivity|]. eapply rec_crash; eauto. eapply reload_now; eauto.
  - right. split; eauto.
Qed.

Lemma C68_partial_lemma : forall ds t d t' e, recovers H pr st ds t ->
  bt_push H pr st d t = (t', Val (Err e)) ->
  bt_leaves_count t' = Z.of_nat (length ds) /\
  ((bt_root H pr t' = Val (mth H ds) /\ behaves_as H pr st ds t') \/
   (Nat.odd (length ds) = true /\ bt_root H pr t' = Val (mth H []) /\
    forall i, (i < length ds)%nat -> exists t2 o, bt_prove H pr st (Z.of_nat i) t' = (t2, o) /\
      (o = Panic \/ (~ Infallible st /\ exists e, o = Val (Err (BStorageError e)))))).
Proof.
  intros ds t d t' e R Ep. destruct (recovers_binv H pr st view L ds t R) as [Hi HN].
  pose proof (limit_max _ _ HN) as HM.
  destruct (push_ok H pr st view L ds d t Hi ltac:(unfold max_leaves; lia)) as (t1 & r & Er & O & _).
  rewrite Ep in Er. inversion Er; subst.
  pose proof (only_new_full H view ds _ _ O (binv_store _ _ _ _ Hi)) as F.
  destruct (push_error_head H pr st view ds d t t1 e Hi ltac:(unfold max_leaves; lia) Ep) as [A B].
  rewrite (binv_count _ _ _ _ Hi) in A. split; [exact A|]. destruct B as [B|[Od B]]; [left|right].
  - assert (Hi' : binv H view ds t1).
    { constructor; auto. rewrite B. apply Hi. }
    split; [|eapply behaves_of_binv; eauto]. apply root_is_mth; auto; [unfold max_leaves; lia|]. apply Hi'.
  - split; [exact Od|]. split.
    { rewrite lost_root by exact B. cbn. rewrite HE. reflexivity. }
    intros i Hl. apply lost_prove with (view := view) (ds := ds); auto.
Qed.

Lemma C69_partial_lemma : forall ds s0 t d t' e, (forall k, view s0 k = None) ->
  Z.of_nat (length ds + 1) < leaf_limit pr ->
  bt_push_all H pr st ds (bt_new s0) = (t, Val (Ok tt)) ->
  bt_push H pr st d t = (t', Val (Err e)) ->
  exists s' r, bt_load pr st (Z.of_nat (length ds + 1)) (bt_storage t') = (s', Val r) /\
  ((exists t2, r = Ok t2 /\ bt_root H pr t2 = Val (mth H (ds ++ [d])) /\ behaves_as H pr st (ds ++ [d]) t2) \/
   (exists h b, is_peak (length ds + 1) h b /\ ((b + 1) * 2 ^ h = length ds + 1)%nat /\
      r = Err (BLoadError (index_of h b)) /\ view (bt_storage t') (index_of h b) = None) \/
   (~ Infallible st /\ exists e', r = Err (BStorageError e'))).
Proof.
  intros ds s0 t d t' e Hs HN Ep Ed. pose proof (limit_max _ _ HN) as HM.
  assert (HN' : Z.of_nat (length ds) <= max_leaves) by (unfold max_leaves; lia).
  destruct (push_all_exact H pr st view L ds [] (bt_new s0) t (binv_new _ _ _) HN' Ep (exact_nil H view s0 Hs)) as [A B].
  cbn [app] in A, B.
  destruct (load_next H pr st view L ds d t t' e A HN) as (s' & r & Er & C); auto.
  { intros h b E1. destruct (view (bt_storage t) (index_of h b)) as [p|] eqn:V; auto. exfalso.
    apply B in V. destruct V as (h' & b' & Hb & C & _). apply index_of_inj in C. destruct C as [<- <-]. lia. }
  exists s', r. split; [exact Er|]. destruct C as [(t2 & -> & Bi)|C]; [left|right; exact C].
  exists t2. split; [reflexivity|]. split; [|eapply behaves_of_binv; eauto].
  apply root_is_mth; auto; [|apply Bi]. rewrite app_length. change (length [d]) with 1%nat. unfold max_leaves; lia.
Qed.
End Statements.
