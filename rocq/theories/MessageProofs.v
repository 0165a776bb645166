(** MessageProofs.v -- the messages of errors. *)
From Verif Require Import Base Storage ModelText ModelCommon ModelBinary ModelSparse ModelDebug ModelDisplay SpecText SpecMessage SpecBinary SpecPosition
  Runs PositionProofs PathProofs StorageProofs BinaryProofs BinaryReadProofs BinaryMain TextProofs DebugProofs DebugText.
From Coq Require Import Arith String List ZifyBool ZifyNat ZifyN.
Open Scope list_scope.

Lemma names_dec : forall a b z, 0 <= z -> names a b z (text a ++ dec z ++ text b).
Proof. intros a b z Hz. exists (dec z). split; [apply dec_decimal; exact Hz|reflexivity]. Qed.

Lemma decimal_inj : forall d z z', SpecText.decimal d z -> SpecText.decimal d z' -> z = z'.
Proof.
  intros d z z' (_ & _ & ds & F & <-) (_ & _ & ds' & F' & <-). f_equal.
  revert ds' F'. induction F as [|c x d ds [Hx Ex] F IH]; intros ds' F'; inversion F'; subst; [reflexivity|].
  match goal with K : _ /\ Z_of_byte c = _ |- _ => destruct K end. f_equal; [lia|auto].
Qed.

Section Messages.
Variable H : list byte -> bytes32.
Variable pr : profile.
Context {St E : Type}.
Variable st : StorageT St Z BPrimitive E.
Variable view : St -> Z -> option BPrimitive.
Hypothesis L : Lawful st view.
Variable show : E -> list byte.
Notation shown := (berror_display show).

Definition load_message (s : St) (e : BError E) : Prop :=
  (exists k, says_missing k (shown e) /\ view s k = None) \/ (exists x, e = BStorageError x /\ shown e = show x).

Lemma load_message_ok : forall n s s' e, Z.of_nat n < leaf_limit pr -> bt_load pr st (Z.of_nat n) s = (s', Val (Err e)) -> load_message s e.
Proof.
  intros n s s' e Hn Q. destruct (load_cases pr st view L n s (count_ok_limit _ _ Hn)) as (s1 & r & Er & V & C).
  rewrite Q in Er. inversion Er; subst r. destruct C as [(p & _ & C)|[(ps1 & p & ps2 & _ & C & N & _)|(x & C & _)]]; inversion C; subst.
  - left. exists (index_of_pair p). split; [|exact N]. apply names_dec. destruct p as [h b]. unfold index_of_pair. apply index_of_nonneg.
  - right. eauto.
Qed.

Lemma prove_loop_message : forall sc ks acc t t' e, (forall k, In k ks -> 0 <= k) ->
  bt_prove_loop st sc ks acc t = (t', Val (Err e)) -> load_message (bt_storage t) e.
Proof.
  intros sc. induction ks as [|k ks IH]; intros acc t t' e Hk Q; cbn [bt_prove_loop] in Q; [discriminate Q|].
  unfold bind_try at 1, bind at 1 in Q. destruct (bt_get_cases st view L k t) as (t1 & R & [G|(x & G & F)]); rewrite G in Q.
  - destruct (match smap_lookup Z.eqb sc k with Some p => Some p | None => view (bt_storage t) k end) eqn:D.
    + apply IH in Q; [|intros; apply Hk; right; assumption]. destruct Q as [(k' & S & N)|Q]; [left|right; exact Q].
      exists k'. split; [exact S|]. rewrite <- N. symmetry. apply R.
    + inversion Q; subst. left. exists k. split; [apply names_dec, Hk; left; reflexivity|].
      destruct (smap_lookup Z.eqb sc k); [discriminate D|exact D].
  - inversion Q; subst. right. eauto.
Qed.

Lemma prove_message_ok : forall t i t' e n, bt_leaves_count t = Z.of_nat n -> Z.of_nat n < leaf_limit pr -> 0 <= i < 2 ^ 64 - 1 ->
  bt_prove H pr st i t = (t', Val (Err e)) ->
  (Z.of_nat n <= i /\ says_bad_index i (shown e)) \/
  (i < Z.of_nat n /\ view (bt_storage t) (2 * i) = None /\ says_missing i (shown e)) \/
  (i < Z.of_nat n /\ load_message (bt_storage t) e).
Proof.
  intros t i t' e n Hc Hn Hi Q.
  destruct (Z_le_gt_dec (Z.of_nat n) i) as [Hb|Hb].
  { left. split; [exact Hb|]. rewrite prove_out_of_range in Q by (change U64 with (2 ^ 64); lia). inversion Q; subst. apply names_dec. lia. }
  right. assert (Hn' : Z.of_nat n < 2 ^ 63) by (unfold leaf_limit in Hn; destruct (overflow_checks pr); lia).
  apply count_ok_limit in Hn. assert (exists j, i = Z.of_nat j) as [j ->] by (exists (Z.to_nat i); lia).
  unfold bt_prove in Q. unfold bind at 1, get_state at 1 in Q. unfold bind at 1, lift at 1 in Q.
  rewrite u64_ovf_in in Q by (change U64 with (2 ^ 64); lia).
  rewrite Hc in Q. replace (Z.of_nat j + 1 >? Z.of_nat n) with false in Q by lia.
  unfold bind at 1, lift at 1 in Q. rewrite root_position_ok in Q by exact Hn.
  unfold bind at 1, lift at 1 in Q. unfold pos_from_leaf_index in Q.
  rewrite u64_ovf_in in Q by (change U64 with (2 * 2 ^ 63); lia).
  replace (Z.of_nat j * 2) with (index_of 0 j) in Q by (rewrite index_of_0; lia).
  unfold bind_try at 1, bind at 1 in Q.
  destruct (bt_get_cases st view L (index_of 0 j) t) as (t1 & R & [G|(x & G & F)]); rewrite G in Q.
  2:{ inversion Q; subst. right. split; [lia|]. right. eauto. }
  destruct (view (bt_storage t) (index_of 0 j)) as [p|] eqn:Vw.
  2:{ inversion Q; subst. left. split; [lia|]. split; [|apply names_dec; lia]. rewrite index_of_0 in Vw. exact Vw. }
  right. split; [lia|]. unfold bind at 1, lift at 1 in Q. pose proof (root_height_spec n) as Hrs.
  rewrite position_path_ok in Q by (auto using root_height_ok; lia).
  rewrite tree_path_sides in Q by lia. cbn [rev] in Q. rewrite removelast_last in Q.
  unfold bind at 1, lift at 1 in Q. destruct (bt_root_node H pr t smap_new) as [[[rn|] sc]| |]; try discriminate Q.
  unfold bind_try, bind in Q.
  match type of Q with (let (_, _) := bt_prove_loop st sc ?ks ?acc t1 in _) = _ => destruct (bt_prove_loop st sc ks acc t1) as [t2 [[x|x]| |]] eqn:El end; try discriminate Q.
  inversion Q; subst. apply prove_loop_message in El.
  - destruct El as [(k & S & N)|El]; [left|right; exact El]. exists k. split; [exact S|]. rewrite <- N. symmetry. apply R.
  - intros k Hk. apply in_rev in Hk. apply in_map_iff in Hk. destruct Hk as ([h b] & <- & _). apply index_of_nonneg.
Qed.
End Messages.

Lemma C102_lemma : forall H pr St E (st : StorageT St Z BPrimitive E) view, Lawful st view -> forall (show : E -> list byte),
  (forall n s s' e, Z.of_nat n < leaf_limit pr -> bt_load pr st (Z.of_nat n) s = (s', Val (Err e)) ->
     (exists k, says_missing k (berror_display show e) /\ view s k = None) \/
     (exists x, e = BStorageError x /\ berror_display show e = show x)) /\
  (forall t i t' e n, bt_leaves_count t = Z.of_nat n -> Z.of_nat n < leaf_limit pr -> 0 <= i < 2 ^ 64 - 1 ->
     bt_prove H pr st i t = (t', Val (Err e)) ->
     Z.of_nat n <= i /\ says_bad_index i (berror_display show e) \/
     i < Z.of_nat n /\ view (bt_storage t) (2 * i) = None /\ says_missing i (berror_display show e) \/
     i < Z.of_nat n /\ ((exists k, says_missing k (berror_display show e) /\ view (bt_storage t) k = None) \/
                        (exists x, e = BStorageError x /\ berror_display show e = show x))).
Proof.
  intros H pr St E st view L show. split.
  - intros. eapply load_message_ok; eauto.
  - intros. eapply prove_message_ok; eauto.
Qed.

(** Two messages that name numbers the same way name the same number. *)
Lemma names_inj : forall a b z z' m, names a b z m -> names a b z' m -> z = z'.
Proof.
  intros a b z z' m (d & D & ->) (d' & D' & Q). apply app_inv_head in Q. apply app_inv_tail in Q. subst d'. eapply decimal_inj; eauto.
Qed.

Lemma C102_prefix_lemma : forall b,
  (forall p, prefix_try_from b = Ok p -> (Z_of_byte b = 0 \/ Z_of_byte b = 1)) /\
  (forall e, prefix_try_from b = Err e -> says_bad_prefix (Z_of_byte b) (prefix_error_display e) /\ Z_of_byte b <> 0 /\ Z_of_byte b <> 1).
Proof.
  intros b. split.
  - intros p Q. destruct b; try discriminate Q; vm_compute; auto.
  - intros e Q.
    assert (Ee : e = InvalidPrefix b) by (destruct b; try discriminate Q; inversion Q; reflexivity).
    assert (Nb : Z_of_byte b <> 0 /\ Z_of_byte b <> 1) by (destruct b; try discriminate Q; vm_compute; split; discriminate).
    subst e. split; [|exact Nb]. apply names_dec. unfold Z_of_byte. lia.
Qed.

Lemma C102_distinct_lemma :
  (forall z z' m, says_missing z m -> says_missing z' m -> z = z') /\
  (forall z z' m, says_bad_index z m -> says_bad_index z' m -> z = z') /\
  (forall z z' m, says_bad_prefix z m -> says_bad_prefix z' m -> z = z') /\
  (forall z z' m, says_missing z m -> ~ says_bad_index z' m) /\
  (forall z z' m, says_missing z m -> ~ says_bad_prefix z' m) /\
  (forall z z' m, says_bad_index z m -> ~ says_bad_prefix z' m).
Proof.
  repeat split; try (intros z z' m A B; eapply names_inj; eassumption).
  - intros z z' m (d & _ & ->) (d' & _ & Q). discriminate Q.
  - intros z z' m (d & _ & ->) (d' & _ & Q). discriminate Q.
  - intros z z' m (d & _ & ->) (d' & _ & Q). discriminate Q.
Qed.
