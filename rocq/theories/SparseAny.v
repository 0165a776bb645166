(** SparseAny.v -- facts about the sparse tree that hold on any storage, lawful or not. *)
From Verif Require Import Base Storage ModelCommon ModelSparse SpecBits SpecBinary SpecSparse RunsSparse
  BindingProofs BitsProofs PositionProofs CommonProofs.
From Coq Require Import Arith ZifyBool ZifyNat ZifyN.
Ltac Zify.zify_post_hook ::= Z.div_mod_to_equations.
Arguments Z.pow : simpl never.
Arguments Z.mul : simpl never.
Arguments Z.add : simpl never.
Arguments Z.sub : simpl never.

Section Any.
Variable H : list byte -> bytes32.
Variable pr : profile.
Context {St E : Type}.
Variable st : StorageT St bytes32 SPrimitive E.

(** * Failed calls keep the root *)
(** A tree computation whose errors leave the root node alone. *)
Definition safe {A} (f : M (SpTree St) (result (SError E) A)) : Prop :=
  forall t t' e, f t = (t', Val (Err e)) -> sp_root_node t' = sp_root_node t.
(** A tree computation that never touches the root node. *)
Definition still {A} (f : M (SpTree St) A) : Prop := forall t t' r, f t = (t', r) -> sp_root_node t' = sp_root_node t.

Lemma still_on : forall A (m : M St A), still (on_storage m).
Proof. intros A m [n s] t' r R. unfold on_storage in R. cbn [sp_storage sp_root_node] in R. destruct (m s). injection R as <- <-. reflexivity. Qed.
Lemma still_safe : forall A (f : M (SpTree St) (result (SError E) A)), still f -> safe f.
Proof. intros A f S t t' e R. exact (S _ _ _ R). Qed.
Lemma still_ret : forall A (a : A), still (ret a).
Proof. intros A a t t' r R. injection R as <- <-. reflexivity. Qed.
Lemma still_lift : forall A (a : out A), still (lift a).
Proof. intros A a t t' r R. injection R as <- <-. reflexivity. Qed.
Lemma still_try : forall A B (f : M (SpTree St) (result (SError E) A)) (g : A -> M (SpTree St) (result (SError E) B)),
  still f -> (forall a, still (g a)) -> still (bind_try f g).
Proof.
  intros A B f g Sf Sg t t' r R. unfold bind_try, bind in R. destruct (f t) as [t1 [[a|e]| |]] eqn:F.
  - rewrite (Sg a t1 t' r R). exact (Sf _ _ _ F).
  - injection R as <- <-. exact (Sf _ _ _ F).
  - injection R as <- <-. exact (Sf _ _ _ F).
  - injection R as <- <-. exact (Sf _ _ _ F).
Qed.
Lemma still_bind : forall A B (f : M (SpTree St) A) (g : A -> M (SpTree St) B),
  still f -> (forall a, still (g a)) -> still (bind f g).
Proof.
  intros A B f g Sf Sg t t' r R. unfold bind in R. destruct (f t) as [t1 [a| |]] eqn:F.
  - rewrite (Sg a t1 t' r R). exact (Sf _ _ _ F).
  - injection R as <- <-. exact (Sf _ _ _ F).
  - injection R as <- <-. exact (Sf _ _ _ F).
Qed.
Lemma safe_try : forall A B (f : M (SpTree St) (result (SError E) A)) (g : A -> M (SpTree St) (result (SError E) B)),
  still f -> (forall a, safe (g a)) -> safe (bind_try f g).
Proof.
  intros A B f g Sf Sg t t' r R. unfold bind_try, bind in R. destruct (f t) as [t1 [[a|e]| |]] eqn:F; try discriminate.
  - rewrite (Sg a t1 t' r R). exact (Sf _ _ _ F).
  - injection R as <- <-. exact (Sf _ _ _ F).
Qed.
Lemma safe_bind : forall A B (f : M (SpTree St) A) (g : A -> M (SpTree St) (result (SError E) B)),
  still f -> (forall a, safe (g a)) -> safe (bind f g).
Proof.
  intros A B f g Sf Sg t t' r R. unfold bind in R. destruct (f t) as [t1 [a| |]] eqn:F; try discriminate.
  rewrite (Sg a t1 t' r R). exact (Sf _ _ _ F).
Qed.
(** Setting the root is the last step and cannot fail. *)
Lemma safe_set : forall n, safe (bind (sp_set_root_node pr n) (fun _ => ret (Ok tt))).
Proof.
  intros n t t' e R. unfold bind, sp_set_root_node, bind, lift in R.
  destruct (debug_assert pr (snode_is_leaf n || (sn_height n =? max_height))); try discriminate.
Qed.
Lemma still_get : still get_state.
Proof. intros t t' r R. injection R as <- <-. reflexivity. Qed.

Lemma update_path_safe : forall leaf ps ss, safe (update_with_path_set H pr st leaf ps ss).
Proof.
  intros leaf ps ss. unfold update_with_path_set. apply safe_bind; [apply still_lift|]. intros path.
  destruct ps as [|a ps]; [intros t t' e R; discriminate|].
  apply safe_bind; [apply still_lift|]. intros ak. apply safe_try.
  - destruct (negb (b32_eqb path ak)); [|apply still_ret]. apply still_try.
    + destruct (negb (snode_is_placeholder a)); [apply still_on|apply still_ret].
    + intros c. apply still_bind; [apply still_lift|]. intros d. apply still_on.
  - intros c. apply safe_try; [apply still_on|]. intros c'. apply safe_set.
Qed.
Lemma delete_path_safe : forall leaf ps ss, safe (delete_with_path_set H pr st leaf ps ss).
Proof.
  intros leaf ps ss. unfold delete_with_path_set. apply safe_try; [apply still_on|]. intros _.
  apply safe_bind; [apply still_lift|]. intros path. apply safe_try.
  - destruct ss as [|f rest]; [apply still_ret|]. destruct (snode_is_leaf f); [|apply still_ret].
    destruct (find_non_placeholder rest) as [[n|] r']; [|apply still_ret]. apply still_try; [apply still_on|]. intros c. apply still_ret.
  - intros [c ss']. apply safe_try; [apply still_on|]. intros c'. apply safe_set.
Qed.
Lemma delete_safe : forall k, safe (sp_delete H pr st k).
Proof.
  intros k. unfold sp_delete. apply safe_bind; [apply still_get|]. intros t0.
  destruct (b32_eqb (sp_root H t0) zero_sum); [apply still_safe, still_ret|].
  apply safe_try; [apply still_on|]. intros [p|]; [|apply still_safe, still_ret].
  destruct (snode_try_from p); [|apply still_safe, still_ret].
  apply safe_try; [apply still_on|]. intros [ps ss]. apply delete_path_safe.
Qed.
Lemma update_safe : forall k v, safe (sp_update H pr st k v).
Proof.
  intros k [|b v]; unfold sp_update.
  - intros t t' e R. unfold bind_try, bind in R. destruct (sp_delete H pr st k t) as [t1 [[a|e1]| |]] eqn:F; try discriminate.
    injection R as <- <-. exact (delete_safe k _ _ _ F).
  - cbv zeta. apply safe_try; [apply still_on|]. intros _. apply safe_bind; [apply still_lift|]. intros lk.
    apply safe_try; [apply still_on|]. intros _. apply safe_bind; [apply still_get|]. intros t0.
    destruct (snode_is_placeholder (sp_root_node t0)); [apply safe_set|].
    apply safe_try; [apply still_on|]. intros [ps ss]. apply update_path_safe.
Qed.
Theorem apply_safe : forall o t t' e, sp_apply H pr st o t = (t', Val (Err e)) -> sp_root H t' = sp_root H t.
Proof.
  intros [k v|k] t t' e R; cbn [sp_apply] in R; unfold sp_root; f_equal; [exact (update_safe k v _ _ _ R)|exact (delete_safe k _ _ _ R)].
Qed.

(** * The walk ends *)
Definition nf {S A} (f : M S A) : Prop := forall s, snd (f s) <> Fuel.
Lemma nf_bind : forall S A B (f : M S A) (g : A -> M S B), nf f -> (forall a, nf (g a)) -> nf (bind f g).
Proof. intros S A B f g Nf Ng s. unfold bind. specialize (Nf s). destruct (f s) as [s' [a| |]]; cbn [snd] in *; [apply Ng|discriminate|congruence]. Qed.
Lemma nf_try : forall S X A B (f : M S (result X A)) (g : A -> M S (result X B)), nf f -> (forall a, nf (g a)) -> nf (bind_try f g).
Proof. intros S X A B f g Nf Ng. apply nf_bind; auto. intros [a|e]; [apply Ng|intros s; discriminate]. Qed.
Lemma nf_ret : forall S A (a : A), nf (S := S) (ret a).
Proof. intros S A a s. discriminate. Qed.
Lemma nf_panic : forall S A, nf (S := S) (A := A) panic.
Proof. intros S A s. discriminate. Qed.
Lemma nf_lift : forall S A (o : out A), o <> Fuel -> nf (S := S) (lift o).
Proof. intros S A o N s. exact N. Qed.
Lemma nf_on : forall A (m : M St A), nf m -> nf (on_storage m).
Proof. intros A m N [n s]. unfold on_storage. cbn [sp_storage]. specialize (N s). destruct (m s). exact N. Qed.
Lemma nf_obind : forall A B (o : out A) (f : A -> out B), o <> Fuel -> (forall a, f a <> Fuel) -> obind o f <> Fuel.
Proof. intros A B [a| |] f N Nf; cbn [obind]; [apply Nf|discriminate|congruence]. Qed.
Lemma nf_assert : forall b, assert b <> Fuel.
Proof. intros []; discriminate. Qed.
Lemma nf_dassert : forall b, debug_assert pr b <> Fuel.
Proof. intros []; unfold debug_assert; destruct (debug_assertions pr); discriminate. Qed.
Lemma nf_u64 : forall z, u64_ovf pr z <> Fuel.
Proof. intros z. unfold u64_ovf. destruct (in_u64 z); [discriminate|]. destruct (overflow_checks pr); discriminate. Qed.
Lemma nf_u32 : forall z, u32_ovf pr z <> Fuel.
Proof. intros z. unfold u32_ovf. destruct ((0 <=? z) && (z <? 2 ^ 32)); [discriminate|]. destruct (overflow_checks pr); discriminate. Qed.
Lemma nf_usize : forall z, usize_ovf pr z <> Fuel.
Proof. intros z. unfold usize_ovf. destruct (usize_width pr); [apply nf_u32|apply nf_u64]. Qed.
Lemma nf_leaf_key : forall n, snode_leaf_key n <> Fuel.
Proof. intros n. unfold snode_leaf_key. apply nf_obind; [apply nf_assert|discriminate]. Qed.
Lemma nf_prefix : forall n a b i, common_prefix_loop a b n i <> Fuel.
Proof.
  induction n as [|n IH]; intros a b i; cbn [common_prefix_loop]; [discriminate|].
  destruct (get_bit_at_index_from_msb a i); [|discriminate]. destruct (get_bit_at_index_from_msb b i); [|discriminate].
  destruct (bit_eqb b0 b1); [|discriminate]. apply nf_obind; [apply IH|discriminate].
Qed.
Lemma nf_common : forall a b, snode_common_path_length pr a b <> Fuel.
Proof.
  intros a b. unfold snode_common_path_length. apply nf_obind; [apply nf_dassert|]. intros _. apply nf_obind; [apply nf_dassert|]. intros _.
  destruct (snode_is_placeholder a || snode_is_placeholder b); [discriminate|]. apply nf_obind; [apply nf_leaf_key|]. intros ka.
  apply nf_obind; [apply nf_leaf_key|]. intros kb. apply nf_prefix.
Qed.
Lemma nf_join_instr : forall k d a b h, join_by_instruction H k d a b h <> Fuel.
Proof. intros k d a b h. unfold join_by_instruction. destruct (get_instruction k d) as [[|]|]; discriminate. Qed.
Lemma nf_create : forall k a b, snode_create_node_on_path H pr k a b <> Fuel.
Proof.
  intros k a b. unfold snode_create_node_on_path. destruct (snode_is_leaf a && snode_is_leaf b).
  - apply nf_obind; [apply nf_common|]. intros d. apply nf_obind; [apply nf_usize|]. intros h. apply nf_join_instr.
  - apply nf_obind; [apply nf_u32|]. intros h. apply nf_obind; [apply nf_usize|]. intros d. apply nf_join_instr.
Qed.
Lemma nf_insert : forall k v, nf (sst_insert st k v).
Proof. intros k v s. unfold sst_insert. destruct (s_insert st k v s) as [s' [a|e]]; discriminate. Qed.
Lemma nf_remove : forall k, nf (sst_remove st k).
Proof. intros k s. unfold sst_remove. destruct (s_remove st k s) as [s' [a|e]]; discriminate. Qed.
Lemma nf_get : forall k, nf (sst_get st k).
Proof. intros k s. unfold sst_get. destruct (s_get st k s) as [s' [a|e]]; discriminate. Qed.
Lemma nf_join : forall k a b, nf (join_and_store H pr st k a b).
Proof. intros k a b. unfold join_and_store. apply nf_bind; [apply nf_lift, nf_create|]. intros n. apply nf_try; [apply nf_insert|]. intros _. apply nf_ret. Qed.
Lemma nf_merge : forall k l n, nf (merge_side_nodes H pr st k n l).
Proof.
  intros k. induction l as [|a l IH]; intros n; cbn [merge_side_nodes]; [apply nf_ret|]. apply nf_try; [apply nf_join|exact IH].
Qed.
Lemma nf_remove_path : forall l, nf (remove_path_nodes H st l).
Proof. induction l as [|a l IH]; cbn [remove_path_nodes]; [apply nf_ret|]. apply nf_try; [apply nf_remove|intros _; exact IH]. Qed.
Lemma nf_read : forall k, nf (read_child st k).
Proof.
  intros k s. unfold read_child. destruct (b32_eqb k zero_sum); [discriminate|].
  destruct (s_get st k s) as [s' [[p|]|e]]; try discriminate. destruct (snode_try_from p); discriminate.
Qed.
Lemma nf_left : forall n, nf (storage_node_left_child st n).
Proof.
  intros n. unfold storage_node_left_child. destruct (snode_is_leaf n); [apply nf_ret|]. apply nf_bind; [|apply nf_read].
  apply nf_lift. unfold snode_left_child_key. apply nf_obind; [apply nf_assert|discriminate].
Qed.
Lemma nf_right : forall n, nf (storage_node_right_child st n).
Proof.
  intros n. unfold storage_node_right_child. destruct (snode_is_leaf n); [apply nf_ret|]. apply nf_bind; [|apply nf_read].
  apply nf_lift. unfold snode_right_child_key. apply nf_obind; [apply nf_assert|discriminate].
Qed.
Lemma nf_pn_key : forall leaf, pn_leaf_key (StorageNode st) leaf <> Fuel.
Proof. intros leaf. cbn [pn_leaf_key StorageNode]. apply nf_obind; [apply nf_leaf_key|discriminate]. Qed.

Lemma instruction_short : forall (a : list byte) i j, length a = 32%nat -> 0 <= i -> get_instruction a i = Some j -> i < 256.
Proof.
  intros a i j L I0 G. unfold get_instruction, get_bit_at_index_from_msb, slice_get in G.
  destruct (Z.ltb_spec i 256) as [|B]; auto. exfalso.
  replace (i / 8 <? Z.of_nat (length a)) with false in G by lia. discriminate.
Qed.

(** How many items the iterator can still yield. *)
Definition budget (it : PathIter SNode (SChildError E)) : nat :=
  match it_current it with None => 0%nat | Some _ => S (Z.to_nat (256 - it_current_offset it)) end.

Lemma next_budget : forall it s s' x it', 0 <= it_current_offset it ->
  path_iter_next (StorageNode st) it s = (s', Val (Some x, it')) ->
  (budget it' < budget it)%nat /\ 0 <= it_current_offset it'.
Proof.
  intros it s s' x it' I0 R. unfold path_iter_next in R.
  destruct (it_current it) as [[[n|e] side]|] eqn:C; [| |discriminate].
  2:{ injection R as _ _ <-. unfold budget. rewrite C. cbn. lia. }
  assert (Stop : forall o, (ret (Some (Ok n, side), Build_PathIter (it_leaf it) None o)) s = (s', Val (Some x, it')) ->
     o = it_current_offset it -> (budget it' < budget it)%nat /\ 0 <= it_current_offset it').
  { intros o R' ->. injection R' as _ _ <-. unfold budget. rewrite C. cbn. lia. }
  destruct (pn_is_node (StorageNode st) n); [|exact (Stop _ R eq_refl)].
  unfold bind at 1 in R. unfold lift in R.
  destruct (pn_leaf_key (StorageNode st) (it_leaf it)) as [path| |] eqn:K; try discriminate.
  assert (Lp : length path = 32%nat).
  { cbn [pn_leaf_key StorageNode] in K. destruct (snode_leaf_key (it_leaf it)) as [k| |]; try discriminate. cbn [obind] in K.
    injection K as <-. apply b32_length. }
  destruct (get_instruction path (it_current_offset it)) as [j|] eqn:G; [|exact (Stop _ R eq_refl)].
  pose proof (instruction_short path _ j Lp I0 G) as Lt.
  assert (Go : forall a b c d, it' = Build_PathIter (CE := SChildError E) a (Some (b, c)) d -> d = it_current_offset it + 1 ->
     (budget it' < budget it)%nat /\ 0 <= it_current_offset it').
  { intros a b c d -> ->. unfold budget. rewrite C. cbn [it_current it_current_offset]. lia. }
  destruct j; unfold bind in R.
  - destruct (pn_left_child (StorageNode st) n s) as [s1 [l| |]]; try discriminate.
    destruct (pn_right_child (StorageNode st) n s1) as [s2 [r| |]]; try discriminate.
    injection R as _ _ <-. eapply Go; reflexivity.
  - destruct (pn_right_child (StorageNode st) n s) as [s1 [r| |]]; try discriminate.
    destruct (pn_left_child (StorageNode st) n s1) as [s2 [l| |]]; try discriminate.
    injection R as _ _ <-. eapply Go; reflexivity.
Qed.

Lemma nf_next : forall it, nf (path_iter_next (StorageNode st) it).
Proof.
  intros it. unfold path_iter_next. destruct (it_current it) as [[[n|e] side]|]; try apply nf_ret.
  destruct (pn_is_node (StorageNode st) n); [|apply nf_ret]. apply nf_bind; [apply nf_lift, nf_pn_key|]. intros path.
  destruct (get_instruction path (it_current_offset it)) as [[|]|]; [| |apply nf_ret].
  - apply nf_bind; [apply nf_left|]. intros l. apply nf_bind; [apply nf_right|]. intros r. apply nf_ret.
  - apply nf_bind; [apply nf_right|]. intros l. apply nf_bind; [apply nf_left|]. intros r. apply nf_ret.
Qed.

Lemma collect_ends : forall fuel it s, (budget it < fuel)%nat -> 0 <= it_current_offset it ->
  snd (path_set_collect st fuel it s) <> Fuel /\
  forall s' l, path_set_collect st fuel it s = (s', Val (Ok l)) -> (length l <= budget it)%nat.
Proof.
  induction fuel as [|f IH]; intros it s B I0; [lia|]. cbn [path_set_collect]. unfold bind.
  pose proof (nf_next it s) as Nn.
  destruct (path_iter_next (StorageNode st) it s) as [s1 [[[[pn sn]|] it']| |]] eqn:Nx; cbn [snd] in *; try congruence.
  - destruct (next_budget it s s1 _ it' I0 Nx) as [Lb I1].
    destruct pn as [pn|e]; [|split; [discriminate|intros s' l R; discriminate]].
    destruct sn as [sn|e]; [|split; [discriminate|intros s' l R; discriminate]].
    destruct (IH it' s1 ltac:(lia) I1) as [Nf Ln]. unfold bind_try, bind.
    destruct (path_set_collect st f it' s1) as [s2 [[l2|e]| |]]; cbn [snd] in *; try congruence.
    + split; [discriminate|]. intros s' l R. injection R as <- <-. cbn [length]. specialize (Ln s2 l2 eq_refl). lia.
    + split; [discriminate|]. intros s' l R. discriminate.
    + split; [discriminate|]. intros s' l R. discriminate.
  - split; [discriminate|]. intros s' l R. injection R as <- <-. cbn [length]. lia.
  - split; [discriminate|]. intros s' l R. discriminate.
Qed.

Lemma path_set_ends : forall root leaf s, snd (path_set pr st root leaf s) <> Fuel /\
  forall s' ps ss, path_set pr st root leaf s = (s', Val (Ok (ps, ss))) -> (length ps <= 257)%nat /\ (length ss <= 256)%nat.
Proof.
  intros root leaf s. unfold path_set, path_iter_new. cbn [pn_key_size_in_bits pn_height StorageNode].
  unfold bind, bind_try, bind, lift.
  destruct (usize_ovf pr (max_height - sn_height root)) as [o| |] eqn:O; cbn [obind snd];
    [|split; [discriminate|intros; discriminate]|exfalso; exact (nf_usize _ O)].
  assert (O0 : 0 <= o).
  { exact (usize_nonneg _ _ _ O). }
  set (it := Build_PathIter leaf _ o). assert (Bi : (budget it <= 257)%nat) by (unfold budget; cbn [it_current it_current_offset it]; lia).
  destruct (collect_ends 258 it s ltac:(lia) O0) as [Nf Ln].
  destruct (path_set_collect st 258 it s) as [s2 [[l2|e]| |]]; cbn [snd] in *; try congruence;
    (split; [discriminate|]); intros s' ps ss R; try discriminate.
  specialize (Ln s2 l2 eq_refl). injection R as <- <- <-. rewrite rev_length, map_length.
  split; [lia|].
  assert (Q : forall A (x : list A), (length (removelast x) <= Nat.pred (length x))%nat).
  { intros A. induction x as [|a [|b x] IHx]; cbn [removelast length] in *; lia. }
  specialize (Q _ (rev (map snd l2))). rewrite rev_length, map_length in Q. lia.
Qed.
Lemma nf_path_set : forall root leaf, nf (path_set pr st root leaf).
Proof. intros root leaf s. apply path_set_ends. Qed.
Lemma nf_set : forall n, nf (S := SpTree St) (sp_set_root_node pr n).
Proof. intros n. unfold sp_set_root_node. apply nf_bind; [apply nf_lift, nf_dassert|]. intros _ t. discriminate. Qed.

Lemma nf_update_path : forall leaf ps ss, nf (update_with_path_set H pr st leaf ps ss).
Proof.
  intros leaf ps ss. unfold update_with_path_set. apply nf_bind; [apply nf_lift, nf_leaf_key|]. intros path.
  destruct ps as [|a ps]; [apply nf_panic|]. apply nf_bind; [apply nf_lift, nf_leaf_key|]. intros ak. apply nf_try.
  - destruct (negb (b32_eqb path ak)); [|apply nf_ret]. apply nf_try.
    + destruct (negb (snode_is_placeholder a)); [apply nf_on, nf_join|apply nf_ret].
    + intros c. apply nf_bind; [apply nf_lift, nf_common|]. intros d. apply nf_on, nf_merge.
  - intros c. apply nf_try; [apply nf_on, nf_merge|]. intros c'. apply nf_bind; [apply nf_set|]. intros _. apply nf_ret.
Qed.
Lemma nf_delete_path : forall leaf ps ss, nf (delete_with_path_set H pr st leaf ps ss).
Proof.
  intros leaf ps ss. unfold delete_with_path_set. apply nf_try; [apply nf_on, nf_remove_path|]. intros _.
  apply nf_bind; [apply nf_lift, nf_leaf_key|]. intros path. apply nf_try.
  - destruct ss as [|f rest]; [apply nf_ret|]. destruct (snode_is_leaf f); [|apply nf_ret].
    destruct (find_non_placeholder rest) as [[n|] r']; [|apply nf_ret]. apply nf_try; [apply nf_on, nf_join|]. intros c. apply nf_ret.
  - intros [c ss']. apply nf_try; [apply nf_on, nf_merge|]. intros c'. apply nf_bind; [apply nf_set|]. intros _. apply nf_ret.
Qed.
Lemma nf_delete : forall k, nf (sp_delete H pr st k).
Proof.
  intros k. unfold sp_delete. apply nf_bind; [intros t; discriminate|]. intros t0.
  destruct (b32_eqb (sp_root H t0) zero_sum); [apply nf_ret|].
  apply nf_try; [apply nf_on, nf_get|]. intros [p|]; [|apply nf_ret].
  destruct (snode_try_from p); [|apply nf_ret].
  apply nf_try; [apply nf_on, nf_path_set|]. intros [ps ss]. apply nf_delete_path.
Qed.
Lemma nf_update : forall k v, nf (sp_update H pr st k v).
Proof.
  intros k [|b v]; unfold sp_update.
  - apply nf_try; [apply nf_delete|]. intros _. apply nf_ret.
  - cbv zeta. apply nf_try; [apply nf_on, nf_insert|]. intros _. apply nf_bind; [apply nf_lift, nf_leaf_key|]. intros lk.
    apply nf_try; [apply nf_on, nf_insert|]. intros _. apply nf_bind; [intros t; discriminate|]. intros t0.
    destruct (snode_is_placeholder (sp_root_node t0)); [apply nf_bind; [apply nf_set|intros _; apply nf_ret]|].
    apply nf_try; [apply nf_on, nf_path_set|]. intros [ps ss]. apply nf_update_path.
Qed.
Lemma nf_load : forall r, nf (sp_load st r).
Proof.
  intros r. unfold sp_load. apply nf_try; [apply nf_get|]. intros [p|]; [|apply nf_ret].
  destruct (snode_try_from p); [|apply nf_ret]. apply nf_bind; [intros t; discriminate|]. intros s. apply nf_ret.
Qed.
Theorem apply_ends : forall o t, snd (sp_apply H pr st o t) <> Fuel.
Proof. intros [k v|k] t; cbn [sp_apply]; [apply nf_update|apply nf_delete]. Qed.

End Any.
