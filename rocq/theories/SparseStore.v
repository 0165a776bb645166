(** SparseStore.v -- what the storage of a sparse tree holds. *)
From Verif Require Import Base Storage ModelCommon ModelSparse SpecBits SpecBinary SpecSparse SpecStore RunsSparse
  BindingProofs BitsProofs CommonProofs SparseSpecFacts SparseNodes SparseProofs SparseOps SparseSteps SparseMain
  SparseEntries SparseTheorems.
From Coq Require Import Arith ZifyBool ZifyNat ZifyN.
Arguments Z.pow : simpl never.
Arguments Z.mul : simpl never.
Arguments Z.add : simpl never.
Arguments Z.sub : simpl never.

(** * Every entry authenticates itself, whatever happens *)
Section Auth.
Variable H : list byte -> bytes32.
Variable pr : profile.
Context {St E : Type}.
Variable st : StorageT St bytes32 SPrimitive E.
Variable view : St -> bytes32 -> option SPrimitive.
Hypothesis Law : Lawful st view.
Variable os : list sp_op.

Definition auth (s : St) : Prop := forall k p, view s k = Some p -> authentic H os k p.
Definition kp {A} (f : M St A) : Prop := forall s, auth s -> auth (fst (f s)).
Definition kpt {A} (f : M (SpTree St) A) : Prop := forall t, auth (sp_storage t) -> auth (sp_storage (fst (f t))).

Lemma kp_bind : forall A B (f : M St A) (g : A -> M St B), kp f -> (forall a, kp (g a)) -> kp (bind f g).
Proof.
  intros A B f g Kf Kg s As. specialize (Kf s As). unfold bind. destruct (f s) as [s1 [a| |]]; cbn [fst] in *; auto.
  apply Kg. exact Kf.
Qed.
Lemma kp_try : forall X A B (f : M St (result X A)) (g : A -> M St (result X B)), kp f -> (forall a, kp (g a)) -> kp (bind_try f g).
Proof. intros X A B f g Kf Kg. apply kp_bind; [exact Kf|]. intros [a|e]; [apply Kg|]. intros s As. exact As. Qed.
Lemma kp_ret : forall A (a : A), kp (ret a).
Proof. intros A a s As. exact As. Qed.
Lemma kp_lift : forall A (a : out A), kp (lift a).
Proof. intros A a s As. exact As. Qed.
Lemma kpt_bind : forall A B (f : M (SpTree St) A) (g : A -> M (SpTree St) B), kpt f -> (forall a, kpt (g a)) -> kpt (bind f g).
Proof.
  intros A B f g Kf Kg s As. specialize (Kf s As). unfold bind. destruct (f s) as [s1 [a| |]]; cbn [fst] in *; auto.
  apply Kg. exact Kf.
Qed.
Lemma kpt_try : forall X A B (f : M (SpTree St) (result X A)) (g : A -> M (SpTree St) (result X B)), kpt f -> (forall a, kpt (g a)) -> kpt (bind_try f g).
Proof. intros X A B f g Kf Kg. apply kpt_bind; [exact Kf|]. intros [a|e]; [apply Kg|]. intros s As. exact As. Qed.
Lemma kpt_ret : forall A (a : A), kpt (ret a).
Proof. intros A a s As. exact As. Qed.
Lemma kpt_lift : forall A (a : out A), kpt (lift a).
Proof. intros A a s As. exact As. Qed.
Lemma kpt_on : forall A (m : M St A), kp m -> kpt (on_storage m).
Proof. intros A m K t As. specialize (K (sp_storage t) As). unfold on_storage. destruct (m (sp_storage t)). exact K. Qed.
Lemma kpt_get : kpt get_state.
Proof. intros t As. exact As. Qed.
Lemma kpt_set : forall n, kpt (sp_set_root_node pr n).
Proof.
  intros n t As. unfold sp_set_root_node, bind, lift, get_state, put_state.
  destruct (debug_assert pr (snode_is_leaf n || (sn_height n =? max_height))); exact As.
Qed.

Lemma auth_same : forall s s', (forall k, view s' k = view s k) -> auth s -> auth s'.
Proof. intros s s' X A k p. rewrite X. apply A. Qed.
Lemma auth_get : forall k s s' r, s_get st k s = (s', r) -> auth s -> auth s'.
Proof. intros k s s' r G. apply auth_same. exact (law_get_view _ _ Law _ _ _ _ G). Qed.
Lemma kp_get : forall k, kp (sst_get st k).
Proof. intros k s As. unfold sst_get. destruct (s_get st k s) as [s' [o|e]] eqn:G; exact (auth_get _ _ _ _ G As). Qed.
Lemma kp_insert : forall k p, authentic H os k p -> kp (sst_insert st k p).
Proof.
  intros k p Ap s As. unfold sst_insert.
  assert (W : forall s', (forall k', view s' k' = view s k') \/ (view s' k = Some p /\ forall k', k' <> k -> view s' k' = view s k') -> auth s').
  { intros s' [X|[X Y]]; [exact (auth_same _ _ X As)|]. intros k' p' V. destruct (b32_eqb_cases k' k) as [[_ ->]|[_ N]].
    - rewrite X in V. injection V as <-. exact Ap.
    - rewrite Y in V by exact N. exact (As _ _ V). }
  destruct (s_insert st k p s) as [s' [o|e]] eqn:G; cbn [fst]; apply W.
  - right. exact (proj2 (law_insert_ok _ _ Law _ _ _ _ _ G)).
  - exact (law_insert_err _ _ Law _ _ _ _ _ G).
Qed.
Lemma kp_remove : forall k, kp (sst_remove st k).
Proof.
  intros k s As. unfold sst_remove.
  assert (W : forall s', (forall k', view s' k' = view s k') \/ (view s' k = None /\ forall k', k' <> k -> view s' k' = view s k') -> auth s').
  { intros s' [X|[X Y]]; [exact (auth_same _ _ X As)|]. intros k' p' V. destruct (b32_eqb_cases k' k) as [[_ ->]|[_ N]].
    - rewrite X in V. discriminate.
    - rewrite Y in V by exact N. exact (As _ _ V). }
  destruct (s_remove st k s) as [s' [o|e]] eqn:G; cbn [fst]; apply W.
  - right. exact (proj2 (law_remove_ok _ _ Law _ _ _ _ G)).
  - exact (law_remove_err _ _ Law _ _ _ _ G).
Qed.

Lemma hash_entry : forall n, snode_hash H n = entry_hash H (prefix_byte (sn_prefix n)) (sn_bytes_lo n) (sn_bytes_hi n).
Proof. intros n. apply (node_hash_entry H (sn_height n)). destruct n as [h [] lo hi]; reflexivity. Qed.
Lemma node_authentic : forall n, sn_prefix n = PNode -> authentic H os (snode_hash H n) (sprim_of_node n).
Proof. intros n Pn. unfold sprim_of_node. cbn. rewrite hash_entry, Pn. right. auto. Qed.
Lemma instr_prefix : forall k d a b h n, join_by_instruction H k d a b h = Val n -> sn_prefix n = PNode.
Proof. intros k d a b h n R. unfold join_by_instruction in R. destruct (get_instruction k d) as [[]|]; try discriminate; injection R as <-; reflexivity. Qed.
Lemma create_prefix : forall k a b n, snode_create_node_on_path H pr k a b = Val n -> sn_prefix n = PNode.
Proof.
  intros k a b n R. unfold snode_create_node_on_path in R. destruct (snode_is_leaf a && snode_is_leaf b).
  - destruct (snode_common_path_length pr a b) as [d| |]; try discriminate. cbn [obind] in R.
    destruct (usize_ovf pr (max_height - d)) as [h| |]; try discriminate. exact (instr_prefix _ _ _ _ _ _ R).
  - destruct (u32_ovf pr _) as [h| |]; try discriminate. cbn [obind] in R.
    destruct (usize_ovf pr (max_height - h)) as [d| |]; try discriminate. exact (instr_prefix _ _ _ _ _ _ R).
Qed.

Lemma kp_read : forall k, kp (read_child st k).
Proof.
  intros k. unfold read_child. destruct (b32_eqb k zero_sum); [apply kp_ret|]. intros s As.
  destruct (s_get st k s) as [s' [[p|]|e]] eqn:G; [destruct (snode_try_from p)| |]; exact (auth_get _ _ _ _ G As).
Qed.
Lemma kp_left : forall n, kp (storage_node_left_child st n).
Proof.
  intros n. unfold storage_node_left_child. destruct (snode_is_leaf n); [apply kp_ret|].
  apply kp_bind; [apply kp_lift|]. intros k. apply kp_read.
Qed.
Lemma kp_right : forall n, kp (storage_node_right_child st n).
Proof.
  intros n. unfold storage_node_right_child. destruct (snode_is_leaf n); [apply kp_ret|].
  apply kp_bind; [apply kp_lift|]. intros k. apply kp_read.
Qed.
Lemma kp_next : forall it, kp (path_iter_next (StorageNode st) it).
Proof.
  intros it. unfold path_iter_next.
  repeat match goal with
  | |- kp (bind _ _) => apply kp_bind; [|intros ?]
  | |- kp (ret _) => apply kp_ret
  | |- kp (lift _) => apply kp_lift
  | |- kp (pn_left_child _ _) => apply kp_left
  | |- kp (pn_right_child _ _) => apply kp_right
  | |- kp (match ?x with _ => _ end) => destruct x
  | |- kp (if ?x then _ else _) => destruct x
  end.
Qed.
Lemma kp_collect : forall fuel it, kp (path_set_collect st fuel it).
Proof.
  induction fuel as [|f IH]; intros it; cbn [path_set_collect]; [intros s As; exact As|].
  apply kp_bind; [apply kp_next|]. intros [[[[p|e] [sd|e']]|] it']; try apply kp_ret.
  apply kp_try; [apply IH|]. intros r. apply kp_ret.
Qed.
Lemma kp_path_set : forall root leaf, kp (path_set pr st root leaf).
Proof.
  intros root leaf. unfold path_set. apply kp_bind; [apply kp_lift|]. intros it.
  apply kp_try; [apply kp_collect|]. intros items. apply kp_ret.
Qed.
Lemma kp_join : forall k a b, kp (join_and_store H pr st k a b).
Proof.
  intros k a b s As. unfold join_and_store. unfold bind at 1, lift at 1.
  destruct (snode_create_node_on_path H pr k a b) as [n| |] eqn:R; try exact As.
  apply (kp_try _ _ _ (sst_insert st (snode_hash H n) (sprim_of_node n))); auto.
  - apply kp_insert. apply node_authentic. exact (create_prefix _ _ _ _ R).
  - intros []. apply kp_ret.
Qed.
Lemma kp_merge : forall k l n, kp (merge_side_nodes H pr st k n l).
Proof.
  intros k. induction l as [|x l IH]; intros n; cbn [merge_side_nodes]; [apply kp_ret|].
  apply kp_try; [apply kp_join|]. intros n'. apply IH.
Qed.
Lemma kp_remove_path : forall l, kp (remove_path_nodes H st l).
Proof.
  induction l as [|x l IH]; cbn [remove_path_nodes]; [apply kp_ret|].
  apply kp_try; [apply kp_remove|]. intros []. exact IH.
Qed.
Lemma kpt_update_path : forall leaf ps ss, kpt (update_with_path_set H pr st leaf ps ss).
Proof.
  intros leaf ps ss. unfold update_with_path_set. apply kpt_bind; [apply kpt_lift|]. intros path.
  destruct ps as [|a ps]; [intros t As; exact As|].
  apply kpt_bind; [apply kpt_lift|]. intros ak. apply kpt_try.
  - destruct (negb (b32_eqb path ak)); [|apply kpt_ret]. apply kpt_try.
    + destruct (negb (snode_is_placeholder a)); [apply kpt_on, kp_join|apply kpt_ret].
    + intros c. apply kpt_bind; [apply kpt_lift|]. intros d. apply kpt_on, kp_merge.
  - intros c. apply kpt_try; [apply kpt_on, kp_merge|]. intros c'. apply kpt_bind; [apply kpt_set|]. intros []. apply kpt_ret.
Qed.
Lemma kpt_delete_path : forall leaf ps ss, kpt (delete_with_path_set H pr st leaf ps ss).
Proof.
  intros leaf ps ss. unfold delete_with_path_set. apply kpt_try; [apply kpt_on, kp_remove_path|]. intros _.
  apply kpt_bind; [apply kpt_lift|]. intros path. apply kpt_try.
  - destruct ss as [|f rest]; [apply kpt_ret|]. destruct (snode_is_leaf f); [|apply kpt_ret].
    destruct (find_non_placeholder rest) as [[n|] r']; [|apply kpt_ret]. apply kpt_try; [apply kpt_on, kp_join|]. intros c. apply kpt_ret.
  - intros [c ss']. apply kpt_try; [apply kpt_on, kp_merge|]. intros c'. apply kpt_bind; [apply kpt_set|]. intros []. apply kpt_ret.
Qed.
Lemma kpt_delete : forall k, kpt (sp_delete H pr st k).
Proof.
  intros k. unfold sp_delete. apply kpt_bind; [apply kpt_get|]. intros t0.
  destruct (b32_eqb (sp_root H t0) zero_sum); [apply kpt_ret|].
  apply kpt_try; [apply kpt_on, kp_get|]. intros [p|]; [|apply kpt_ret].
  destruct (snode_try_from p); [|apply kpt_ret].
  apply kpt_try; [apply kpt_on, kp_path_set|]. intros [ps ss]. apply kpt_delete_path.
Qed.
Lemma kpt_update : forall k v, In (Update k v) os -> kpt (sp_update H pr st k v).
Proof.
  intros k [|b v] Io; unfold sp_update.
  - apply kpt_try; [apply kpt_delete|]. intros []. apply kpt_ret.
  - cbv zeta.
    assert (L : forall key, key = k \/ key = snode_hash H (snode_create_leaf H k (b :: v)) ->
      authentic H os key (sprim_of_node (snode_create_leaf H k (b :: v)))).
    { intros key Q. rewrite hash_entry in Q. left. split; [reflexivity|]. split; [reflexivity|]. split; [|exact Q].
      exists (b :: v). split; [exact Io|]. split; [discriminate|reflexivity]. }
    apply kpt_try; [apply kpt_on, kp_insert, L; auto|]. intros [].
    unfold snode_leaf_key. change (snode_is_leaf (snode_create_leaf H k (b :: v))) with true. cbn [assert obind].
    rewrite bind_val. change (sn_bytes_lo (snode_create_leaf H k (b :: v))) with k.
    apply kpt_try; [apply kpt_on, kp_insert, L; auto|]. intros [].
    apply kpt_bind; [apply kpt_get|]. intros t0.
    destruct (snode_is_placeholder (sp_root_node t0)).
    + apply kpt_bind; [apply kpt_set|]. intros []. apply kpt_ret.
    + apply kpt_try; [apply kpt_on, kp_path_set|]. intros [ps ss]. apply kpt_update_path.
Qed.
Lemma kpt_apply : forall o, In o os -> kpt (sp_apply H pr st o).
Proof. intros [k v|k] Io; cbn [sp_apply]; [apply kpt_update; exact Io|apply kpt_delete]. Qed.
Lemma kpt_run : forall os', (forall o, In o os' -> In o os) -> kpt (sp_run_all H pr st os').
Proof.
  induction os' as [|o os' IH]; intros Io; cbn [sp_run_all]; [apply kpt_ret|].
  apply kpt_bind; [apply kpt_apply, Io; left; reflexivity|]. intros r.
  apply kpt_bind; [apply IH; intros o' Io'; apply Io; right; exact Io'|]. intros rs. apply kpt_ret.
Qed.
End Auth.

(** * Statements *)
Section Statements.
Variable H : list byte -> bytes32.
Variable pr : profile.
Context {St E : Type}.
Variable st : StorageT St bytes32 SPrimitive E.
Variable view : St -> bytes32 -> option SPrimitive.
Hypothesis Law : Lawful st view.

Lemma C70_lemma : forall os s0 t o, (forall k, view s0 k = None) ->
  sp_run_all H pr st os (sp_new s0) = (t, o) ->
  forall k p, view (sp_storage t) k = Some p -> authentic H os k p.
Proof.
  intros os s0 t o Em R. pose proof (kpt_run H pr st view Law os os (fun _ I => I) (sp_new s0)) as K.
  rewrite R in K. apply K. intros k p V. cbn in V. rewrite Em in V. discriminate.
Qed.

Lemma C70_load_lemma : forall os s0 t o r s' t', (forall k, view s0 k = None) ->
  sp_run_all H pr st os (sp_new s0) = (t, o) ->
  sp_load st r (sp_storage t) = (s', Val (Ok t')) ->
  sp_root H t' = r \/
  exists v, In (Update r v) os /\ v <> [] /\ sp_root H t' = entry_hash H x00 r (H v).
Proof.
  intros os s0 t o r s' t' Em R Ld. destruct (load_exact H st r (sp_storage t)) as (s1 & g & res & G & L & _ & _ & _ & _ & _ & Rt).
  rewrite Ld in L. injection L as <- <-. destruct (Rt t' eq_refl) as (_ & h & b & lo & hi & -> & Q).
  pose proof (law_get_ok _ _ Law _ _ _ _ G) as Vw.
  pose proof (C70_lemma os s0 t o Em R r _ (eq_sym Vw)) as A. cbn in A. rewrite Q.
  destruct A as [(-> & _ & (v & Io & Ne & ->) & [<-|A])|[-> A]]; auto.
  right. exists v. auto.
Qed.

Lemma C71_lemma : forall os s0 t, (forall k, view s0 k = None) -> clean [] [] os ->
  hash_ok H (map op_key os) (maps [] os) ->
  sp_run H pr st os (sp_new s0) = (t, Val (Ok tt)) ->
  (forall k d, (d <= 256)%nat -> agree d k (digests H (final os)) <> [] ->
     exists entry, tree_entry H d k (digests H (final os)) entry /\
       view (sp_storage t) (smt H (256 - d) d (agree d k (digests H (final os)))) = Some entry) /\
  (forall k v, In (k, v) (final os) -> view (sp_storage t) k = Some (0, x00, k, H v)).
Proof.
  intros os s0 t Em Cl Ok0 R.
  destruct (run_new_ok H pr st view Law _ _ os s0 t Ok0 (fun k Ik => Ik) (fun m Im => Im) Em Cl R) as (W & Sd & Ex).
  destruct (setup H _ _ Ok0) as (HC & HZ & Fr & _). split.
  - intros k d Ld NE. set (l := digests H (final os)) in *.
    assert (Ld' : (d <= KB)%nat) by (rewrite KB_eq; lia).
    assert (Nd : NoDup (keys l)) by (unfold l; rewrite keys_digests; apply final_nodup).
    exists (sprim_of_node (nd H (P k d) l)). rewrite agree_sub in * by exact Ld'. split.
    + unfold tree_entry. rewrite agree_sub by exact Ld'. destruct (sub (P k d) l) as [|[k' h] [|e2 l2]] eqn:Es.
      * contradiction.
      * rewrite (nd_one H _ _ _ _ Es). reflexivity.
      * assert (L2 : (2 <= length (sub (P k d) l))%nat) by (rewrite Es; cbn [length]; lia).
        assert (Dl : (d < KB)%nat).
        { pose proof (sub_short (P k d) l Nd L2) as Q. rewrite P_length in Q by exact Ld'. exact Q. }
        split; [rewrite KB_eq in Dl; lia|]. rewrite (nd_two H _ _ L2). unfold inode, sprim_of_node.
        cbn [sn_height sn_prefix sn_bytes_lo sn_bytes_hi prefix_byte]. rewrite P_length by exact Ld'.
        rewrite <- Es. unfold T. rewrite !app_length, P_length by exact Ld'. cbn [length]. rewrite !Nat.add_1_r.
        replace (KB - S d)%nat with (256 - S d)%nat by (rewrite KB_eq; reflexivity).
        pose proof (sub_snoc (P k d) false l ltac:(rewrite P_length; lia)) as S1.
        pose proof (sub_snoc (P k d) true l ltac:(rewrite P_length; lia)) as S2.
        rewrite P_length in S1, S2 by exact Ld'. rewrite S1, S2. reflexivity.
    + pose proof (Sd (P k d) NE) as V. unfold T in V. rewrite P_length in V by exact Ld'.
      replace (KB - d)%nat with (256 - d)%nat in V by (rewrite KB_eq; reflexivity). exact V.
  - intros k v Ik. apply (Ex k v Ik). apply Fr.
    assert (Kw : In k (written os)) by (apply final_keys; apply in_map_iff; exists (k, v); auto).
    unfold written in Kw. apply in_concat in Kw. destruct Kw as (l & Il & Kl). apply in_map_iff in Il.
    destruct Il as (o & <- & Io). apply in_map_iff. exists o. split; [|exact Io].
    destruct o as [k' [|b v']|k']; cbn in Kl; try contradiction. destruct Kl as [<-|[]]. reflexivity.
Qed.
End Statements.
