(** SparseSim.v -- two sparse trees with the same root node and storages that answer alike behave
    the same, whatever their storages are made of.  No hash assumption, no assumption on the
    content. *)
From Verif Require Import Base Storage ModelCommon ModelSparse SpecSparse SpecAlike RunsSparse Sim SparseTheorems.

Section Sim.
Variable H : list byte -> bytes32.
Variable pr : profile.
Context {S1 S2 E : Type}.
Variable rel : S1 -> S2 -> Prop.
Variable st1 : StorageT S1 bytes32 SPrimitive E.
Variable st2 : StorageT S2 bytes32 SPrimitive E.
Hypothesis AG : gets_alike rel st1 st2.
Hypothesis AI : inserts_alike rel st1 st2.
Hypothesis AR : removes_alike rel st1 st2.
Notation trel := (sp_alike rel).

Lemma resp_on : forall C (f : M S1 C) g, resp rel f g -> resp trel (on_storage f) (on_storage g).
Proof.
  intros C f g F [n1 s1] [n2 s2] [Rn Rs]. cbn [sp_root_node sp_storage] in *. specialize (F s1 s2 Rs). unfold on_storage.
  cbn [sp_root_node sp_storage]. destruct (f s1), (g s2). cbn [fst snd] in *. destruct F as [A B]. split; [split; auto|exact B].
Qed.
Lemma resp_get : forall k, resp rel (sst_get st1 k) (sst_get st2 k).
Proof.
  intros k a b R. destruct (AG k a b R) as [R' Q]. unfold sst_get, runs_alike.
  destruct (s_get st1 k a) as [a' [o|e]], (s_get st2 k b) as [b' [o'|e']]; cbn [fst snd] in *; split; congruence || exact R'.
Qed.
Lemma resp_insert : forall k v, resp rel (sst_insert st1 k v) (sst_insert st2 k v).
Proof.
  intros k v a b R. destruct (AI k v a b R) as [R' Q]. unfold sst_insert, runs_alike.
  destruct (s_insert st1 k v a) as [a' [o|e]], (s_insert st2 k v b) as [b' [o'|e']]; cbn [fst snd same_kind] in *; split;
    try exact R'; try contradiction; congruence.
Qed.
Lemma resp_remove : forall k, resp rel (sst_remove st1 k) (sst_remove st2 k).
Proof.
  intros k a b R. destruct (AR k a b R) as [R' Q]. unfold sst_remove, runs_alike.
  destruct (s_remove st1 k a) as [a' [o|e]], (s_remove st2 k b) as [b' [o'|e']]; cbn [fst snd same_kind] in *; split;
    try exact R'; try contradiction; congruence.
Qed.
Lemma resp_read : forall k, resp rel (read_child st1 k) (read_child st2 k).
Proof.
  intros k. unfold read_child. destruct (b32_eqb k zero_sum); [apply resp_ret|]. intros a b R.
  destruct (AG k a b R) as [R' Q]. unfold runs_alike.
  destruct (s_get st1 k a) as [a' [o|e]], (s_get st2 k b) as [b' [o'|e']]; cbn [fst snd] in *; try discriminate.
  - injection Q as <-. destruct o as [p|]; [destruct (snode_try_from p)|]; split; auto.
  - injection Q as <-. split; auto.
Qed.
Lemma resp_left : forall n, resp rel (storage_node_left_child st1 n) (storage_node_left_child st2 n).
Proof. intros n. unfold storage_node_left_child. destruct (snode_is_leaf n); [apply resp_ret|]. apply resp_bind; [apply resp_lift|]. intros k. apply resp_read. Qed.
Lemma resp_right : forall n, resp rel (storage_node_right_child st1 n) (storage_node_right_child st2 n).
Proof. intros n. unfold storage_node_right_child. destruct (snode_is_leaf n); [apply resp_ret|]. apply resp_bind; [apply resp_lift|]. intros k. apply resp_read. Qed.

Lemma resp_next : forall it, resp rel (path_iter_next (StorageNode st1) it) (path_iter_next (StorageNode st2) it).
Proof.
  intros it. unfold path_iter_next. destruct (it_current it) as [[[n|e] side]|]; try apply resp_ret.
  cbn [pn_is_node pn_leaf_key pn_left_child pn_right_child StorageNode].
  destruct (snode_is_node n); [|apply resp_ret]. apply resp_bind; [apply resp_lift|]. intros path.
  destruct (get_instruction path (it_current_offset it)) as [[|]|]; [| |apply resp_ret].
  - apply resp_bind; [apply resp_left|]. intros l. apply resp_bind; [apply resp_right|]. intros r. apply resp_ret.
  - apply resp_bind; [apply resp_right|]. intros l. apply resp_bind; [apply resp_left|]. intros r. apply resp_ret.
Qed.
Lemma resp_collect : forall fuel it, resp rel (path_set_collect st1 fuel it) (path_set_collect st2 fuel it).
Proof.
  induction fuel as [|f IH]; intros it; cbn [path_set_collect]; [intros a b R; split; auto|].
  apply resp_bind; [apply resp_next|]. intros [[[pn sn]|] it']; [|apply resp_ret].
  destruct pn as [pn|e]; [|apply resp_ret]. destruct sn as [sn|e]; [|apply resp_ret].
  apply resp_try; [apply IH|]. intros l. apply resp_ret.
Qed.
Lemma resp_path_set : forall root leaf, resp rel (path_set pr st1 root leaf) (path_set pr st2 root leaf).
Proof.
  intros root leaf. unfold path_set. apply resp_bind; [exact (resp_lift _ _ _ rel _)|]. intros it.
  apply resp_try; [apply resp_collect|]. intros l. apply resp_ret.
Qed.
Lemma resp_join : forall k a b, resp rel (join_and_store H pr st1 k a b) (join_and_store H pr st2 k a b).
Proof.
  intros k a b. unfold join_and_store. apply resp_bind; [apply resp_lift|]. intros n. apply resp_try; [apply resp_insert|]. intros _. apply resp_ret.
Qed.
Lemma resp_merge : forall k l n, resp rel (merge_side_nodes H pr st1 k n l) (merge_side_nodes H pr st2 k n l).
Proof.
  intros k. induction l as [|a l IH]; intros n; cbn [merge_side_nodes]; [apply resp_ret|]. apply resp_try; [apply resp_join|exact IH].
Qed.
Lemma resp_remove_path : forall l, resp rel (remove_path_nodes H st1 l) (remove_path_nodes H st2 l).
Proof. induction l as [|a l IH]; cbn [remove_path_nodes]; [apply resp_ret|]. apply resp_try; [apply resp_remove|intros _; exact IH]. Qed.
Lemma resp_set : forall n, resp trel (sp_set_root_node pr n) (sp_set_root_node pr n).
Proof.
  intros n. unfold sp_set_root_node. apply resp_bind; [apply resp_lift|]. intros _ t1 t2 [Rn Rs]. cbn. split; [split; auto|reflexivity].
Qed.

Lemma resp_update_path : forall leaf ps ss, resp trel (update_with_path_set H pr st1 leaf ps ss) (update_with_path_set H pr st2 leaf ps ss).
Proof.
  intros leaf ps ss. unfold update_with_path_set. apply resp_bind; [apply resp_lift|]. intros path.
  destruct ps as [|a ps]; [apply resp_panic|]. apply resp_bind; [apply resp_lift|]. intros ak. apply resp_try.
  - destruct (negb (b32_eqb path ak)); [|apply resp_ret]. apply resp_try.
    + destruct (negb (snode_is_placeholder a)); [apply resp_on, resp_join|apply resp_ret].
    + intros c. apply resp_bind; [apply resp_lift|]. intros d. apply resp_on, resp_merge.
  - intros c. apply resp_try; [apply resp_on, resp_merge|]. intros c'. apply resp_bind; [apply resp_set|]. intros _. apply resp_ret.
Qed.
Lemma resp_delete_path : forall leaf ps ss, resp trel (delete_with_path_set H pr st1 leaf ps ss) (delete_with_path_set H pr st2 leaf ps ss).
Proof.
  intros leaf ps ss. unfold delete_with_path_set. apply resp_try; [apply resp_on, resp_remove_path|]. intros _.
  apply resp_bind; [apply resp_lift|]. intros path. apply resp_try.
  - destruct ss as [|f rest]; [apply resp_ret|]. destruct (snode_is_leaf f); [|apply resp_ret].
    destruct (find_non_placeholder rest) as [[n|] r']; [|apply resp_ret]. apply resp_try; [apply resp_on, resp_join|]. intros c. apply resp_ret.
  - intros [c ss']. apply resp_try; [apply resp_on, resp_merge|]. intros c'. apply resp_bind; [apply resp_set|]. intros _. apply resp_ret.
Qed.
Lemma resp_delete : forall k, resp trel (sp_delete H pr st1 k) (sp_delete H pr st2 k).
Proof.
  intros k. unfold sp_delete. apply resp_get_state. intros t1 t2 [Rn Rs]. unfold sp_root. rewrite Rn.
  destruct (b32_eqb (snode_hash H (sp_root_node t2)) zero_sum); [apply resp_ret|].
  apply resp_try; [apply resp_on, resp_get|]. intros [p|]; [|apply resp_ret].
  destruct (snode_try_from p); [|apply resp_ret].
  apply resp_try; [apply resp_on, resp_path_set|]. intros [ps ss]. apply resp_delete_path.
Qed.
Lemma resp_update : forall k v, resp trel (sp_update H pr st1 k v) (sp_update H pr st2 k v).
Proof.
  intros k [|b v]; unfold sp_update.
  - apply resp_try; [apply resp_delete|]. intros _. apply resp_ret.
  - cbv zeta. apply resp_try; [apply resp_on, resp_insert|]. intros _. apply resp_bind; [apply resp_lift|]. intros lk.
    apply resp_try; [apply resp_on, resp_insert|]. intros _. apply resp_get_state. intros t1 t2 [Rn Rs]. rewrite Rn.
    destruct (snode_is_placeholder (sp_root_node t2)); [apply resp_bind; [apply resp_set|intros _; apply resp_ret]|].
    apply resp_try; [apply resp_on, resp_path_set|]. intros [ps ss]. apply resp_update_path.
Qed.
Lemma resp_apply : forall o, resp trel (sp_apply H pr st1 o) (sp_apply H pr st2 o).
Proof. intros [k v|k]; cbn [sp_apply]; [apply resp_update|apply resp_delete]. Qed.
Lemma resp_run_all : forall os, resp trel (sp_run_all H pr st1 os) (sp_run_all H pr st2 os).
Proof.
  induction os as [|o os IH]; cbn [sp_run_all]; [apply resp_ret|]. apply resp_bind; [apply resp_apply|]. intros r.
  apply resp_bind; [exact IH|]. intros rs. apply resp_ret.
Qed.

Lemma sparse_alike : forall os t1 t2, sp_alike rel t1 t2 ->
  runs_alike (sp_alike rel) (sp_run_all H pr st1 os t1) (sp_run_all H pr st2 os t2).
Proof. exact resp_run_all. Qed.
Lemma sparse_load_alike : forall r s1 s2, rel s1 s2 -> loads_alike rel (sp_alike rel) (sp_load st1 r s1) (sp_load st2 r s2).
Proof.
  intros r s1 s2 R. destruct (resp_get r s1 s2 R) as [R' Q]. unfold sp_load, bind_try, bind, loads_alike.
  destruct (sst_get st1 r s1) as [a' [[[p|]|e]| |]], (sst_get st2 r s2) as [b' o]; cbn [fst snd] in *; subst o; cbn; auto.
  - destruct (snode_try_from p); cbn; [split; [exact R'|]; split; auto|auto].
Qed.
End Sim.

(** * Storages with the same content and no errors are alike *)
Section Lawful.
Context {S1 S2 K V E : Type}.
Variable keq : forall a b : K, {a = b} + {a <> b}.
Variable st1 : StorageT S1 K V E.
Variable st2 : StorageT S2 K V E.
Variable view1 : S1 -> K -> option V.
Variable view2 : S2 -> K -> option V.
Hypothesis L1 : Lawful st1 view1.
Hypothesis L2 : Lawful st2 view2.
Hypothesis I1 : Infallible st1.
Hypothesis I2 : Infallible st2.
Definition vrel (s1 : S1) (s2 : S2) : Prop := forall k, view1 s1 k = view2 s2 k.

Lemma lawful_gets : gets_alike vrel st1 st2.
Proof.
  intros k s1 s2 R. destruct I1 as (G1 & _). destruct I2 as (G2 & _).
  destruct (G1 k s1) as (s1' & v1 & E1). destruct (G2 k s2) as (s2' & v2 & E2).
  pose proof (law_get_ok _ _ L1 _ _ _ _ E1). pose proof (law_get_ok _ _ L2 _ _ _ _ E2). subst. rewrite E1, E2. cbn [fst snd].
  split; [|rewrite R; reflexivity]. intros k'. rewrite (law_get_view _ _ L1 _ _ _ _ E1), (law_get_view _ _ L2 _ _ _ _ E2). apply R.
Qed.
Lemma lawful_inserts : inserts_alike vrel st1 st2.
Proof.
  intros k v s1 s2 R. destruct I1 as (_ & G1 & _). destruct I2 as (_ & G2 & _).
  destruct (G1 k v s1) as (s1' & p1 & E1). destruct (G2 k v s2) as (s2' & p2 & E2). rewrite E1, E2. cbn [fst snd same_kind].
  destruct (law_insert_ok _ _ L1 _ _ _ _ _ E1) as (-> & A1 & B1). destruct (law_insert_ok _ _ L2 _ _ _ _ _ E2) as (-> & A2 & B2).
  split; [|exact I]. intros k'. destruct (keq k' k) as [->|N]; [congruence|]. rewrite B1, B2 by exact N. apply R.
Qed.
Lemma lawful_removes : removes_alike vrel st1 st2.
Proof.
  intros k s1 s2 R. destruct I1 as (_ & _ & G1). destruct I2 as (_ & _ & G2).
  destruct (G1 k s1) as (s1' & p1 & E1). destruct (G2 k s2) as (s2' & p2 & E2). rewrite E1, E2. cbn [fst snd same_kind].
  destruct (law_remove_ok _ _ L1 _ _ _ _ E1) as (-> & A1 & B1). destruct (law_remove_ok _ _ L2 _ _ _ _ E2) as (-> & A2 & B2).
  split; [|exact I]. intros k'. destruct (keq k' k) as [->|N]; [congruence|]. rewrite B1, B2 by exact N. apply R.
Qed.
End Lawful.

Theorem same_behaviour : forall H pr S1 S2 E
  (st1 : StorageT S1 bytes32 SPrimitive E) (st2 : StorageT S2 bytes32 SPrimitive E) view1 view2,
  Lawful st1 view1 -> Lawful st2 view2 -> Infallible st1 -> Infallible st2 ->
  forall n s1 s2 os, (forall k, view1 s1 k = view2 s2 k) ->
  exists t1 t2 o, sp_run_all H pr st1 os (Build_SpTree n s1) = (t1, o) /\ sp_run_all H pr st2 os (Build_SpTree n s2) = (t2, o) /\
    sp_root H t1 = sp_root H t2 /\ forall k, view1 (sp_storage t1) k = view2 (sp_storage t2) k.
Proof.
  intros H pr S1 S2 E st1 st2 view1 view2 L1 L2 I1 I2 n s1 s2 os R.
  destruct (sparse_alike H pr (vrel view1 view2) st1 st2 (lawful_gets st1 st2 view1 view2 L1 L2 I1 I2)
    (lawful_inserts b32_eq_dec st1 st2 view1 view2 L1 L2 I1 I2) (lawful_removes b32_eq_dec st1 st2 view1 view2 L1 L2 I1 I2)
    os (Build_SpTree n s1) (Build_SpTree n s2)) as [[A B] C]; [split; auto|].
  destruct (sp_run_all H pr st1 os _) as [t1 o1], (sp_run_all H pr st2 os _) as [t2 o2]. cbn [fst snd] in *. subst o2.
  exists t1, t2, o1. split; [reflexivity|]. split; [reflexivity|]. split; [unfold sp_root; rewrite A; reflexivity|exact B].
Qed.


(** * Loading and carrying on *)
Theorem load_resumes : forall H pr St E (st : StorageT St bytes32 SPrimitive E) view, Lawful st view -> Infallible st ->
  forall os s0 t, (forall k, view s0 k = None) -> clean [] [] os -> final os <> [] ->
  hash_ok H (map op_key os) (maps [] os) -> sp_run H pr st os (sp_new s0) = (t, Val (Ok tt)) ->
  exists s' t2, sp_load st (sp_root H t) (sp_storage t) = (s', Val (Ok t2)) /\ sp_root H t2 = sp_root H t /\
    forall us, exists t' t2' o, sp_run_all H pr st us t = (t', o) /\ sp_run_all H pr st us t2 = (t2', o) /\
      sp_root H t' = sp_root H t2' /\ forall k, view (sp_storage t') k = view (sp_storage t2') k.
Proof.
  intros H pr St E st view Law Inf os s0 t Em Cl NE Ok0 R.
  destruct (C37_lemma H pr st view Law Inf os s0 t Em Cl NE Ok0 R) as (s' & t2 & L & Es & Rn & Vs).
  exists s', t2. split; [exact L|]. split; [unfold sp_root; rewrite Rn; reflexivity|].
  intros us. destruct t as [n s], t2 as [n2 s2]. cbn [sp_root_node sp_storage] in *. subst n2.
  apply (same_behaviour H pr _ _ _ st st view view Law Law Inf Inf). intros k. symmetry. apply Vs.
Qed.

Lemma C77_sparse_lemma : forall H pr S1 S2 E (R : S1 -> S2 -> Prop)
  (st1 : StorageT S1 bytes32 SPrimitive E) (st2 : StorageT S2 bytes32 SPrimitive E),
  gets_alike R st1 st2 -> inserts_alike R st1 st2 -> removes_alike R st1 st2 ->
  (forall os t1 t2, sp_alike R t1 t2 ->
     runs_alike (sp_alike R) (sp_run_all H pr st1 os t1) (sp_run_all H pr st2 os t2)) /\
  (forall r s1 s2, R s1 s2 -> loads_alike R (sp_alike R) (sp_load st1 r s1) (sp_load st2 r s2)).
Proof.
  intros H pr S1 S2 E R st1 st2 G I M. split; [exact (sparse_alike H pr R st1 st2 G I M)|exact (sparse_load_alike R st1 st2 G)].
Qed.
