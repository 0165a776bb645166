(** SparseEntries.v -- loading a root and reading children, on any storage whatsoever. *)
From Verif Require Import Base Storage ModelText ModelCommon ModelSparse SpecBits SpecBinary SpecSparse RunsSparse.

Lemma b32_eqb_cases : forall a b, b32_eqb a b = true /\ a = b \/ b32_eqb a b = false /\ a <> b.
Proof.
  intros a b. destruct (b32_eqb a b) eqn:E; [left; split; auto; apply b32_eqb_eq; exact E|right; split; auto].
  intros ->. rewrite b32_eqb_refl in E. discriminate.
Qed.

Lemma prefix_cases : forall b,
  (b = x00 /\ prefix_try_from b = Ok PLeaf) \/ (b = x01 /\ prefix_try_from b = Ok PNode) \/
  (b <> x00 /\ b <> x01 /\ prefix_try_from b = Err (InvalidPrefix b)).
Proof. intros b. destruct b; auto; right; right; (split; [discriminate|split; [discriminate|reflexivity]]). Qed.

Lemma node_hash_entry : forall H h b lo hi n, snode_try_from (h, b, lo, hi) = Ok n -> snode_hash H n = entry_hash H b lo hi.
Proof.
  intros H h b lo hi n E. cbn [snode_try_from] in E. unfold snode_hash, entry_hash, snode_is_placeholder, sum_all.
  destruct (prefix_cases b) as [[-> Q]|[[-> Q]|(_ & _ & Q)]]; rewrite Q in E; try discriminate; injection E as <-;
    cbn [sn_bytes_lo sn_bytes_hi sn_prefix]; unfold zero_sum;
    (destruct (b32_eqb lo zero32 && b32_eqb hi zero32); [reflexivity|]); cbn [concat app]; rewrite app_nil_r; reflexivity.
Qed.

Section Any.
Context {St E : Type}.
Variable H : list byte -> bytes32.
Variable st : StorageT St bytes32 SPrimitive E.

Theorem load_exact : forall r s, exists s' g res, s_get st r s = (s', g) /\ sp_load st r s = (s', Val res) /\
  (forall e, res = Err (SStorageError e) <-> g = Err e) /\
  (forall x, res = Err (SLoadError x) <-> x = hex_encode (b32 r) /\ g = Ok None) /\
  (forall b, res = Err (SDeserializeError (DPrefixError (InvalidPrefix b))) <->
     b <> x00 /\ b <> x01 /\ exists h lo hi, g = Ok (Some (h, b, lo, hi))) /\
  (forall e, res <> Err (SChildErr e)) /\
  ((exists t, res = Ok t) <-> exists h b lo hi, g = Ok (Some (h, b, lo, hi)) /\ (b = x00 \/ b = x01)) /\
  (forall t, res = Ok t -> sp_storage t = s' /\ exists h b lo hi, g = Ok (Some (h, b, lo, hi)) /\ sp_root H t = entry_hash H b lo hi).
Proof.
  intros r s. unfold sp_load, bind_try, bind, sst_get. destruct (s_get st r s) as [s' g] eqn:G. exists s', g.
  destruct g as [[[[[h b] lo] hi]|]|e0].
  - pose proof (node_hash_entry H h b lo hi) as NH. cbn [snode_try_from] in *.
    destruct (prefix_cases b) as [[B Q]|[[B Q]|(B & B' & Q)]]; rewrite Q in *.
    + eexists. split; [reflexivity|]. split; [reflexivity|]. cbn [ret].
      split; [intros e; split; discriminate|]. split; [intros x; split; [discriminate|intros [_ C]; discriminate C]|].
      split; [intros b'; split; [discriminate|]; intros (N0 & N1 & h' & lo' & hi' & C); injection C as -> -> -> ->; contradiction|].
      split; [discriminate|]. split; [split; [intros _; exists h, b, lo, hi; auto|intros _; eexists; reflexivity]|].
      intros t C. injection C as <-. split; [reflexivity|]. exists h, b, lo, hi. split; [reflexivity|]. apply NH. reflexivity.
    + eexists. split; [reflexivity|]. split; [reflexivity|]. cbn [ret].
      split; [intros e; split; discriminate|]. split; [intros x; split; [discriminate|intros [_ C]; discriminate C]|].
      split; [intros b'; split; [discriminate|]; intros (N0 & N1 & h' & lo' & hi' & C); injection C as -> -> -> ->; contradiction|].
      split; [discriminate|]. split; [split; [intros _; exists h, b, lo, hi; auto|intros _; eexists; reflexivity]|].
      intros t C. injection C as <-. split; [reflexivity|]. exists h, b, lo, hi. split; [reflexivity|]. apply NH. reflexivity.
    + eexists. split; [reflexivity|]. split; [reflexivity|]. cbn [ret].
      split; [intros e; split; discriminate|]. split; [intros x; split; [discriminate|intros [_ C]; discriminate C]|].
      split; [intros b'; split|].
      * intros C. injection C as <-. split; [exact B|]. split; [exact B'|]. exists h, lo, hi. reflexivity.
      * intros (_ & _ & h' & lo' & hi' & C). injection C as -> -> -> ->. reflexivity.
      * split; [discriminate|]. split; [split; [intros [t C]; discriminate C|]|intros t C; discriminate C].
        intros (h' & b' & lo' & hi' & C & D). injection C as -> -> -> ->. destruct D; contradiction.
  - eexists. split; [reflexivity|]. split; [reflexivity|]. cbn [ret].
    split; [intros e; split; discriminate|]. split; [intros x; split; [intros C; injection C as <-; auto|intros [-> _]; reflexivity]|].
    split; [intros b'; split; [discriminate|]; intros (_ & _ & h' & lo' & hi' & C); discriminate C|].
    split; [discriminate|]. split; [split; [intros [t C]; discriminate C|intros (h' & b' & lo' & hi' & C & _); discriminate C]|].
    intros t C; discriminate C.
  - eexists. split; [reflexivity|]. split; [reflexivity|]. cbn [ret].
    split; [intros e; split; intros C; injection C as <-; reflexivity|]. split; [intros x; split; [discriminate|intros [_ C]; discriminate C]|].
    split; [intros b'; split; [discriminate|]; intros (_ & _ & h' & lo' & hi' & C); discriminate C|].
    split; [discriminate|]. split; [split; [intros [t C]; discriminate C|intros (h' & b' & lo' & hi' & C & _); discriminate C]|].
    intros t C; discriminate C.
Qed.

Lemma read_exact : forall k s, exists s' res, read_child st k s = (s', Val res) /\ child_read H st k s s' res.
Proof.
  intros k s. unfold read_child, child_read. fold zero_sum. destruct (b32_eqb_cases k zero_sum) as [[-> ->]|[-> N]].
  - exists s, (Ok snode_placeholder). split; [reflexivity|]. left. split; [reflexivity|]. split; [reflexivity|].
    exists snode_placeholder. split; [reflexivity|]. split; reflexivity.
  - destruct (s_get st k s) as [s' [[[[[h b] lo] hi]|]|e]] eqn:G.
    + cbn [snode_try_from]. destruct (prefix_cases b) as [[B Q]|[[B Q]|(B & B' & Q)]]; rewrite Q.
      * eexists _, _. split; [reflexivity|]. right. split; [exact N|]. eexists. split; [reflexivity|]. cbn beta iota. right.
        split; [auto|]. eexists. split; [reflexivity|]. subst b. reflexivity.
      * eexists _, _. split; [reflexivity|]. right. split; [exact N|]. eexists. split; [reflexivity|]. cbn beta iota. right.
        split; [auto|]. eexists. split; [reflexivity|]. subst b. reflexivity.
      * eexists _, _. split; [reflexivity|]. right. split; [exact N|]. eexists. split; [reflexivity|]. cbn beta iota. left. auto.
    + eexists _, _. split; [reflexivity|]. right. split; [exact N|]. eexists. split; [reflexivity|]. reflexivity.
    + eexists _, _. split; [reflexivity|]. right. split; [exact N|]. eexists. split; [reflexivity|]. reflexivity.
Qed.

(** [n] is the node made from the entry ([h], [b], [lo], [hi]). *)
Theorem child_exact : forall h b lo hi n s, snode_try_from (h, b, lo, hi) = Ok n ->
  (b = x00 \/ lo = zero32 /\ hi = zero32 ->
     storage_node_left_child st n s = (s, Val (Err NodeIsLeaf)) /\ storage_node_right_child st n s = (s, Val (Err NodeIsLeaf))) /\
  (b = x01 -> lo <> zero32 \/ hi <> zero32 ->
     (exists s' res, storage_node_left_child st n s = (s', Val res) /\ child_read H st lo s s' res) /\
     (exists s' res, storage_node_right_child st n s = (s', Val res) /\ child_read H st hi s s' res)).
Proof.
  intros h b lo hi n s Q. cbn [snode_try_from] in Q. unfold storage_node_left_child, storage_node_right_child, snode_is_leaf, snode_is_placeholder.
  destruct (prefix_cases b) as [[-> P]|[[-> P]|(B & B' & P)]]; rewrite P in Q; try discriminate; injection Q as <-; cbn [sn_bytes_lo sn_bytes_hi sn_prefix prefix_eqb orb].
  - split; [intros _; split; reflexivity|discriminate].
  - unfold zero_sum. destruct (b32_eqb_cases lo zero32) as [[-> L]|[-> L]]; destruct (b32_eqb_cases hi zero32) as [[-> R]|[-> R]]; cbn [andb].
    1: (split; [intros _; split; reflexivity|]; intros _ [C|C]; contradiction).
    all: split; [intros [C|[C1 C2]]; [discriminate C|contradiction]|]; intros _ _;
      unfold snode_left_child_key, snode_right_child_key, snode_is_node; cbn [sn_bytes_lo sn_bytes_hi sn_prefix prefix_eqb];
      split; apply read_exact.
Qed.
End Any.
