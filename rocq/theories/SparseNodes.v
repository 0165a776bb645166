(** SparseNodes.v -- the nodes of the sparse tree of a map: hashes, joining, uniqueness. *)
From Verif Require Import Base Storage ModelCommon ModelSparse SpecBits SpecBinary SpecSparse
  SpecPosition BindingProofs BitsProofs PositionProofs CommonProofs SparseSpecFacts.
From Coq Require Import Arith ZifyBool ZifyNat ZifyN Permutation.
Ltac Zify.zify_post_hook ::= Z.div_mod_to_equations.
Arguments Nat.mul : simpl never.
Arguments Z.pow : simpl never.
Arguments Z.mul : simpl never.
Arguments Z.add : simpl never.
Arguments Z.sub : simpl never.
Arguments Z.of_nat : simpl never.

Notation entries := (list (bytes32 * bytes32)).

Lemma max_height_KB : max_height = Z.of_nat KB.
Proof. rewrite KB_eq. reflexivity. Qed.
Lemma KB_val : Z.of_nat KB = 256.
Proof. rewrite KB_eq. reflexivity. Qed.

(** * Bits and instructions *)
Lemma instruction_ok : forall (k : bytes32) i, (i < KB)%nat ->
  get_instruction k (Z.of_nat i) = Some (if kbit k i then IRight else ILeft).
Proof.
  intros k i L. unfold get_instruction.
  destruct (bits_of_nth k i) as (b & N & ->); [rewrite b32_length, <- KB_eq; exact L|].
  unfold kbit. rewrite (nth_error_nth _ _ _ N). destruct b; reflexivity.
Qed.

Lemma nth_firstn_snoc : forall (bs : list bool) i, (i < length bs)%nat ->
  firstn (S i) bs = firstn i bs ++ [nth i bs false].
Proof.
  induction bs as [|b bs IH]; intros [|i] L; cbn in *; try lia; auto. f_equal. apply IH. lia.
Qed.

Definition P (k : bytes32) (i : nat) : list bool := firstn i (bits_of k).
Definition sd (k : bytes32) (i : nat) : list bool := P k i ++ [negb (kbit k i)].

Lemma P_S : forall k i, (i < KB)%nat -> P k (S i) = P k i ++ [kbit k i].
Proof. intros k i L. unfold P, kbit. apply nth_firstn_snoc. rewrite kbits_length. exact L. Qed.
Lemma P_length : forall k i, (i <= KB)%nat -> length (P k i) = i.
Proof. intros k i L. unfold P. rewrite firstn_length, kbits_length. lia. Qed.
Lemma P_prefix : forall k i, has_prefix (P k i) (bits_of k) = true.
Proof. intros k i. apply has_prefix_firstn. Qed.
Lemma sd_length : forall k i, (i <= KB)%nat -> length (sd k i) = S i.
Proof. intros k i L. unfold sd. rewrite app_length, P_length by auto. cbn [length]. lia. Qed.
Lemma sd_off : forall k i, (i < KB)%nat -> has_prefix (sd k i) (bits_of k) = false.
Proof.
  intros k i L. unfold sd. rewrite has_prefix_snoc by (rewrite P_length, kbits_length; lia).
  rewrite P_length by lia. fold (kbit k i). destruct (kbit k i); apply andb_false_r.
Qed.
Lemma P_of_prefix : forall p (k : bytes32), has_prefix p (bits_of k) = true -> (length p <= KB)%nat /\ p = P k (length p).
Proof.
  intros p k E. apply has_prefix_spec in E. split.
  - assert (L : length (firstn (length p) (bits_of k)) = length p) by congruence.
    rewrite firstn_length, kbits_length in L. lia.
  - unfold P. congruence.
Qed.

Lemma lcp_prefix : forall p q bs cs b, has_prefix (p ++ [b]) bs = true -> has_prefix (q ++ [negb b]) cs = true -> p = q ->
  lcp bs cs = length p.
Proof.
  induction p as [|x p IH]; intros q bs cs b A B <-; destruct bs as [|y bs], cs as [|z cs]; cbn in *; try discriminate.
  - destruct b, y, z; try discriminate; reflexivity.
  - apply andb_prop in A. apply andb_prop in B. destruct A as [A1 A2], B as [B1 B2].
    apply Bool.eqb_prop in A1. apply Bool.eqb_prop in B1. subst. rewrite Bool.eqb_reflx. f_equal.
    eapply IH; eauto.
Qed.

Section Nodes.
Variable H : list byte -> bytes32.
Variable U : list (list byte).
Hypothesis HC : ~ has_collision H U.
Hypothesis HZ : forall x, In x U -> H x <> zero32.
Notation T := (T H).
Notation I := (I H).

(** Maps whose hashing stays within the inputs [U]. *)
Record good (m : entries) : Prop := {
  good_nodup : NoDup (keys m);
  good_incl : incl (I [] m) U;
  good_digest : forall k h, In (k, h) m -> h <> zero32
}.

Lemma not_bad : forall l, incl l U -> ~ bad H l.
Proof.
  intros l S [C|(x & Ix & E)]; [apply HC; exact (collision_app H _ _ S C)|exact (HZ x (S x Ix) E)].
Qed.

Lemma good_I : forall m p, good m -> incl (I p m) U.
Proof. intros m p G. eapply incl_tran; [apply I_sub_root; apply G|apply G]. Qed.

Definition leafn (k h : bytes32) : SNode :=
  {| sn_height := 0; sn_prefix := PLeaf; sn_bytes_lo := k; sn_bytes_hi := h |}.
Definition inode (p : list bool) (m : entries) : SNode :=
  {| sn_height := 256 - Z.of_nat (length p); sn_prefix := PNode;
     sn_bytes_lo := T (p ++ [false]) m; sn_bytes_hi := T (p ++ [true]) m |}.
Definition nd (p : list bool) (m : entries) : SNode :=
  match sub p m with
  | [] => snode_placeholder
  | [(k, h)] => leafn k h
  | _ => inode p m
  end.

Lemma nd_nil : forall p m, sub p m = [] -> nd p m = snode_placeholder.
Proof. intros p m E. unfold nd. rewrite E. reflexivity. Qed.
Lemma nd_one : forall p m k h, sub p m = [(k, h)] -> nd p m = leafn k h.
Proof. intros p m k h E. unfold nd. rewrite E. reflexivity. Qed.
Lemma nd_two : forall p m, (2 <= length (sub p m))%nat -> nd p m = inode p m.
Proof. intros p m L. unfold nd. destruct (sub p m) as [|[k h] [|e l]]; cbn [length] in L; try lia. reflexivity. Qed.

Lemma T_nonzero : forall p m, good m -> sub p m <> [] -> T p m <> zero32.
Proof.
  intros p m G NE. pose proof (good_I m p G) as S.
  destruct (T_cases H p m (good_nodup m G)) as [S1 E1 I1|k h S1 E1 I1|S1 L1 E1 I1]; [contradiction| |];
    rewrite E1; apply HZ; apply S; rewrite I1; left; reflexivity.
Qed.

Lemma leafn_not_placeholder : forall k h, h <> zero32 -> snode_is_placeholder (leafn k h) = false.
Proof.
  intros k h N. unfold snode_is_placeholder, leafn. cbn [sn_bytes_lo sn_bytes_hi].
  apply andb_false_iff. right. apply b32_eqb_neq. exact N.
Qed.

Lemma inode_not_placeholder : forall p m, good m -> (2 <= length (sub p m))%nat ->
  snode_is_placeholder (inode p m) = false.
Proof.
  intros p m G L. pose proof (sub_short p m (good_nodup m G) L) as S.
  rewrite (sub_split_length p m S) in L. unfold snode_is_placeholder, inode. cbn [sn_bytes_lo sn_bytes_hi].
  apply andb_false_iff. destruct (sub (p ++ [false]) m) eqn:E.
  - right. apply b32_eqb_neq. apply T_nonzero; auto. intros C. rewrite C in L. cbn [length] in L. lia.
  - left. apply b32_eqb_neq. apply T_nonzero; auto. rewrite E. discriminate.
Qed.

Lemma sub_digest : forall p m k h, good m -> In (k, h) (sub p m) -> h <> zero32.
Proof. intros p m k h G Ie. apply sub_in in Ie. apply (good_digest m G k). tauto. Qed.

Lemma nd_is_placeholder : forall p m, good m -> snode_is_placeholder (nd p m) = (length (sub p m) =? 0)%nat.
Proof.
  intros p m G. unfold nd. destruct (sub p m) as [|[k h] [|e l]] eqn:E.
  - reflexivity.
  - apply leafn_not_placeholder. apply (sub_digest p m k h G). rewrite E. left. reflexivity.
  - apply inode_not_placeholder; auto. rewrite E. cbn [length]. lia.
Qed.

Lemma nd_is_leaf : forall p m, good m -> snode_is_leaf (nd p m) = (length (sub p m) <=? 1)%nat.
Proof.
  intros p m G. unfold snode_is_leaf. rewrite nd_is_placeholder by exact G.
  unfold nd. destruct (sub p m) as [|[k h] [|e l]]; reflexivity.
Qed.
Lemma nd_is_node : forall p m, snode_is_node (nd p m) = negb (length (sub p m) <=? 1)%nat.
Proof. intros p m. unfold nd, snode_is_node. destruct (sub p m) as [|[k h] [|e l]]; reflexivity. Qed.

Lemma leafn_hash : forall k h, h <> zero32 -> snode_hash H (leafn k h) = H (smt_leaf_input k h).
Proof.
  intros k h N. unfold snode_hash. rewrite leafn_not_placeholder by exact N. unfold sum_all. f_equal.
  cbn [concat app]. rewrite app_nil_r. reflexivity.
Qed.

Lemma nd_hash : forall p m, good m -> snode_hash H (nd p m) = T p m.
Proof.
  intros p m G. destruct (T_cases H p m (good_nodup m G)) as [S1 E1 I1|k h S1 E1 I1|S1 L1 E1 I1].
  - rewrite nd_nil by exact S1. rewrite E1. reflexivity.
  - rewrite (nd_one p m k h S1). rewrite E1. apply leafn_hash.
    apply (sub_digest p m k h G). rewrite S1. left. reflexivity.
  - rewrite nd_two by exact S1. unfold snode_hash. rewrite inode_not_placeholder by auto.
    rewrite E1. unfold sum_all. f_equal. cbn [concat app]. rewrite app_nil_r. reflexivity.
Qed.

Lemma same_length : forall (l l' : entries), NoDup (keys l) -> NoDup (keys l') -> same l l' -> length l = length l'.
Proof.
  intros l l' N N' S. apply Permutation_length. apply NoDup_Permutation.
  - eapply NoDup_map_inv; exact N.
  - eapply NoDup_map_inv; exact N'.
  - exact S.
Qed.

Lemma T_same : forall p p' m m', good m -> good m' -> T p m = T p' m' ->
  same (sub p m) (sub p' m') /\ length (sub p m) = length (sub p' m') /\
  ((2 <= length (sub p m))%nat -> length p = length p').
Proof.
  intros p p' m m' G G' E.
  destruct (T_binding H m m' p p' (good_nodup m G) (good_nodup m' G') E) as [[A B]|C].
  - split; auto. split; auto. apply same_length; auto; apply sub_nodup; [apply G|apply G'].
  - exfalso. revert C. apply not_bad. apply incl_app; apply good_I; auto.
Qed.

Lemma nd_unique : forall p p' m m', good m -> good m' -> T p m = T p' m' -> nd p m = nd p' m'.
Proof.
  intros p p' m m' G G' E. destruct (T_same p p' m m' G G' E) as (S & L & D).
  destruct (T_cases H p m (good_nodup m G)) as [S1 E1 I1|k h S1 E1 I1|S1 L1 E1 I1].
  - rewrite nd_nil by exact S1. rewrite nd_nil; auto. apply length_zero_iff_nil. rewrite <- L, S1. reflexivity.
  - rewrite (nd_one p m k h S1). symmetry. apply nd_one. apply length_one.
    + apply S. rewrite S1. left. reflexivity.
    + rewrite <- L, S1. cbn [length]. lia.
  - rewrite nd_two by exact S1. rewrite nd_two by lia. unfold inode. rewrite <- (D S1).
    destruct (T_cases H p' m' (good_nodup m' G')) as [S2 E2 I2|k h S2 E2 I2|S2 L2 E2 I2];
      [rewrite S2 in L; cbn [length] in L; lia..|].
    destruct (bytes_eq_dec (smt_node_input (T (p ++ [false]) m) (T (p ++ [true]) m))
                (smt_node_input (T (p' ++ [false]) m') (T (p' ++ [true]) m'))) as [Eq|Ne].
    + apply node_input_inj in Eq. destruct Eq as [-> ->]. reflexivity.
    + exfalso. apply HC. eexists _, _. split; [|split; [|split; [exact Ne|congruence]]].
      * apply (good_I m p G). rewrite I1. left. reflexivity.
      * apply (good_I m' p' G'). rewrite I2. left. reflexivity.
Qed.

(** * Joining *)
Variable pr : profile.

Lemma nd_height : forall p m, sn_height (nd p m) = if (length (sub p m) <=? 1)%nat then 0 else 256 - Z.of_nat (length p).
Proof. intros p m. unfold nd. destruct (sub p m) as [|[k h] [|e l]]; reflexivity. Qed.

Lemma create_children : forall p m hh, good m -> (2 <= length (sub p m))%nat -> hh = 256 - Z.of_nat (length p) ->
  snode_create_node H (nd (p ++ [false]) m) (nd (p ++ [true]) m) hh = nd p m.
Proof.
  intros p m hh G L ->. rewrite (nd_two p m L). unfold snode_create_node, inode. rewrite !nd_hash by exact G. reflexivity.
Qed.

Lemma join_instr : forall p m (k : bytes32) b, good m -> (2 <= length (sub p m))%nat -> b = kbit k (length p) ->
  join_by_instruction H k (Z.of_nat (length p)) (nd (p ++ [b]) m) (nd (p ++ [negb b]) m) (256 - Z.of_nat (length p)) = Val (nd p m).
Proof.
  intros p m k b G L ->. pose proof (sub_short p m (good_nodup m G) L) as S.
  unfold join_by_instruction. rewrite instruction_ok by exact S.
  destruct (kbit k (length p)); cbn [negb]; f_equal; apply create_children; auto.
Qed.

Lemma join_nd : forall p m (k : bytes32) b, good m -> (2 <= length (sub p m))%nat -> b = kbit k (length p) ->
  snode_create_node_on_path H pr k (nd (p ++ [b]) m) (nd (p ++ [negb b]) m) = Val (nd p m).
Proof.
  intros p m k b G L Eb. pose proof (sub_short p m (good_nodup m G) L) as S.
  assert (L2 : (2 <= length (sub (p ++ [b]) m) + length (sub (p ++ [negb b]) m))%nat).
  { rewrite (sub_split_length p m S) in L. destruct b; cbn [negb]; lia. }
  pose proof KB_val as KV. unfold snode_create_node_on_path. rewrite !nd_is_leaf by exact G.
  destruct (Nat.leb_spec (length (sub (p ++ [b]) m)) 1) as [A|A], (Nat.leb_spec (length (sub (p ++ [negb b]) m)) 1) as [B|B];
    cbn [andb].
  - assert (A1 : length (sub (p ++ [b]) m) = 1%nat) by lia. assert (B1 : length (sub (p ++ [negb b]) m) = 1%nat) by lia.
    unfold snode_common_path_length. rewrite !nd_is_leaf, !nd_is_placeholder, A1, B1 by exact G.
    cbn [Nat.leb Nat.eqb orb].
    destruct (sub (p ++ [b]) m) as [|[ka ha] [|]] eqn:Ea; cbn [length] in A1; try lia.
    destruct (sub (p ++ [negb b]) m) as [|[kb hb] [|]] eqn:Eb2; cbn [length] in B1; try lia.
    assert (Pa : has_prefix (p ++ [b]) (bits_of ka) = true).
    { assert (Q : In (ka, ha) (sub (p ++ [b]) m)) by (rewrite Ea; left; reflexivity). apply sub_in in Q. apply Q. }
    assert (Pb : has_prefix (p ++ [negb b]) (bits_of kb) = true).
    { assert (Q : In (kb, hb) (sub (p ++ [negb b]) m)) by (rewrite Eb2; left; reflexivity). apply sub_in in Q. apply Q. }
    replace (debug_assert pr true) with (Val tt) by (unfold debug_assert; destruct (debug_assertions pr); reflexivity). cbn [obind].
    replace (snode_leaf_key (nd (p ++ [b]) m)) with (Val ka).
    2:{ unfold snode_leaf_key. rewrite nd_is_leaf, Ea by exact G. rewrite (nd_one _ _ _ _ Ea). reflexivity. }
    replace (snode_leaf_key (nd (p ++ [negb b]) m)) with (Val kb).
    2:{ unfold snode_leaf_key. rewrite nd_is_leaf, Eb2 by exact G. rewrite (nd_one _ _ _ _ Eb2). reflexivity. }
    cbn [obind]. rewrite common_prefix_count_ok by (rewrite !b32_length; reflexivity).
    rewrite (lcp_prefix p p _ _ b Pa Pb eq_refl). cbn [obind].
    rewrite usize_ovf_in; [|unfold max_height; lia]. cbn [obind]. apply join_instr; auto.
  - rewrite !nd_height. replace (length (sub (p ++ [b]) m) <=? 1)%nat with true by (symmetry; apply Nat.leb_le; lia).
    replace (length (sub (p ++ [negb b]) m) <=? 1)%nat with false by (symmetry; apply Nat.leb_gt; lia).
    rewrite app_length. cbn [length].
    replace (Z.max 0 (256 - Z.of_nat (length p + 1)) + 1) with (256 - Z.of_nat (length p)) by lia.
    unfold u32_ovf. replace ((0 <=? 256 - Z.of_nat (length p)) && (256 - Z.of_nat (length p) <? 2 ^ 32)) with true by lia.
    cbn [obind]. rewrite usize_ovf_in; [|unfold max_height; lia]. cbn [obind].
    replace (max_height - (256 - Z.of_nat (length p))) with (Z.of_nat (length p)) by (unfold max_height; lia).
    apply join_instr; auto.
  - rewrite !nd_height. replace (length (sub (p ++ [b]) m) <=? 1)%nat with false by (symmetry; apply Nat.leb_gt; lia).
    replace (length (sub (p ++ [negb b]) m) <=? 1)%nat with true by (symmetry; apply Nat.leb_le; lia).
    rewrite app_length. cbn [length].
    replace (Z.max (256 - Z.of_nat (length p + 1)) 0 + 1) with (256 - Z.of_nat (length p)) by lia.
    unfold u32_ovf. replace ((0 <=? 256 - Z.of_nat (length p)) && (256 - Z.of_nat (length p) <? 2 ^ 32)) with true by lia.
    cbn [obind]. rewrite usize_ovf_in; [|unfold max_height; lia]. cbn [obind].
    replace (max_height - (256 - Z.of_nat (length p))) with (Z.of_nat (length p)) by (unfold max_height; lia).
    apply join_instr; auto.
  - rewrite !nd_height. replace (length (sub (p ++ [b]) m) <=? 1)%nat with false by (symmetry; apply Nat.leb_gt; lia).
    replace (length (sub (p ++ [negb b]) m) <=? 1)%nat with false by (symmetry; apply Nat.leb_gt; lia).
    rewrite !app_length. cbn [length].
    replace (Z.max (256 - Z.of_nat (length p + 1)) (256 - Z.of_nat (length p + 1)) + 1) with (256 - Z.of_nat (length p)) by lia.
    unfold u32_ovf. replace ((0 <=? 256 - Z.of_nat (length p)) && (256 - Z.of_nat (length p) <? 2 ^ 32)) with true by lia.
    cbn [obind]. rewrite usize_ovf_in; [|unfold max_height; lia]. cbn [obind].
    replace (max_height - (256 - Z.of_nat (length p))) with (Z.of_nat (length p)) by (unfold max_height; lia).
    apply join_instr; auto.
Qed.
End Nodes.
