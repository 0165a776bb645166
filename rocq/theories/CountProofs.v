(** CountProofs.v -- proofs about the number of storage calls. *)
From Coq Require Import Arith NArith ZifyBool ZifyNat ZifyN.
From Verif Require Import Base Storage ModelCommon ModelBinary ModelSum ModelSparse SpecBinary SpecPosition SpecCount
  SpecSum SpecSparse SpecBinaryFacts Runs RunsSum RunsSparse PositionProofs PathProofs HeadsProofs BinaryProofs BinaryReadProofs BinaryMain
  SumProofs SumMain SparseAny.
Ltac Zify.zify_post_hook ::= Z.div_mod_to_equations.

Lemma Counted_lawful : forall S K V E (st : StorageT S K V E) view, Lawful st view ->
  Lawful (Counted st) (fun cs => view (snd cs)).
Proof.
  intros S K V E st view L. constructor; cbn [s_get s_insert s_remove Counted].
  - intros k [c s] s' r G. destruct (s_get st k s) as [s2 r2] eqn:Q. injection G as <- <-. cbn [snd].
    exact (law_get_view _ _ L _ _ _ _ Q).
  - intros k [c s] s' v G. destruct (s_get st k s) as [s2 r2] eqn:Q. injection G as <- ->. cbn [snd].
    exact (law_get_ok _ _ L _ _ _ _ Q).
  - intros k v [c s] s' p G. destruct (s_insert st k v s) as [s2 r2] eqn:Q. injection G as <- ->. cbn [snd].
    exact (law_insert_ok _ _ L _ _ _ _ _ Q).
  - intros k v [c s] s' p G. destruct (s_insert st k v s) as [s2 r2] eqn:Q. injection G as <- ->. cbn [snd].
    exact (law_insert_err _ _ L _ _ _ _ _ Q).
  - intros k [c s] s' p G. destruct (s_remove st k s) as [s2 r2] eqn:Q. injection G as <- ->. cbn [snd].
    exact (law_remove_ok _ _ L _ _ _ _ Q).
  - intros k [c s] s' p G. destruct (s_remove st k s) as [s2 r2] eqn:Q. injection G as <- ->. cbn [snd].
    exact (law_remove_err _ _ L _ _ _ _ Q).
Qed.

Lemma Counted_infallible : forall S K V E (st : StorageT S K V E), Infallible st -> Infallible (Counted st).
Proof.
  intros S K V E st (A & B & C). repeat split; cbn [s_get s_insert s_remove Counted].
  - intros k [c s]. destruct (A k s) as (s' & v & ->). eauto.
  - intros k v [c s]. destruct (B k v s) as (s' & p & ->). eauto.
  - intros k [c s]. destruct (C k s) as (s' & p & ->). eauto.
Qed.

(** * One bits and peaks *)
Lemma ones_double : forall n, ones (2 * n) = ones n.
Proof.
  intros n. unfold ones. rewrite Nat2N.inj_mul. change (N.of_nat 2) with 2%N.
  destruct (N.of_nat n); reflexivity.
Qed.
Lemma ones_double1 : forall n, ones (2 * n + 1) = S (ones n).
Proof.
  intros n. unfold ones. rewrite Nat2N.inj_add, Nat2N.inj_mul. change (N.of_nat 2) with 2%N. change (N.of_nat 1) with 1%N.
  destruct (N.of_nat n); reflexivity.
Qed.
Lemma Heads_ones : forall T (P : nat -> nat -> T -> Prop) h m l, Heads P h m l -> length l = ones m.
Proof.
  intros T P h m l Hh. induction Hh; cbn [length].
  - reflexivity.
  - rewrite ones_double. assumption.
  - rewrite ones_double1. lia.
Qed.
Lemma ones_bound : forall n h, (n < 2 ^ h)%nat -> (ones n <= h)%nat.
Proof.
  intros n h. revert n. induction h as [|h IH]; intros n Hn.
  - replace n with O by (change (2 ^ 0)%nat with 1%nat in Hn; lia). cbn. lia.
  - rewrite pow2_S in Hn. destruct (Nat.Even_or_Odd n) as [[m ->]|[m ->]].
    + rewrite ones_double. specialize (IH m ltac:(lia)). lia.
    + rewrite ones_double1. specialize (IH m ltac:(lia)). lia.
Qed.
Lemma ones_le : forall n, (ones n <= n)%nat.
Proof. intros n. apply ones_bound. apply Nat.pow_gt_lin_r. lia. Qed.

Lemma ones_pos_1 : forall n, (0 < n)%nat -> (1 <= ones n)%nat.
Proof.
  intros n Hn. unfold ones. destruct (N.of_nat n) as [|p] eqn:E; [lia|]. clear. induction p; cbn; lia.
Qed.

Lemma at_most_refl : forall g i r c, at_most g i r c c.
Proof. intros. unfold at_most. lia. Qed.
Lemma at_most_trans : forall g i r g' i' r' c c1 c2, at_most g i r c c1 -> at_most g' i' r' c1 c2 ->
  at_most (g + g') (i + i') (r + r') c c2.
Proof. unfold at_most. intros. lia. Qed.
Lemma at_most_mono : forall g i r g' i' r' c c', at_most g i r c c' -> (g <= g')%nat -> (i <= i')%nat -> (r <= r')%nat ->
  at_most g' i' r' c c'.
Proof. unfold at_most. intros. lia. Qed.

(** * The binary tree *)
Section Binary.
Variable H : list byte -> bytes32.
Variable pr : profile.
Context {St E : Type}.
Variable st : StorageT St Z BPrimitive E.
Notation cst := (Counted st).
Notation cnt t := (fst (bt_storage t)).

Lemma insert_count : forall k v t t' o, bt_insert cst k v t = (t', o) ->
  bt_head t' = bt_head t /\ inserts (cnt t') = S (inserts (cnt t)) /\ gets (cnt t') = gets (cnt t) /\
  removes (cnt t') = removes (cnt t).
Proof.
  intros k v [[c s] hd n] t' o R. unfold bt_insert in R. cbn [Counted s_insert bt_storage bt_head bt_leaves_count] in R.
  destruct (s_insert st k v s) as [s' [p|e]]; injection R as <- <-; cbn; auto.
Qed.

Lemma loop_count : forall f t t' o, bt_join_all_subtrees_loop H pr cst f t = (t', o) ->
  at_most 0 (length (bt_head t) - 1) 0 (cnt t) (cnt t') /\
  (o = Val (Ok tt) -> (inserts (cnt t') + length (bt_head t') = inserts (cnt t) + length (bt_head t))%nat /\ (1 <= length (bt_head t'))%nat).
Proof.
  induction f as [|f IH]; intros t t' o R; cbn [bt_join_all_subtrees_loop] in R.
  - injection R as <- <-. split; [apply at_most_refl|discriminate].
  - unfold bind at 1, get_state at 1 in R. destruct (bt_head t) as [|x [|y l]] eqn:Hh.
    + injection R as <- <-. split; [apply at_most_refl|discriminate].
    + injection R as <- <-. split; [apply at_most_refl|]. intros _. rewrite Hh. cbn [length]. lia.
    + destruct (pos_height (bn_position x) =? pos_height (bn_position y)).
      2:{ injection R as <- <-. split; [apply at_most_refl|]. intros _. rewrite Hh. cbn [length]. lia. }
      unfold bt_set_head in R. unfold bind at 1 in R. unfold bind at 1, lift in R.
      destruct (bnode_create_node H pr y x) as [j| |];
        [|injection R as <- <-; cbn [bt_storage bt_head length]; split; [apply at_most_refl|discriminate]..].
      unfold bind_try, bind at 1 in R.
      destruct (bt_insert cst (bn_position j) (bprim_of_node j) (Build_BTree (bt_storage t) [] (bt_leaves_count t))) as [t1 o1] eqn:I.
      destruct (insert_count _ _ _ _ _ I) as (I1 & I2 & I3 & I4). cbn [bt_head bt_storage] in I1, I2, I3, I4.
      destruct o1 as [[[]|e]| |].
      * unfold bind in R. cbn [bt_storage bt_leaves_count] in R. apply IH in R. destruct R as [A B]. cbn [bt_storage bt_head length] in A, B.
        cbn [length]. split; [unfold at_most in *; lia|]. intros Eo. specialize (B Eo). lia.
      * injection R as <- <-. cbn [length]. split; [unfold at_most; lia|discriminate].
      * injection R as <- <-. cbn [length]. split; [unfold at_most; lia|discriminate].
      * injection R as <- <-. cbn [length]. split; [unfold at_most; lia|discriminate].
Qed.

(** A push: every insert but the first shortens the list of peaks. *)
Lemma push_count : forall d t t' o, bt_push H pr cst d t = (t', o) ->
  at_most 0 (1 + length (bt_head t)) 0 (cnt t) (cnt t') /\
  (o = Val (Ok tt) -> (inserts (cnt t') + length (bt_head t') = inserts (cnt t) + length (bt_head t) + 2)%nat).
Proof.
  intros d t t' o R. unfold bt_push in R. unfold bind at 1, get_state at 1 in R. unfold bind at 1, lift in R.
  destruct (bnode_create_leaf H pr (bt_leaves_count t) d) as [x| |];
    [|injection R as <- <-; split; [apply at_most_refl|discriminate]..].
  unfold bind_try at 1, bind at 1 in R.
  destruct (bt_insert cst (bn_position x) (bprim_of_node x) t) as [t1 o1] eqn:I.
  destruct (insert_count _ _ _ _ _ I) as (I1 & I2 & I3 & I4).
  destruct o1 as [[[]|e]| |]; try (injection R as <- <-; split; [unfold at_most; lia|discriminate]).
  unfold bind at 1, get_state at 1 in R. unfold bt_set_head in R. unfold bind at 1 in R.
  unfold bind_try at 1, bind at 1, bt_join_all_subtrees in R. unfold bind at 1, get_state at 1 in R. cbn [bt_head bt_storage bt_leaves_count] in R.
  destruct (bt_join_all_subtrees_loop H pr cst (length (x :: bt_head t1)) (Build_BTree (bt_storage t1) (x :: bt_head t1) (bt_leaves_count t1))) as [t2 o2] eqn:J.
  destruct (loop_count _ _ _ _ J) as [A B]. cbn [bt_storage bt_head length] in A, B. rewrite I1 in A, B.
  destruct o2 as [[[]|e]| |]; try (injection R as <- <-; split; [unfold at_most in *; lia|discriminate]).
  specialize (B eq_refl).
  unfold bind at 1, get_state at 1 in R. unfold bind at 1 in R.
  destruct (u64_ovf pr (bt_leaves_count t2 + 1)) as [n| |]; cbn in R;
    injection R as <- <-; cbn [bt_storage bt_head]; (split; [unfold at_most in *; lia|]); try discriminate. intros _. lia.
Qed.

Lemma push_all_count : forall ds t t', bt_push_all H pr cst ds t = (t', Val (Ok tt)) ->
  (inserts (cnt t') + length (bt_head t') = inserts (cnt t) + length (bt_head t) + 2 * length ds)%nat /\
  gets (cnt t') = gets (cnt t) /\ removes (cnt t') = removes (cnt t).
Proof.
  induction ds as [|d ds IH]; intros t t' R; cbn [bt_push_all] in R.
  - injection R as <-. cbn [length]. lia.
  - unfold bind_try, bind in R. destruct (bt_push H pr cst d t) as [t1 o1] eqn:Q.
    destruct (push_count _ _ _ _ Q) as [A B]. destruct o1 as [[[]|e]| |]; try discriminate R.
    specialize (B eq_refl). apply IH in R. unfold at_most in A. cbn [length]. lia.
Qed.

(** * Reads *)
Lemma get_count : forall k s s' o, bst_get cst k s = (s', o) ->
  gets (fst s') = S (gets (fst s)) /\ inserts (fst s') = inserts (fst s) /\ removes (fst s') = removes (fst s).
Proof.
  intros k [c s] s' o R. unfold bst_get in R. cbn [Counted s_get] in R.
  destruct (s_get st k s) as [s2 [v|e]]; injection R as <- <-; cbn; auto.
Qed.

Lemma build_count : forall ps acc s s' o, bt_build_loop cst ps acc s = (s', o) ->
  at_most (length ps) 0 0 (fst s) (fst s') /\
  (forall x, o = Val (Ok x) -> gets (fst s') = (gets (fst s) + length ps)%nat).
Proof.
  induction ps as [|p ps IH]; intros acc s s' o R; cbn [bt_build_loop] in R.
  - injection R as <- <-. split; [apply at_most_refl|]. intros x _. cbn [length]. lia.
  - unfold bind_try, bind in R. destruct (bst_get cst p s) as [s1 o1] eqn:G.
    destruct (get_count _ _ _ _ G) as (G1 & G2 & G3). cbn [length].
    destruct o1 as [[[v|]|e]| |].
    1:{ apply IH in R. destruct R as [A B]. split; [unfold at_most in *; lia|]. intros x Ex. rewrite (B x Ex). lia. }
    all: injection R as <- <-; split; [unfold at_most; lia|discriminate].
Qed.

Lemma load_count : forall n s s' o, count_ok pr n -> bt_load pr cst (Z.of_nat n) s = (s', o) ->
  at_most (ones n) 0 0 (fst s) (fst s') /\
  (forall t, o = Val (Ok t) -> gets (fst s') = (gets (fst s) + ones n)%nat).
Proof.
  intros n s s' o Hn R. unfold bt_load in R. rewrite (peak_positions_ok pr n Hn) in R.
  unfold bind at 1, lift in R. unfold bind_try, bind at 1 in R.
  assert (Hl : length (map index_of_pair (peaks (root_height n) n)) = ones n).
  { rewrite map_length. assert (Q : exists l : list (nat * nat), Heads (fun h b x => x = (h, b)) 0 n l /\ length l = length (peaks (root_height n) n)).
    { exists (rev (peaks (root_height n) n)). split; [|apply rev_length].
      rewrite <- (app_nil_r (rev _)). apply (Heads_peaks (fun h b x => x = (h, b)) n (root_height n)).
      - pose proof (root_height_spec n). unfold ancestor. rewrite Nat.div_small by lia. constructor.
      - clear. induction (peaks (root_height n) n) as [|[a b] l IH]; constructor; auto. }
    destruct Q as (l & Q1 & Q2). rewrite <- Q2. exact (Heads_ones _ _ _ _ _ Q1). }
  destruct (bt_build_loop cst (map index_of_pair (peaks (root_height n) n)) [] s) as [s1 o1] eqn:B.
  destruct (build_count _ _ _ _ _ B) as [C D]. rewrite Hl in C, D.
  destruct o1 as [[x|e]| |].
  - unfold bind, get_state, ret in R. injection R as <- <-. split; auto. intros t _. exact (D x eq_refl).
  - injection R as <- <-. split; auto. discriminate.
  - injection R as <- <-. split; auto. discriminate.
  - injection R as <- <-. split; auto. discriminate.
Qed.

Lemma tget_count : forall k t t' o, bt_get cst k t = (t', o) ->
  gets (cnt t') = S (gets (cnt t)) /\ inserts (cnt t') = inserts (cnt t) /\ removes (cnt t') = removes (cnt t).
Proof.
  intros k t t' o R. unfold bt_get in R. destruct (bst_get cst k (bt_storage t)) as [s' r] eqn:G.
  injection R as <- <-. cbn [bt_storage]. exact (get_count _ _ _ _ G).
Qed.

Lemma prove_loop_count : forall sc ps acc t t' o, bt_prove_loop cst sc ps acc t = (t', o) ->
  at_most (length ps) 0 0 (cnt t) (cnt t') /\
  (forall x, o = Val (Ok x) -> length x = (length acc + length ps)%nat /\ gets (cnt t') = (gets (cnt t) + length ps)%nat).
Proof.
  intros sc. induction ps as [|p ps IH]; intros acc t t' o R; cbn [bt_prove_loop] in R.
  - injection R as <- <-. split; [apply at_most_refl|]. intros x Ex. injection Ex as <-. cbn [length]. lia.
  - unfold bind_try, bind in R. destruct (bt_get cst p t) as [t1 o1] eqn:G.
    destruct (tget_count _ _ _ _ G) as (G1 & G2 & G3). cbn [length].
    destruct o1 as [[v|e]| |]; try (injection R as <- <-; split; [unfold at_most; lia|discriminate]).
    destruct (match smap_lookup Z.eqb sc p with Some q => Some q | None => v end) as [q|].
    + apply IH in R. destruct R as [A B]. split; [unfold at_most in *; lia|]. intros x Ex. specialize (B x Ex).
      rewrite app_length in B. cbn [length] in B. lia.
    + injection R as <- <-. split; [unfold at_most; lia|discriminate].
Qed.

(** Every proof entry is read from the storage by one get. *)
Lemma prove_count_ok : forall i t t' root proof, bt_prove H pr cst i t = (t', Val (Ok (root, proof))) ->
  gets (cnt t') = (gets (cnt t) + length proof)%nat /\ inserts (cnt t') = inserts (cnt t) /\ removes (cnt t') = removes (cnt t).
Proof.
  intros i t t' root proof R. unfold bt_prove in R. unfold bind at 1, get_state at 1 in R. unfold bind at 1, lift in R.
  destruct (u64_ovf pr (i + 1)) as [su| |]; try discriminate R.
  destruct (su >? bt_leaves_count t); [discriminate R|].
  unfold bind at 1 in R. destruct (bt_root_position pr (bt_leaves_count t)) as [rp| |]; try discriminate R.
  unfold bind at 1 in R. destruct (pos_from_leaf_index pr i) as [lp| |]; try discriminate R.
  unfold bind_try at 1, bind at 1 in R. destruct (bt_get cst lp t) as [t1 o1] eqn:G.
  destruct (tget_count _ _ _ _ G) as (G1 & G2 & G3).
  destruct o1 as [[[p|]|e]| |]; try discriminate R.
  unfold bind at 1 in R. destruct (position_path pr rp lp (bt_leaves_count t)) as [path| |]; try discriminate R.
  unfold bind at 1 in R. destruct (bt_root_node H pr t smap_new) as [[[rn|] sc]| |]; try discriminate R.
  unfold bind_try, bind at 1 in R.
  destruct (bt_prove_loop cst sc (removelast (rev (map snd path))) [bn_hash (bnode_of_prim p)] t1) as [t2 o2] eqn:P.
  destruct (prove_loop_count _ _ _ _ _ _ P) as [A B].
  destruct o2 as [[x|e]| |]; try discriminate R. injection R as <- <- <-.
  destruct (B x eq_refl) as [B1 B2]. cbn [length] in B1. unfold at_most in A. lia.
Qed.
End Binary.

Section BinaryTree.
Variable H : list byte -> bytes32.
Variable pr : profile.
Context {St E : Type}.
Variable st : StorageT St Z BPrimitive E.
Variable view : St -> Z -> option BPrimitive.
Hypothesis L : Lawful st view.
Notation cst := (Counted st).
Notation cnt t := (fst (bt_storage t)).

Lemma C61_push : forall ds c0 s0 t, Z.of_nat (length ds) <= 2 ^ 63 ->
  bt_push_all H pr cst ds (bt_new (c0, s0)) = (t, Val (Ok tt)) ->
  cnt t = {| gets := gets c0; inserts := inserts c0 + (2 * length ds - ones (length ds)); removes := removes c0 |} /\
  forall d t' o, bt_push H pr cst d t = (t', o) -> at_most 0 (1 + ones (length ds)) 0 (cnt t) (cnt t').
Proof.
  intros ds c0 s0 t HN R. pose proof (push_all_count _ _ _ _ _ _ R) as (A & B & C).
  pose proof (reach_binv H pr cst _ (Counted_lawful _ _ _ _ st view L) _ _ _ HN R) as [_ Hh _].
  apply Heads_ones in Hh. rewrite Hh in A. cbn [bt_new bt_storage bt_head length fst] in A, B, C.
  split.
  - destruct (cnt t) as [g i r]. cbn [gets inserts removes] in *. subst. pose proof (ones_le (length ds)). f_equal; lia.
  - intros d t' o P. destruct (push_count _ _ _ _ _ _ _ P) as [Q _]. rewrite Hh in Q. exact Q.
Qed.

Lemma sides_short : forall (ds : list (list byte)) i, (i < length ds)%nat ->
  Z.of_nat (length (sides (length ds) (root_height (length ds)) i)) <= Z.log2_up (Z.of_nat (length ds)).
Proof.
  intros ds i Hi. pose proof (root_height_spec (length ds)) as Hr.
  pose proof (sides_audit H ds i Hi (root_height (length ds))) as E1. apply (f_equal (@length bytes32)) in E1.
  rewrite map_length, rev_length in E1. rewrite E1, ancestor_top, Nat.mul_0_l, Nat.sub_0_r, block_all by lia.
  set (k := Z.to_nat (Z.log2_up (Z.of_nat (length ds)))).
  assert (length (audit_path H i ds) <= k)%nat; [|unfold k in *; pose proof (Z.log2_up_nonneg (Z.of_nat (length ds))); lia].
  apply audit_path_length. apply nat_le_pow2. unfold k. rewrite Z2Nat.id by apply Z.log2_up_nonneg.
  destruct (Z.le_gt_cases (Z.of_nat (length ds)) 1) as [S1|S1].
  - pose proof (Z.pow_pos_nonneg 2 (Z.log2_up (Z.of_nat (length ds))) ltac:(lia) (Z.log2_up_nonneg _)). lia.
  - apply Z.log2_up_spec. exact S1.
Qed.

Lemma prove_count : forall ds c0 s0 t i t' o, Z.of_nat (length ds) < leaf_limit pr ->
  bt_push_all H pr cst ds (bt_new (c0, s0)) = (t, Val (Ok tt)) -> 0 <= i < 2 ^ 64 - 1 ->
  bt_prove H pr cst i t = (t', o) ->
  at_most (1 + Z.to_nat (Z.log2_up (Z.of_nat (length ds)))) 0 0 (cnt t) (cnt t').
Proof.
  intros ds c0 s0 t i t' o HN Ep Hi R. pose proof (limit_max _ _ HN) as HM.
  pose proof (reach_binv H pr cst _ (Counted_lawful _ _ _ _ st view L) ds (c0, s0) t ltac:(unfold max_leaves; lia) Ep) as [Ic Ih _].
  destruct (Z_lt_dec i (Z.of_nat (length ds))) as [Lt|Ge].
  2:{ rewrite prove_out_of_range in R; [|rewrite Ic; lia|unfold U64; lia]. injection R as <- <-. apply at_most_refl. }
  unfold bt_prove in R. unfold bind at 1, get_state at 1 in R. unfold bind at 1, lift in R.
  rewrite u64_ovf_in in R by (change U64 with (2 * 2 ^ 63); lia). rewrite Ic in R.
  replace (i + 1 >? Z.of_nat (length ds)) with false in R by lia.
  unfold bind at 1 in R. rewrite root_position_ok in R by (apply count_ok_limit; exact HN).
  unfold bind at 1 in R. unfold pos_from_leaf_index in R. rewrite u64_ovf_in in R by (change U64 with (2 * 2 ^ 63); lia).
  replace (i * 2) with (index_of 0 (Z.to_nat i)) in R by (rewrite index_of_0; lia).
  unfold bind_try at 1, bind at 1 in R. destruct (bt_get cst (index_of 0 (Z.to_nat i)) t) as [t1 o1] eqn:G.
  destruct (tget_count _ _ _ _ _ G) as (G1 & G2 & G3).
  destruct o1 as [[[p|]|e]| |]; try (injection R as <- <-; unfold at_most; lia).
  unfold bind at 1 in R. pose proof (root_height_spec (length ds)) as Hrs.
  rewrite position_path_ok in R by (try (apply root_height_ok, count_ok_limit; exact HN); lia).
  rewrite tree_path_sides in R by lia. cbn [rev] in R. rewrite removelast_last in R.
  unfold bind at 1 in R. destruct (bt_root_node H pr t smap_new) as [[[rn|] sc]| |];
    try (injection R as <- <-; unfold at_most; lia).
  unfold bind_try, bind at 1 in R.
  match type of R with context [bt_prove_loop cst sc ?l ?a t1] =>
    destruct (bt_prove_loop cst sc l a t1) as [t2 o2] eqn:P; destruct (prove_loop_count _ _ _ _ _ _ _ P) as [A _];
    assert (Hl : length l = length (sides (length ds) (root_height (length ds)) (Z.to_nat i))) by (rewrite rev_length, map_length; reflexivity) end.
  rewrite Hl in A. pose proof (sides_short ds (Z.to_nat i) ltac:(lia)) as Hs.
  assert (Ht : t' = t2) by (destruct o2 as [[x|e]| |]; injection R as <- <-; reflexivity). subst t'.
  unfold at_most in *. lia.
Qed.
End BinaryTree.

(** * The sum tree *)
Section Sum.
Variable H : list byte -> bytes32.
Variable pr : profile.
Context {St E : Type}.
Variable st : StorageT St bytes32 MNode E.
Notation cst := (Counted st).
Notation cnt t := (fst (mt_storage t)).

Lemma minsert_count : forall k v t t' o, mt_insert cst k v t = (t', o) ->
  mt_head t' = mt_head t /\ inserts (cnt t') = S (inserts (cnt t)) /\ gets (cnt t') = gets (cnt t) /\
  removes (cnt t') = removes (cnt t).
Proof.
  intros k v [[c s] hd] t' o R. unfold mt_insert in R. cbn [Counted s_insert mt_storage mt_head] in R.
  destruct (s_insert st k v s) as [s' [p|e]]; injection R as <- <-; cbn; auto.
Qed.

Lemma mjoin_count : forall a b t t' o, mt_join_subtrees H pr cst a b t = (t', o) ->
  mt_head t' = mt_head t /\ gets (cnt t') = gets (cnt t) /\ removes (cnt t') = removes (cnt t) /\
  (inserts (cnt t) <= inserts (cnt t') <= S (inserts (cnt t)))%nat /\
  (forall j, o = Val (Ok j) -> inserts (cnt t') = S (inserts (cnt t))).
Proof.
  intros a b t t' o R. unfold mt_join_subtrees in R. unfold bind at 1, lift in R.
  destruct (u32_ovf pr (mn_height a + 1)) as [h| |];
    try (injection R as <- <-; repeat split; try lia; discriminate).
  unfold bind at 1 in R. destruct (mnode_create_node H pr h (mn_fee a) (mn_hash a) (mn_fee b) (mn_hash b)) as [n| |];
    try (injection R as <- <-; repeat split; try lia; discriminate).
  unfold bind_try, bind in R. destruct (mt_insert cst (mn_hash n) n t) as [t1 o1] eqn:I.
  destruct (minsert_count _ _ _ _ _ I) as (I1 & I2 & I3 & I4).
  destruct o1 as [[[]|e]| |]; injection R as <- <-; repeat split; auto; try lia; discriminate.
Qed.

Lemma mloop_count : forall f t t' o, mt_join_all_subtrees_loop H pr cst f t = (t', o) ->
  at_most 0 (length (mt_head t) - 1) 0 (cnt t) (cnt t') /\
  (o = Val (Ok tt) -> (inserts (cnt t') + length (mt_head t') = inserts (cnt t) + length (mt_head t))%nat).
Proof.
  induction f as [|f IH]; intros t t' o R; cbn [mt_join_all_subtrees_loop] in R.
  - injection R as <- <-. split; [apply at_most_refl|discriminate].
  - unfold bind at 1, get_state at 1 in R. destruct (mt_head t) as [|x [|y l]] eqn:Hh.
    + injection R as <- <-. split; [apply at_most_refl|discriminate].
    + injection R as <- <-. split; [apply at_most_refl|]. intros _. rewrite Hh. reflexivity.
    + destruct (mn_height x =? mn_height y).
      2:{ injection R as <- <-. split; [apply at_most_refl|]. intros _. rewrite Hh. reflexivity. }
      unfold mt_set_head in R. unfold bind at 1 in R. unfold bind_try, bind at 1 in R.
      destruct (mt_join_subtrees H pr cst y x (Build_MTree (mt_storage t) [])) as [t1 o1] eqn:J.
      destruct (mjoin_count _ _ _ _ _ J) as (J1 & J2 & J3 & J4 & J5). cbn [mt_head mt_storage] in J1, J2, J3, J4, J5.
      cbn [length].
      destruct o1 as [[j|e]| |]; try (injection R as <- <-; split; [unfold at_most; lia|discriminate]).
      specialize (J5 j eq_refl). unfold bind in R. cbn [mt_storage] in R. apply IH in R. destruct R as [A B]. cbn [mt_storage mt_head length] in A, B.
      split; [unfold at_most in *; lia|]. intros Eo. specialize (B Eo). lia.
Qed.

Lemma mpush_count : forall fee d t t' o, mt_push H pr cst fee d t = (t', o) ->
  at_most 0 (1 + length (mt_head t)) 0 (cnt t) (cnt t') /\
  (o = Val (Ok tt) -> (inserts (cnt t') + length (mt_head t') = inserts (cnt t) + length (mt_head t) + 2)%nat).
Proof.
  intros fee d t t' o R. unfold mt_push in R. unfold bind_try at 1, bind at 1 in R.
  destruct (mt_insert cst (mn_hash (mnode_create_leaf H fee d)) (mnode_create_leaf H fee d) t) as [t1 o1] eqn:I.
  destruct (minsert_count _ _ _ _ _ I) as (I1 & I2 & I3 & I4).
  destruct o1 as [[[]|e]| |]; try (injection R as <- <-; split; [unfold at_most; lia|discriminate]).
  unfold bind at 1, get_state at 1 in R. unfold mt_set_head in R. unfold bind at 1 in R.
  unfold bind_try, bind at 1, mt_join_all_subtrees in R. unfold bind at 1, get_state at 1 in R. cbn [mt_head mt_storage] in R.
  match type of R with context [mt_join_all_subtrees_loop H pr cst ?f ?u] =>
    destruct (mt_join_all_subtrees_loop H pr cst f u) as [t2 o2] eqn:J end.
  destruct (mloop_count _ _ _ _ J) as [A B]. cbn [mt_storage mt_head length] in A, B. rewrite I1 in A, B.
  destruct o2 as [[[]|e]| |]; injection R as <- <-; (split; [unfold at_most in *; lia|]); intros Eo; try discriminate Eo.
  specialize (B eq_refl). lia.
Qed.

Lemma mroot_loop_count : forall next cur t t' o, mt_root_node_loop H pr cst cur next t = (t', o) ->
  mt_head t' = mt_head t /\ at_most 0 (length next) 0 (cnt t) (cnt t') /\
  (forall n, o = Val (Ok n) -> inserts (cnt t') = (inserts (cnt t) + length next)%nat).
Proof.
  induction next as [|y l IH]; intros cur t t' o R; cbn [mt_root_node_loop] in R.
  - injection R as <- <-. split; [reflexivity|]. split; [apply at_most_refl|]. intros n _. cbn [length]. lia.
  - unfold bind_try, bind in R. destruct (mt_join_subtrees H pr cst y cur t) as [t1 o1] eqn:J.
    destruct (mjoin_count _ _ _ _ _ J) as (J1 & J2 & J3 & J4 & J5). cbn [length].
    destruct o1 as [[j|e]| |]; try (injection R as <- <-; split; [exact J1|]; split; [unfold at_most; lia|discriminate]).
    specialize (J5 j eq_refl). apply IH in R. destruct R as (A & B & C). split; [congruence|]. split; [unfold at_most in *; lia|].
    intros n Eo. rewrite (C n Eo). lia.
Qed.

Lemma mroot_count : forall t t' o, mt_root H pr cst t = (t', o) ->
  mt_head t' = mt_head t /\ at_most 0 (length (mt_head t) - 1) 0 (cnt t) (cnt t') /\
  (forall x, o = Val (Ok x) -> inserts (cnt t') = (inserts (cnt t) + (length (mt_head t) - 1))%nat).
Proof.
  intros t t' o R. unfold mt_root, mt_root_node in R. unfold bind_try at 1, bind at 1 in R. unfold bind at 1, get_state at 1 in R.
  destruct (mt_head t) as [|x next] eqn:Hh.
  - injection R as <- <-. split; [exact Hh|]. split; [apply at_most_refl|]. intros y _. cbn [length]. lia.
  - unfold bind_try, bind at 1 in R. destruct (mt_root_node_loop H pr cst x next t) as [t1 o1] eqn:J.
    destruct (mroot_loop_count _ _ _ _ _ J) as (A & B & C). rewrite Hh in A. cbn [length]. rewrite Nat.sub_succ, Nat.sub_0_r.
    destruct o1 as [[n|e]| |]; injection R as <- <-; (split; [exact A|]); (split; [exact B|]); try discriminate.
    intros y _. exact (C n eq_refl).
Qed.

Variable view : St -> bytes32 -> option MNode.
Hypothesis L : Lawful st view.

Lemma heads_none : forall A (P : nat -> nat -> A -> Prop) n l, Heads P 0 n l -> length l = ones n.
Proof. intros. eapply Heads_ones; eauto. Qed.

Lemma C62_run : H [] = empty_sum -> forall os ds t t' rs,
  Heads (rnode H wrapped_fee ds) 0 (length ds) (mt_head t) -> fees_fit pr (ds ++ pushed os) ->
  Z.of_nat (length (ds ++ pushed os)) <= 2 ^ 64 ->
  mt_run H pr cst os t = (t', Val (Ok rs)) ->
  cnt t' = {| gets := gets (cnt t); inserts := inserts (cnt t) + sum_inserts (length ds) os; removes := removes (cnt t) |}.
Proof.
  intros He. pose proof (Counted_lawful _ _ _ _ st view L) as L'.
  induction os as [|[x|] os IH]; intros ds t t' rs Hh F HN R; cbn [mt_run sum_inserts pushed] in *.
  - injection R as <- _. rewrite Nat.add_0_r. destruct (cnt t); reflexivity.
  - unfold bind_try, bind in R. destruct (mt_push H pr cst (fst x) (snd x) t) as [t1 o1] eqn:P.
    replace (ds ++ x :: pushed os) with ((ds ++ [x]) ++ pushed os) in F, HN by (rewrite <- app_assoc; reflexivity).
    destruct (mpush_ok H wrapped_fee pr (fees_fit pr) (fit_app pr) (fit_one pr) (fit_app_fee pr) cst _ L' ds x t Hh)
      as (t2 & r & W & P' & _ & _ & D).
    { apply (fit_app pr _ _ F). }
    { rewrite !app_length in HN. cbn [length] in HN. unfold sum_limit. lia. }
    rewrite P in P'. injection P' as <- ->.
    destruct (mpush_count _ _ _ _ _ P) as [A B].
    destruct D as [(-> & Hh1 & _)|((e & ->) & _)]; [|discriminate R].
    specialize (B eq_refl). rewrite (Heads_ones _ _ _ _ _ Hh), (Heads_ones _ _ _ _ _ Hh1) in B.
    replace (length ds + 1)%nat with (length (ds ++ [x])) in Hh1 by (rewrite app_length; reflexivity).
    rewrite (IH (ds ++ [x]) t1 t' rs Hh1 F HN R). rewrite app_length. cbn [length].
    unfold at_most in A. f_equal; lia.
  - unfold bind_try, bind in R. destruct (mt_root H pr cst t) as [t1 o1] eqn:P.
    destruct (mroot_count _ _ _ P) as (Hd & A & B).
    destruct o1 as [[x|e]| |]; try discriminate R. specialize (B x eq_refl).
    destruct (mt_run H pr cst os t1) as [t2 [[rs2|e]| |]] eqn:R2; try discriminate R. injection R as <- _.
    rewrite <- Hd in Hh. rewrite (IH ds t1 t2 rs2 Hh F HN R2).
    rewrite <- Hd, (Heads_ones _ _ _ _ _ Hh) in B. unfold at_most in A. f_equal; lia.
Qed.

Lemma C62_lemma : H [] = empty_sum -> forall os c0 s0 t rs, fees_fit pr (pushed os) ->
  Z.of_nat (length (pushed os)) <= 2 ^ 64 ->
  mt_run H pr cst os (mt_new (c0, s0)) = (t, Val (Ok rs)) ->
  cnt t = {| gets := gets c0; inserts := inserts c0 + sum_inserts 0 os; removes := removes c0 |}.
Proof.
  intros He os c0 s0 t rs F HN R. exact (C62_run He os [] (mt_new (c0, s0)) t rs ltac:(constructor) F HN R).
Qed.
End Sum.

(** * The sparse tree *)
Section Sparse.
Variable H : list byte -> bytes32.
Variable pr : profile.
Context {St E : Type}.
Variable st : StorageT St bytes32 SPrimitive E.
Notation cst := (Counted st).

(** Storage computations and tree computations with a bounded number of calls. *)
Definition cost {A} (g i r : nat) (f : M (counts * St) A) : Prop :=
  forall s, at_most g i r (fst s) (fst (fst (f s))).
Definition tcost {A} (g i r : nat) (f : M (SpTree (counts * St)) A) : Prop :=
  forall t, at_most g i r (fst (sp_storage t)) (fst (sp_storage (fst (f t)))).

Ltac am := unfold at_most in *; lia.

Lemma cost_mono : forall A g i r g' i' r' (f : M (counts * St) A), cost g i r f ->
  (g <= g')%nat -> (i <= i')%nat -> (r <= r')%nat -> cost g' i' r' f.
Proof. intros A g i r g' i' r' f C Hg Hi Hr s. specialize (C s). am. Qed.
Lemma cost_ret : forall A (a : A), cost 0 0 0 (ret a).
Proof. intros A a s. apply at_most_refl. Qed.
Lemma cost_lift : forall A (a : out A), cost 0 0 0 (lift a).
Proof. intros A a s. apply at_most_refl. Qed.
Lemma cost_bind : forall A B g i r g' i' r' (f : M (counts * St) A) (k : A -> M (counts * St) B),
  cost g i r f -> (forall a, cost g' i' r' (k a)) -> cost (g + g') (i + i') (r + r') (bind f k).
Proof.
  intros A B g i r g' i' r' f k Cf Ck s. unfold bind. specialize (Cf s). destruct (f s) as [s1 [a| |]]; cbn [fst] in *; try am.
  specialize (Ck a s1). am.
Qed.
Lemma cost_try : forall X A B g i r g' i' r' (f : M (counts * St) (result X A)) (k : A -> M (counts * St) (result X B)),
  cost g i r f -> (forall a, cost g' i' r' (k a)) -> cost (g + g') (i + i') (r + r') (bind_try f k).
Proof.
  intros X A B g i r g' i' r' f k Cf Ck s. unfold bind_try, bind. specialize (Cf s).
  destruct (f s) as [s1 [[a|e]| |]]; cbn [fst ret] in *; try am. specialize (Ck a s1). am.
Qed.

Lemma tcost_mono : forall A g i r g' i' r' (f : M (SpTree (counts * St)) A), tcost g i r f ->
  (g <= g')%nat -> (i <= i')%nat -> (r <= r')%nat -> tcost g' i' r' f.
Proof. intros A g i r g' i' r' f C Hg Hi Hr s. specialize (C s). am. Qed.
Lemma tcost_ret : forall A (a : A), tcost 0 0 0 (ret a).
Proof. intros A a s. apply at_most_refl. Qed.
Lemma tcost_panic : forall A, tcost (A := A) 0 0 0 panic.
Proof. intros A s. apply at_most_refl. Qed.
Lemma tcost_lift : forall A (a : out A), tcost 0 0 0 (lift a).
Proof. intros A a s. apply at_most_refl. Qed.
Lemma tcost_get : tcost 0 0 0 get_state.
Proof. intros s. apply at_most_refl. Qed.
Lemma tcost_on : forall A g i r (m : M (counts * St) A), cost g i r m -> tcost g i r (on_storage m).
Proof. intros A g i r m C [n s]. unfold on_storage. cbn [sp_storage]. specialize (C s). destruct (m s). exact C. Qed.
(** A rule that remembers how the value came about. *)
Lemma tcost_bind : forall A B g i r g' i' r' (f : M (SpTree (counts * St)) A) (k : A -> M (SpTree (counts * St)) B),
  tcost g i r f -> (forall a, (exists t t', f t = (t', Val a)) -> tcost g' i' r' (k a)) ->
  tcost (g + g') (i + i') (r + r') (bind f k).
Proof.
  intros A B g i r g' i' r' f k Cf Ck s. unfold bind. specialize (Cf s). destruct (f s) as [s1 [a| |]] eqn:F; cbn [fst] in *; try am.
  specialize (Ck a (ex_intro _ s (ex_intro _ s1 F)) s1). am.
Qed.
Lemma tcost_try : forall X A B g i r g' i' r' (f : M (SpTree (counts * St)) (result X A)) (k : A -> M (SpTree (counts * St)) (result X B)),
  tcost g i r f -> (forall a, (exists t t', f t = (t', Val (Ok a))) -> tcost g' i' r' (k a)) ->
  tcost (g + g') (i + i') (r + r') (bind_try f k).
Proof.
  intros X A B g i r g' i' r' f k Cf Ck s. unfold bind_try, bind. specialize (Cf s).
  destruct (f s) as [s1 [[a|e]| |]] eqn:F; cbn [fst ret] in *; try am. specialize (Ck a (ex_intro _ s (ex_intro _ s1 F)) s1). am.
Qed.

Lemma cost_sget : forall k, cost 1 0 0 (sst_get cst k).
Proof.
  intros k [c s]. unfold sst_get. cbn [Counted s_get]. destruct (s_get st k s) as [s' [a|e]]; cbn; unfold at_most; cbn; lia.
Qed.
Lemma cost_sinsert : forall k v, cost 0 1 0 (sst_insert cst k v).
Proof.
  intros k v [c s]. unfold sst_insert. cbn [Counted s_insert]. destruct (s_insert st k v s) as [s' [a|e]]; cbn; unfold at_most; cbn; lia.
Qed.
Lemma cost_sremove : forall k, cost 0 0 1 (sst_remove cst k).
Proof.
  intros k [c s]. unfold sst_remove. cbn [Counted s_remove]. destruct (s_remove st k s) as [s' [a|e]]; cbn; unfold at_most; cbn; lia.
Qed.
Lemma cost_read : forall k, cost 1 0 0 (read_child cst k).
Proof.
  intros k. unfold read_child. destruct (b32_eqb k zero_sum); [eapply cost_mono; [apply cost_ret|lia..]|].
  intros [c s]. cbn [Counted s_get]. destruct (s_get st k s) as [s' [[p|]|e]]; try (cbn; unfold at_most; cbn; lia).
  destruct (snode_try_from p); cbn; unfold at_most; cbn; lia.
Qed.
Lemma cost_left : forall n, cost 1 0 0 (storage_node_left_child cst n).
Proof.
  intros n. unfold storage_node_left_child. destruct (snode_is_leaf n); [eapply cost_mono; [apply cost_ret|lia..]|].
  apply (cost_bind _ _ 0 0 0 1 0 0); [apply cost_lift|apply cost_read].
Qed.
Lemma cost_right : forall n, cost 1 0 0 (storage_node_right_child cst n).
Proof.
  intros n. unfold storage_node_right_child. destruct (snode_is_leaf n); [eapply cost_mono; [apply cost_ret|lia..]|].
  apply (cost_bind _ _ 0 0 0 1 0 0); [apply cost_lift|apply cost_read].
Qed.

(** A step of the walk reads at most two children, and none when it is the last. *)
Lemma next_cost : forall it s s' o, 0 <= it_current_offset it -> path_iter_next (StorageNode cst) it s = (s', o) ->
  at_most (2 * (budget it - 1)) 0 0 (fst s) (fst s') /\
  forall x it', o = Val (Some x, it') -> at_most (2 * (budget it - 1) - 2 * (budget it' - 1)) 0 0 (fst s) (fst s').
Proof.
  intros it s s' o I0 R.
  assert (K : at_most (2 * (budget it - 1)) 0 0 (fst s) (fst s') /\ at_most 2 0 0 (fst s) (fst s') /\
    ((fst s) = (fst s') \/ forall x it', o = Val (Some x, it') -> (1 <= budget it')%nat)).
  { unfold path_iter_next in R. unfold budget at 1.
    destruct (it_current it) as [[[n|e] side]|] eqn:C;
      try (injection R as <- <-; split; [unfold at_most; lia|]; split; [unfold at_most; lia|left; reflexivity]).
    destruct (pn_is_node (StorageNode cst) n);
      [|injection R as <- <-; split; [unfold at_most; lia|]; split; [unfold at_most; lia|left; reflexivity]].
    unfold bind at 1 in R. unfold lift in R.
    destruct (pn_leaf_key (StorageNode cst) (it_leaf it)) as [path| |] eqn:Kk;
      try (injection R as <- <-; split; [unfold at_most; lia|]; split; [unfold at_most; lia|left; reflexivity]).
    assert (Lp : length path = 32%nat).
    { cbn [pn_leaf_key StorageNode] in Kk. destruct (snode_leaf_key (it_leaf it)) as [k| |]; try discriminate. cbn [obind] in Kk.
      injection Kk as <-. apply b32_length. }
    destruct (get_instruction path (it_current_offset it)) as [j|] eqn:G;
      [|injection R as <- <-; split; [unfold at_most; lia|]; split; [unfold at_most; lia|left; reflexivity]].
    pose proof (instruction_short H path _ j Lp I0 G) as Lt.
    assert (Two : at_most 2 0 0 (fst s) (fst s') /\ forall x it', o = Val (Some x, it') -> (1 <= budget it')%nat).
    { cbn [pn_left_child pn_right_child StorageNode] in R. destruct j; unfold bind in R.
      - pose proof (cost_left n s) as C1. destruct (storage_node_left_child cst n s) as [s1 [l| |]]; cbn [fst] in C1;
          try (injection R as <- <-; split; [am|intros; discriminate]).
        pose proof (cost_right n s1) as C2. destruct (storage_node_right_child cst n s1) as [s2 [r| |]]; cbn [fst] in C2;
          injection R as <- <-; (split; [am|]); intros x it' Q; try discriminate Q. injection Q as _ <-. unfold budget. cbn. lia.
      - pose proof (cost_right n s) as C1. destruct (storage_node_right_child cst n s) as [s1 [l| |]]; cbn [fst] in C1;
          try (injection R as <- <-; split; [am|intros; discriminate]).
        pose proof (cost_left n s1) as C2. destruct (storage_node_left_child cst n s1) as [s2 [r| |]]; cbn [fst] in C2;
          injection R as <- <-; (split; [am|]); intros x it' Q; try discriminate Q. injection Q as _ <-. unfold budget. cbn. lia. }
    destruct Two as [Two B]. split; [am|]. split; [exact Two|right; exact B]. }
  destruct K as (K1 & K2 & K3). split; [exact K1|]. intros x it' ->.
  pose proof (next_budget H cst it s s' x it' I0 R) as [Lt _].
  destruct K3 as [K3|K3].
  - rewrite K3. unfold at_most. lia.
  - specialize (K3 x it' eq_refl). am.
Qed.

Lemma collect_cost : forall fuel it s, 0 <= it_current_offset it ->
  at_most (2 * (budget it - 1)) 0 0 (fst s) (fst (fst (path_set_collect cst fuel it s))).
Proof.
  induction fuel as [|f IH]; intros it s I0; cbn [path_set_collect]; [unfold fuel_out; cbn; am|]. unfold bind.
  destruct (path_iter_next (StorageNode cst) it s) as [s1 o] eqn:Nx. destruct (next_cost it s s1 o I0 Nx) as [K1 K2].
  destruct o as [[[[pn sn]|] it']| |]; try exact K1.
  pose proof (next_budget H cst it s s1 _ it' I0 Nx) as [Lb I1]. specialize (K2 _ it' eq_refl).
  destruct pn as [pn|e]; [|exact K1]. destruct sn as [sn|e]; [|exact K1].
  specialize (IH it' s1 I1). unfold bind_try, bind.
  destruct (path_set_collect cst f it' s1) as [s2 [[l2|e]| |]]; cbn [fst ret] in *; am.
Qed.

Lemma path_set_cost : forall root leaf, cost 512 0 0 (path_set pr cst root leaf).
Proof.
  intros root leaf s. unfold path_set, path_iter_new. cbn [pn_key_size_in_bits pn_height StorageNode].
  unfold bind, bind_try, bind, lift.
  destruct (usize_ovf pr (max_height - sn_height root)) as [o| |] eqn:O; cbn [obind fst]; try am.
  assert (O0 : 0 <= o).
  { exact (usize_nonneg _ _ _ O). }
  set (it := Build_PathIter leaf _ o). assert (Bi : (budget it <= 257)%nat) by (unfold budget; cbn [it_current it_current_offset it]; lia).
  pose proof (collect_cost 258 it s O0) as C.
  destruct (path_set_collect cst 258 it s) as [s2 [[l2|e]| |]]; cbn [fst ret] in *; am.
Qed.

Lemma join_cost : forall k a b, cost 0 1 0 (join_and_store H pr cst k a b).
Proof.
  intros k a b. unfold join_and_store. apply (cost_bind _ _ 0 0 0 0 1 0); [apply cost_lift|]. intros n.
  apply (cost_try _ _ _ 0 1 0 0 0 0); [apply cost_sinsert|]. intros _. apply cost_ret.
Qed.
Lemma merge_cost : forall k l n, cost 0 (length l) 0 (merge_side_nodes H pr cst k n l).
Proof.
  intros k. induction l as [|a l IH]; intros n; cbn [merge_side_nodes length]; [apply cost_ret|].
  apply (cost_try _ _ _ 0 1 0 0 (length l) 0); [apply join_cost|exact IH].
Qed.
Lemma remove_cost : forall l, cost 0 0 (length l) (remove_path_nodes H cst l).
Proof.
  induction l as [|a l IH]; cbn [remove_path_nodes length]; [apply cost_ret|].
  apply (cost_try _ _ _ 0 0 1 0 0 (length l)); [apply cost_sremove|intros _; exact IH].
Qed.
Lemma set_cost : forall n, tcost 0 0 0 (bind (sp_set_root_node pr n) (fun _ => ret (Ok (E := SError E) tt))).
Proof.
  intros n t. unfold bind, sp_set_root_node, bind, lift.
  destruct (debug_assert pr (snode_is_leaf n || (sn_height n =? max_height))); cbn; am.
Qed.

Lemma prefix_short : forall n a b i c, common_prefix_loop a b n i = Val c -> 0 <= c <= Z.of_nat n.
Proof.
  induction n as [|n IH]; intros a b i c R; cbn [common_prefix_loop] in R; [injection R as <-; lia|].
  destruct (get_bit_at_index_from_msb a i); [|discriminate]. destruct (get_bit_at_index_from_msb b i); [|discriminate].
  destruct (bit_eqb b0 b1); [|injection R as <-; lia].
  destruct (common_prefix_loop a b n (i + 1)) as [z| |] eqn:Q; try discriminate R. apply IH in Q. cbn [obind] in R. injection R as <-. lia.
Qed.
Lemma common_short : forall a b c, snode_common_path_length pr a b = Val c -> 0 <= c <= 256.
Proof.
  intros a b c R. unfold snode_common_path_length in R.
  destruct (debug_assert pr (snode_is_leaf a)); try discriminate R. cbn [obind] in R.
  destruct (debug_assert pr (snode_is_leaf b)); try discriminate R. cbn [obind] in R.
  destruct (snode_is_placeholder a || snode_is_placeholder b); [injection R as <-; lia|].
  destruct (snode_leaf_key a) as [ka| |]; try discriminate R. cbn [obind] in R.
  destruct (snode_leaf_key b) as [kb| |]; try discriminate R. cbn [obind] in R.
  unfold common_prefix_count in R. apply prefix_short in R. rewrite b32_length in R. lia.
Qed.

Lemma update_path_cost : forall leaf ps ss, (length ss <= 256)%nat -> tcost 0 257 0 (update_with_path_set H pr cst leaf ps ss).
Proof.
  intros leaf ps ss Ls. unfold update_with_path_set. apply (tcost_bind _ _ 0 0 0 0 257 0); [apply tcost_lift|]. intros path _.
  destruct ps as [|a ps]; [eapply tcost_mono; [apply tcost_panic|lia..]|].
  apply (tcost_bind _ _ 0 0 0 0 257 0); [apply tcost_lift|]. intros ak _.
  replace 257%nat with ((257 - length ss) + length ss)%nat by lia.
  apply (tcost_try _ _ _ 0 (257 - length ss) 0 0 (length ss) 0).
  - destruct (negb (b32_eqb path ak)); [|eapply tcost_mono; [apply tcost_ret|lia..]].
    replace (257 - length ss)%nat with (1 + (256 - length ss))%nat by lia.
    apply (tcost_try _ _ _ 0 1 0 0 (256 - length ss) 0).
    + destruct (negb (snode_is_placeholder a)); [apply tcost_on, join_cost|eapply tcost_mono; [apply tcost_ret|lia..]].
    + intros c _. apply (tcost_bind _ _ 0 0 0 0 (256 - length ss) 0); [apply tcost_lift|]. intros d (t & t' & D).
      unfold lift in D. injection D as _ D. apply common_short in D.
      eapply tcost_mono; [apply tcost_on, merge_cost|lia| |lia]. rewrite repeat_length. lia.
  - intros c _. replace (length ss) with (length ss + 0)%nat by lia.
    apply (tcost_try _ _ _ 0 (length ss) 0 0 0 0); [apply tcost_on; eapply cost_mono; [apply merge_cost|lia..]|]. intros c' _. apply set_cost.
Qed.

Lemma find_shorter : forall l o r, find_non_placeholder l = (o, r) -> (length r <= length l)%nat /\ (o <> None -> length r < length l)%nat.
Proof.
  induction l as [|n l IH]; intros o r R; cbn [find_non_placeholder] in R.
  - injection R as <- <-. split; [lia|congruence].
  - destruct (negb (snode_is_placeholder n)); [injection R as <- <-; cbn [length]; lia|].
    destruct (IH _ _ R) as [A B]. cbn [length]. split; [lia|]. intros N. specialize (B N). lia.
Qed.

Lemma delete_path_cost : forall leaf ps ss, tcost 0 (length ss) (length ps) (delete_with_path_set H pr cst leaf ps ss).
Proof.
  intros leaf ps ss. unfold delete_with_path_set.
  replace (length ps) with (length ps + 0)%nat by lia.
  apply (tcost_try _ _ _ 0 0 (length ps) 0 (length ss) 0); [apply tcost_on; eapply cost_mono; [apply remove_cost|lia..]|]. intros _ _.
  apply (tcost_bind _ _ 0 0 0 0 (length ss) 0); [apply tcost_lift|]. intros path _.
  set (sel := match ss with [] => _ | _ => _ end).
  assert (Sel : forall t t' o, sel t = (t', o) ->
    at_most 0 (length ss) 0 (fst (sp_storage t)) (fst (sp_storage t')) /\
    forall c ss', o = Val (Ok (c, ss')) -> at_most 0 (length ss - length ss') 0 (fst (sp_storage t)) (fst (sp_storage t')) /\ (length ss' <= length ss)%nat).
  { intros t t' o R. unfold sel in R. destruct ss as [|f rest].
    - injection R as <- <-. split; [am|]. intros c ss' Q. injection Q as _ <-. cbn [length]. split; [am|lia].
    - destruct (snode_is_leaf f).
      2:{ injection R as <- <-. split; [am|]. intros c ss' Q. injection Q as _ <-. split; [am|lia]. }
      destruct (find_non_placeholder rest) as [[n|] r'] eqn:F; destruct (find_shorter _ _ _ F) as [F1 F2]; cbn [length].
      + unfold bind_try, bind in R. pose proof (tcost_on _ _ _ _ _ (join_cost path f n) t) as J.
        destruct (on_storage (join_and_store H pr cst path f n) t) as [t1 o1]. cbn [fst] in J. specialize (F2 ltac:(discriminate)).
        destruct o1 as [[c1|e]| |]; injection R as <- <-; (split; [am|]); intros c ss' Q; try discriminate Q.
        injection Q as _ <-. split; [am|lia].
      + injection R as <- <-. split; [am|]. intros c ss' Q. injection Q as _ <-. split; [am|lia]. }
  intros t. unfold bind_try at 1, bind at 1. destruct (sel t) as [t1 o1] eqn:R. destruct (Sel _ _ _ R) as [A B].
  destruct o1 as [[[c ss']|e]| |]; try exact A. destruct (B c ss' eq_refl) as [C D].
  assert (K : tcost 0 (length ss') 0 (bind_try (on_storage (merge_side_nodes H pr cst path c ss'))
     (fun c' => bind (sp_set_root_node pr c') (fun _ => ret (Ok tt))))).
  { replace (length ss') with (length ss' + 0)%nat at 1 by lia.
    apply (tcost_try _ _ _ 0 (length ss') 0 0 0 0); [apply tcost_on, merge_cost|]. intros c' _. apply set_cost. }
  specialize (K t1). cbv beta iota. am.
Qed.

Lemma path_set_on : forall (t0 : SpTree (counts * St)) leaf ps ss,
  (exists t t', on_storage (path_set pr cst (sp_root_node t0) leaf) t = (t', Val (Ok (ps, ss)))) ->
  (length ps <= 257)%nat /\ (length ss <= 256)%nat.
Proof.
  intros t0 leaf ps ss (t & t' & R). unfold on_storage in R.
  destruct (path_set pr cst (sp_root_node t0) leaf (sp_storage t)) as [s o] eqn:P. injection R as _ ->.
  apply (path_set_ends H pr cst _ _ _) in P. exact P.
Qed.

Lemma delete_cost : forall k, tcost 513 256 257 (sp_delete H pr cst k).
Proof.
  intros k. unfold sp_delete. apply (tcost_bind _ _ 0 0 0 513 256 257); [apply tcost_get|]. intros t0 _.
  destruct (b32_eqb (sp_root H t0) zero_sum); [eapply tcost_mono; [apply tcost_ret|lia..]|].
  apply (tcost_try _ _ _ 1 0 0 512 256 257); [apply tcost_on, cost_sget|]. intros [p|] _; [|eapply tcost_mono; [apply tcost_ret|lia..]].
  destruct (snode_try_from p) as [leaf|e]; [|eapply tcost_mono; [apply tcost_ret|lia..]].
  apply (tcost_try _ _ _ 512 0 0 0 256 257); [apply tcost_on, path_set_cost|]. intros [ps ss] Q.
  apply path_set_on in Q. eapply tcost_mono; [apply delete_path_cost|lia..].
Qed.
Lemma update_cost : forall k v, v <> [] -> tcost 512 259 0 (sp_update H pr cst k v).
Proof.
  intros k [|b v] Nv; [congruence|]. unfold sp_update. cbv zeta.
  apply (tcost_try _ _ _ 0 1 0 512 258 0); [apply tcost_on, cost_sinsert|]. intros _ _.
  apply (tcost_bind _ _ 0 0 0 512 258 0); [apply tcost_lift|]. intros lk _.
  apply (tcost_try _ _ _ 0 1 0 512 257 0); [apply tcost_on, cost_sinsert|]. intros _ _.
  apply (tcost_bind _ _ 0 0 0 512 257 0); [apply tcost_get|]. intros t0 _.
  destruct (snode_is_placeholder (sp_root_node t0)); [eapply tcost_mono; [apply set_cost|lia..]|].
  apply (tcost_try _ _ _ 512 0 0 0 257 0); [apply tcost_on, path_set_cost|]. intros [ps ss] Q.
  apply path_set_on in Q. apply update_path_cost. lia.
Qed.
Lemma update_empty_cost : forall k, tcost 513 256 257 (sp_update H pr cst k []).
Proof.
  intros k. unfold sp_update. apply (tcost_try _ _ _ 513 256 257 0 0 0); [apply delete_cost|]. intros _ _. apply tcost_ret.
Qed.
Lemma load_cost : forall r, cost 1 0 0 (sp_load cst r).
Proof.
  intros r. unfold sp_load. apply (cost_try _ _ _ 1 0 0 0 0 0); [apply cost_sget|]. intros [p|]; [|apply cost_ret].
  destruct (snode_try_from p); [|apply cost_ret]. intros s. apply at_most_refl.
Qed.
End Sparse.
