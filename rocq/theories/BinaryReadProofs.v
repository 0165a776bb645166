(** BinaryReadProofs.v -- lemmas about root, load and prove of the binary tree. *)
From Verif Require Import Base Storage ModelCommon ModelBinary SpecBinary SpecBinaryFacts
  SpecPosition PositionProofs PathProofs HeadsProofs StorageProofs Runs BinaryProofs.
From Coq Require Import Arith ZifyBool ZifyNat ZifyN.
Ltac Zify.zify_post_hook ::= Z.div_mod_to_equations.
Arguments Z.pow : simpl never.
Arguments Z.mul : simpl never.
Arguments Z.add : simpl never.
Arguments Z.sub : simpl never.
Arguments Z.of_nat : simpl never.
Arguments Nat.pow : simpl never.
Arguments Nat.mul : simpl never.
Arguments Nat.div : simpl never.
Arguments Nat.add : simpl never.

(** The leaf counts for which paths can be computed; the profiles differ. *)
Definition count_ok (pr : profile) (n : nat) : Prop :=
  if overflow_checks pr then Z.of_nat n < 2 ^ 62 else Z.of_nat n < 2 ^ 63.

Definition root_height (n : nat) : nat := Z.to_nat (Z.log2_up (Z.of_nat n + 1)).

Lemma root_height_spec : forall n, (n + 1 <= 2 ^ root_height n)%nat.
Proof.
  intros n. apply Nat2Z.inj_le. rewrite P2_nat. unfold root_height.
  rewrite Z2Nat.id by apply Z.log2_up_nonneg.
  destruct (Z.eq_dec (Z.of_nat n) 0) as [E|N].
  - rewrite E. rewrite Nat2Z.inj_add, E. vm_compute. discriminate.
  - pose proof (Z.log2_up_spec (Z.of_nat n + 1) ltac:(lia)). lia.
Qed.

Lemma root_height_le : forall n k, (n + 1 <= 2 ^ k)%nat -> (root_height n <= k)%nat.
Proof.
  intros n k Hk. unfold root_height. apply Nat2Z.inj_le. rewrite Z2Nat.id by apply Z.log2_up_nonneg.
  assert (E : Z.of_nat n + 1 <= 2 ^ Z.of_nat k).
  { rewrite <- P2_nat. lia. }
  apply Z.log2_up_le_mono in E. rewrite Z.log2_up_pow2 in E by lia. exact E.
Qed.

Lemma nat_le_pow2 : forall n k, Z.of_nat n <= P2 k -> (n <= 2 ^ k)%nat.
Proof. intros n k Hn. rewrite <- P2_nat in Hn. lia. Qed.

Lemma root_height_ok : forall pr n, count_ok pr n -> root_ok pr (root_height n).
Proof.
  intros pr n Hn. unfold count_ok in Hn; unfold root_ok; destruct (overflow_checks pr); cbn in Hn; [left|right; split; auto];
    apply root_height_le, nat_le_pow2; [change (P2 62) with (2 ^ 62)|change (P2 63) with (2 ^ 63)]; lia.
Qed.

Lemma root_position_ok : forall pr n, count_ok pr n ->
  bt_root_position pr (Z.of_nat n) = Val (index_of (root_height n) 0).
Proof.
  intros pr n Hn. unfold bt_root_position.
  assert (Hn' : Z.of_nat n < 2 ^ 63) by (unfold count_ok in *; destruct (overflow_checks pr); cbn in Hn; lia).
  rewrite u64_ovf_in by (change U64 with (2 * 2 ^ 63); lia). cbn [obind].
  pose proof (root_ok_63 pr _ (root_height_ok pr n Hn)) as Hr.
  assert (E : next_power_of_two pr (Z.of_nat n + 1) = Val (P2 (root_height n))).
  { unfold next_power_of_two. destruct (Z.leb_spec (Z.of_nat n + 1) 1).
    - unfold root_height. replace (Z.of_nat n + 1) with 1 by lia. reflexivity.
    - unfold root_height at 1. rewrite Z2Nat.id by apply Z.log2_up_nonneg. apply u64_ovf_in.
      assert (X : Z.log2_up (Z.of_nat n + 1) = Z.of_nat (root_height n)).
      { unfold root_height. rewrite Z2Nat.id by apply Z.log2_up_nonneg. reflexivity. }
      rewrite X. pose proof (P2_pos (root_height n)).
      assert (P2 (root_height n) <= P2 63) by (apply P2_le; lia).
      change (P2 63) with (2 ^ 63) in *. change U64 with (2 * 2 ^ 63). lia. }
  rewrite E. cbn [obind]. unfold index_of. change (Z.of_nat 0) with 0.
  pose proof (P2_pos (root_height n)).
  assert (P2 (root_height n) <= P2 63) by (apply P2_le; lia).
  rewrite u64_ovf_in; [f_equal; lia|].
  change (P2 63) with (2 ^ 63) in *. change U64 with (2 * 2 ^ 63). lia.
Qed.

Lemma pp_collect_inv : forall pr fi fo it l, pp_collect_from pr fi fo it = Val l -> l <> [] ->
  exists x it' xs, position_path_next_loop pr fi it = Val (Some x, it') /\
    position_path_collect pr fo it' = Val xs /\ l = x :: xs.
Proof.
  intros pr fi fo it l C Hl. unfold pp_collect_from in C.
  destruct (position_path_next_loop pr fi it) as [[[x|] it']| |]; cbn [obind] in C; try discriminate C.
  - destruct (position_path_collect pr fo it') as [xs| |] eqn:E; cbn [obind] in C; try discriminate C.
    inversion C; subst. exists x, it', xs. auto.
  - inversion C; subst. contradiction.
Qed.

Lemma peak_positions_ok : forall pr n, count_ok pr n ->
  bt_peak_positions pr (Z.of_nat n) = Val (map index_of_pair (peaks (root_height n) n)).
Proof.
  intros pr n Hn. unfold bt_peak_positions.
  assert (Hn' : Z.of_nat n < 2 ^ 63) by (unfold count_ok in *; destruct (overflow_checks pr); cbn in Hn; lia).
  rewrite u64_ovf_in by (change U64 with (2 * 2 ^ 63); lia). cbn [obind].
  rewrite u64_ovf_in by (change U64 with (2 * 2 ^ 63); lia). cbn [obind].
  unfold pos_from_leaf_index. rewrite u64_ovf_in by (change U64 with (2 * 2 ^ 63); lia). cbn [obind].
  rewrite root_position_ok by exact Hn. cbn [obind].
  replace ((Z.of_nat n + 1 - 1) * 2) with (index_of 0 n) by (rewrite index_of_0; lia).
  replace (Z.of_nat n + 1) with (Z.of_nat (n + 1)) by lia.
  pose proof (root_height_spec n) as Hs. pose proof (root_height_ok pr n Hn) as Hr.
  rewrite position_path_iter_new_ok by (auto; lia). cbn [obind].
  set (k := root_height n) in *.
  pose proof (root_ok_63 pr k Hr) as Hk.
  assert (C : pp_collect_from pr 66 66 (pp_iter (n + 1) None (step_iter n k (index_of k 0))) =
              Val (tree_path (n + 1) k n (k, O))).
  { apply pp_collect_ok with (k := k); auto; try lia. apply root_bound; lia. }
  pose proof (tree_path_sides (n + 1) n k (k, O) ltac:(lia)) as T.
  destruct (pp_collect_inv _ _ _ _ _ C) as (x & it' & xs & E1 & E2 & E3).
  { intros E. rewrite E in T. discriminate T. }
  unfold position_path_next. rewrite E1. cbn [obind]. rewrite E2. cbn [obind].
  rewrite E3 in T. cbn [map] in T. injection T as _ T. rewrite T, sides_peaks. reflexivity.
Qed.

Lemma Forall2_impl : forall {A B} (P Q : A -> B -> Prop) l l',
  (forall a b, P a b -> Q a b) -> Forall2 P l l' -> Forall2 Q l l'.
Proof. intros A B P Q l l' HPQ F. induction F; constructor; auto. Qed.

(** * Blocks in a truncated list *)
Lemma block_represent : forall (ds : list (list byte)) h b, (b * 2 ^ h < length ds)%nat ->
  block (fst (represent (length ds) h b)) (snd (represent (length ds) h b)) ds = block h b ds.
Proof.
  intros ds. induction h as [|h IH]; intros b Hb; cbn [represent].
  - destruct (node_exists (length ds) 0 b); reflexivity.
  - destruct (node_exists (length ds) (S h) b) eqn:Ex; [reflexivity|].
    rewrite IH by (rewrite pow2_S in Hb; lia). symmetry. apply block_S_left.
    cbn [node_exists] in Ex. apply Nat.ltb_ge in Ex. exact Ex.
Qed.

(** Two truncated blocks with the same start and covering the end are equal. *)
Lemma block_same_start : forall (ds : list (list byte)) h b h' b', (b * 2 ^ h = b' * 2 ^ h')%nat ->
  (length ds <= (b + 1) * 2 ^ h)%nat -> (length ds <= (b' + 1) * 2 ^ h')%nat ->
  block h b ds = block h' b' ds.
Proof.
  intros ds h b h' b' E A B. unfold block. rewrite E.
  rewrite !firstn_all2; auto; rewrite skipn_length; lia.
Qed.

Section Binary.
Variable H : list byte -> bytes32.
Variable pr : profile.
Notation mth := (mth H).
Notation right_node := (right_node H).
Notation right_prim := (right_prim H).

Definition scratch_right (ds : list (list byte)) (sc : Scratch) : Prop :=
  forall key p, smap_lookup Z.eqb sc key = Some p -> exists h b,
    node_exists (length ds) h b = true /\ key = index_of h b /\ p = right_prim ds h b.

(** Incomplete but existing nodes of height at most [h] are in the scratch map. *)
Definition scratch_has (ds : list (list byte)) (h : nat) (sc : Scratch) : Prop :=
  forall h' b, (h' <= h)%nat -> node_exists (length ds) h' b = true ->
    (length ds < (b + 1) * 2 ^ h')%nat ->
    smap_lookup Z.eqb sc (index_of h' b) = Some (right_prim ds h' b).

Lemma exists_start : forall n h b, node_exists n h b = true -> (b * 2 ^ h < n)%nat.
Proof.
  intros n [|h] b Ex; cbn [node_exists] in Ex; apply Nat.ltb_lt in Ex.
  - change (2 ^ 0)%nat with 1%nat. lia.
  - rewrite pow2_S. nia.
Qed.

Lemma end_unique : forall n k b b', (b * 2 ^ k < n)%nat -> (n <= (b + 1) * 2 ^ k)%nat ->
  (b' * 2 ^ k < n)%nat -> (n < (b' + 1) * 2 ^ k)%nat -> b = b'.
Proof. intros n k b b' A B C D. pose proof (pow2_pos k). nia. Qed.

Lemma create_node_strict : forall ds h m x y, ((2 * m + 1) * 2 ^ h < length ds)%nat ->
  Z.of_nat (length ds) <= max_leaves ->
  right_node ds h (2 * m) y -> bn_hash x = mth (block h (2 * m + 1) ds) ->
  exists j, bnode_create_node H pr y x = Val j /\ right_node ds (S h) m j.
Proof. intros. apply create_node_ok; auto. Qed.

Lemma build_root_ok : forall ds, Z.of_nat (length ds) <= max_leaves ->
  forall next h m cur sc,
  Heads (right_node ds) h m next -> bn_hash cur = mth (block h m ds) ->
  (m * 2 ^ h < length ds)%nat -> (length ds <= (m + 1) * 2 ^ h)%nat ->
  scratch_right ds sc -> scratch_has ds h sc ->
  exists n sc', build_root_node H pr cur next sc = Val (n, sc') /\ bn_hash n = mth ds /\
    scratch_right ds sc' /\ forall h', scratch_has ds h' sc'.
Proof.
  intros ds HN. induction next as [|y next IH]; intros h m cur sc Hh Hc Hlo Hhi Hr Hs;
    cbn [build_root_node].
  - apply Heads_nil_inv in Hh. subst m. rewrite block_all in Hc by lia.
    exists cur, sc. repeat split; auto.
    intros h' h1 b Hle Ex Hinc. destruct (le_lt_dec h1 h) as [|G]; [apply Hs; auto|].
    exfalso. destruct h1 as [|h1]; [lia|]. cbn [node_exists] in Ex. apply Nat.ltb_lt in Ex.
    assert (2 ^ h <= 2 ^ h1)%nat by (apply pow2_le; lia). nia.
  - destruct (Heads_cons_inv _ _ _ _ _ Hh) as (k & b & Hk & Hm & Hy & Hnext).
    assert (Hp : (2 ^ h <= 2 ^ k)%nat) by (apply pow2_le; lia).
    assert (Hblk : block h m ds = block k (2 * b + 1) ds) by (apply block_same_start; nia).
    destruct (create_node_ok H pr ds k b cur y) as (j & Ej & Hj); auto.
    { lia. } { rewrite <- Hblk. exact Hc. }
    rewrite Ej. cbn [obind].
    destruct Hj as [Pj Hj'] eqn:EHj. clear EHj.
    assert (Hins : forall key, smap_lookup Z.eqb
       (fst (smap_insert Z.eqb (bn_position j) (bprim_of_node j) sc)) key =
       if key =? index_of (S k) b then Some (right_prim ds (S k) b) else smap_lookup Z.eqb sc key).
    { intros key. rewrite (smap_lookup_insert Z.eqb Z.eqb_eq).
      rewrite (right_node_prim _ _ _ _ _ (conj Pj Hj')), Pj. reflexivity. }
    apply IH with (h := S k) (m := b).
    + exact Hnext.
    + exact Hj'.
    + rewrite pow2_S. nia.
    + rewrite pow2_S. nia.
    + intros key p. rewrite Hins. destruct (Z.eqb_spec key (index_of (S k) b)) as [->|N]; [|apply Hr].
      intros E. inversion E; subst. exists (S k), b. repeat split.
      cbn [node_exists]. apply Nat.ltb_lt. lia.
    + intros h1 b1 Hle Ex Hinc. rewrite Hins. destruct (Z.eqb_spec (index_of h1 b1) (index_of (S k) b)) as [E|N].
      * apply index_of_inj in E. destruct E as [-> ->]. reflexivity.
      * destruct (le_lt_dec h1 h) as [|G]; [apply Hs; auto|]. exfalso.
        destruct (Nat.eq_dec h1 (S k)) as [->|Nk].
        -- apply N. f_equal. symmetry. pose proof (exists_start _ _ _ Ex).
           apply (end_unique (length ds) (S k)); auto; rewrite pow2_S; nia.
        -- destruct h1 as [|h1]; [lia|]. cbn [node_exists] in Ex. apply Nat.ltb_lt in Ex.
           assert (Q : (2 ^ h <= 2 ^ h1)%nat) by (apply pow2_le; lia).
           assert (k = (k - S h1) + S h1)%nat by lia.
           assert (E2 : (2 ^ k = 2 ^ (k - S h1) * 2 ^ S h1)%nat).
           { rewrite <- Nat.pow_add_r. f_equal. lia. }
           assert (Em : (m * 2 ^ h = ((2 * b + 1) * 2 ^ (k - S h1)) * 2 ^ S h1)%nat) by (rewrite Hm, E2; ring).
           set (c := ((2 * b + 1) * 2 ^ (k - S h1))%nat) in *.
           assert (b1 = c).
           { symmetry. apply (end_unique (length ds) (S h1)); rewrite ?pow2_S in *; nia. }
           subst b1. rewrite pow2_S in *. nia.
Qed.

Lemma root_node_ok : forall {St} ds (t : BTree St), Z.of_nat (length ds) <= max_leaves ->
  Heads (right_node ds) 0 (length ds) (bt_head t) -> ds <> [] ->
  exists n sc, bt_root_node H pr t smap_new = Val (Some n, sc) /\ bn_hash n = mth ds /\
    scratch_right ds sc /\ forall h, scratch_has ds h sc.
Proof.
  intros St ds t HN Hh Hne. unfold bt_root_node.
  destruct (bt_head t) as [|x l].
  { apply Heads_nil_inv in Hh. destruct ds; [contradiction|discriminate Hh]. }
  destruct (Heads_cons_inv _ _ _ _ _ Hh) as (k & b & _ & Hm & Hx & Hl).
  change (2 ^ 0)%nat with 1%nat in Hm. rewrite Nat.mul_1_r in Hm.
  destruct (build_root_ok ds HN l k (2 * b)%nat x smap_new) as (n & sc & E & A & B & C).
  - apply Heads_double. exact Hl.
  - apply Hx.
  - pose proof (pow2_pos k). nia.
  - lia.
  - intros key p E. discriminate E.
  - intros h' b' Hle Ex Hinc. exfalso. pose proof (exists_start _ _ _ Ex) as Hs.
    assert (E2 : (2 ^ k = 2 ^ (k - h') * 2 ^ h')%nat).
    { rewrite <- Nat.pow_add_r. f_equal. lia. }
    rewrite Hm, E2 in Hs, Hinc. set (c := (2 ^ (k - h'))%nat) in *. pose proof (pow2_pos h').
    rewrite Nat.mul_assoc in Hs, Hinc.
    apply Nat.mul_lt_mono_pos_r in Hs; [|lia]. apply Nat.mul_lt_mono_pos_r in Hinc; [|lia]. lia.
  - exists n, sc. rewrite E. repeat split; auto.
Qed.

Lemma root_empty : forall {St} (t : BTree St), bt_head t = [] -> bt_root H pr t = Val empty_sum.
Proof. intros St t E. unfold bt_root, bt_root_node. rewrite E. reflexivity. Qed.

Lemma root_ok_ne : forall {St} ds (t : BTree St), Z.of_nat (length ds) <= max_leaves ->
  Heads (right_node ds) 0 (length ds) (bt_head t) -> ds <> [] ->
  bt_root H pr t = Val (mth ds).
Proof.
  intros St ds t HN Hh Hne. destruct (root_node_ok ds t HN Hh Hne) as (n & sc & E & A & _).
  unfold bt_root. rewrite E. cbn [obind]. rewrite A. reflexivity.
Qed.

Lemma root_is_mth : forall {St} ds (t : BTree St), H [] = empty_sum -> Z.of_nat (length ds) <= max_leaves ->
  Heads (right_node ds) 0 (length ds) (bt_head t) -> bt_root H pr t = Val (mth ds).
Proof.
  intros St ds t HE HN Hh. destruct ds as [|d ds].
  - apply Heads_zero_inv in Hh. rewrite root_empty by exact Hh. rewrite mth_nil, HE. reflexivity.
  - apply root_ok_ne; auto. discriminate.
Qed.

(** * The audit path from the sides *)
Lemma sides_audit : forall ds i, (i < length ds)%nat -> forall h,
  map (fun x => mth (block (fst x) (snd x) ds)) (rev (sides (length ds) h i)) =
    audit_path H (i - ancestor i h * 2 ^ h) (block h (ancestor i h) ds).
Proof.
  intros ds i Hi. induction h as [|h IH]; cbn [sides].
  - rewrite ancestor_0. destruct (nth_error ds i) as [d|] eqn:E.
    + rewrite (block_0 i ds d E). reflexivity.
    + apply nth_error_None in E. lia.
  - pose proof (ancestor_le i h) as Lo. pose proof (ancestor_gt i h) as Hi2.
    pose proof (pow2_pos h) as Hp. pose proof (pow2_S h) as P2S.
    destruct (node_exists (length ds) (S h) (ancestor i (S h))) eqn:Ex.
    + cbn [rev]. rewrite map_app. rewrite IH. cbn [map].
      pose proof (side_exists _ _ _ Hi Ex) as Hs.
      rewrite block_represent by exact Hs.
      cbn [node_exists] in Ex. apply Nat.ltb_lt in Ex.
      rewrite block_S. set (a := ancestor i (S h)) in *.
      assert (Ll : length (block h (2 * a) ds) = (2 ^ h)%nat) by (apply block_length; lia).
      assert (Lr : (0 < length (block h (2 * a + 1) ds))%nat) by (rewrite block_length_eq; lia).
      rewrite (audit_path_join H h) by (auto; apply block_length_le).
      replace (a * 2 ^ S h)%nat with (2 * a * 2 ^ h)%nat by (rewrite P2S; ring).
      destruct (ancestor_cases i h) as [(E1 & E2 & _)|(E1 & E2 & _)]; fold a in E1, E2;
        rewrite E2; rewrite E1 in *.
      * replace (i - 2 * a * 2 ^ h <? 2 ^ h)%nat with true by (symmetry; apply Nat.ltb_lt; lia).
        reflexivity.
      * replace (i - 2 * a * 2 ^ h <? 2 ^ h)%nat with false by (symmetry; apply Nat.ltb_ge; lia).
        replace (i - (2 * a + 1) * 2 ^ h)%nat with (i - 2 * a * 2 ^ h - 2 ^ h)%nat by lia.
        reflexivity.
    + rewrite IH. cbn [node_exists] in Ex. apply Nat.ltb_ge in Ex.
      rewrite (block_S_left h (ancestor i (S h)) ds) by exact Ex.
      destruct (ancestor_cases i h) as [(E1 & E2 & _)|(E1 & E2 & _)]; [|rewrite E1 in Lo; lia].
      rewrite E1. f_equal. rewrite P2S. lia.
Qed.

Lemma sides_complete_or : forall n i h x, (i < n)%nat -> In x (sides n h i) ->
  node_exists n (fst x) (snd x) = true.
Proof.
  intros n i. induction h as [|h IH]; intros x Hi Hin; cbn [sides] in Hin; [contradiction|].
  destruct (node_exists n (S h) (ancestor i (S h))) eqn:Ex; [|apply IH; auto].
  destruct Hin as [<-|Hin]; [|apply IH; auto].
  apply represent_exists. apply side_exists; auto.
Qed.

Section Storage.
Context {St E : Type}.
Variable st : StorageT St Z BPrimitive E.
Variable view : St -> Z -> option BPrimitive.
Hypothesis L : Lawful st view.

Definition same_view (s s' : St) : Prop := forall k, view s' k = view s k.

Lemma same_view_refl : forall s, same_view s s.
Proof. intros s k. reflexivity. Qed.
Lemma same_view_trans : forall a b c, same_view a b -> same_view b c -> same_view a c.
Proof. intros a b c A B k. rewrite B, A. reflexivity. Qed.

Lemma bst_get_cases : forall k s, exists s', same_view s s' /\
  (bst_get st k s = (s', Val (Ok (view s k))) \/
   exists e, bst_get st k s = (s', Val (Err (BStorageError e))) /\ ~ Infallible st).
Proof.
  intros k s. unfold bst_get. destruct (s_get st k s) as [s' [v|e]] eqn:G.
  - exists s'. split; [intros k'; apply (law_get_view _ _ L _ _ _ _ G)|].
    left. rewrite (law_get_ok _ _ L _ _ _ _ G). reflexivity.
  - exists s'. split; [intros k'; apply (law_get_view _ _ L _ _ _ _ G)|].
    right. exists e. split; auto. intros (I & _). destruct (I k s) as (s2 & v & Eq). congruence.
Qed.

(** A tree that differs only by a read of the storage. *)
Definition read_only (t t' : BTree St) : Prop :=
  bt_head t' = bt_head t /\ bt_leaves_count t' = bt_leaves_count t /\
  same_view (bt_storage t) (bt_storage t').

Lemma read_only_refl : forall t, read_only t t.
Proof. intros t. repeat split. Qed.
Lemma read_only_trans : forall a b c, read_only a b -> read_only b c -> read_only a c.
Proof.
  intros a b c (A1 & A2 & A3) (B1 & B2 & B3). split; [congruence|]. split; [congruence|].
  eapply same_view_trans; eauto.
Qed.

Lemma bt_get_cases : forall k t, exists t', read_only t t' /\
  (bt_get st k t = (t', Val (Ok (view (bt_storage t) k))) \/
   exists e, bt_get st k t = (t', Val (Err (BStorageError e))) /\ ~ Infallible st).
Proof.
  intros k t. unfold bt_get. destruct (bst_get_cases k (bt_storage t)) as (s' & V & C).
  exists (Build_BTree s' (bt_head t) (bt_leaves_count t)).
  split; [repeat split; exact V|].
  destruct C as [->|(e & -> & F)]; [left; reflexivity|right; exists e; auto].
Qed.

(** Every entry for a complete block is right (entries may be missing). *)
Definition store_sub (ds : list (list byte)) (s : St) : Prop :=
  forall h b p, ((b + 1) * 2 ^ h <= length ds)%nat -> view s (index_of h b) = Some p ->
    p = right_prim ds h b.

Lemma store_full_sub : forall ds s, store_full H view ds s -> store_sub ds s.
Proof. intros ds s F h b p Hb E1. rewrite (F h b Hb) in E1. congruence. Qed.

Definition missing (ds : list (list byte)) (s : St) (h b : nat) : Prop :=
  ((b + 1) * 2 ^ h <= length ds)%nat /\ view s (index_of h b) = None.

Lemma prove_loop_ok : forall ds sc, scratch_right ds sc -> (forall h, scratch_has ds h sc) ->
  forall xs acc t, store_sub ds (bt_storage t) ->
  (forall x, In x xs -> node_exists (length ds) (fst x) (snd x) = true) ->
  exists t' r, bt_prove_loop st sc (map index_of_pair xs) acc t = (t', Val r) /\ read_only t t' /\
    (r = Ok (acc ++ map (fun x => mth (block (fst x) (snd x) ds)) xs) \/
     (exists h b, r = Err (BLoadError (index_of h b)) /\ missing ds (bt_storage t) h b) \/
     (exists e, r = Err (BStorageError e) /\ ~ Infallible st)).
Proof.
  intros ds sc Sr Sh. induction xs as [|[h b] xs IH]; intros acc t Hs Hx; cbn [map bt_prove_loop].
  - exists t, (Ok acc). rewrite app_nil_r. repeat split; auto.
  - unfold bind_try, bind. change (index_of_pair (h, b)) with (index_of h b).
    destruct (bt_get_cases (index_of h b) t) as (t1 & R & [G|(e & G & F)]); rewrite G.
    2:{ exists t1, (Err (BStorageError e)). repeat split; try apply R. right. right. eauto. }
    assert (Ex : node_exists (length ds) h b = true) by (apply (Hx (h, b)); left; reflexivity).
    assert (Next : exists t' r, bt_prove_loop st sc (map index_of_pair xs) (acc ++ [mth (block h b ds)]) t1 = (t', Val r) /\
      read_only t t' /\
      (r = Ok (acc ++ mth (block h b ds) :: map (fun x => mth (block (fst x) (snd x) ds)) xs) \/
       (exists h b, r = Err (BLoadError (index_of h b)) /\ missing ds (bt_storage t) h b) \/
       (exists e, r = Err (BStorageError e) /\ ~ Infallible st))).
    { destruct (IH (acc ++ [mth (block h b ds)]) t1) as (t' & r & E1 & R1 & C).
      - intros h' b' p Hb' Ev. apply (Hs h' b' p Hb'). rewrite <- Ev. symmetry. apply R.
      - intros x Hin. apply Hx. right. exact Hin.
      - exists t', r. split; [exact E1|]. split; [eapply read_only_trans; eauto|].
        rewrite <- app_assoc in C. destruct C as [C|[(h' & b' & C & [M1 M2])|C]]; auto.
        right. left. exists h', b'. split; auto. split; auto. rewrite <- M2. symmetry. apply R. }
    destruct (smap_lookup Z.eqb sc (index_of h b)) as [p|] eqn:Lk.
    + destruct (Sr _ _ Lk) as (h' & b' & _ & Ei & ->). apply index_of_inj in Ei. destruct Ei as [<- <-].
      exact Next.
    + destruct (le_lt_dec ((b + 1) * 2 ^ h) (length ds)) as [C|C].
      2:{ rewrite (Sh h h b) in Lk by (auto; lia). discriminate Lk. }
      destruct (view (bt_storage t) (index_of h b)) as [p|] eqn:Vw.
      * rewrite (Hs h b p C Vw). exact Next.
      * exists t1, (Err (BLoadError (index_of h b))). split; [reflexivity|]. split; [exact R|].
        right. left. exists h, b. split; auto. split; auto.
Qed.

Lemma removelast_last : forall {A} (l : list A) x, removelast (l ++ [x]) = l.
Proof. intros. rewrite removelast_app by discriminate. cbn. apply app_nil_r. Qed.

(** Tree state right, storage entries right but possibly missing. *)
Record bsub (ds : list (list byte)) (t : BTree St) : Prop := {
  bsub_count : bt_leaves_count t = Z.of_nat (length ds);
  bsub_heads : Heads (right_node ds) 0 (length ds) (bt_head t);
  bsub_store : store_sub ds (bt_storage t)
}.

Lemma binv_bsub : forall ds t, binv H view ds t -> bsub ds t.
Proof. intros ds t [A B C]. constructor; auto. apply store_full_sub; exact C. Qed.

Lemma prove_cases : forall ds t i d, bsub ds t -> count_ok pr (length ds) ->
  nth_error ds i = Some d ->
  exists t' r, bt_prove H pr st (Z.of_nat i) t = (t', Val r) /\ read_only t t' /\
    (r = Ok (mth ds, leaf_sum H d :: audit_path H i ds) \/
     (exists h b, (r = Err (BLoadError (index_of h b)) \/ (h = O /\ r = Err (BLoadError (Z.of_nat b)))) /\
        missing ds (bt_storage t) h b) \/
     (exists e, r = Err (BStorageError e) /\ ~ Infallible st)).
Proof.
  intros ds t i d [Ic Ih Is] Hn Hd.
  assert (Hi : (i < length ds)%nat) by (apply nth_error_Some; congruence).
  assert (Hn' : Z.of_nat (length ds) < 2 ^ 63) by (unfold count_ok in *; destruct (overflow_checks pr); cbn in Hn; lia).
  unfold bt_prove. unfold bind at 1, get_state at 1. unfold bind at 1, lift at 1.
  rewrite u64_ovf_in by (change U64 with (2 * 2 ^ 63); lia).
  rewrite Ic. replace (Z.of_nat i + 1 >? Z.of_nat (length ds)) with false by lia.
  unfold bind at 1, lift at 1. rewrite root_position_ok by exact Hn.
  unfold bind at 1, lift at 1. unfold pos_from_leaf_index.
  rewrite u64_ovf_in by (change U64 with (2 * 2 ^ 63); lia).
  replace (Z.of_nat i * 2) with (index_of 0 i) by (rewrite index_of_0; lia).
  unfold bind_try at 1, bind at 1.
  destruct (bt_get_cases (index_of 0 i) t) as (t1 & R & [G|(e & G & F)]); rewrite G.
  2:{ exists t1, (Err (BStorageError e)). repeat split; try apply R. right. right. eauto. }
  assert (Cp : ((i + 1) * 2 ^ 0 <= length ds)%nat) by (change (2 ^ 0)%nat with 1%nat; lia).
  destruct (view (bt_storage t) (index_of 0 i)) as [p|] eqn:Vw.
  2:{ exists t1, (Err (BLoadError (Z.of_nat i))). split; [reflexivity|]. split; [exact R|].
      right. left. exists O, i. split; [right; auto|]. split; auto. }
  rewrite (Is 0%nat i p Cp Vw).
  unfold bind at 1, lift at 1.
  pose proof (root_height_spec (length ds)) as Hrs.
  rewrite position_path_ok by (auto using root_height_ok; lia).
  set (k := root_height (length ds)) in *.
  rewrite (tree_path_sides _ _ _ _ Hi). cbn [rev]. rewrite removelast_last.
  unfold bind at 1, lift at 1.
  destruct (root_node_ok ds t ltac:(unfold max_leaves; lia) Ih) as (rn & sc & Er & Hr & Sr & Sh).
  { intros ->. cbn in Hi. lia. }
  rewrite Er. rewrite <- map_rev. unfold bind_try, bind.
  destruct (prove_loop_ok ds sc Sr Sh (rev (sides (length ds) k i)) [bn_hash (bnode_of_prim (right_prim ds 0 i))] t1)
    as (t2 & r & El & R2 & C).
  - intros h b q Hb Ev. apply (Is h b q Hb). rewrite <- Ev. symmetry. apply R.
  - intros x Hin. apply in_rev in Hin. eapply sides_complete_or; eauto.
  - rewrite El. destruct C as [->|[(h & b & -> & M1 & M2)|(e & -> & F)]]; unfold ret.
    + eexists t2, _. split; [reflexivity|]. split; [eapply read_only_trans; eauto|]. left.
      rewrite Hr. rewrite sides_audit by exact Hi. cbn [bn_hash bnode_of_prim right_prim snd app].
      unfold BinaryProofs.right_prim. cbn [snd]. rewrite (block_0 i ds d Hd).
      rewrite ancestor_top by (unfold k in *; lia).
      rewrite Nat.mul_0_l, Nat.sub_0_r, block_all by lia. reflexivity.
    + eexists t2, _. split; [reflexivity|]. split; [eapply read_only_trans; eauto|]. right. left.
      exists h, b. split; auto. split; auto. rewrite <- M2. symmetry. apply R.
    + eexists t2, _. split; [reflexivity|]. split; [eapply read_only_trans; eauto|]. right. right. eauto.
Qed.

Lemma prove_ok : forall ds t i d, Infallible st -> binv H view ds t -> count_ok pr (length ds) ->
  nth_error ds i = Some d ->
  exists t', bt_prove H pr st (Z.of_nat i) t = (t', Val (Ok (mth ds, leaf_sum H d :: audit_path H i ds))) /\
    read_only t t'.
Proof.
  intros ds t i d Inf Hi Hn Hd.
  destruct (prove_cases ds t i d (binv_bsub _ _ Hi) Hn Hd) as (t' & r & Er & R & [->|[(h & b & _ & M1 & M2)|(e & _ & F)]]).
  - exists t'. auto.
  - rewrite (binv_store _ _ _ _ Hi h b M1) in M2. discriminate M2.
  - contradiction.
Qed.

Lemma prove_out_of_range : forall t i, 0 <= bt_leaves_count t <= i -> i < U64 - 1 ->
  bt_prove H pr st i t = (t, Val (Err (BInvalidProofIndex i))).
Proof.
  intros t i Hi HU. unfold bt_prove, bind, get_state, lift. rewrite u64_ovf_in by lia.
  replace (i + 1 >? bt_leaves_count t) with true by lia. reflexivity.
Qed.

(** * Load *)
Lemma build_loop_ok : forall ps acc s, exists s' r,
  bt_build_loop st (map index_of_pair ps) acc s = (s', Val r) /\ same_view s s' /\
  ((exists prims, Forall2 (fun p x => view s (index_of_pair p) = Some x) ps prims /\
      r = Ok (rev (map bnode_of_prim prims) ++ acc)) \/
   (exists ps1 p ps2, ps = ps1 ++ p :: ps2 /\ r = Err (BLoadError (index_of_pair p)) /\
      view s (index_of_pair p) = None /\
      forall q, In q ps1 -> view s (index_of_pair q) <> None) \/
   (exists e, r = Err (BStorageError e) /\ ~ Infallible st)).
Proof.
  induction ps as [|p ps IH]; intros acc s; cbn [map bt_build_loop].
  - exists s, (Ok acc). repeat split. left. exists []. split; [constructor|reflexivity].
  - unfold bind_try, bind.
    destruct (bst_get_cases (index_of_pair p) s) as (s1 & V & [G|(e & G & F)]); rewrite G.
    + destruct (view s (index_of_pair p)) as [x|] eqn:Vw.
      * destruct (IH (bnode_of_prim x :: acc) s1) as (s' & r & Er & V' & C).
        exists s', r. split; [exact Er|]. split; [eapply same_view_trans; eauto|].
        destruct C as [(prims & F2 & ->)|[(ps1 & q & ps2 & -> & -> & N & A)|(e & -> & F)]].
        -- left. exists (x :: prims). split.
           ++ constructor; auto. eapply Forall2_impl; [|exact F2]. intros a b Hab. rewrite <- Hab. symmetry. apply V.
           ++ cbn [map rev]. rewrite <- app_assoc. reflexivity.
        -- right. left. exists (p :: ps1), q, ps2. repeat split.
           ++ rewrite <- N. symmetry. apply V.
           ++ intros z [<-|Hz]; [congruence|]. rewrite <- V. auto.
        -- right. right. eauto.
      * exists s1, (Err (BLoadError (index_of_pair p))). unfold ret. repeat split; auto.
        right. left. exists [], p, ps. repeat split; auto.
    + exists s1, (Err (BStorageError e)). unfold ret. repeat split; auto. right. right. eauto.
Qed.

Lemma load_cases : forall n s, count_ok pr n -> exists s' r,
  bt_load pr st (Z.of_nat n) s = (s', Val r) /\ same_view s s' /\
  ((exists prims, Forall2 (fun p x => view s (index_of_pair p) = Some x) (peaks (root_height n) n) prims /\
      r = Ok (Build_BTree s' (rev (map bnode_of_prim prims)) (Z.of_nat n))) \/
   (exists ps1 p ps2, peaks (root_height n) n = ps1 ++ p :: ps2 /\ r = Err (BLoadError (index_of_pair p)) /\
      view s (index_of_pair p) = None /\
      forall q, In q ps1 -> view s (index_of_pair q) <> None) \/
   (exists e, r = Err (BStorageError e) /\ ~ Infallible st)).
Proof.
  intros n s Hn. unfold bt_load. unfold bind at 1, lift at 1. rewrite peak_positions_ok by exact Hn.
  unfold bind_try at 1, bind at 1.
  destruct (build_loop_ok (peaks (root_height n) n) [] s) as (s' & r & Er & V & C). rewrite Er.
  destruct C as [(prims & F2 & ->)|[(ps1 & q & ps2 & Ep & -> & N & A)|(e & -> & F)]].
  - unfold bind, get_state, ret. rewrite app_nil_r.
    eexists s', _. split; [reflexivity|]. split; [exact V|]. left. exists prims. auto.
  - unfold ret. eexists s', _. split; [reflexivity|]. split; [exact V|]. right. left.
    exists ps1, q, ps2. auto.
  - unfold ret. eexists s', _. split; [reflexivity|]. split; [exact V|]. right. right. eauto.
Qed.

Lemma same_view_full : forall ds s s', same_view s s' -> store_full H view ds s -> store_full H view ds s'.
Proof. intros ds s s' V F h b Hb. rewrite V. apply F. exact Hb. Qed.

Lemma load_full : forall ds s, store_full H view ds s -> count_ok pr (length ds) ->
  exists s' r, bt_load pr st (Z.of_nat (length ds)) s = (s', Val r) /\ same_view s s' /\
  ((exists t, r = Ok t /\ binv H view ds t /\ bt_storage t = s') \/
   (exists e, r = Err (BStorageError e) /\ ~ Infallible st)).
Proof.
  intros ds s F Hn. destruct (load_cases (length ds) s Hn) as (s' & r & Er & V & C).
  exists s', r. split; [exact Er|]. split; [exact V|].
  destruct C as [(prims & F2 & ->)|[(ps1 & q & ps2 & Ep & -> & N & A)|C]]; [left| |right; exact C].
  - eexists. split; [reflexivity|]. split; [|reflexivity]. constructor; cbn.
    + reflexivity.
    + rewrite <- (app_nil_r (rev _)). apply Heads_peaks with (h := root_height (length ds)).
      * rewrite ancestor_top; [constructor|]. pose proof (root_height_spec (length ds)). lia.
      * assert (G : forall ps prims, (forall k b, In (k, b) ps -> ((b + 1) * 2 ^ k <= length ds)%nat) ->
          Forall2 (fun p x => view s (index_of_pair p) = Some x) ps prims ->
          Forall2 (fun p x => right_node ds (fst p) (snd p) x) ps (map bnode_of_prim prims)).
        { intros ps prims' Hps HF. induction HF as [|[k b] x ps xs Hx HF IHF]; cbn [map]; constructor.
          - cbn [fst snd]. change (index_of_pair (k, b)) with (index_of k b) in Hx.
            rewrite (F k b) in Hx by (apply Hps; left; reflexivity). inversion Hx.
            apply right_node_of_prim.
          - apply IHF. intros k' b' Hin. apply Hps. right. exact Hin. }
        apply G; [|exact F2]. intros k b Hin. apply peaks_complete in Hin. tauto.
    + eapply same_view_full; eauto.
  - exfalso. destruct q as [k b]. change (index_of_pair (k, b)) with (index_of k b) in N.
    rewrite (F k b) in N; [discriminate N|].
    assert (In (k, b) (peaks (root_height (length ds)) (length ds))) as Hin.
    { rewrite Ep. apply in_or_app. right. left. reflexivity. }
    apply peaks_complete in Hin. tauto.
Qed.

Lemma store_full_firstn : forall m ds s, store_full H view ds s -> store_full H view (firstn m ds) s.
Proof.
  intros m ds s F h b Hb. rewrite firstn_length in Hb.
  assert (Hb2 : ((b + 1) * 2 ^ h <= length ds)%nat) by lia.
  rewrite (F h b Hb2). unfold BinaryProofs.right_prim. do 3 f_equal.
  rewrite <- (firstn_skipn m ds) at 1. apply block_app. rewrite firstn_length. exact Hb.
Qed.

Lemma binv_same_heads : forall ds t t', binv H view ds t -> binv H view ds t' ->
  bt_head t = bt_head t' /\ bt_leaves_count t = bt_leaves_count t'.
Proof.
  intros ds t t' [A B C] [A' B' C']. split; [|congruence].
  eapply Heads_det; eauto. intros. eapply right_node_det; eauto.
Qed.

Lemma binv_read_only : forall ds t t', read_only t t' -> binv H view ds t -> binv H view ds t'.
Proof.
  intros ds t t' (A & B & C) [I1 I2 I3]. constructor.
  - congruence.
  - rewrite A. exact I2.
  - eapply same_view_full; eauto.
Qed.

(** * prove and root are read-only in every state *)
Lemma prove_loop_read_only : forall sc ks acc t t' o,
  bt_prove_loop st sc ks acc t = (t', o) -> read_only t t'.
Proof.
  intros sc. induction ks as [|k ks IH]; intros acc t t' o E1; cbn [bt_prove_loop] in E1.
  - inversion E1; subst. apply read_only_refl.
  - unfold bind_try, bind in E1. destruct (bt_get_cases k t) as (t1 & R & [G|(e & G & F)]); rewrite G in E1.
    + destruct (match smap_lookup Z.eqb sc k with Some p => Some p | None => view (bt_storage t) k end).
      * apply IH in E1. eapply read_only_trans; eauto.
      * inversion E1; subst. exact R.
    + inversion E1; subst. exact R.
Qed.

Lemma prove_read_only : forall i t t' o, bt_prove H pr st i t = (t', o) -> read_only t t'.
Proof.
  intros i t t' o E1. unfold bt_prove in E1. unfold bind at 1, get_state at 1 in E1.
  unfold bind at 1, lift at 1 in E1.
  destruct (u64_ovf pr (i + 1)); try (inversion E1; subst; apply read_only_refl).
  destruct (a >? bt_leaves_count t); [inversion E1; subst; apply read_only_refl|].
  unfold bind at 1, lift at 1 in E1.
  destruct (bt_root_position pr (bt_leaves_count t)); try (inversion E1; subst; apply read_only_refl).
  unfold bind at 1, lift at 1 in E1.
  destruct (pos_from_leaf_index pr i); try (inversion E1; subst; apply read_only_refl).
  unfold bind_try at 1, bind at 1 in E1.
  destruct (bt_get_cases a1 t) as (t1 & R & [G|(e & G & F)]); rewrite G in E1;
    [|inversion E1; subst; exact R].
  destruct (view (bt_storage t) a1); [|inversion E1; subst; exact R].
  unfold bind at 1, lift at 1 in E1.
  destruct (position_path pr a0 a1 (bt_leaves_count t)); try (inversion E1; subst; exact R).
  unfold bind at 1, lift at 1 in E1.
  destruct (bt_root_node H pr t smap_new) as [[[rn|] sc]| |]; try (inversion E1; subst; exact R).
  unfold bind_try, bind in E1.
  match type of E1 with context [bt_prove_loop st sc ?ks ?acc t1] =>
    destruct (bt_prove_loop st sc ks acc t1) as [t2 [[x|e]| |]] eqn:El end;
    apply prove_loop_read_only in El; inversion E1; subst; eapply read_only_trans; eauto.
Qed.
End Storage.
End Binary.
