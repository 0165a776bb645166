(** SpecBinaryFacts.v -- lemmas about the specification of binary Merkle trees. *)
From Verif Require Import Base SpecBinary.
From Coq Require Import PeanoNat.
Arguments Nat.pow : simpl never.
Arguments Nat.log2 : simpl never.

Lemma pow2_pos : forall h, (0 < 2 ^ h)%nat.
Proof. intros h. apply Nat.neq_0_lt_0, Nat.pow_nonzero; lia. Qed.

Lemma pow2_S : forall h, (2 ^ S h = 2 * 2 ^ h)%nat.
Proof. intros h. apply Nat.pow_succ_r'. Qed.

Lemma pow2_le : forall a b, (a <= b)%nat -> (2 ^ a <= 2 ^ b)%nat.
Proof. intros; apply Nat.pow_le_mono_r; lia. Qed.

Lemma split_point_bounds : forall n, (2 <= n)%nat ->
  (0 < split_point n < n)%nat /\ (n <= 2 * split_point n)%nat.
Proof.
  intros n Hn. unfold split_point.
  assert (Hs := Nat.log2_spec (n - 1)%nat ltac:(lia)).
  pose proof (pow2_pos (Nat.log2 (n - 1))). rewrite pow2_S in Hs. lia.
Qed.

Lemma split_point_pow : forall n h, (2 ^ h < n)%nat -> (n <= 2 ^ S h)%nat -> split_point n = (2 ^ h)%nat.
Proof.
  intros n h H1 H2. unfold split_point. f_equal.
  apply Nat.log2_unique; [lia|]. lia.
Qed.

(** [split_point n] is the largest power of two below [n]. *)
Lemma split_point_largest : forall n k, (2 <= n)%nat -> (2 ^ k < n)%nat -> (2 ^ k <= split_point n)%nat.
Proof.
  intros n k Hn Hk. unfold split_point. apply pow2_le.
  apply Nat.log2_le_pow2; lia.
Qed.

Section Facts.
Variable H : list byte -> bytes32.
Notation mth := (mth H).
Notation mth_fuel := (mth_fuel H).
Notation audit_path := (audit_path H).
Notation audit_path_fuel := (audit_path_fuel H).
Notation hash_node := (hash_node H).
Notation hash_leaf := (hash_leaf H).

Lemma mth_fuel_step : forall f ds, (2 <= length ds)%nat ->
  mth_fuel (S f) ds = hash_node (mth_fuel f (firstn (split_point (length ds)) ds))
                                (mth_fuel f (skipn (split_point (length ds)) ds)).
Proof. intros f [|a [|b ds]] Hl; simpl in Hl; try lia. reflexivity. Qed.

Lemma audit_path_fuel_step : forall f m ds, (2 <= length ds)%nat ->
  audit_path_fuel (S f) m ds =
    let k := split_point (length ds) in
    if Nat.ltb m k
    then audit_path_fuel f m (firstn k ds) ++ [mth (skipn k ds)]
    else audit_path_fuel f (m - k) (skipn k ds) ++ [mth (firstn k ds)].
Proof. intros f m [|a [|b ds]] Hl; simpl in Hl; try lia. reflexivity. Qed.

Lemma mth_fuel_enough : forall f ds, (length ds <= f)%nat -> mth_fuel f ds = mth ds.
Proof.
  unfold SpecBinary.mth.
  enough (A : forall f g ds, (length ds <= f)%nat -> (length ds <= g)%nat ->
            mth_fuel f ds = mth_fuel g ds) by (intros; apply A; lia).
  induction f as [|f IH]; intros g ds Hf Hg.
  - destruct ds; [|simpl in Hf; lia]. destruct g; reflexivity.
  - destruct ds as [|a [|b ds]].
    + destruct g; reflexivity.
    + destruct g; reflexivity.
    + destruct g as [|g]; [simpl in Hg; lia|].
      assert (Hl : (2 <= length (a :: b :: ds))%nat) by (simpl; lia).
      rewrite !mth_fuel_step by exact Hl.
      destruct (split_point_bounds _ Hl) as [[Hk1 Hk2] _].
      f_equal; apply IH; rewrite ?firstn_length, ?skipn_length; lia.
Qed.

(** The defining equations of RFC 6962. *)
Lemma mth_nil : mth [] = H [].
Proof. reflexivity. Qed.
Lemma mth_one : forall d, mth [d] = H (x00 :: d).
Proof. reflexivity. Qed.
Lemma mth_split : forall ds, (2 <= length ds)%nat ->
  mth ds = hash_node (mth (firstn (split_point (length ds)) ds))
                     (mth (skipn (split_point (length ds)) ds)).
Proof.
  intros ds Hl. destruct (split_point_bounds _ Hl) as [[Hk1 Hk2] _].
  destruct (length ds) as [|n] eqn:En; [lia|].
  rewrite <- (mth_fuel_enough (S n)) by lia.
  rewrite mth_fuel_step by lia. rewrite En.
  rewrite !mth_fuel_enough; [reflexivity| |];
    rewrite ?firstn_length, ?skipn_length; lia.
Qed.

Lemma audit_path_fuel_enough : forall f m ds, (length ds <= f)%nat ->
  audit_path_fuel f m ds = audit_path m ds.
Proof.
  unfold SpecBinary.audit_path.
  enough (A : forall f g m ds, (length ds <= f)%nat -> (length ds <= g)%nat ->
            audit_path_fuel f m ds = audit_path_fuel g m ds) by (intros; apply A; lia).
  induction f as [|f IH]; intros g m ds Hf Hg.
  - destruct ds; [|simpl in Hf; lia]. destruct g; reflexivity.
  - destruct ds as [|a [|b ds]].
    + destruct g; reflexivity.
    + destruct g; reflexivity.
    + destruct g as [|g]; [simpl in Hg; lia|].
      assert (Hl : (2 <= length (a :: b :: ds))%nat) by (simpl; lia).
      rewrite !audit_path_fuel_step by exact Hl. cbv zeta.
      destruct (split_point_bounds _ Hl) as [[Hk1 Hk2] _].
      destruct (Nat.ltb _ _); f_equal; apply IH; rewrite ?firstn_length, ?skipn_length; lia.
Qed.

Lemma audit_path_one : forall m d, audit_path m [d] = [].
Proof. reflexivity. Qed.
Lemma audit_path_split : forall m ds, (2 <= length ds)%nat ->
  audit_path m ds =
    let k := split_point (length ds) in
    if Nat.ltb m k
    then audit_path m (firstn k ds) ++ [mth (skipn k ds)]
    else audit_path (m - k) (skipn k ds) ++ [mth (firstn k ds)].
Proof.
  intros m ds Hl. destruct (split_point_bounds _ Hl) as [[Hk1 Hk2] _].
  destruct (length ds) as [|n] eqn:En; [lia|].
  rewrite <- (audit_path_fuel_enough (S n)) by lia.
  rewrite audit_path_fuel_step by lia. rewrite En. cbv zeta.
  destruct (Nat.ltb _ _); rewrite audit_path_fuel_enough; try reflexivity;
    rewrite ?firstn_length, ?skipn_length; lia.
Qed.

(** Height-indexed forms used by the proofs. *)
Lemma mth_join : forall h l r, length l = (2 ^ h)%nat -> (0 < length r)%nat ->
  (length r <= 2 ^ h)%nat -> mth (l ++ r) = hash_node (mth l) (mth r).
Proof.
  intros h l r Hl Hr1 Hr2. pose proof (pow2_pos h).
  rewrite mth_split by (rewrite app_length; lia).
  rewrite app_length.
  rewrite (split_point_pow _ h) by (rewrite ?pow2_S; lia).
  rewrite <- Hl. rewrite firstn_app, skipn_app, Nat.sub_diag, firstn_all, skipn_all. simpl.
  rewrite app_nil_r. reflexivity.
Qed.

Lemma audit_path_join : forall h m l r, length l = (2 ^ h)%nat -> (0 < length r)%nat ->
  (length r <= 2 ^ h)%nat ->
  audit_path m (l ++ r) =
    if Nat.ltb m (2 ^ h) then audit_path m l ++ [mth r]
    else audit_path (m - 2 ^ h) r ++ [mth l].
Proof.
  intros h m l r Hl Hr1 Hr2. pose proof (pow2_pos h).
  rewrite audit_path_split by (rewrite app_length; lia).
  rewrite app_length.
  rewrite (split_point_pow _ h) by (rewrite ?pow2_S; lia).
  cbv zeta. rewrite <- Hl.
  rewrite firstn_app, skipn_app, Nat.sub_diag, firstn_all, skipn_all. simpl.
  rewrite app_nil_r. reflexivity.
Qed.

(** Length of the audit path. *)
Lemma audit_path_length : forall h m ds, (length ds <= 2 ^ h)%nat ->
  (length (audit_path m ds) <= h)%nat.
Proof.
  induction h as [|h IH]; intros m ds Hl.
  - change (2 ^ 0)%nat with 1%nat in Hl.
    destruct ds as [|a [|b ds]]; simpl in *; lia.
  - destruct (Nat.le_gt_cases (length ds) (2 ^ h)) as [Hle|Hgt].
    + specialize (IH m ds Hle). lia.
    + rewrite <- (firstn_skipn (2 ^ h) ds).
      rewrite pow2_S in Hl. pose proof (pow2_pos h).
      rewrite (audit_path_join h); rewrite ?firstn_length, ?skipn_length; try lia.
      destruct (Nat.ltb _ _); rewrite app_length; simpl;
        match goal with |- context [length (audit_path ?m' ?d)] =>
          assert ((length (audit_path m' d) <= h)%nat)
            by (apply IH; rewrite ?firstn_length, ?skipn_length; lia) end; lia.
Qed.

(** * Blocks *)
Lemma block_length : forall {A} h b (ds : list A), ((b + 1) * 2 ^ h <= length ds)%nat ->
  length (block h b ds) = (2 ^ h)%nat.
Proof.
  intros A h b ds Hb. unfold block. rewrite firstn_length, skipn_length. lia.
Qed.

Lemma block_app : forall {A} h b (ds e : list A), ((b + 1) * 2 ^ h <= length ds)%nat ->
  block h b (ds ++ e) = block h b ds.
Proof.
  intros A h b ds e Hb. unfold block.
  rewrite skipn_app, firstn_app, skipn_length.
  replace (2 ^ h - (length ds - b * 2 ^ h))%nat with 0%nat by lia.
  simpl. rewrite app_nil_r. reflexivity.
Qed.

Lemma block_0 : forall {A} b ds (d : A), nth_error ds b = Some d -> block 0 b ds = [d].
Proof.
  intros A b ds d Hn. unfold block. change (2 ^ 0)%nat with 1%nat. rewrite Nat.mul_1_r.
  revert ds Hn; induction b as [|b IH]; intros [|x ds] Hn; try discriminate; simpl in *.
  - injection Hn as ->; reflexivity.
  - apply IH; exact Hn.
Qed.

Lemma firstn_plus : forall {A} (a b : nat) (l : list A),
  firstn (a + b) l = firstn a l ++ firstn b (skipn a l).
Proof.
  induction a as [|a IH]; intros b l; [reflexivity|].
  destruct l as [|x l]; simpl; [now rewrite firstn_nil|]. rewrite IH; reflexivity.
Qed.

Lemma skipn_plus : forall {A} (a b : nat) (l : list A),
  skipn (a + b) l = skipn b (skipn a l).
Proof.
  induction a as [|a IH]; intros b l; [reflexivity|].
  destruct l as [|x l]; simpl; [now rewrite skipn_nil|]. apply IH.
Qed.

Lemma block_S : forall {A} h b (ds : list A), block (S h) b ds = block h (2 * b) ds ++ block h (2 * b + 1) ds.
Proof.
  intros A h b ds. unfold block. rewrite pow2_S.
  replace (2 * 2 ^ h)%nat with (2 ^ h + 2 ^ h)%nat by lia.
  rewrite firstn_plus, <- skipn_plus. f_equal.
  - f_equal. f_equal. lia.
  - f_equal. f_equal. lia.
Qed.

Lemma block_all : forall {A} h (ds : list A), (length ds <= 2 ^ h)%nat -> block h 0 ds = ds.
Proof. intros A h ds Hl. unfold block. simpl. apply firstn_all2; exact Hl. Qed.

Lemma block_length_le : forall {A} h b (ds : list A), (length (block h b ds) <= 2 ^ h)%nat.
Proof. intros. unfold block. rewrite firstn_length. lia. Qed.

Lemma block_length_eq : forall {A} h b (ds : list A),
  length (block h b ds) = Nat.min (2 ^ h) (length ds - b * 2 ^ h).
Proof. intros. unfold block. rewrite firstn_length, skipn_length. lia. Qed.

Lemma mth_block_S : forall h b ds, ((2 * b + 1) * 2 ^ h < length ds)%nat ->
  mth (block (S h) b ds) = hash_node (mth (block h (2 * b) ds)) (mth (block h (2 * b + 1) ds)).
Proof.
  intros h b ds Hb. rewrite block_S. apply (mth_join h).
  - apply block_length. lia.
  - rewrite block_length_eq. pose proof (pow2_pos h). lia.
  - apply block_length_le.
Qed.

Lemma block_S_left : forall {A} h b (ds : list A), (length ds <= (2 * b + 1) * 2 ^ h)%nat ->
  block (S h) b ds = block h (2 * b) ds.
Proof.
  intros A h b ds Hb. rewrite block_S.
  assert (E : block h (2 * b + 1) ds = []).
  { apply length_zero_iff_nil. rewrite block_length_eq. lia. }
  rewrite E, app_nil_r. reflexivity.
Qed.
End Facts.
