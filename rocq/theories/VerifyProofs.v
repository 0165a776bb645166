(** VerifyProofs.v -- the proof verifier accepts exactly the proof sets that lead to the
    root with the directions of SpecVerify.v; completeness and soundness. *)
From Verif Require Import Base ModelCommon ModelBinary ModelVerify SpecBinary SpecBinaryFacts
  SpecPosition SpecVerify PositionProofs PathProofs BindingProofs.
From Coq Require Import Arith ZifyBool ZifyNat ZifyN.
Ltac Zify.zify_post_hook ::= Z.div_mod_to_equations.
Arguments Nat.pow : simpl never.
Arguments Nat.mul : simpl never.
Arguments Nat.div : simpl never.
Arguments Nat.add : simpl never.
Arguments Z.of_nat : simpl never.
Arguments Z.mul : simpl never.
Arguments Z.div : simpl never.
Arguments Z.pow : simpl never.
Arguments Z.add : simpl never.
Arguments Z.sub : simpl never.

(** * Complete blocks *)
Lemma complete_true : forall n h b, complete n h b = true <-> ((b + 1) * 2 ^ h <= n)%nat.
Proof. intros. unfold complete. apply Nat.leb_le. Qed.
Lemma complete_false : forall n h b, complete n h b = false <-> (n < (b + 1) * 2 ^ h)%nat.
Proof. intros. unfold complete. apply Nat.leb_gt. Qed.

Lemma complete_down : forall n i h, complete n (S h) (ancestor i (S h)) = true -> complete n h (ancestor i h) = true.
Proof.
  intros n i h C. rewrite complete_true in *. rewrite ancestor_step, pow2_S in C.
  pose proof (pow2_pos h). assert (ancestor i h / 2 * 2 + 2 >= ancestor i h + 1)%nat by lia. nia.
Qed.

Lemma complete_le : forall n i h s, (h <= s)%nat -> complete n s (ancestor i s) = true -> complete n h (ancestor i h) = true.
Proof.
  intros n i h s L C. induction L as [|s L IH]; auto. apply IH. apply complete_down. exact C.
Qed.

Lemma complete_small : forall n i h, (Z.of_nat n < 2 ^ 63) -> complete n h (ancestor i h) = true -> (h <= 62)%nat.
Proof.
  intros n i h Hn C. rewrite complete_true in C.
  destruct (le_lt_dec h 62); auto. exfalso.
  assert (P2 63 <= P2 h) by (apply P2_le; lia).
  assert (Z.of_nat (2 ^ h) <= Z.of_nat n) by (pose proof (pow2_pos h); nia).
  rewrite P2_nat in *. change (2 ^ 63) with (P2 63) in Hn. lia.
Qed.

(** The largest complete block around [i]. *)
Definition top_block (n i s : nat) : Prop :=
  complete n s (ancestor i s) = true /\ complete n (S s) (ancestor i (S s)) = false.

Lemma top_block_even : forall n i s, top_block n i s -> exists c, ancestor i s = (2 * c)%nat.
Proof.
  intros n i s [C1 C2]. rewrite complete_true in C1. rewrite complete_false in C2.
  rewrite ancestor_step, pow2_S in C2. exists (ancestor i s / 2)%nat.
  pose proof (pow2_pos s). destruct (Nat.Even_or_Odd (ancestor i s)) as [[c E]|[c E]]; [lia|].
  exfalso. replace (ancestor i s / 2)%nat with c in C2 by lia. rewrite E in C1. nia.
Qed.

Lemma dirs_below : forall n i s h, complete n s (ancestor i s) = true -> (h <= s)%nat ->
  directions i n h = bits i h.
Proof.
  intros n i s h C Hh. unfold directions, bits. apply map_ext_in. intros x Hx. apply in_seq in Hx.
  unfold dir_at. rewrite (complete_le n i (S x) s) by (auto; lia). reflexivity.
Qed.

Lemma repeat_snoc : forall {A} (x : A) n, repeat x (S n) = repeat x n ++ [x].
Proof. intros A x n. induction n; cbn; [reflexivity|]. f_equal. exact IHn. Qed.

Lemma directions_snoc : forall i n k, directions i n (S k) = directions i n k ++ [dir_at i n k].
Proof. intros. unfold directions. rewrite seq_S, map_app. reflexivity. Qed.

Lemma directions_length : forall i n k, length (directions i n k) = k.
Proof. intros. unfold directions. rewrite map_length, seq_length. reflexivity. Qed.

Lemma dir_at_above : forall n i s h, top_block n i s -> (s < h)%nat -> dir_at i n h = true.
Proof.
  intros n i s h [_ C] Hh. unfold dir_at.
  destruct (complete n (S h) (ancestor i (S h))) eqn:E1.
  { rewrite (complete_le n i (S s) (S h)) in C by (auto; lia). discriminate C. }
  destruct (complete n h (ancestor i h)) eqn:E2; auto.
  rewrite (complete_le n i (S s) h) in C by (auto; lia). discriminate C.
Qed.

Lemma dirs_end : forall n i s t, top_block n i s -> n = ((ancestor i s + 1) * 2 ^ s)%nat ->
  directions i n (s + t) = bits i s ++ repeat true t.
Proof.
  intros n i s t T En. induction t as [|t IH].
  - rewrite Nat.add_0_r, app_nil_r. apply (dirs_below n i s); [apply T|lia].
  - rewrite Nat.add_succ_r, directions_snoc, IH, repeat_snoc, app_assoc. do 2 f_equal.
    destruct t.
    + rewrite Nat.add_0_r. unfold dir_at. destruct T as [-> ->]. apply Nat.eqb_eq. lia.
    + apply (dir_at_above n i s); [exact T|lia].
Qed.

Lemma dirs_inner : forall n i s t, top_block n i s -> n <> ((ancestor i s + 1) * 2 ^ s)%nat ->
  directions i n (s + S t) = bits i s ++ false :: repeat true t.
Proof.
  intros n i s t T En. induction t as [|t IH].
  - rewrite Nat.add_1_r, directions_snoc. f_equal.
    + apply (dirs_below n i s); [apply T|lia].
    + unfold dir_at. destruct T as [-> ->]. cbn [repeat]. f_equal. apply Nat.eqb_neq. lia.
  - rewrite Nat.add_succ_r, directions_snoc, IH, repeat_snoc.
    change (false :: repeat true t ++ [true]) with ((false :: repeat true t) ++ [true]).
    rewrite app_assoc. do 2 f_equal.
    apply (dir_at_above n i s); [exact T|lia].
Qed.

Lemma rev_repeat : forall {A} (x : A) n, rev (repeat x n) = repeat x n.
Proof. intros A x n. induction n; auto. cbn [repeat rev]. rewrite IHn, <- repeat_snoc. reflexivity. Qed.

(** Enough steps for the verifier to answer. *)
Definition enough (n i s len : nat) : Prop :=
  (s <= len)%nat /\ (n <> ((ancestor i s + 1) * 2 ^ s)%nat -> (S s <= len)%nat).

Lemma top_block_bounds : forall n i s, top_block n i s ->
  exists c, ancestor i s = (2 * c)%nat /\ (2 * c * 2 ^ s <= i < (2 * c + 1) * 2 ^ s)%nat /\
    ((2 * c + 1) * 2 ^ s <= n < (2 * c + 2) * 2 ^ s)%nat.
Proof.
  intros n i s T. destruct (top_block_even n i s T) as (c & Ec). exists c. split; [exact Ec|].
  pose proof (ancestor_le i s). pose proof (ancestor_gt i s). rewrite Ec in *.
  destruct T as [C1 C2]. rewrite complete_true in C1. rewrite complete_false in C2.
  rewrite ancestor_step, Ec, pow2_S in C2. rewrite Ec in C1.
  replace (2 * c / 2)%nat with c in C2 by lia. split; [lia|]. nia.
Qed.

Lemma follow_directions : forall n i s len j, top_block n i s -> enough n i s len ->
  follow n (rev (directions i n len)) = Some j -> j = i.
Proof.
  intros n i s len j T [L1 L2] F. destruct (top_block_bounds n i s T) as (c & Ec & B1 & B2).
  destruct (Nat.eq_dec n ((ancestor i s + 1) * 2 ^ s)) as [E|E].
  - replace len with (s + (len - s))%nat in F by lia. rewrite (dirs_end n i s) in F by auto.
    rewrite rev_app_distr, rev_repeat in F. rewrite E in F. eapply follow_end; [|exact F].
    rewrite Ec. lia.
  - specialize (L2 E). replace len with (s + S (len - S s))%nat in F by lia.
    rewrite (dirs_inner n i s) in F by auto. rewrite rev_app_distr in F. cbn [rev] in F.
    rewrite rev_repeat, <- app_assoc in F. cbn [app] in F.
    eapply (follow_inner (len - S s) s c n i j); auto. rewrite Ec in E. lia.
Qed.

(** * The loop *)
Section Verify.
Variable H : list byte -> bytes32.
Variable pr : profile.
Notation climb := (climb H).

Lemma climb_firstn_S : forall i n ps first h p, nth_error ps h = Some p ->
  climb first (directions i n (S h)) (firstn (S h) ps) =
    H (step_input (dir_at i n h) (climb first (directions i n h) (firstn h ps)) p).
Proof.
  intros i n ps first h p Np. rewrite directions_snoc.
  assert (E : firstn (S h) ps = firstn h ps ++ [p]).
  { clear -Np. revert ps Np. induction h as [|h IH]; intros [|a ps] Np; cbn in Np; try discriminate.
    - inversion Np; subst. reflexivity.
    - cbn [firstn app]. f_equal. apply IH. exact Np. }
  rewrite E. apply climb_snoc. rewrite directions_length, firstn_length.
  assert (h < length ps)%nat by (apply nth_error_Some; congruence). lia.
Qed.

Lemma shl1_u64_ok : forall h, (h <= 63)%nat -> shl1_u64 pr (Z.of_nat h) = Val (P2 h).
Proof.
  intros h Hh. unfold shl1_u64, shift_amount.
  replace (Z.of_nat h <? 64) with true by (symmetry; apply Z.ltb_lt; lia). cbn [obind]. f_equal.
  unfold as_u64. change (2 ^ Z.of_nat h) with (P2 h). apply Z.mod_small.
  pose proof (P2_pos h). assert (P2 h <= P2 63) by (apply P2_le; lia).
  assert (P2 63 < U64) by reflexivity. lia.
Qed.

Lemma u64_ok : forall z, 0 <= z < U64 -> u64_ovf pr z = Val z.
Proof.
  intros z Hz. unfold u64_ovf, in_u64.
  replace (0 <=? z) with true by (symmetry; apply Z.leb_le; lia).
  replace (z <? U64) with true by (symmetry; apply Z.ltb_lt; lia). reflexivity.
Qed.

Lemma ancestor_Z : forall i h, Z.of_nat i / P2 h = Z.of_nat (ancestor i h).
Proof. intros i h. unfold ancestor. rewrite Nat2Z.inj_div, P2_nat. reflexivity. Qed.

Lemma slice_get_nth : forall {A} (l : list A) i, slice_get l (Z.of_nat i) = nth_error l i.
Proof.
  intros A l i. unfold slice_get. replace (0 <=? Z.of_nat i) with true by lia. rewrite Nat2Z.id. cbn [andb].
  destruct (Z.of_nat i <? Z.of_nat (length l)) eqn:E; [reflexivity|].
  symmetry. apply nth_error_None. lia.
Qed.

Lemma off_half : forall i h, (i - ancestor i (S h) * 2 ^ S h <? 2 ^ h)%nat = negb (Nat.odd (ancestor i h)).
Proof.
  intros i h. pose proof (ancestor_le i h). pose proof (ancestor_gt i h). pose proof (pow2_pos h).
  rewrite ancestor_step, pow2_S. destruct (Nat.odd (ancestor i h)) eqn:E; cbn [negb].
  - apply Nat.odd_spec in E. destruct E as [c E]. rewrite E in *.
    replace ((2 * c + 1) / 2)%nat with c by lia. apply Nat.ltb_ge. nia.
  - assert (Ev : Nat.even (ancestor i h) = true) by (rewrite <- Nat.negb_odd, E; reflexivity).
    apply Nat.even_spec in Ev. destruct Ev as [c Ec]. rewrite Ec in *.
    replace (2 * c / 2)%nat with c by lia. apply Nat.ltb_lt. nia.
Qed.

Lemma verify_loop_ok : forall f i n first ps h, (Z.of_nat n < 2 ^ 63) -> (i < n)%nat ->
  complete n h (ancestor i h) = true -> (h <= length ps)%nat -> (length ps < f + h)%nat ->
  exists s, (h <= s)%nat /\ top_block n i s /\
    verify_loop H pr f (first :: ps) (Z.of_nat i) (Z.of_nat n)
      (climb first (directions i n h) (firstn h ps)) (Z.of_nat ((ancestor i h + 1) * 2 ^ h) - 1) (Z.of_nat (S h))
    = if (s <=? length ps)%nat
      then Val (Some (climb first (directions i n s) (firstn s ps), Z.of_nat ((ancestor i s + 1) * 2 ^ s) - 1, Z.of_nat (S s)))
      else Val None.
Proof.
  induction f as [|f IH]; intros i n first ps h Hn Hi C Hl Hf;
    pose proof (complete_small n i h Hn C) as Hh62; [lia|].
  cbn [verify_loop]. rewrite shl1_u64_ok by lia. cbn [obind].
  pose proof (P2_pos (S h)) as Hp.
  replace (P2 (S h) =? 0) with false by (symmetry; apply Z.eqb_neq; lia).
  rewrite ancestor_Z. pose proof (ancestor_le i (S h)) as Al. pose proof (ancestor_gt i (S h)) as Ag.
  assert (Al' : Z.of_nat (ancestor i (S h)) * P2 (S h) <= Z.of_nat i).
  { rewrite <- P2_nat. lia. }
  assert (Hp63 : P2 (S h) <= P2 63) by (apply P2_le; lia).
  assert (HU : U64 = 2 * P2 63) by reflexivity. change (2 ^ 63) with (P2 63) in Hn.
  rewrite u64_ok by nia. cbn [obind]. rewrite u64_ok by nia. cbn [obind]. rewrite u64_ok by nia. cbn [obind].
  replace (Z.of_nat (ancestor i (S h)) * P2 (S h) + P2 (S h) - 1)
    with (Z.of_nat ((ancestor i (S h) + 1) * 2 ^ S h) - 1).
  2:{ rewrite Nat2Z.inj_mul, P2_nat. lia. }
  destruct (complete n (S h) (ancestor i (S h))) eqn:C'.
  - pose proof C' as C''. rewrite complete_true in C''.
    replace (Z.of_nat ((ancestor i (S h) + 1) * 2 ^ S h) - 1 >=? Z.of_nat n) with false by lia.
    cbn [length].
    destruct (le_lt_dec (S h) (length ps)) as [L|L].
    + replace (Z.of_nat (S (length ps)) <=? Z.of_nat (S h)) with false by lia.
      unfold index_vec. rewrite slice_get_nth. cbn [nth_error].
      destruct (nth_error ps h) as [p|] eqn:Np; [|apply nth_error_None in Np; lia]. cbn [obind].
      replace (Z.of_nat (S h) - 1) with (Z.of_nat h) by lia. rewrite shl1_u64_ok by lia. cbn [obind].
      rewrite u64_ok by nia. cbn [obind].
      replace (Z.of_nat i - Z.of_nat (ancestor i (S h)) * P2 (S h) <? P2 h)
        with (negb (Nat.odd (ancestor i h))).
      2:{ rewrite <- off_half, <- !P2_nat. destruct (Nat.ltb_spec (i - ancestor i (S h) * 2 ^ S h) (2 ^ h)); lia. }
      assert (E : (if negb (Nat.odd (ancestor i h))
                   then node_sum H (climb first (directions i n h) (firstn h ps)) p
                   else node_sum H p (climb first (directions i n h) (firstn h ps)))
                  = climb first (directions i n (S h)) (firstn (S h) ps)).
      { rewrite (climb_firstn_S i n ps first h p Np). unfold dir_at. rewrite C'.
        destruct (Nat.odd (ancestor i h)); reflexivity. }
      rewrite E. replace (Z.of_nat (S h) + 1) with (Z.of_nat (S (S h))) by lia.
      destruct (IH i n first ps (S h)) as (s & Hs & T & R); auto; try lia.
      exists s. split; [lia|]. split; [exact T|exact R].
    + replace (Z.of_nat (S (length ps)) <=? Z.of_nat (S h)) with true by lia.
      (* the largest complete block is above the end of the proof set *)
      assert (X : exists s, (S h <= s)%nat /\ top_block n i s).
      { clear -C' Hn. assert (Y : forall k h, (63 <= k + h)%nat -> complete n h (ancestor i h) = true -> exists s, (h <= s)%nat /\ top_block n i s).
        { induction k as [|k IHk]; intros h0 Hk C0.
          - exfalso. apply complete_small in C0; [lia|exact Hn].
          - destruct (complete n (S h0) (ancestor i (S h0))) eqn:C1.
            + destruct (IHk (S h0)) as (s & L & T); [lia|exact C1|]. exists s. split; [lia|exact T].
            + exists h0. split; [lia|]. split; assumption. }
        apply (Y 63%nat); [lia|exact C']. }
      destruct X as (s & Hs & T). exists s. split; [lia|]. split; [exact T|].
      replace (s <=? length ps)%nat with false by (symmetry; apply Nat.leb_gt; lia). reflexivity.
  - pose proof C' as C''. rewrite complete_false in C''.
    replace (Z.of_nat ((ancestor i (S h) + 1) * 2 ^ S h) - 1 >=? Z.of_nat n) with true by lia.
    exists h. split; [lia|]. split; [split; assumption|].
    replace (h <=? length ps)%nat with true by (symmetry; apply Nat.leb_le; lia). reflexivity.
Qed.

Lemma verify_tail_climb : forall i n s rest cur k, top_block n i s -> (s < k)%nat ->
  verify_tail H rest cur = climb cur (map (dir_at i n) (seq k (length rest))) rest.
Proof.
  intros i n s rest. induction rest as [|p rest IH]; intros cur k T Hk; [reflexivity|].
  cbn [verify_tail length seq map SpecVerify.climb].
  rewrite (IH _ (S k)) by (auto; lia). rewrite (dir_at_above n i s k T Hk). reflexivity.
Qed.

Lemma climb_app : forall d1 s1 cur d2 s2, length d1 = length s1 ->
  climb cur (d1 ++ d2) (s1 ++ s2) = climb (climb cur d1 s1) d2 s2.
Proof.
  induction d1 as [|b d1 IH]; intros [|p s1] cur d2 s2 Hl; cbn [length] in Hl; try lia; cbn [app SpecVerify.climb].
  - reflexivity.
  - apply IH. lia.
Qed.

Lemma climb_cut : forall i n ps first s, (s <= length ps)%nat ->
  climb first (directions i n (length ps)) ps =
  climb (climb first (directions i n s) (firstn s ps)) (map (dir_at i n) (seq s (length ps - s))) (skipn s ps).
Proof.
  intros i n ps first s Hs. rewrite <- climb_app by (rewrite directions_length, firstn_length; lia).
  rewrite firstn_skipn. f_equal. unfold directions. rewrite <- map_app, <- seq_app. do 2 f_equal. lia.
Qed.

Lemma skipn_cons : forall {A} (l : list A) s x, nth_error l s = Some x -> skipn s l = x :: skipn (S s) l.
Proof.
  intros A l. induction l as [|a l IH]; intros [|s] x E; cbn in E; try discriminate.
  - inversion E; subst. reflexivity.
  - cbn [skipn]. rewrite (IH s x E). destruct l; reflexivity.
Qed.

(** What the verifier answers. *)
Lemma verify_char : forall root i n first ps, (Z.of_nat n < 2 ^ 63) -> (i < n)%nat ->
  exists s, top_block n i s /\
  ((enough n i s (length ps) /\
    verify H pr root (first :: ps) (Z.of_nat i) (Z.of_nat n) =
      Val (b32_eqb (climb first (directions i n (length ps)) ps) root)) \/
   (~ enough n i s (length ps) /\
    verify H pr root (first :: ps) (Z.of_nat i) (Z.of_nat n) = Val false)).
Proof.
  intros root i n first ps Hn Hi. unfold verify.
  replace (Z.of_nat i >=? Z.of_nat n) with false by lia.
  assert (C0 : complete n 0 (ancestor i 0) = true).
  { rewrite complete_true, ancestor_0. change (2 ^ 0)%nat with 1%nat. lia. }
  destruct (verify_loop_ok (length (first :: ps)) i n first ps 0 Hn Hi C0 ltac:(lia) ltac:(cbn [length]; lia)) as (s & _ & T & R).
  rewrite ancestor_0 in R. change (2 ^ 0)%nat with 1%nat in R.
  replace (Z.of_nat ((i + 1) * 1) - 1) with (Z.of_nat i) in R by lia.
  change (Z.of_nat 1) with 1 in R. change (firstn 0 ps) with (@nil bytes32) in R.
  change (SpecVerify.climb H first (directions i n 0) []) with first in R.
  exists s. split; [exact T|]. rewrite R.
  destruct (Nat.leb_spec s (length ps)) as [Hs|Hs].
  2:{ right. split; [|reflexivity]. intros [E _]. lia. }
  cbn [obind]. rewrite u64_ok by (change (2 ^ 63) with (P2 63) in Hn; change U64 with (2 * P2 63); lia).
  cbn [obind]. cbn [length].
  destruct (Nat.eq_dec n ((ancestor i s + 1) * 2 ^ s)) as [E|E].
  - replace (Z.of_nat ((ancestor i s + 1) * 2 ^ s) - 1 =? Z.of_nat n - 1) with true by lia. cbn [negb].
    left. split; [split; [lia|congruence]|]. do 2 f_equal.
    rewrite Nat2Z.id. cbn [skipn].
    rewrite (climb_cut i n ps first s Hs). destruct (Nat.eq_dec s (length ps)) as [->|Ne].
    { rewrite skipn_all, Nat.sub_diag. reflexivity. }
    destruct (nth_error ps s) as [p|] eqn:Np; [|apply nth_error_None in Np; lia].
    rewrite (skipn_cons ps s p Np). cbn [verify_tail].
    replace (length ps - s)%nat with (S (length ps - S s)) by lia. cbn [seq map SpecVerify.climb].
    assert (D : dir_at i n s = true).
    { unfold dir_at. destruct T as [-> ->]. apply Nat.eqb_eq. lia. }
    rewrite D. rewrite (verify_tail_climb i n s _ _ (S s)) by (auto; lia).
    rewrite skipn_length. reflexivity.
  - assert (C1 : ((ancestor i s + 1) * 2 ^ s <= n)%nat) by (apply complete_true; apply T).
    replace (Z.of_nat ((ancestor i s + 1) * 2 ^ s) - 1 =? Z.of_nat n - 1) with false by lia. cbn [negb].
    destruct (Nat.eq_dec s (length ps)) as [Es|Ne].
    + right. split; [intros [_ X]; specialize (X E); lia|].
      replace (Z.of_nat (S (length ps)) <=? Z.of_nat (S s)) with true by lia. reflexivity.
    + left. split; [split; [lia|intros _; lia]|].
      replace (Z.of_nat (S (length ps)) <=? Z.of_nat (S s)) with false by lia.
      unfold index_vec. rewrite slice_get_nth. cbn [nth_error].
      destruct (nth_error ps s) as [p|] eqn:Np; [|apply nth_error_None in Np; lia]. cbn [obind].
      do 2 f_equal. replace (Z.to_nat (Z.of_nat (S s) + 1)) with (S (S s)) by lia.
      change (skipn (S (S s)) (first :: ps)) with (skipn (S s) ps).
      rewrite (climb_cut i n ps first s Hs). rewrite (skipn_cons ps s p Np).
      replace (length ps - s)%nat with (S (length ps - S s)) by lia. cbn [seq map SpecVerify.climb].
      assert (D : dir_at i n s = false).
      { unfold dir_at. destruct T as [-> ->]. apply Nat.eqb_neq. lia. }
      rewrite D. rewrite (verify_tail_climb i n s _ _ (S s)) by (auto; lia).
      rewrite skipn_length. reflexivity.
Qed.

Lemma b32_eqb_true : forall a b, b32_eqb a b = true -> a = b.
Proof. intros a b E. apply b32_eqb_eq. exact E. Qed.

(** Soundness. *)
Lemma verify_sound : forall ds i ps d, (Z.of_nat (length ds) < 2 ^ 63) ->
  verify H pr (mth H ds) (hash_leaf H d :: ps) (Z.of_nat i) (Z.of_nat (length ds)) = Val true ->
  nth_error ds i = Some d \/
  has_collision H (mth_inputs H ds ++ (x00 :: d) ::
    climb_inputs H (hash_leaf H d) (directions i (length ds) (length ps)) ps).
Proof.
  intros ds i ps d Hn V. set (n := length ds) in *.
  destruct (le_lt_dec n i) as [G|Hi].
  { unfold verify in V. replace (Z.of_nat i >=? Z.of_nat n) with true in V by lia. discriminate V. }
  destruct (verify_char (mth H ds) i n (hash_leaf H d) ps Hn Hi) as (s & T & [[En R]|[_ R]]); rewrite R in V; [|discriminate V].
  injection V as V. apply b32_eqb_true in V.
  assert (Ne : ds <> []) by (intros ->; cbn in Hi; unfold n in Hi; cbn in Hi; lia).
  destruct (climb_sound H d (rev (directions i n (length ps))) (rev ps) ds) as [(j & F & N)|C].
  - rewrite !rev_length, directions_length. reflexivity.
  - exact Ne.
  - rewrite !rev_involutive. exact V.
  - left. fold n in F. rewrite (follow_directions n i s _ j T En F) in N. exact N.
  - right. rewrite !rev_involutive in C. exact C.
Qed.

(** * Completeness *)
(** Directions along an audit path. *)
Lemma audit_climb : forall ds i d, nth_error ds i = Some d ->
  exists rdirs, length rdirs = length (audit_path H i ds) /\ follow (length ds) rdirs = Some i /\
    climb (hash_leaf H d) (rev rdirs) (audit_path H i ds) = mth H ds.
Proof.
  assert (A : forall n ds i d, (length ds <= n)%nat -> nth_error ds i = Some d ->
    exists rdirs, length rdirs = length (audit_path H i ds) /\ follow (length ds) rdirs = Some i /\
      climb (hash_leaf H d) (rev rdirs) (audit_path H i ds) = mth H ds).
  { induction n as [|n IH]; intros ds i d Hn Ni.
    - destruct ds; cbn [length] in Hn; [|lia]. destruct i; discriminate Ni.
    - destruct (le_lt_dec 2 (length ds)) as [Hl|Hl].
      + rewrite audit_path_split by exact Hl. rewrite mth_split by exact Hl. cbv zeta.
        set (k := split_point (length ds)). destruct (split_point_bounds _ Hl) as [B1 B2]. fold k in B1, B2.
        destruct (Nat.ltb_spec i k) as [Li|Li].
        * destruct (IH (firstn k ds) i d) as (rd & L & F & C).
          { rewrite firstn_length. lia. }
          { rewrite <- Ni. rewrite <- (firstn_skipn k ds) at 2. rewrite nth_error_app1; [reflexivity|].
            rewrite firstn_length. lia. }
          exists (false :: rd). cbn [rev]. rewrite app_length, <- L. split; [cbn [length]; lia|]. split.
          -- cbn [follow]. replace (length ds <=? 1)%nat with false by (symmetry; apply Nat.leb_gt; lia).
             fold k. rewrite firstn_length in F. replace (Nat.min k (length ds)) with k in F by lia. exact F.
          -- rewrite climb_snoc by (rewrite rev_length; lia). rewrite C. reflexivity.
        * destruct (IH (skipn k ds) (i - k)%nat d) as (rd & L & F & C).
          { rewrite skipn_length. lia. }
          { rewrite <- Ni. rewrite <- (firstn_skipn k ds) at 2.
            assert (Lf : length (firstn k ds) = k) by (rewrite firstn_length; lia).
            rewrite nth_error_app2; [rewrite Lf; reflexivity|lia]. }
          exists (true :: rd). cbn [rev]. rewrite app_length, <- L. split; [cbn [length]; lia|]. split.
          -- cbn [follow]. replace (length ds <=? 1)%nat with false by (symmetry; apply Nat.leb_gt; lia).
             fold k. rewrite skipn_length in F. rewrite F. cbn [option_map]. f_equal. lia.
          -- rewrite climb_snoc by (rewrite rev_length; lia). rewrite C. reflexivity.
      + destruct ds as [|d' [|]]; cbn [length] in Hl; try lia; [destruct i; discriminate Ni|].
        destruct i as [|i]; [|destruct i; discriminate Ni]. injection Ni as <-.
        exists []. rewrite audit_path_one. repeat split. }
  intros ds i d Ni. apply (A (length ds) ds i d); auto.
Qed.
End Verify.

(** The walk to a leaf is unique. *)
Lemma follow_inj : forall r1 r2 n i, follow n r1 = Some i -> follow n r2 = Some i -> r1 = r2.
Proof.
  induction r1 as [|b1 r1 IH]; intros [|b2 r2] n i F1 F2; auto; cbn [follow] in *.
  - destruct (Nat.eqb_spec n 1) as [->|]; [|discriminate F1]. cbn in F2. discriminate F2.
  - destruct (Nat.eqb_spec n 1) as [->|]; [|discriminate F2]. cbn in F1. discriminate F1.
  - destruct (Nat.leb_spec n 1) as [|Hn]; [discriminate F1|]. cbv zeta in *.
    destruct (split_point_bounds n ltac:(lia)) as [B1 B2]. set (k := split_point n) in *.
    assert (R : forall r m j, follow m r = Some j -> (j < m)%nat).
    { clear. induction r as [|b r IHr]; intros m j F; cbn [follow] in F.
      - destruct (Nat.eqb_spec m 1) as [->|]; [|discriminate F]. inversion F. lia.
      - destruct (Nat.leb_spec m 1) as [|Hm]; [discriminate F|].
        destruct (split_point_bounds m ltac:(lia)) as [B1 B2]. destruct b.
        + destruct (follow (m - split_point m) r) as [j'|] eqn:F'; [|discriminate F].
          inversion F; subst. apply IHr in F'. lia.
        + apply IHr in F. lia. }
    destruct b1, b2.
    + destruct (follow (n - k) r1) as [j1|] eqn:G1; [|discriminate F1].
      destruct (follow (n - k) r2) as [j2|] eqn:G2; [|discriminate F2].
      cbn [option_map] in *. inversion F1; inversion F2; subst. f_equal. apply (IH r2 (n - k)%nat j1); auto.
      rewrite G2. f_equal. lia.
    + destruct (follow (n - k) r1) as [j1|] eqn:G1; [|discriminate F1]. inversion F1; subst.
      apply R in F2. lia.
    + destruct (follow (n - k) r2) as [j1|] eqn:G1; [|discriminate F2]. inversion F2; subst.
      apply R in F1. lia.
    + f_equal. eapply IH; eauto.
Qed.

Lemma top_block_exists : forall n i, (i < n)%nat -> exists s, top_block n i s.
Proof.
  intros n i Hi.
  assert (Y : forall k h, (n <= k + h)%nat -> complete n h (ancestor i h) = true -> exists s, top_block n i s).
  { induction k as [|k IHk]; intros h Hk C.
    - rewrite complete_true in C. exfalso. assert (h < 2 ^ h)%nat by (apply Nat.pow_gt_lin_r; lia). nia.
    - destruct (complete n (S h) (ancestor i (S h))) eqn:C1.
      + apply (IHk (S h)); [lia|exact C1].
      + exists h. split; assumption. }
  apply (Y n O); [lia|]. rewrite complete_true, ancestor_0. change (2 ^ 0)%nat with 1%nat. lia.
Qed.

(** The directions reach the leaf for one length. *)
Lemma directions_reach : forall n i, (i < n)%nat -> exists s len, top_block n i s /\ enough n i s len /\
  follow n (rev (directions i n len)) = Some i.
Proof.
  intros n i Hi. destruct (top_block_exists n i Hi) as (s & T). exists s.
  destruct (top_block_bounds n i s T) as (c & Ec & B1 & B2).
  destruct (Nat.eq_dec n ((ancestor i s + 1) * 2 ^ s)) as [E|E].
  - assert (X : forall c i, (c * 2 ^ s <= i < (c + 1) * 2 ^ s)%nat -> exists t,
      follow ((c + 1) * 2 ^ s) (repeat true t ++ rev (bits i s)) = Some i).
    { clear. induction c as [c IH] using lt_wf_ind. intros i Hi. destruct c as [|c].
      - exists O. cbn [repeat app]. replace ((0 + 1) * 2 ^ s)%nat with (2 ^ s)%nat by lia.
        apply follow_bits. lia.
      - destruct (split_point_multiple s (S c + 1) ltac:(lia)) as (u & U1 & U0 & U2 & _).
        destruct (IH (S c - u)%nat ltac:(lia) (i - u * 2 ^ s)%nat) as (t & F); [nia|].
        exists (S t). cbn [repeat app follow].
        pose proof (pow2_pos s).
        replace ((S c + 1) * 2 ^ s <=? 1)%nat with false by (symmetry; apply Nat.leb_gt; nia).
        rewrite U2, <- Nat.mul_sub_distr_r.
        replace (S c + 1 - u)%nat with (S c - u + 1)%nat by lia.
        assert (B : bits i s = bits (i - u * 2 ^ s) s).
        { rewrite <- (bits_shift (i - u * 2 ^ s) s u). f_equal. nia. }
        rewrite B, F. cbn [option_map]. f_equal. nia. }
    destruct (X (ancestor i s) i) as (t & F); [rewrite Ec; lia|].
    exists (s + t)%nat. split; [exact T|]. split; [split; [lia|congruence]|].
    rewrite (dirs_end n i s) by auto. rewrite rev_app_distr, rev_repeat. rewrite E at 1. exact F.
  - assert (X : forall c n i, (2 * c * 2 ^ s <= i < (2 * c + 1) * 2 ^ s)%nat ->
      ((2 * c + 1) * 2 ^ s < n < (2 * c + 2) * 2 ^ s)%nat -> exists t,
      follow n (repeat true t ++ false :: rev (bits i s)) = Some i).
    { clear. induction c as [c IH] using lt_wf_ind. intros n i Hi Hn. pose proof (pow2_pos s).
      assert (Hn1 : (2 <= n)%nat) by nia. destruct (split_point_bounds n Hn1) as [B1 B2].
      destruct c as [|c].
      - exists O. cbn [repeat app follow].
        replace (n <=? 1)%nat with false by (symmetry; apply Nat.leb_gt; lia).
        rewrite (split_point_pow n s) by (rewrite ?pow2_S; lia). apply follow_bits. lia.
      - set (jj := Nat.log2 (n - 1)).
        assert (Ek : split_point n = (2 ^ jj)%nat) by reflexivity.
        assert (Hj : (2 ^ S s <= split_point n)%nat) by (apply split_point_largest; [lia|]; rewrite pow2_S; nia).
        assert (Hjj : (S s <= jj)%nat).
        { destruct (le_lt_dec (S s) jj); auto. assert (2 ^ jj < 2 ^ S s)%nat by (apply Nat.pow_lt_mono_r; lia). lia. }
        assert (Eu : (2 ^ jj = 2 * 2 ^ (jj - S s) * 2 ^ s)%nat).
        { rewrite <- pow2_S, <- Nat.pow_add_r. f_equal. lia. }
        pose proof (pow2_pos (jj - S s)). set (u := (2 ^ (jj - S s))%nat) in *.
        assert (Hu : (u <= S c)%nat) by nia.
        destruct (IH (S c - u)%nat ltac:(lia) (n - 2 * u * 2 ^ s)%nat (i - 2 * u * 2 ^ s)%nat) as (t & F); [nia|nia|].
        exists (S t). cbn [repeat app follow].
        replace (n <=? 1)%nat with false by (symmetry; apply Nat.leb_gt; lia).
        rewrite Ek, Eu.
        assert (B : bits i s = bits (i - 2 * u * 2 ^ s) s).
        { rewrite <- (bits_shift (i - 2 * u * 2 ^ s) s (2 * u)). f_equal. nia. }
        rewrite B, F. cbn [option_map]. f_equal. nia. }
    destruct (X c n i) as (t & F); [lia|rewrite Ec in E; lia|].
    exists (s + S t)%nat. split; [exact T|]. split; [split; [lia|intros _; lia]|].
    rewrite (dirs_inner n i s) by auto. rewrite rev_app_distr. cbn [rev].
    rewrite rev_repeat, <- app_assoc. exact F.
Qed.

Lemma top_block_unique : forall n i s s', top_block n i s -> top_block n i s' -> s = s'.
Proof.
  intros n i s s' [A B] [A' B'].
  destruct (lt_eq_lt_dec s s') as [[L|]|L]; auto; exfalso.
  - rewrite (complete_le n i (S s) s') in B by (auto; lia). discriminate B.
  - rewrite (complete_le n i (S s') s) in B' by (auto; lia). discriminate B'.
Qed.

Lemma verify_complete : forall H pr ds i d, (Z.of_nat (length ds) < 2 ^ 63) -> nth_error ds i = Some d ->
  verify H pr (mth H ds) (hash_leaf H d :: audit_path H i ds) (Z.of_nat i) (Z.of_nat (length ds)) = Val true.
Proof.
  intros H pr ds i d Hn Ni.
  assert (Hi : (i < length ds)%nat) by (apply nth_error_Some; congruence).
  destruct (audit_climb H ds i d Ni) as (rd & L & F & C).
  destruct (directions_reach (length ds) i Hi) as (s & len & T & En & F').
  assert (E : rd = rev (directions i (length ds) len)) by (eapply follow_inj; eauto).
  assert (El : len = length (audit_path H i ds)).
  { rewrite <- L, E, rev_length, directions_length. reflexivity. }
  destruct (verify_char H pr (mth H ds) i (length ds) (hash_leaf H d) (audit_path H i ds) Hn Hi)
    as (s' & T' & [[_ R]|[X _]]).
  - rewrite R. rewrite E, rev_involutive in C. rewrite El in C. rewrite C. f_equal. apply b32_eqb_refl.
  - exfalso. apply X. rewrite (top_block_unique _ _ _ _ T' T), <- El. exact En.
Qed.
