(** RefTree.v -- the streaming reference tree of the test helpers computes the Merkle root and the
    audit path. *)
From Verif Require Import Base ModelCommon ModelBinary ModelVerify SpecBinary SpecBinaryFacts SpecPosition PathProofs
  HeadsProofs PositionProofs Storage Runs BinaryMain.
From Coq Require Import Arith ZifyBool ZifyNat ZifyN.
Ltac Zify.zify_post_hook ::= Z.div_mod_to_equations.
Arguments Nat.pow : simpl never.
Arguments Nat.mul : simpl never.
Arguments Nat.div : simpl never.
Arguments Nat.add : simpl never.
Local Open Scope nat_scope.

Lemma mul_le_inv : forall a b h, a * 2 ^ h <= b * 2 ^ h -> a <= b.
Proof. intros a b h L. pose proof (pow2_pos h). apply (Nat.mul_le_mono_pos_r a b (2 ^ h)); lia. Qed.
Lemma mul_lt_inv : forall a b h, a * 2 ^ h < b * 2 ^ h -> a < b.
Proof. intros a b h L. pose proof (pow2_pos h). apply (Nat.mul_lt_mono_pos_r (2 ^ h) a b); lia. Qed.

Lemma firstn_block : forall {A} h c (ds : list A), firstn ((2 * c + 1) * 2 ^ h) ds = firstn (c * 2 ^ S h) ds ++ block h (2 * c) ds.
Proof.
  intros A h c ds. unfold block. rewrite pow2_S. replace ((2 * c + 1) * 2 ^ h) with (c * (2 * 2 ^ h) + 2 ^ h) by ring.
  rewrite firstn_plus. replace (2 * c * 2 ^ h) with (c * (2 * 2 ^ h)) by ring. reflexivity.
Qed.

(** Block [q] of height [k] is complete among [M] leaves, its parent is not. *)
Definition top (M k q : nat) : Prop := (q + 1) * 2 ^ k <= M < (q / 2 + 1) * 2 ^ S k.

Lemma top_high : forall m h k q, top (m * 2 ^ h) k q -> h <= k.
Proof.
  intros m h k q [A B]. destruct (Nat.le_gt_cases h k) as [L|L]; auto. exfalso.
  replace h with (S k + (h - S k)) in * by lia. set (e := h - S k) in *. rewrite Nat.pow_add_r in *.
  set (w := m * 2 ^ e) in *. replace (m * (2 ^ S k * 2 ^ e)) with (w * 2 ^ S k) in * by (unfold w; ring).
  apply mul_lt_inv in B. rewrite pow2_S in A. replace (w * (2 * 2 ^ k)) with (2 * w * 2 ^ k) in A by ring.
  apply mul_le_inv in A. lia.
Qed.

Lemma pow_small : forall h, (Z.of_nat (2 ^ h) < 2 ^ 64)%Z -> h <= 63.
Proof.
  intros h L. destruct (Nat.le_gt_cases h 63) as [A|A]; auto. exfalso.
  assert (B : (2 ^ 64 <= 2 ^ Z.of_nat h)%Z) by (apply Z.pow_le_mono_r; lia).
  rewrite Nat2Z.inj_pow in L. change (Z.of_nat 2) with 2%Z in L. lia.
Qed.

Section Ref.
Variable H : list byte -> bytes32.
Variable pr : profile.

Definition isb (ds : list (list byte)) (h b : nat) (x : RNode) : Prop :=
  rn_height x = Z.of_nat h /\ rn_data x = mth H (block h b ds).

Lemma join_val : forall a b h, rn_height a = Z.of_nat h -> (h <= 64) ->
  rt_join_subtrees H pr a b = Val (Build_RNode (Z.of_nat (S h)) (hash_node H (rn_data a) (rn_data b))).
Proof.
  intros a b h E L. unfold rt_join_subtrees, u32_ovf. rewrite E.
  replace ((0 <=? Z.of_nat h + 1)%Z && (Z.of_nat h + 1 <? 2 ^ 32)%Z) with true by lia. cbn [obind].
  unfold node_sum, hash_node. cbn [concat]. replace (Z.of_nat h + 1)%Z with (Z.of_nat (S h)) by lia. reflexivity.
Qed.

(** * Root *)
Lemma root_loop : forall ds h m l, Heads (isb ds) h m l -> m * 2 ^ h <= length ds -> (Z.of_nat (m * 2 ^ h) < 2 ^ 64)%Z ->
  forall cur r, rn_data cur = mth H r -> 0 < length r <= 2 ^ h ->
  rt_root_loop H pr cur l = Val (mth H (firstn (m * 2 ^ h) ds ++ r)).
Proof.
  intros ds h m l Hh. induction Hh as [h|h m l P Hh IH|h m x l Hh IH [Px Dx]]; intros Lm Lz cur r Ec Lr.
  - cbn [rt_root_loop]. rewrite Ec. reflexivity.
  - replace (2 * m * 2 ^ h) with (m * 2 ^ S h) in * by (rewrite pow2_S; ring). apply IH; auto. rewrite pow2_S. lia.
  - cbn [rt_root_loop]. rewrite (join_val _ _ h Px).
    2:{ enough (h <= 63) by lia. apply pow_small. nia. }
    cbn [obind]. assert (Lb : length (block h (2 * m) ds) = 2 ^ h) by (apply block_length; lia).
    rewrite (IH ltac:(rewrite pow2_S; lia) ltac:(rewrite pow2_S; lia) _ (block h (2 * m) ds ++ r)).
    + rewrite firstn_block, <- app_assoc. reflexivity.
    + cbn [rn_data]. rewrite Dx, Ec. symmetry. apply (mth_join H h); lia.
    + rewrite app_length, pow2_S. lia.
Qed.

(** * Proofs *)
(** From a leaf of the last part [r] upwards: one entry for each complete block before it. *)
Lemma path_up : forall ds h m l, Heads (isb ds) h m l -> m * 2 ^ h <= length ds ->
  forall r j, j < length r -> length r <= 2 ^ h ->
  audit_path H (m * 2 ^ h + j) (firstn (m * 2 ^ h) ds ++ r) = audit_path H j r ++ map rn_data l.
Proof.
  intros ds h m l Hh. induction Hh as [h|h m l P Hh IH|h m x l Hh IH [Px Dx]]; intros Lm r j Lj Lr.
  - rewrite app_nil_r. reflexivity.
  - replace (2 * m * 2 ^ h) with (m * 2 ^ S h) in * by (rewrite pow2_S; ring). apply IH; auto. rewrite pow2_S. lia.
  - assert (Lb : length (block h (2 * m) ds) = 2 ^ h) by (apply block_length; lia).
    rewrite firstn_block, <- app_assoc. replace ((2 * m + 1) * 2 ^ h + j) with (m * 2 ^ S h + (2 ^ h + j)) by (rewrite pow2_S; ring).
    rewrite IH; [|rewrite pow2_S; lia|rewrite app_length; lia|rewrite app_length, pow2_S; lia].
    rewrite (audit_path_join H h) by lia. replace (2 ^ h + j <? 2 ^ h) with false by lia.
    replace (2 ^ h + j - 2 ^ h) with j by lia. cbn [map]. rewrite Dx, <- app_assoc. reflexivity.
Qed.

Lemma heads_height : forall ds h m x l, Heads (isb ds) h m (x :: l) -> (Z.of_nat h <= rn_height x)%Z.
Proof. intros ds h m x l Hh. destruct (Heads_cons_inv _ _ _ _ _ Hh) as (k & b & A & _ & [E _] & _). lia. Qed.

(** The leaf is in one of the blocks of [l]; everything after it is [cur]. *)
Lemma prove_join : forall ds h m l, Heads (isb ds) h m l -> m * 2 ^ h <= length ds -> (Z.of_nat (m * 2 ^ h) < 2 ^ 64)%Z ->
  forall cur r k q i, rn_data cur = mth H r -> 0 < length r <= 2 ^ h ->
  top (m * 2 ^ h) k q -> q * 2 ^ k <= i < (q + 1) * 2 ^ k ->
  exists cur' n next, rt_prove_join H pr (Z.of_nat k) cur l = Val (cur', n :: next) /\ rn_height n = Z.of_nat k /\
    audit_path H i (firstn (m * 2 ^ h) ds ++ r) =
      audit_path H (i - q * 2 ^ k) (block k q ds) ++ rn_data cur' :: map rn_data next.
Proof.
  intros ds h m l Hh. induction Hh as [h|h m l P Hh IH|h m x l Hh IH [Px Dx]]; intros Lm Lz cur r k q i Ec Lr Tp Li.
  - exfalso. destruct Tp as [A _]. pose proof (pow2_pos k). rewrite Nat.mul_0_l in A. nia.
  - replace (2 * m * 2 ^ h) with (m * 2 ^ S h) in * by (rewrite pow2_S; ring). apply IH; auto. rewrite pow2_S. lia.
  - assert (Lb : length (block h (2 * m) ds) = 2 ^ h) by (apply block_length; lia).
    assert (Lh : h <= 63) by (apply pow_small; nia).
    pose proof (top_high _ _ _ _ Tp) as Lk. cbn [rt_prove_join]. rewrite Px.
    destruct (Nat.eq_dec k h) as [->|Nk].
    + (* the block itself *)
      assert (Eq : q = 2 * m).
      { destruct Tp as [A B]. apply mul_le_inv in A. rewrite pow2_S in B.
        replace ((q / 2 + 1) * (2 * 2 ^ h)) with (2 * (q / 2 + 1) * 2 ^ h) in B by ring. apply mul_lt_inv in B. lia. }
      subst q. replace (Z.of_nat h <? Z.of_nat h)%Z with false by lia.
      exists cur, x, l. split; [reflexivity|]. split; [exact Px|].
      rewrite firstn_block, <- app_assoc.
      replace i with (m * 2 ^ S h + (i - 2 * m * 2 ^ h)) at 1 by (rewrite pow2_S; lia).
      rewrite (path_up ds (S h) m l Hh); [|rewrite pow2_S; lia|rewrite app_length; lia|rewrite app_length, pow2_S; lia].
      rewrite (audit_path_join H h) by lia. replace (i - 2 * m * 2 ^ h <? 2 ^ h) with true by lia.
      rewrite Ec, <- app_assoc. reflexivity.
    + (* further to the left *)
      replace (Z.of_nat h <? Z.of_nat k)%Z with true by lia. rewrite (join_val _ _ h Px) by lia. cbn [obind].
      destruct (IH ltac:(rewrite pow2_S; lia) ltac:(rewrite pow2_S; lia) (Build_RNode (Z.of_nat (S h)) (hash_node H (rn_data x) (rn_data cur)))
        (block h (2 * m) ds ++ r) k q i) as (cur' & n & next & R & Hn & Ap).
      * cbn [rn_data]. rewrite Dx, Ec. symmetry. apply (mth_join H h); lia.
      * rewrite app_length, pow2_S. lia.
      * destruct Tp as [A B]. split; [|rewrite pow2_S; lia].
        replace k with (S h + (k - S h)) in A |- * by lia. rewrite Nat.pow_add_r in A |- *. set (e := 2 ^ (k - S h)) in *.
        replace ((q + 1) * (2 ^ S h * e)) with ((q + 1) * e * 2 ^ S h) in * by ring.
        apply Nat.mul_le_mono_r. rewrite pow2_S in A. replace ((q + 1) * e * (2 * 2 ^ h)) with (2 * ((q + 1) * e) * 2 ^ h) in A by ring.
        apply mul_le_inv in A. lia.
      * exact Li.
      * exists cur', n, next. split; [exact R|]. split; [exact Hn|]. rewrite firstn_block, <- app_assoc. exact Ap.
Qed.

(** * Pushing *)
(** The proof entries collected after [n] leaves. *)
Definition entries_ok (ds : list (list byte)) (i : nat) (ps : list bytes32) (k q : nat) : Prop :=
  q * 2 ^ k <= i < (q + 1) * 2 ^ k /\ length ps = S k /\
  ps = hash_leaf H (nth i ds []) :: audit_path H (i - q * 2 ^ k) (block k q ds).

(** While joining: the head is block [m] of height [h], the last one; the others cover the rest. *)
Definition joining (ds : list (list byte)) (i h m : nat) (ps : list bytes32) : Prop :=
  ((m + 1) * 2 ^ h <= i /\ ps = []) \/
  (exists k q, entries_ok ds i ps k q /\ (k = h /\ q = m \/ top (m * 2 ^ h) k q)).

Lemma entries_top_lt : forall m h k q ds i ps, top (m * 2 ^ h) k q -> entries_ok ds i ps k q -> i < m * 2 ^ h.
Proof. intros m h k q ds i ps [A _] [B _]. lia. Qed.

Definition settled (ds : list (list byte)) (i : nat) (ps : list bytes32) : Prop :=
  (length ds <= i /\ ps = []) \/ exists k q, entries_ok ds i ps k q /\ top (length ds) k q.

Lemma join_all : forall ds i, (Z.of_nat (length ds) < 2 ^ 64)%Z -> forall fuel h m x l ps,
  isb ds h m x -> Heads (isb ds) h m l -> (m + 1) * 2 ^ h = length ds -> joining ds i h m ps -> length l < fuel ->
  exists l' ps', rt_join_all_loop H pr fuel (Build_RTree (x :: l) (Z.of_nat (length ds) - 1) (Z.of_nat i) ps) =
    Val (Build_RTree l' (Z.of_nat (length ds) - 1) (Z.of_nat i) ps') /\
  Heads (isb ds) 0 (length ds) l' /\ settled ds i ps'.
Proof.
  intros ds i Ln. induction fuel as [|f IH]; intros h m x l ps [Ex Dx] Hl Em J Lf; [lia|].
  assert (Lh : h <= 63) by (apply pow_small; nia).
  assert (Stop : forall c, m = 2 * c -> settled ds i ps /\ Heads (isb ds) 0 (length ds) (x :: l)).
  { intros c Ec. split.
    - destruct J as [[A ->]|(k & q & Ok0 & Q)]; [left; split; [lia|reflexivity]|]. right. exists k, q. split; [exact Ok0|].
      rewrite <- Em. subst m. destruct Q as [[-> ->]|Tp].
      + split; [lia|]. rewrite pow2_S. replace (2 * c / 2) with c by lia. pose proof (pow2_pos h). lia.
      + pose proof (top_high _ _ _ _ Tp) as Lk. destruct Tp as [A B]. split; [pose proof (pow2_pos h); lia|].
        replace (S k) with (S h + (k - h)) in B |- * by lia. rewrite Nat.pow_add_r in B |- *. set (e := 2 ^ (k - h)) in *.
        replace ((q / 2 + 1) * (2 ^ S h * e)) with ((q / 2 + 1) * e * 2 ^ S h) in * by ring.
        replace (2 * c * 2 ^ h) with (c * 2 ^ S h) in B by (rewrite pow2_S; ring). apply mul_lt_inv in B.
        assert (C : (c + 1) * 2 ^ S h <= (q / 2 + 1) * e * 2 ^ S h) by (apply Nat.mul_le_mono_r; lia).
        rewrite pow2_S in C |- *. pose proof (pow2_pos h). lia.
    - rewrite <- Em. subst m. apply Heads_down. apply Heads_odd; [apply Heads_even_inv; exact Hl|]. split; assumption. }
  cbn [rt_join_all_loop rt_head]. destruct l as [|y l].
  - apply Heads_nil_inv in Hl. destruct (Stop 0 ltac:(lia)) as [S1 S2]. exists [x], ps. auto.
  - destruct (Nat.Even_or_Odd m) as [[c Ec]|[c Ec]].
    + destruct (Stop c Ec) as [S1 S2]. subst m. apply Heads_even_inv in Hl. pose proof (heads_height _ _ _ _ _ Hl) as Hy.
      rewrite Ex. replace (Z.of_nat h =? rn_height y)%Z with false by lia. eexists _, _. split; [reflexivity|]. auto.
    + subst m. destruct (Heads_odd_inv _ _ _ _ _ Hl) as [[Ey Dy] Hl']. rewrite Ex, Ey, Z.eqb_refl.
      unfold u32_ovf at 1. replace ((0 <=? Z.of_nat h + 1)%Z && (Z.of_nat h + 1 <? 2 ^ 32)%Z) with true by lia. cbn [obind rt_proof_set rt_leaves_count rt_proof_index].
      rewrite (join_val y x h Ey) by lia.
      assert (Bl : length (block h (2 * c) ds) = 2 ^ h) by (apply block_length; lia).
      assert (Br : length (block h (2 * c + 1) ds) = 2 ^ h) by (apply block_length; lia).
      pose proof (pow2_pos h) as Ph.
      assert (New : isb ds (S h) c (Build_RNode (Z.of_nat (S h)) (hash_node H (rn_data y) (rn_data x)))).
      { split; [reflexivity|]. cbn [rn_data]. rewrite Dx, Dy. symmetry. apply mth_block_S. lia. }
      assert (Em' : (c + 1) * 2 ^ S h = length ds) by (rewrite pow2_S; lia).
      assert (Mid : (forall A (a b : A) , exists r, (head_leaves_count <-! shl1_u64 pr (Z.of_nat h) ;;
          if (head_leaves_count =? 0)%Z then Panic else
          mid <-! u64_ovf pr ((Z.of_nat (length ds) - 1) / head_leaves_count * head_leaves_count) ;;
          if (Z.of_nat i <? mid)%Z then Val a else Val b) = Val r /\
          r = if i <? (2 * c + 1) * 2 ^ h then a else b)).
      { intros A a b. rewrite PositionProofs.shl1_u64_ok by lia. cbn [obind].
        assert (Ez : (2 ^ Z.of_nat h)%Z = Z.of_nat (2 ^ h)) by (rewrite Nat2Z.inj_pow; reflexivity). rewrite Ez.
        replace (Z.of_nat (2 ^ h) =? 0)%Z with false by lia.
        assert (Dv : ((Z.of_nat (length ds) - 1) / Z.of_nat (2 ^ h) = Z.of_nat (2 * c + 1))%Z).
        { symmetry. apply (Z.div_unique _ _ _ (Z.of_nat (2 ^ h) - 1)); [lia|]. rewrite <- Em. nia. }
        rewrite Dv, <- Nat2Z.inj_mul. rewrite u64_ovf_in by (unfold U64; lia). cbn [obind].
        eexists. split; [|reflexivity]. destruct (Nat.ltb_spec i ((2 * c + 1) * 2 ^ h)).
        - replace (Z.of_nat i <? Z.of_nat ((2 * c + 1) * 2 ^ h))%Z with true by lia. reflexivity.
        - replace (Z.of_nat i <? Z.of_nat ((2 * c + 1) * 2 ^ h))%Z with false by lia. reflexivity. }
      assert (Go : forall ps', joining ds i (S h) c ps' -> exists l' ps'',
        rt_join_all_loop H pr f (Build_RTree (Build_RNode (Z.of_nat (S h)) (hash_node H (rn_data y) (rn_data x)) :: l)
           (Z.of_nat (length ds) - 1) (Z.of_nat i) ps') =
          Val (Build_RTree l' (Z.of_nat (length ds) - 1) (Z.of_nat i) ps'') /\ Heads (isb ds) 0 (length ds) l' /\ settled ds i ps'').
      { intros ps' J'. cbn [length] in Lf. apply (IH (S h) c); auto. lia. }
      destruct J as [[A ->]|(k & q & Ok0 & Q)].
      * cbn [length]. replace (Z.of_nat h + 1 =? Z.of_nat 0)%Z with false by lia. cbn [obind]. apply Go. left. split; [|reflexivity]. lia.
      * pose proof Ok0 as [Iq [Lp Ep]]. rewrite Lp.
        assert (Fin : forall b r, q = 2 * c + b -> b <= 1 -> k = h -> r = (if i <? (2 * c + 1) * 2 ^ h then ps ++ [rn_data x] else ps ++ [rn_data y]) ->
          joining ds i (S h) c r).
        { intros b r Eq Lb Ek Er. subst k. right. exists (S h), c. split; [|left; auto]. assert (Ip : c * 2 ^ S h <= i < (c + 1) * 2 ^ S h) by (rewrite pow2_S; nia).
          split; [exact Ip|]. split; [destruct (i <? (2 * c + 1) * 2 ^ h); subst r; rewrite app_length, Lp; cbn [length]; lia|].
          rewrite block_S, (audit_path_join H h) by lia. rewrite pow2_S.
          destruct (Nat.ltb_spec i ((2 * c + 1) * 2 ^ h)) as [Lt|Ge].
          - assert (b = 0) by nia. subst b. replace (2 * c + 0) with (2 * c) in Eq by lia. subst q.
            replace (i - c * (2 * 2 ^ h) <? 2 ^ h) with true by lia. rewrite Er, Ep, Dx. cbn [app].
            replace (i - c * (2 * 2 ^ h)) with (i - 2 * c * 2 ^ h) by lia. reflexivity.
          - assert (b = 1) by nia. subst b. subst q.
            replace (i - c * (2 * 2 ^ h) <? 2 ^ h) with false by lia. rewrite Er, Ep, Dy. cbn [app].
            replace (i - c * (2 * 2 ^ h) - 2 ^ h) with (i - (2 * c + 1) * 2 ^ h) by lia. reflexivity. }
        destruct (Nat.eq_dec k h) as [Ek|Nk].
        -- replace (Z.of_nat h + 1 =? Z.of_nat (S k))%Z with true by lia.
           destruct (Mid _ (ps ++ [rn_data x]) (ps ++ [rn_data y])) as (r & -> & Er). cbn [obind]. apply Go.
           destruct Q as [[_ Eq]|Tp]; [apply (Fin 1 r); auto|]. apply (Fin 0 r); auto. subst k. destruct Tp as [A B]. apply mul_le_inv in A.
           rewrite pow2_S in B. replace ((q / 2 + 1) * (2 * 2 ^ h)) with (2 * (q / 2 + 1) * 2 ^ h) in B by ring. apply mul_lt_inv in B. lia.
        -- replace (Z.of_nat h + 1 =? Z.of_nat (S k))%Z with false by lia. cbn [obind]. apply Go.
           right. exists k, q. split; [exact Ok0|]. right. destruct Q as [[C _]|Tp]; [contradiction|].
           pose proof (top_high _ _ _ _ Tp) as Lk. destruct Tp as [A B]. split; [|rewrite (pow2_S h); lia].
           replace k with (S h + (k - S h)) in A |- * by lia. rewrite Nat.pow_add_r in A |- *. set (e := 2 ^ (k - S h)) in *.
           replace ((q + 1) * (2 ^ S h * e)) with ((q + 1) * e * 2 ^ S h) in * by ring.
           apply Nat.mul_le_mono_r. rewrite pow2_S in A. replace ((q + 1) * e * (2 * 2 ^ h)) with (2 * ((q + 1) * e) * 2 ^ h) in A by ring.
           apply mul_le_inv in A. lia.
Qed.

Definition rt_inv (ds : list (list byte)) (i : nat) (t : RTree) : Prop :=
  Heads (isb ds) 0 (length ds) (rt_head t) /\ rt_leaves_count t = Z.of_nat (length ds) /\ rt_proof_index t = Z.of_nat i /\
  settled ds i (rt_proof_set t).

Lemma push_inv : forall ds i d t, (Z.of_nat (length ds) + 1 < 2 ^ 64)%Z -> rt_inv ds i t ->
  exists t', rt_push H pr d t = Val t' /\ rt_inv (ds ++ [d]) i t'.
Proof.
  intros ds i d [hd lc pi ps] Ln (Hh & Ec & Ei & Se). cbn [rt_head rt_leaves_count rt_proof_index rt_proof_set] in *. subst lc pi.
  set (ds' := ds ++ [d]). assert (L' : length ds' = length ds + 1) by (unfold ds'; rewrite app_length; reflexivity).
  assert (Bd : block 0 (length ds) ds' = [d]).
  { apply block_0. unfold ds'. rewrite nth_error_app2 by lia. rewrite Nat.sub_diag. reflexivity. }
  assert (Le : leaf_sum H d = hash_leaf H d) by reflexivity.
  assert (Dd : hash_leaf H d = mth H [d]) by (rewrite mth_one; reflexivity).
  unfold rt_push. cbn [rt_head rt_leaves_count rt_proof_index rt_proof_set]. rewrite Le.
  set (ps1 := if (Z.of_nat (length ds) =? Z.of_nat i)%Z then _ else _).
  destruct (join_all ds' i ltac:(lia) (length (Build_RNode 0 (hash_leaf H d) :: hd)) 0 (length ds) (Build_RNode 0 (hash_leaf H d)) hd ps1)
    as (l' & ps' & R & Hh' & Se').
  - split; [reflexivity|]. cbn [rn_data]. rewrite Bd. exact Dd.
  - revert Hh. apply Heads_impl. intros h' b x Lb [A B]. split; [exact A|]. rewrite B. unfold ds'. rewrite block_app; [reflexivity|].
    change (2 ^ 0) with 1 in Lb. lia.
  - change (2 ^ 0) with 1. lia.
  - unfold ps1. change (2 ^ 0) with 1 in *. destruct Se as [[Li ->]|(k & q & [Iq [Lp Ep]] & Tp)].
    + destruct (Z.eqb_spec (Z.of_nat (length ds)) (Z.of_nat i)) as [E|E].
      * right. exists 0, (length ds). split; [|left; auto]. split; [change (2 ^ 0) with 1; lia|]. split; [reflexivity|].
        rewrite Bd, audit_path_one. replace i with (length ds) by lia. unfold ds'. rewrite app_nth2 by lia. rewrite Nat.sub_diag. reflexivity.
      * left. split; [change (2 ^ 0) with 1; lia|reflexivity].
    + destruct Tp as [T1 T2]. replace (Z.of_nat (length ds) =? Z.of_nat i)%Z with false by lia.
      right. exists k, q. split; [|right; split; change (2 ^ 0) with 1; lia]. split; [exact Iq|]. split; [exact Lp|]. rewrite Ep. unfold ds'.
      rewrite app_nth1 by lia. rewrite block_app by lia. reflexivity.
  - cbn [length]. lia.
  - replace (Z.of_nat (length ds') - 1)%Z with (Z.of_nat (length ds)) in R by lia. rewrite R. cbn [obind rt_leaves_count rt_head rt_proof_index rt_proof_set].
    rewrite u64_ovf_in by (unfold U64; lia). cbn [obind]. eexists. split; [reflexivity|].
    split; [exact Hh'|]. split; [cbn [rt_leaves_count]; lia|]. split; [reflexivity|exact Se'].
Qed.

Lemma push_all_inv : forall es ds i t, (Z.of_nat (length (ds ++ es)) < 2 ^ 64)%Z -> rt_inv ds i t ->
  exists t', rt_push_all H pr es t = Val t' /\ rt_inv (ds ++ es) i t'.
Proof.
  induction es as [|e es IH]; intros ds i t Ln I0; cbn [rt_push_all].
  - exists t. rewrite app_nil_r. auto.
  - rewrite app_length in Ln. cbn [length] in Ln. destruct (push_inv ds i e t ltac:(lia) I0) as (t1 & -> & I1). cbn [obind].
    destruct (IH (ds ++ [e]) i t1) as (t' & R & I'); [rewrite !app_length; cbn [length]; lia|exact I1|].
    exists t'. split; [exact R|]. rewrite <- app_assoc in I'. exact I'.
Qed.

Lemma inv_root : forall ds i t, (ds = [] -> H [] = empty_sum) -> (Z.of_nat (length ds) < 2 ^ 64)%Z -> rt_inv ds i t -> rt_root H pr t = Val (mth H ds).
Proof.
  intros ds i t He Ln (Hh & _). unfold rt_root. destruct (rt_head t) as [|x l].
  - apply Heads_nil_inv in Hh. apply length_zero_iff_nil in Hh. subst ds. rewrite mth_nil, He by reflexivity. reflexivity.
  - destruct (Heads_cons_inv _ _ _ _ _ Hh) as (h & b & _ & En & [Ex Dx] & Hl). change (2 ^ 0) with 1 in En. rewrite Nat.mul_1_r in En.
    assert (Lb : length (block h (2 * b) ds) = 2 ^ h) by (apply block_length; lia). pose proof (pow2_pos h).
    rewrite (root_loop ds (S h) b l Hl) with (r := block h (2 * b) ds); [|rewrite pow2_S; lia|rewrite pow2_S; lia|exact Dx|rewrite pow2_S; lia].
    rewrite <- firstn_block, firstn_all2 by lia. reflexivity.
Qed.

Lemma inv_prove : forall ds i t, (ds = [] -> H [] = empty_sum) -> (Z.of_nat (length ds) < 2 ^ 64)%Z -> rt_inv ds i t ->
  rt_prove H pr t = Val (mth H ds, match nth_error ds i with Some d => hash_leaf H d :: audit_path H i ds | None => [] end).
Proof.
  intros ds i t He Ln Inv. pose proof (inv_root ds i t He Ln Inv) as Rt. destruct Inv as (Hh & _ & _ & Se).
  unfold rt_prove. rewrite Rt. cbn [obind]. destruct Se as [[Li ->]|(k & q & [Iq [Lp Ep]] & Tp)].
  - replace (nth_error ds i) with (@None (list byte)) by (symmetry; apply nth_error_None; exact Li).
    destruct (rt_head t); reflexivity.
  - assert (Li : i < length ds) by (destruct Tp; lia). rewrite (nth_error_nth' ds [] Li). rewrite Lp.
    destruct (rt_head t) as [|x l]; [apply Heads_nil_inv in Hh; lia|].
    replace (Z.of_nat (S k) =? 0)%Z with false by lia. replace (Z.of_nat (S k) - 1)%Z with (Z.of_nat k) by lia.
    destruct (Heads_cons_inv _ _ _ _ _ Hh) as (h & b & _ & En & [Ex Dx] & Hl). change (2 ^ 0) with 1 in En. rewrite Nat.mul_1_r in En.
    assert (Lb : length (block h (2 * b) ds) = 2 ^ h) by (apply block_length; lia). pose proof (pow2_pos h) as Ph.
    assert (Lk : h <= k) by (rewrite En in Tp; exact (top_high _ _ _ _ Tp)).
    assert (All : firstn (b * 2 ^ S h) ds ++ block h (2 * b) ds = ds) by (rewrite <- firstn_block, firstn_all2 by lia; reflexivity).
    destruct (Nat.le_gt_cases (2 * b * 2 ^ h) i) as [Lo|Hi].
    + (* in the smallest block *)
      assert (Ek : k = h).
      { destruct Tp as [A B]. rewrite En in A, B. destruct (Nat.eq_dec k h); auto. exfalso.
        replace k with (S h + (k - S h)) in * by lia. rewrite Nat.pow_add_r in *. set (e := 2 ^ (k - S h)) in *.
        replace ((q + 1) * (2 ^ S h * e)) with ((q + 1) * e * 2 ^ S h) in * by ring.
        assert (C : 2 * ((q + 1) * e) * 2 ^ h <= (2 * b + 1) * 2 ^ h) by (rewrite pow2_S in A; lia). apply mul_le_inv in C.
        assert (D : (q + 1) * e * 2 ^ S h <= b * 2 ^ S h) by (apply Nat.mul_le_mono_r; lia). rewrite pow2_S in D, Iq. lia. }
      subst k. assert (Eq : q = 2 * b).
      { destruct Iq as [A B]. assert (C : 2 * b * 2 ^ h < (q + 1) * 2 ^ h) by lia. assert (D : q * 2 ^ h < (2 * b + 1) * 2 ^ h) by lia.
        apply mul_lt_inv in C. apply mul_lt_inv in D. lia. }
      subst q.
      assert (Pj : rt_prove_join H pr (Z.of_nat h) x l = Val (x, l)).
      { destruct l as [|y l]; [reflexivity|]. cbn [rt_prove_join]. pose proof (heads_height _ _ _ _ _ Hl).
        replace (rn_height y <? Z.of_nat h)%Z with false by lia. reflexivity. }
      rewrite Pj. cbn [obind].
      pose proof (path_up ds (S h) b l Hl ltac:(rewrite pow2_S; lia) (block h (2 * b) ds) (i - 2 * b * 2 ^ h) ltac:(lia) ltac:(rewrite pow2_S; lia)) as Ap.
      rewrite All in Ap. replace (b * 2 ^ S h + (i - 2 * b * 2 ^ h)) with i in Ap by (rewrite pow2_S; lia).
      destruct l as [|y l].
      * rewrite Ep, Ap. reflexivity.
      * pose proof (heads_height _ _ _ _ _ Hl). replace (rn_height y =? Z.of_nat h)%Z with false by lia.
        rewrite Ep, Ap. reflexivity.
    + destruct (prove_join ds (S h) b l Hl ltac:(rewrite pow2_S; lia) ltac:(rewrite pow2_S; lia) x (block h (2 * b) ds) k q i Dx
        ltac:(rewrite pow2_S; lia)) as (cur & n & next & Rj & Hn & Ap); [|exact Iq|].
      * destruct Tp as [A B]. rewrite En in A, B. split; [|rewrite (pow2_S h); lia].
        destruct (Nat.eq_dec k h) as [->|Nk].
        -- assert (C : q * 2 ^ h < 2 * b * 2 ^ h) by lia. apply mul_lt_inv in C. rewrite pow2_S.
           replace (b * (2 * 2 ^ h)) with (2 * b * 2 ^ h) by ring. apply Nat.mul_le_mono_r. lia.
        -- replace k with (S h + (k - S h)) in A |- * by lia. rewrite Nat.pow_add_r in A |- *. set (e := 2 ^ (k - S h)) in *.
           replace ((q + 1) * (2 ^ S h * e)) with ((q + 1) * e * 2 ^ S h) in * by ring.
           apply Nat.mul_le_mono_r. rewrite pow2_S in A. replace ((q + 1) * e * (2 * 2 ^ h)) with (2 * ((q + 1) * e) * 2 ^ h) in A by ring.
           apply mul_le_inv in A. lia.
      * rewrite Rj. cbn [obind]. rewrite Hn, Z.eqb_refl. rewrite All in Ap. rewrite Ep, Ap. cbn [app]. rewrite <- app_assoc. reflexivity.
Qed.

Theorem ref_prove : forall ds i, (ds = [] -> H [] = empty_sum) -> (Z.of_nat (length ds) < 2 ^ 64)%Z ->
  exists t, rt_build H pr (Z.of_nat i) ds = Val t /\ rt_root H pr t = Val (mth H ds) /\
  rt_prove H pr t = Val (mth H ds, match nth_error ds i with Some d => hash_leaf H d :: audit_path H i ds | None => [] end).
Proof.
  intros ds i He Ln. unfold rt_build, rt_set_proof_index. cbn [rt_new rt_head obind].
  destruct (push_all_inv ds [] i (Build_RTree [] 0 (Z.of_nat i) [])) as (t & R & I).
  - exact Ln.
  - split; [constructor|]. split; [reflexivity|]. split; [reflexivity|]. left. split; [cbn; lia|reflexivity].
  - exists t. split; [exact R|]. split; [exact (inv_root ds i t He Ln I)|exact (inv_prove ds i t He Ln I)].
Qed.
End Ref.

Theorem C58_lemma : forall H pr pr' St E (st : StorageT St Z BPrimitive E) view, Lawful st view ->
  forall ds s0, Infallible st -> (Z.of_nat (length ds) < leaf_limit pr)%Z ->
  exists t, bt_push_all H pr st ds (bt_new s0) = (t, Val (Ok tt)) /\
  forall i, i < length ds -> exists rt t' root proof,
    rt_build H pr' (Z.of_nat i) ds = Val rt /\
    bt_prove H pr st (Z.of_nat i) t = (t', Val (Ok (root, proof))) /\ bt_root H pr t = Val root /\
    rt_prove H pr' rt = Val (root, proof) /\ rt_root H pr' rt = Val root.
Proof.
  intros H pr pr' St E st view Law ds s0 Inf Ln. destruct (C02_lemma H pr st view Law ds s0 Inf Ln) as (t & R & Pv).
  exists t. split; [exact R|]. intros i Li. destruct (nth_error ds i) as [d|] eqn:En; [|apply nth_error_None in En; lia].
  destruct (Pv i d En) as (Rt & t' & Pr).
  assert (L64 : (Z.of_nat (length ds) < 2 ^ 64)%Z) by (unfold leaf_limit in Ln; destruct (overflow_checks pr); lia).
  destruct (ref_prove H pr' ds i) as (rt & Rb & Rr & Rp); [intros ->; cbn in Li; lia|exact L64|].
  rewrite En in Rp. exists rt, t', (mth H ds), (hash_leaf H d :: audit_path H i ds).
  split; [exact Rb|]. split; [exact Pr|]. split; [exact Rt|]. split; [exact Rp|exact Rr].
Qed.
