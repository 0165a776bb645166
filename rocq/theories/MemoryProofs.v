(** MemoryProofs.v -- the number of subtrees a tree keeps in memory. *)
From Verif Require Import Base Storage ModelCommon ModelBinary ModelSum SpecBinary SpecBinaryFacts SpecPosition SpecSum SpecCalls SpecMemory
  PositionProofs PathProofs HeadsProofs Runs RunsSum RunsCalls BinaryMain BinaryReadProofs SumMain BinaryCalls.
From Coq Require Import Arith ZifyBool ZifyNat ZifyN.
Ltac Zify.zify_post_hook ::= Z.div_mod_to_equations.
Arguments Z.pow : simpl never.
Arguments Z.mul : simpl never.
Arguments Z.add : simpl never.
Arguments Z.sub : simpl never.
Arguments Z.of_nat : simpl never.
Arguments Nat.pow : simpl never.
Arguments Nat.mul : simpl never.
Arguments Nat.div : simpl never.
Arguments Nat.add : simpl never.

(** * Heights *)
Lemma tz_range : forall f z, 0 <= trailing_zeros_loop f z <= Z.of_nat f.
Proof.
  induction f as [|f IH]; intros z; cbn [trailing_zeros_loop]; [lia|]. destruct (Z.odd z); [lia|]. specialize (IH (z / 2)). lia.
Qed.
Lemma height_64 : forall p, 0 <= pos_height p <= 64.
Proof. intros p. unfold pos_height, trailing_zeros. pose proof (tz_range 64 (U64 - 1 - p)). lia. Qed.
Lemma parent_u64 : forall pr p q, pos_parent pr p = Val q -> 0 <= q < U64.
Proof.
  intros pr p q Q. unfold pos_parent in Q. destruct (shl1_i64 pr (pos_height p)) as [s| |]; try discriminate Q. cbn [obind] in Q.
  destruct (pos_direction pr p) as [d| |]; try discriminate Q. cbn [obind] in Q. unfold pos_offset in Q.
  destruct (i64_ovf pr (s * d)) as [x| |]; try discriminate Q. cbn [obind] in Q.
  destruct (i64_ovf pr (as_i64 p + x)) as [y| |]; try discriminate Q. cbn [obind] in Q. inversion Q. unfold as_u64.
  apply Z.mod_pos_bound. reflexivity.
Qed.
Lemma parent_height : forall pr p q, 0 <= p < U64 -> pos_parent pr p = Val q -> pos_height p <= 63 -> pos_height q = pos_height p + 1.
Proof.
  intros pr p q Hp Q Hh.
  destruct (Z.eq_dec p (U64 - 1)) as [->|N]; [exfalso; rewrite pos_height_max in Hh; lia|].
  destruct (index_of_exists p ltac:(lia)) as (h & b & H1 & ->).
  rewrite pos_height_index in * by lia.
  destruct (le_lt_dec h 61) as [H2|H2].
  - destruct (Nat.Even_or_Odd b) as [[c ->]|[c ->]].
    + rewrite pos_parent_left in Q by lia. inversion Q. rewrite pos_height_index by lia. lia.
    + rewrite pos_parent_right in Q by lia. inversion Q. rewrite pos_height_index by lia. lia.
  - assert (Hb : (h = 62%nat /\ b = 0%nat) \/ (h = 62%nat /\ b = 1%nat) \/ (h = 63%nat /\ b = 0%nat)).
    { unfold index_of in Hp. change U64 with (2 * 2 ^ 63) in Hp.
      assert (h = 62%nat \/ h = 63%nat) as [-> | ->] by lia; [change (P2 62) with (2 ^ 62) in Hp|change (P2 63) with (2 ^ 63) in Hp];
      change (2 ^ 63) with 9223372036854775808 in Hp; change (2 ^ 62) with 4611686018427387904 in Hp; lia. }
    destruct pr as [[] [] []]; destruct Hb as [[-> ->]|[[-> ->]|[-> ->]]]; vm_compute in Q; (discriminate Q || (inversion Q; reflexivity)).
Qed.

(** * Binary trees *)
Section Binary.
Variable H : list byte -> bytes32.
Variable pr : profile.
Context {St E : Type}.
Variable st : StorageT St Z BPrimitive E.

(** Strictly increasing heights, the first at least [lo]. *)
Fixpoint incr (lo : Z) (l : list BNode) : Prop :=
  match l with
  | [] => True
  | x :: l' => lo <= pos_height (bn_position x) /\ 0 <= bn_position x < U64 /\ incr (pos_height (bn_position x) + 1) l'
  end.
Definition mass (l : list BNode) : Z := fold_right (fun x w => 2 ^ pos_height (bn_position x) + w) 0 l.
Lemma mass_nonneg : forall l, 0 <= mass l.
Proof.
  induction l as [|x l IH]; cbn [mass fold_right]; [lia|]. fold (mass l).
  pose proof (Z.pow_nonneg 2 (pos_height (bn_position x))). lia.
Qed.
Lemma incr_mass : forall l lo, 0 <= lo -> incr lo l -> 2 ^ lo * (2 ^ Z.of_nat (length l) - 1) <= mass l.
Proof.
  induction l as [|x l IH]; intros lo Hlo I; cbn [length incr mass fold_right] in *; [change (2 ^ Z.of_nat 0) with 1; lia|].
  destruct I as (A & _ & B). fold (mass l). pose proof (height_64 (bn_position x)) as Hx. specialize (IH (pos_height (bn_position x) + 1) ltac:(lia) B).
  rewrite Nat2Z.inj_succ, Z.pow_succ_r by lia. rewrite Z.pow_add_r in IH by lia. change (2 ^ 1) with 2 in IH.
  assert (2 ^ lo <= 2 ^ pos_height (bn_position x)) by (apply Z.pow_le_mono_r; lia).
  assert (0 < 2 ^ Z.of_nat (length l)) by (apply Z.pow_pos_nonneg; lia). nia.
Qed.

(** The bound: new subtrees with increasing heights and [n] leaves on top of at most [k] others. *)
Definition small (k : nat) (n : Z) (l : list BNode) : Prop :=
  exists new old, l = new ++ old /\ incr 0 new /\ mass new <= n /\ (length old <= k)%nat.
Lemma small_length : forall k n l, small k (Z.of_nat n) l -> (length l <= k + Nat.log2 (n + 1))%nat.
Proof.
  intros k n l (new & old & -> & I & M & O). rewrite app_length. apply incr_mass in I; [|lia]. change (2 ^ 0) with 1 in I.
  assert (2 ^ length new <= n + 1)%nat by (apply Nat2Z.inj_le; rewrite Nat2Z.inj_pow; lia).
  assert (length new <= Nat.log2 (n + 1))%nat by (apply Nat.log2_le_pow2; lia). lia.
Qed.
Lemma small_short : forall k n l, 0 <= n -> (length l <= k)%nat -> small k n l.
Proof. intros k n l Hn Hl. exists [], l. repeat split; cbn; lia. Qed.
Lemma small_nil : forall k n, 0 <= n -> small k n [].
Proof. intros k n Hn. apply small_short; cbn; lia. Qed.
Lemma small_more : forall k n l, small k n l -> small k (n + 1) l.
Proof. intros k n l (new & old & A & B & C & D). exists new, old. repeat split; auto. lia. Qed.

Lemma insert_heads : forall p v t t' o, bt_insert st p v t = (t', o) -> bt_head t' = bt_head t /\ bt_leaves_count t' = bt_leaves_count t.
Proof. intros p v t t' o Q. unfold bt_insert in Q. destruct (s_insert st p v (bt_storage t)) as [s [u|e]]; inversion Q; auto. Qed.

Lemma loop_shrinks : forall f t t' o, bt_join_all_subtrees_loop H pr st f t = (t', o) -> (length (bt_head t') <= length (bt_head t))%nat.
Proof.
  induction f as [|f IH]; intros t t' o Q; cbn [bt_join_all_subtrees_loop] in Q; [inversion Q; lia|].
  unfold bind at 1, get_state at 1 in Q. destruct (bt_head t) as [|c [|y l]] eqn:Ht; try (inversion Q; subst; rewrite Ht; cbn [length]; lia).
  destruct (pos_height (bn_position c) =? pos_height (bn_position y)); [|inversion Q; subst; rewrite Ht; cbn [length]; lia].
  unfold bind at 1, bt_set_head at 1 in Q. unfold bind at 1, lift at 1 in Q. unfold bnode_create_node in Q.
  destruct (pos_parent pr (bn_position y)) as [q| |] eqn:Ep; cbn [obind] in Q; try (inversion Q; subst; cbn; lia).
  unfold bind_try at 1 in Q. unfold bind at 1 in Q.
  match type of Q with context [bt_insert st ?p ?v ?t0] => destruct (bt_insert st p v t0) as [t1 [[u|e]| |]] eqn:Ei end;
    apply insert_heads in Ei; cbn [bt_head] in Ei; destruct Ei as [Ei _]; try (inversion Q; subst; rewrite Ei; cbn; lia).
  unfold bind at 1, bt_set_head at 1 in Q. apply IH in Q. cbn [bt_head length] in *. lia.
Qed.

Lemma loop_small : forall k n, n < 2 ^ 64 -> forall f t c rest old t' o, bt_head t = c :: rest ++ old -> (length (rest ++ old) < f)%nat -> (length old <= k)%nat ->
  0 <= bn_position c < U64 -> incr (pos_height (bn_position c)) rest -> mass (c :: rest) <= n ->
  bt_join_all_subtrees_loop H pr st f t = (t', o) -> small k n (bt_head t').
Proof.
  intros k n Hn. induction f as [|f IH]; intros t c rest old t' o Ht Hf Ho Hc Hr Hm Q; [lia|].
  pose proof (mass_nonneg (c :: rest)) as Hm0.
  cbn [bt_join_all_subtrees_loop] in Q. unfold bind at 1, get_state at 1 in Q. rewrite Ht in Q.
  assert (Stop : incr (pos_height (bn_position c) + 1) rest -> small k n (bt_head t)).
  { intros I. exists (c :: rest), old. split; [exact Ht|]. split; [|split; [exact Hm|exact Ho]]. cbn [incr].
    pose proof (height_64 (bn_position c)). split; [lia|]. split; [exact Hc|exact I]. }
  destruct (rest ++ old) as [|y l] eqn:El.
  { inversion Q; subst. apply Stop. destruct rest; [exact Logic.I|discriminate El]. }
  destruct (pos_height (bn_position c) =? pos_height (bn_position y)) eqn:Eh.
  2:{ inversion Q; subst. apply Stop. destruct rest as [|z rest]; [exact Logic.I|]. inversion El; subst z. cbn [incr] in *.
      destruct Hr as (A & B). split; [lia|exact B]. }
  unfold bind at 1, bt_set_head at 1 in Q. unfold bind at 1, lift at 1 in Q. unfold bnode_create_node in Q.
  destruct (pos_parent pr (bn_position y)) as [q| |] eqn:Ep; cbn [obind] in Q; try (inversion Q; subst; apply small_nil; lia).
  pose proof (parent_u64 _ _ _ Ep) as Hq. unfold bind_try at 1 in Q. unfold bind at 1 in Q.
  match type of Q with context [bt_insert st ?p ?v ?t0] => destruct (bt_insert st p v t0) as [t1 [[u|e]| |]] eqn:Ei end;
    apply insert_heads in Ei; cbn [bt_head bn_position] in Ei; destruct Ei as [Ei _]; try (inversion Q; subst; rewrite Ei; apply small_nil; lia).
  unfold bind at 1, bt_set_head at 1 in Q.
  destruct rest as [|z rest].
  - cbn [app] in El. subst old. cbn [length] in *. apply loop_shrinks in Q. cbn [bt_head length] in Q. apply small_short; lia.
  - cbn [app] in El. inversion El; subst z l. cbn [incr] in Hr. destruct Hr as (A & B & C). cbn [length] in Hf.
    cbn [mass fold_right] in Hm. fold (mass rest) in Hm. pose proof (mass_nonneg rest) as Hm1.
    assert (H63 : pos_height (bn_position y) <= 63).
    { destruct (Z_le_gt_dec (pos_height (bn_position y)) 63) as [L|G]; [exact L|]. exfalso.
      assert (2 ^ 64 <= 2 ^ pos_height (bn_position y)) by (apply Z.pow_le_mono_r; lia).
      pose proof (Z.pow_nonneg 2 (pos_height (bn_position c))). lia. }
    pose proof (parent_height pr (bn_position y) q B Ep H63) as Eq.
    match type of Q with bt_join_all_subtrees_loop _ _ _ _ ?t0 = _ => eapply (IH t0 _ rest old) end;
      [reflexivity|lia|exact Ho|exact Hq| | |exact Q]; cbn [bn_position].
    + rewrite Eq. exact C.
    + cbn [mass fold_right bn_position]. fold (mass rest). rewrite Eq. pose proof (height_64 (bn_position y)).
      rewrite Z.pow_add_r by lia. change (2 ^ 1) with 2. replace (pos_height (bn_position c)) with (pos_height (bn_position y)) in Hm by lia. lia.
Qed.

Lemma push_small : forall k n d t t' o, 0 <= n -> n + 1 < 2 ^ 64 -> small k n (bt_head t) -> bt_push H pr st d t = (t', o) -> small k (n + 1) (bt_head t').
Proof.
  intros k n d t t' o Hn0 Hn Hs0 Q. pose proof (small_more _ _ _ Hs0) as Hs.
  unfold bt_push in Q. unfold bind at 1, get_state at 1 in Q. unfold bind at 1, lift at 1 in Q.
  unfold bnode_create_leaf in Q. destruct (pos_from_leaf_index pr (bt_leaves_count t)) as [p| |] eqn:Ep; cbn [obind] in Q;
    try (inversion Q; subst; exact Hs).
  assert (Hp : 0 <= p < U64 /\ pos_height p = 0).
  { unfold pos_from_leaf_index, u64_ovf in Ep. assert (R : 0 <= p < U64 /\ exists q, p = q * 2).
    { destruct (in_u64 (bt_leaves_count t * 2)) eqn:R.
      - inversion Ep; subst. unfold in_u64 in R. split; [lia|]. eauto.
      - destruct (overflow_checks pr); inversion Ep. unfold as_u64. split; [apply Z.mod_pos_bound; reflexivity|].
        exists ((bt_leaves_count t * 2 - bt_leaves_count t * 2 / U64 * U64) / 2). change U64 with (9223372036854775808 * 2). lia. }
    destruct R as (R & q & ->). split; [exact R|]. replace (q * 2) with (index_of 0 (Z.to_nat q)) by (rewrite index_of_0; lia).
    rewrite pos_height_index by lia. reflexivity. }
  destruct Hp as [Hp Hh]. unfold bind_try at 1 in Q. unfold bind at 1 in Q. cbn [bn_position] in Q.
  match type of Q with context [bt_insert st ?x ?v ?t0] => destruct (bt_insert st x v t0) as [t1 [[u|e]| |]] eqn:Ei end;
    apply insert_heads in Ei; destruct Ei as [Ei _]; try (inversion Q; subst; rewrite Ei; exact Hs).
  unfold bind at 1, get_state at 1 in Q. unfold bind at 1, bt_set_head at 1 in Q.
  unfold bt_join_all_subtrees in Q. unfold bind_try at 1 in Q. unfold bind at 1 in Q. unfold bind at 1, get_state at 1 in Q.
  match type of Q with context [bt_join_all_subtrees_loop H pr st ?f ?t0] => destruct (bt_join_all_subtrees_loop H pr st f t0) as [t2 o2] eqn:Eq end.
  assert (S2 : small k (n + 1) (bt_head t2)).
  { destruct Hs0 as (new & old & En & I & M & O). cbn [bt_head] in Eq. rewrite Ei, En in Eq.
    match type of Eq with bt_join_all_subtrees_loop _ _ _ ?f ?t0 = _ => eapply (loop_small k (n + 1) Hn f t0 _ new old) end;
      [reflexivity|cbn [length]; lia|exact O|exact Hp| | |exact Eq]; cbn [bn_position].
    - rewrite Hh. exact I.
    - cbn [mass fold_right bn_position]. fold (mass new). rewrite Hh. change (2 ^ 0) with 1. lia. }
  destruct o2 as [[u2|e2]| |]; try (inversion Q; subst; exact S2).
  unfold bind at 1, get_state at 1 in Q. unfold bind at 1, lift at 1 in Q.
  destruct (u64_ovf pr (bt_leaves_count t2 + 1)); inversion Q; subst; exact S2.
Qed.

Lemma get_heads : forall k t t' o, bt_get st k t = (t', o) -> bt_head t' = bt_head t.
Proof. intros k t t' o Q. unfold bt_get in Q. destruct (bst_get st k (bt_storage t)). inversion Q. reflexivity. Qed.
Lemma prove_loop_heads : forall sc l acc t t' o, bt_prove_loop st sc l acc t = (t', o) -> bt_head t' = bt_head t.
Proof.
  intros sc. induction l as [|key l IH]; intros acc t t' o Q; cbn [bt_prove_loop] in Q; [inversion Q; reflexivity|].
  unfold bind_try, bind in Q. destruct (bt_get st key t) as [t1 [[r|e]| |]] eqn:Eg; apply get_heads in Eg; try (inversion Q; subst; exact Eg).
  destruct (match smap_lookup Z.eqb sc key with Some p => Some p | None => r end).
  - apply IH in Q. congruence.
  - inversion Q; subst. exact Eg.
Qed.
Lemma prove_heads : forall i t t' o, bt_prove H pr st i t = (t', o) -> bt_head t' = bt_head t.
Proof.
  intros i t t' o Q. unfold bt_prove in Q. unfold bind at 1, get_state at 1 in Q. unfold bind at 1, lift at 1 in Q.
  destruct (u64_ovf pr (i + 1)) as [sc| |]; try (inversion Q; subst; reflexivity).
  destruct (sc >? bt_leaves_count t); [inversion Q; reflexivity|].
  unfold bind at 1, lift at 1 in Q. destruct (bt_root_position pr (bt_leaves_count t)) as [rp| |]; try (inversion Q; subst; reflexivity).
  unfold bind at 1, lift at 1 in Q. destruct (pos_from_leaf_index pr i) as [lp| |]; try (inversion Q; subst; reflexivity).
  unfold bind_try at 1 in Q. unfold bind at 1 in Q.
  destruct (bt_get st lp t) as [t1 [[r|e]| |]] eqn:Eg; apply get_heads in Eg; try (inversion Q; subst; exact Eg).
  destruct r as [prim|]; [|inversion Q; subst; exact Eg].
  unfold bind at 1, lift at 1 in Q. destruct (position_path pr rp lp (bt_leaves_count t)) as [path| |]; try (inversion Q; subst; exact Eg).
  unfold bind at 1, lift at 1 in Q. destruct (bt_root_node H pr t smap_new) as [[rn sc2]| |]; try (inversion Q; subst; exact Eg).
  destruct rn as [rn|]; [|inversion Q; subst; exact Eg]. unfold bind_try, bind in Q.
  match type of Q with context [bt_prove_loop st ?a ?b ?c ?t0] => destruct (bt_prove_loop st a b c t0) as [t2 o2] eqn:El end.
  apply prove_loop_heads in El. destruct o2 as [[r2|e2]| |]; inversion Q; subst; congruence.
Qed.

Lemma calls_small : forall k cs n t t' o, 0 <= n -> n + Z.of_nat (push_count cs) < 2 ^ 64 -> small k n (bt_head t) ->
  bt_calls H pr st cs t = (t', o) -> small k (n + Z.of_nat (push_count cs)) (bt_head t').
Proof.
  intros k. induction cs as [|c cs IH]; intros n t t' o Hn0 Hn Hs Q; cbn [bt_calls] in Q.
  { inversion Q; subst. cbn [push_count]. replace (n + Z.of_nat 0) with n by lia. exact Hs. }
  unfold bind at 1 in Q. destruct (bt_do H pr st c t) as [t1 o1] eqn:Ed.
  set (n1 := match c with CPush _ => n + 1 | _ => n end).
  assert (En : n + Z.of_nat (push_count (c :: cs)) = n1 + Z.of_nat (push_count cs)) by (unfold n1; destruct c; cbn [push_count]; lia).
  rewrite En in *.
  assert (S1 : small k n1 (bt_head t1)).
  { destruct c as [d|i|]; cbn [bt_do] in Ed; unfold bind at 1 in Ed.
    - destruct (bt_push H pr st d t) as [t2 o2] eqn:Ep. apply (push_small k n) in Ep; [|exact Hn0|unfold n1 in Hn; lia|exact Hs].
      destruct o2; inversion Ed; subst; exact Ep.
    - destruct (bt_prove H pr st i t) as [t2 o2] eqn:Ep. apply prove_heads in Ep. rewrite <- Ep in Hs.
      destruct o2; inversion Ed; subst; exact Hs.
    - unfold get_state in Ed. unfold bind, lift in Ed. destruct (bt_root H pr t); inversion Ed; subst; exact Hs. }
  assert (Up : small k n1 (bt_head t1) -> small k (n1 + Z.of_nat (push_count cs)) (bt_head t1)).
  { intros (new & old & A & B & C & D). exists new, old. repeat split; auto. lia. }
  destruct o1 as [a| |]; try (inversion Q; subst; apply Up; exact S1).
  unfold bind at 1 in Q. destruct (bt_calls H pr st cs t1) as [t2 o2] eqn:Ec.
  apply (IH n1) in Ec; [|unfold n1; destruct c; lia|exact Hn|exact S1].
  destruct o2; inversion Q; subst; exact Ec.
Qed.

Lemma C101_binary_lemma : forall cs t t' o, Z.of_nat (push_count cs) < 2 ^ 64 -> bt_calls H pr st cs t = (t', o) ->
  (length (bt_head t') <= length (bt_head t) + Nat.log2 (push_count cs + 1))%nat.
Proof.
  intros cs t t' o Hn Q. apply small_length. apply (calls_small (length (bt_head t)) cs 0) in Q; [exact Q|lia|lia|apply small_short; lia].
Qed.

Lemma peaks_length : forall h n, (length (peaks h n) <= h)%nat.
Proof. induction h as [|h IH]; intros n; cbn [peaks length]; [lia|]. destruct (Nat.odd (ancestor n h)); cbn [length]; specialize (IH n); lia. Qed.
Lemma build_length : forall ps acc s s' r, bt_build_loop st ps acc s = (s', Val (Ok r)) -> length r = (length acc + length ps)%nat.
Proof.
  induction ps as [|p ps IH]; intros acc s s' r Q; cbn [bt_build_loop] in Q; [inversion Q; subst; cbn; lia|].
  unfold bind_try, bind in Q. destruct (bst_get st p s) as [s1 [[[x|]|e]| |]]; try discriminate Q.
  apply IH in Q. rewrite Q. cbn [length]. lia.
Qed.
Lemma C101_load_lemma : forall n s s' t, Z.of_nat n < leaf_limit pr -> bt_load pr st (Z.of_nat n) s = (s', Val (Ok t)) ->
  (length (bt_head t) <= S (Nat.log2 n))%nat.
Proof.
  intros n s s' t Hn Q. unfold bt_load in Q. unfold bind at 1, lift at 1 in Q. rewrite peak_positions_ok in Q by (apply count_ok_limit; exact Hn).
  unfold bind_try, bind in Q.
  match type of Q with context [bt_build_loop st ?ps ?a ?s0] => destruct (bt_build_loop st ps a s0) as [s1 [[hd|e]| |]] eqn:Eb end; try discriminate Q.
  apply build_length in Eb. inversion Q; subst. cbn [bt_head]. rewrite Eb, map_length. cbn [length].
  assert (A : (n < 2 ^ S (Nat.log2 n))%nat).
  { destruct n as [|n]; [vm_compute; lia|]. apply Nat.log2_spec. lia. }
  pose proof (root_height_spec n) as B.
  destruct (Nat.le_ge_cases (S (Nat.log2 n)) (root_height n)) as [C|C].
  - rewrite (peaks_more n _ _ A C). pose proof (peaks_length (S (Nat.log2 n)) n). lia.
  - pose proof (peaks_length (root_height n) n). lia.
Qed.
End Binary.

(** * Sum trees *)
Section Sum.
Variable H : list byte -> bytes32.
Variable pr : profile.
Context {St E : Type}.
Variable st : StorageT St bytes32 MNode E.

Fixpoint minc (lo : Z) (l : list MNode) : Prop :=
  match l with [] => True | x :: l' => lo <= mn_height x /\ minc (mn_height x + 1) l' end.
Definition weight (l : list MNode) : Z := fold_right (fun x w => 2 ^ mn_height x + w) 0 l.

Lemma weight_nonneg : forall l, 0 <= weight l.
Proof. induction l as [|x l IH]; cbn; [lia|]. pose proof (Z.pow_nonneg 2 (mn_height x)). fold (weight l). lia. Qed.
Lemma minc_weight : forall l lo, 0 <= lo -> minc lo l -> 2 ^ lo * (2 ^ Z.of_nat (length l) - 1) <= weight l.
Proof.
  induction l as [|x l IH]; intros lo Hlo I; cbn [length minc weight fold_right] in *; [change (2 ^ Z.of_nat 0) with 1; lia|].
  destruct I as (A & B). fold (weight l). specialize (IH (mn_height x + 1) ltac:(lia) B).
  rewrite Nat2Z.inj_succ, Z.pow_succ_r by lia. rewrite Z.pow_add_r in IH by lia. change (2 ^ 1) with 2 in IH.
  assert (2 ^ lo <= 2 ^ mn_height x) by (apply Z.pow_le_mono_r; lia). assert (0 < 2 ^ Z.of_nat (length l)) by (apply Z.pow_pos_nonneg; lia). nia.
Qed.

Definition light (n : Z) (l : list MNode) : Prop := minc 0 l /\ weight l <= n.
Lemma light_length : forall n l, light (Z.of_nat n) l -> (length l <= Nat.log2 (n + 1))%nat.
Proof.
  intros n l (A & B). apply minc_weight in A; [|lia]. change (2 ^ 0) with 1 in A.
  assert (2 ^ length l <= n + 1)%nat by (apply Nat2Z.inj_le; rewrite Nat2Z.inj_pow; lia).
  apply Nat.log2_le_pow2; lia.
Qed.
Lemma light_nil : forall n, 0 <= n -> light n [].
Proof. intros n Hn. split; [exact Logic.I|exact Hn]. Qed.

Lemma join_light : forall a b t t' o, mt_join_subtrees H pr st a b t = (t', o) -> 0 <= mn_height a < 2 ^ 32 - 1 ->
  mt_head t' = mt_head t /\ forall j, o = Val (Ok j) -> mn_height j = mn_height a + 1.
Proof.
  intros a b t t' o Q Ha. split; [eapply join_head; exact Q|]. intros j ->. unfold mt_join_subtrees in Q. unfold bind, bind_try, lift, ret in Q.
  unfold u32_ovf in Q. replace ((0 <=? mn_height a + 1) && (mn_height a + 1 <? 2 ^ 32)) with true in Q by lia.
  unfold mnode_create_node in Q. destruct (u64_ovf pr (mn_fee a + mn_fee b)) as [f| |]; cbn [obind] in Q; try discriminate Q.
  unfold bind in Q. match type of Q with context [mt_insert st ?k ?v ?t0] => destruct (mt_insert st k v t0) as [t1 [[u|e]| |]] end; inversion Q. reflexivity.
Qed.

Lemma sum_loop_light : forall n, n <= 2 ^ 64 -> forall f t c rest t' o, mt_head t = c :: rest -> (length rest < f)%nat ->
  0 <= mn_height c -> minc (mn_height c) rest -> weight (c :: rest) <= n ->
  mt_join_all_subtrees_loop H pr st f t = (t', o) -> light n (mt_head t').
Proof.
  intros n Hn. induction f as [|f IH]; intros t c rest t' o Ht Hf Hc Hr Hw Q; [lia|].
  cbn [mt_join_all_subtrees_loop] in Q. unfold bind at 1, get_state at 1 in Q. rewrite Ht in Q.
  pose proof (weight_nonneg (c :: rest)) as Hw0.
  destruct rest as [|y l].
  { inversion Q; subst. rewrite Ht. split; [cbn; split; [exact Hc|exact Logic.I]|exact Hw]. }
  destruct (mn_height c =? mn_height y) eqn:Eh.
  2:{ inversion Q; subst. rewrite Ht. split; [|exact Hw]. cbn [minc] in *. destruct Hr as (A & B). split; [exact Hc|]. split; [lia|exact B]. }
  unfold bind at 1, mt_set_head at 1 in Q. unfold bind_try at 1 in Q. unfold bind at 1 in Q.
  cbn [weight fold_right] in Hw. fold (weight l) in Hw. pose proof (weight_nonneg l) as Hl.
  assert (Hy : mn_height y <= 64).
  { destruct (Z_le_gt_dec (mn_height y) 64) as [L|G]; [exact L|]. exfalso.
    assert (2 ^ 65 <= 2 ^ mn_height y) by (apply Z.pow_le_mono_r; lia). pose proof (Z.pow_nonneg 2 (mn_height c)).
    change (2 ^ 65) with (2 * 2 ^ 64) in *. lia. }
  match type of Q with context [mt_join_subtrees H pr st ?a ?b ?t0] => destruct (mt_join_subtrees H pr st a b t0) as [t1 o1] eqn:Ej end.
  apply join_light in Ej; [|change (2 ^ 32) with 4294967296; lia]. destruct Ej as [Ej Hj]. cbn [mt_head] in Ej.
  destruct o1 as [[j|e]| |]; try (inversion Q; subst; rewrite Ej; apply light_nil; lia).
  specialize (Hj j eq_refl). unfold bind at 1, mt_set_head at 1 in Q. cbn [minc] in Hr. destruct Hr as (A & B). cbn [length] in Hf.
  match type of Q with mt_join_all_subtrees_loop _ _ _ _ ?t0 = _ => eapply (IH t0 j l) end; [reflexivity|lia|lia|rewrite Hj; exact B| |exact Q].
  cbn [weight fold_right]. fold (weight l). rewrite Hj. rewrite Z.pow_add_r by lia. change (2 ^ 1) with 2.
  replace (mn_height c) with (mn_height y) in Hw by lia. lia.
Qed.

Lemma do_light : forall n op t t' o, n + 1 <= 2 ^ 64 -> 0 <= n -> light n (mt_head t) -> mt_do H pr st op t = (t', o) ->
  light (match op with Push _ => n + 1 | Root => n end) (mt_head t').
Proof.
  intros n op t t' o Hn Hn0 Hs Q. assert (Up : forall l, light n l -> light (n + 1) l) by (intros l (A & B); split; [exact A|lia]).
  destruct op as [[fee d]|]; cbn [mt_do] in Q.
  - unfold bind_try at 1 in Q. unfold bind at 1 in Q. cbn [fst snd] in Q.
    destruct (mt_push H pr st fee d t) as [t1 o1] eqn:Ep.
    assert (light (n + 1) (mt_head t1)).
    { unfold mt_push in Ep. unfold bind_try at 1 in Ep. unfold bind at 1 in Ep.
      match type of Ep with context [mt_insert st ?k ?v ?t0] => destruct (mt_insert st k v t0) as [t2 [[u|e]| |]] eqn:Ei end;
        apply insert_head in Ei; try (inversion Ep; subst; rewrite Ei; apply Up; exact Hs).
      unfold bind at 1, get_state at 1 in Ep. unfold bind at 1, mt_set_head at 1 in Ep. unfold mt_join_all_subtrees in Ep.
      unfold bind_try at 1 in Ep. unfold bind at 1 in Ep. unfold bind at 1, get_state at 1 in Ep. cbn [mt_head] in Ep.
      match type of Ep with context [mt_join_all_subtrees_loop H pr st ?f ?t0] => destruct (mt_join_all_subtrees_loop H pr st f t0) as [t3 o3] eqn:El end.
      assert (S3 : light (n + 1) (mt_head t3)).
      { rewrite Ei in El. destruct Hs as (A & B). match type of El with mt_join_all_subtrees_loop _ _ _ ?f ?t0 = _ => eapply (sum_loop_light (n + 1) Hn f t0 _ (mt_head t)) end; [reflexivity|cbn [length]; lia|cbn; lia|exact A| |exact El].
        cbn [weight fold_right mn_height mnode_create_leaf]. fold (weight (mt_head t)). change (2 ^ 0) with 1. lia. }
      destruct o3 as [[u3|e3]| |]; inversion Ep; subst; exact S3. }
    destruct o1 as [[u|e]| |]; inversion Q; subst; assumption.
  - unfold bind_try at 1 in Q. unfold bind at 1 in Q. destruct (mt_root H pr st t) as [t1 o1] eqn:Er.
    assert (Hh : mt_head t1 = mt_head t).
    { assert (RL : forall next cur t t' o, mt_root_node_loop H pr st cur next t = (t', o) -> mt_head t' = mt_head t).
      { induction next as [|y next IH]; intros cur u u' w R; cbn [mt_root_node_loop] in R; [inversion R; reflexivity|].
        unfold bind_try, bind in R. destruct (mt_join_subtrees H pr st y cur u) as [u1 [[j|e]| |]] eqn:Ej; apply join_head in Ej;
          try (inversion R; subst; exact Ej). apply IH in R. congruence. }
      unfold mt_root, mt_root_node in Er. unfold bind_try at 1 in Er. unfold bind at 1 in Er. unfold bind at 1, get_state at 1 in Er.
      destruct (mt_head t) as [|x next] eqn:Eh; [inversion Er; subst; exact Eh|].
      unfold bind_try at 1 in Er. unfold bind at 1 in Er.
      destruct (mt_root_node_loop H pr st x next t) as [t2 o2] eqn:El. apply RL in El. rewrite Eh in El.
      destruct o2 as [[nd|e]| |]; inversion Er; subst; exact El. }
    rewrite <- Hh in Hs. destruct o1 as [[u|e]| |]; inversion Q; subst; exact Hs.
Qed.

Lemma run_light : forall os n t t' o, 0 <= n -> n + Z.of_nat (length (pushed os)) < 2 ^ 64 -> light n (mt_head t) ->
  mt_run_all H pr st os t = (t', o) -> light (n + Z.of_nat (length (pushed os))) (mt_head t').
Proof.
  induction os as [|op os IH]; intros n t t' o Hn0 Hn Hs Q; cbn [mt_run_all] in Q.
  { inversion Q; subst. cbn [pushed length]. replace (n + Z.of_nat 0) with n by lia. exact Hs. }
  unfold bind at 1 in Q. destruct (mt_do H pr st op t) as [t1 o1] eqn:Ed.
  assert (Hn' : n + 1 <= 2 ^ 64) by lia.
  pose proof (do_light n op t t1 o1 Hn' Hn0 Hs Ed) as S1.
  set (n1 := match op with Push _ => n + 1 | Root => n end) in *.
  assert (En : n + Z.of_nat (length (pushed (op :: os))) = n1 + Z.of_nat (length (pushed os))).
  { unfold n1. destruct op; cbn [pushed length]; lia. }
  rewrite En in *. assert (Up : light n1 (mt_head t1) -> light (n1 + Z.of_nat (length (pushed os))) (mt_head t1)).
  { intros (A & B). split; [exact A|lia]. }
  destruct o1 as [a| |]; try (inversion Q; subst; apply Up; exact S1).
  unfold bind at 1 in Q. destruct (mt_run_all H pr st os t1) as [t2 o2] eqn:Er. apply (IH n1) in Er; [|unfold n1; destruct op; lia|exact Hn|exact S1].
  destruct o2; inversion Q; subst; exact Er.
Qed.

Lemma C101_sum_lemma : forall os s0 t o, Z.of_nat (length (pushed os)) < 2 ^ 64 -> mt_run_all H pr st os (mt_new s0) = (t, o) ->
  (length (mt_head t) <= Nat.log2 (length (pushed os) + 1))%nat.
Proof.
  intros os s0 t o Hn Q. apply light_length. apply (run_light os 0) in Q; [exact Q|lia|lia|apply light_nil; lia].
Qed.
End Sum.
