(** SumDisk.v -- lemmas about the exact storage content of a Merkle sum tree. *)
From Verif Require Import Base Storage ModelCommon ModelSum SpecBinary SpecBinaryFacts SpecPosition
  SpecSum SpecSumDisk PositionProofs PathProofs HeadsProofs RunsSum SumProofs SumMain BindingProofs.
From Coq Require Import Arith ZifyBool ZifyNat ZifyN.
Ltac Zify.zify_post_hook ::= Z.div_mod_to_equations.
Arguments Z.pow : simpl never.
Arguments Z.mul : simpl never.
Arguments Z.add : simpl never.
Arguments Z.sub : simpl never.
Arguments Z.of_nat : simpl never.
Arguments Nat.pow : simpl never.
Arguments Nat.mul : simpl never.
Arguments Nat.div : simpl never.
Arguments Nat.modulo : simpl never.
Arguments Nat.add : simpl never.
Arguments Nat.log2 : simpl never.
Arguments Nat.log2_up : simpl never.
Arguments split_point : simpl never.

(** * Lists *)
Definition prefix {A} (W F : list A) : Prop := exists n, W = firstn n F.
Lemma prefix_nil : forall {A} (F : list A), prefix [] F.
Proof. intros. exists O. reflexivity. Qed.
Lemma prefix_refl : forall {A} (F : list A), prefix F F.
Proof. intros. exists (length F). symmetry. apply firstn_all. Qed.
Lemma prefix_app_l : forall {A} (W F G : list A), prefix W F -> prefix W (F ++ G).
Proof.
  intros A W F G [n ->]. exists (min n (length F)). rewrite firstn_app.
  replace (min n (length F) - length F)%nat with O by lia. cbn [firstn]. rewrite app_nil_r.
  destruct (le_lt_dec n (length F)).
  - rewrite Nat.min_l by lia. reflexivity.
  - rewrite Nat.min_r by lia. rewrite firstn_all, firstn_all2 by lia. reflexivity.
Qed.
Lemma prefix_app_r : forall {A} (F W G : list A), prefix W G -> prefix (F ++ W) (F ++ G).
Proof.
  intros A F W G [n ->]. exists (length F + n)%nat. rewrite firstn_app_2. reflexivity.
Qed.

Lemma filter_none : forall {A} (f : A -> bool) l, (forall x, In x l -> f x = false) -> filter f l = [].
Proof.
  induction l as [|x l IH]; intros N; cbn; auto. rewrite (N x) by (left; auto). apply IH. intros y I. apply N. right. exact I.
Qed.

(** The part of a filtered range of numbers from [a] on, below [b]. *)
Definition range (f : nat -> bool) (a b : nat) : list nat := filter f (seq a (b - a)).
Lemma range_skip : forall f a c b, (a <= c)%nat -> (forall j, (a <= j < c)%nat -> f j = false) -> (c <= b)%nat ->
  range f a b = range f c b.
Proof.
  intros f a c b Ac N Cb. unfold range. replace (b - a)%nat with ((c - a) + (b - c))%nat by lia.
  rewrite seq_app, filter_app. replace (a + (c - a))%nat with c by lia.
  rewrite filter_none; auto. intros x I. apply in_seq in I. apply N. lia.
Qed.
Lemma range_none : forall f a b, (forall j, (a <= j)%nat -> f j = false) -> range f a b = [].
Proof. intros f a b N. apply filter_none. intros x I. apply in_seq in I. apply N. lia. Qed.
Lemma range_cons : forall f a b, (a < b)%nat -> f a = true -> range f a b = a :: range f (S a) b.
Proof.
  intros f a b Ab T. unfold range. replace (b - a)%nat with (S (b - S a)) by lia. cbn [seq filter]. rewrite T. reflexivity.
Qed.

Lemma mod_in : forall q d r, (r < d)%nat -> ((q * d + r) mod d = r)%nat.
Proof. intros q d r L. rewrite Nat.add_comm, Nat.mod_add by lia. apply Nat.mod_small. exact L. Qed.

(** * The heights of the written nodes *)
Definition carry (n h : nat) : list nat := range (fun h => n mod 2 ^ h =? 0)%nat (S h) (S (Nat.log2 n)).
Definition tail_at (ls : list leaf) (h : nat) : list leaf := skipn (length ls - 2 ^ h) ls.

Lemma block_tail : forall (ds : list leaf) h b, ((b + 1) * 2 ^ h = length ds)%nat -> block h b ds = tail_at ds h.
Proof.
  intros ds h b E'. unfold block, tail_at. replace (length ds - 2 ^ h)%nat with (b * 2 ^ h)%nat by lia.
  apply firstn_all2. rewrite skipn_length. lia.
Qed.

Lemma carry_even : forall n h c, ((2 * c + 1) * 2 ^ h = n)%nat -> carry n h = [].
Proof.
  intros n h c E'. apply range_none. intros j Hj. apply Nat.eqb_neq. intros C.
  apply Nat.mod_divides in C; [|pose proof (pow2_pos j); lia]. destruct C as [q C].
  replace j with (h + S (j - S h))%nat in C by lia. rewrite Nat.pow_add_r, pow2_S in C.
  rewrite <- E' in C. pose proof (pow2_pos h).
  assert (2 * c + 1 = 2 * 2 ^ (j - S h) * q)%nat; [|lia].
  apply (Nat.mul_cancel_l _ _ (2 ^ h)%nat); [lia|]. nia.
Qed.

Lemma carry_odd : forall n h c, ((c + 1) * 2 ^ S h = n)%nat -> carry n h = S h :: carry n (S h).
Proof.
  intros n h c E'. unfold carry. apply range_cons.
  - assert (2 ^ S h <= n)%nat by nia. pose proof (pow2_pos (S h)).
    assert (S h <= Nat.log2 n)%nat by (apply Nat.log2_le_pow2; lia). lia.
  - apply Nat.eqb_eq. rewrite <- E'. apply Nat.mod_mul. pose proof (pow2_pos (S h)). lia.
Qed.

Lemma push_writes_eq : forall ls, (0 < length ls)%nat ->
  push_writes ls = tail_at ls 0 :: map (tail_at ls) (carry (length ls) 0).
Proof.
  intros ls Hl. unfold push_writes. cbv zeta. cbn [seq filter].
  change (2 ^ 0)%nat with 1%nat. rewrite Nat.mod_1_r. cbn [Nat.eqb map]. unfold carry, range, tail_at.
  replace (S (Nat.log2 (length ls)) - 1)%nat with (Nat.log2 (length ls)) by lia. reflexivity.
Qed.

Definition spine (n h : nat) : list nat := range (fun h => 2 ^ h <? n mod 2 ^ S h)%nat h (S (Nat.log2 n)).
Definition rest_at (ls : list leaf) (h : nat) : list leaf := skipn (length ls - length ls mod 2 ^ S h) ls.

Lemma root_writes_eq : forall ls, root_writes ls = map (rest_at ls) (spine (length ls) 0).
Proof. intros ls. unfold root_writes, spine, range, rest_at. rewrite Nat.sub_0_r. reflexivity. Qed.

(** [n] = q 2^(k+1) + 2^k + r *)
Lemma spine_step : forall n h k b r, (h <= k)%nat -> n = ((2 * b + 1) * 2 ^ k + r)%nat -> (0 < r < 2 ^ h)%nat ->
  spine n h = k :: spine n (S k).
Proof.
  intros n h k b r Hk En Hr. unfold spine. pose proof (pow2_pos k).
  assert (2 ^ h <= 2 ^ k)%nat by (apply pow2_le; lia).
  assert (Hlog : (k < S (Nat.log2 n))%nat).
  { assert (k <= Nat.log2 n)%nat by (apply Nat.log2_le_pow2; nia). lia. }
  rewrite (range_skip _ h k) by
    (try lia; intros j Hj; apply Nat.ltb_ge;
     replace k with (S j + (k - S j))%nat in En by lia; rewrite Nat.pow_add_r in En;
     assert (2 ^ h <= 2 ^ j)%nat by (apply pow2_le; lia);
     rewrite En; replace ((2 * b + 1) * (2 ^ S j * 2 ^ (k - S j)) + r)%nat
       with ((2 * b + 1) * 2 ^ (k - S j) * 2 ^ S j + r)%nat by lia;
     rewrite mod_in by (rewrite pow2_S; lia); lia).
  apply range_cons; [exact Hlog|]. apply Nat.ltb_lt.
  rewrite En. replace ((2 * b + 1) * 2 ^ k + r)%nat with (b * 2 ^ S k + (2 ^ k + r))%nat by (rewrite pow2_S; lia).
  rewrite mod_in by (rewrite pow2_S; lia). lia.
Qed.
Lemma spine_end : forall n h, (n < 2 ^ h)%nat -> spine n h = [].
Proof.
  intros n h Hn. apply range_none. intros j Hj. apply Nat.ltb_ge.
  assert (2 ^ h <= 2 ^ j)%nat by (apply pow2_le; lia). rewrite Nat.mod_small by (rewrite pow2_S; lia). lia.
Qed.
Lemma spine_start : forall n k b, n = ((2 * b + 1) * 2 ^ k)%nat -> spine n 0 = spine n (S k).
Proof.
  intros n k b En. unfold spine. pose proof (pow2_pos k).
  apply range_skip; [lia| |].
  - intros j Hj. apply Nat.ltb_ge. destruct (Nat.eq_dec j k) as [->|Nj].
    + rewrite En. replace ((2 * b + 1) * 2 ^ k)%nat with (b * 2 ^ S k + 2 ^ k)%nat by (rewrite pow2_S; lia).
      rewrite mod_in by (rewrite pow2_S; lia). lia.
    + replace k with (S j + (k - S j))%nat in En by lia. rewrite Nat.pow_add_r in En.
      pose proof (pow2_pos (S j)).
      rewrite En. replace ((2 * b + 1) * (2 ^ S j * 2 ^ (k - S j)))%nat
       with ((2 * b + 1) * 2 ^ (k - S j) * 2 ^ S j)%nat by lia.
      rewrite Nat.mod_mul by lia. lia.
  - assert (k <= Nat.log2 n)%nat by (apply Nat.log2_le_pow2; nia). lia.
Qed.

Section Spec.
Variable H : list byte -> bytes32.
Variable fee : list leaf -> Z.
Notation mst := (mst H fee).
Notation node_for := (node_for H fee).
Notation wr := (wr H fee).

Section Model.
Variable pr : profile.
Variable good : list leaf -> Prop.
Hypothesis good_app : forall a b, good (a ++ b) -> good a /\ good b.
Hypothesis fee_one : forall l, good [l] -> fee [l] = fst l.
Hypothesis fee_app : forall a b, good (a ++ b) -> u64_ovf pr (fee a + fee b) = Val (fee (a ++ b)).
Hypothesis fee_nil : fee [] = 0.
Context {St E : Type}.
Variable st : StorageT St bytes32 MNode E.
Variable view : St -> bytes32 -> option MNode.
Hypothesis L : Lawful st view.
Hypothesis He : H [] = empty_sum.
Notation rnode := (rnode H fee).

(** * Pushes *)
Lemma carry_loop : forall ds, good ds -> Z.of_nat (length ds) <= sum_limit ->
  forall f t h m x l,
  mt_head t = x :: l -> (length l < f)%nat ->
  ((m + 1) * 2 ^ h = length ds)%nat ->
  rnode ds h m x -> Heads (rnode ds) h m l ->
  exists t' r W, mt_join_all_subtrees_loop H pr st f t = (t', Val r) /\
    prefix W (map (tail_at ds) (carry (length ds) h)) /\
    (forall k, view (mt_storage t') k = wr W (view (mt_storage t)) k) /\
    ((r = Ok tt /\ Heads (rnode ds) 0 (length ds) (mt_head t') /\ W = map (tail_at ds) (carry (length ds) h)) \/
     ((exists e, r = Err e) /\ ~ Infallible st)).
Proof.
  intros ds G HN. induction f as [|f IH]; intros t h m x l Ht Hf Hm Hx Hl; [lia|].
  cbn [mt_join_all_subtrees_loop]. unfold bind at 1, get_state at 1. rewrite Ht.
  assert (Done : Nat.even m = true -> exists t' r W, (t, Val (Ok tt)) = (t', Val r) /\
    prefix W (map (tail_at ds) (carry (length ds) h)) /\
    (forall k, view (mt_storage t') k = wr W (view (mt_storage t)) k) /\
    ((r = Ok tt /\ Heads (rnode ds) 0 (length ds) (mt_head t') /\ W = map (tail_at ds) (carry (length ds) h)) \/
     ((exists e : E, r = Err e) /\ ~ Infallible st))).
  { intros Ev. apply Nat.even_spec in Ev. destruct Ev as [c ->].
    exists t, (Ok tt), []. rewrite Ht, (carry_even _ _ _ Hm).
    split; [reflexivity|]. split; [apply prefix_nil|]. split; [reflexivity|]. left. split; [reflexivity|].
    split; [|reflexivity]. rewrite <- Hm. apply Heads_down. constructor; [|exact Hx].
    apply Heads_even_inv; exact Hl. }
  destruct l as [|y l].
  - apply Heads_nil_inv in Hl. subst m. apply Done. reflexivity.
  - destruct (Heads_cons_inv _ _ _ _ _ Hl) as (k & b & Hk & Hmk & Hy & Hl').
    assert (C2 : ((2 * b + 1) * 2 ^ k <= length ds)%nat) by lia.
    assert (Bx : length (block h m ds) = (2 ^ h)%nat) by (apply block_length; lia).
    assert (By : length (block k (2 * b) ds) = (2 ^ k)%nat) by (apply block_length; lia).
    unfold SumProofs.rnode in Hx, Hy. rewrite Hx, Hy.
    rewrite (node_for_height H fee _ h Bx), (node_for_height H fee _ k By).
    destruct (Nat.even m) eqn:Ev.
    + assert (k <> h).
      { intros ->. apply Nat.even_spec in Ev. destruct Ev as [c ->].
        pose proof (pow2_pos h). apply Nat.mul_cancel_r in Hmk; lia. }
      replace (Z.of_nat h =? Z.of_nat k) with false by lia.
      unfold ret. apply Done. reflexivity.
    + assert (Od : Nat.odd m = true) by (rewrite <- Nat.negb_even, Ev; reflexivity).
      apply Nat.odd_spec in Od. destruct Od as [c Ec].
      assert (Hl2 : rnode ds h (2 * c) y /\ Heads (rnode ds) (S h) c l).
      { rewrite Ec in Hl. apply Heads_odd_inv; exact Hl. }
      destruct Hl2 as [Hy2 Hl2].
      assert (k = h).
      { destruct (le_lt_dec k h); [lia|]. exfalso. pose proof (pow2_pos h).
        replace k with (S (k - S h) + h)%nat in Hmk by lia. rewrite Nat.pow_add_r, pow2_S, Nat.mul_assoc in Hmk.
        apply Nat.mul_cancel_r in Hmk; lia. }
      subst k. assert (b = c). { pose proof (pow2_pos h). apply Nat.mul_cancel_r in Hmk; lia. }
      subst b. replace (Z.of_nat h =? Z.of_nat h) with true by lia.
      unfold bind at 1, mt_set_head at 1. unfold bind_try at 1. unfold bind at 1.
      assert (Hn1 : ((c + 1) * 2 ^ S h = length ds)%nat) by (rewrite pow2_S; lia).
      assert (BS : block (S h) c ds = block h (2 * c) ds ++ block h m ds) by (rewrite block_S, Ec; reflexivity).
      pose proof (pow2_pos h).
      destruct (join_ok H fee pr good good_app fee_app st view L h (block h (2 * c) ds) (block h m ds) (Build_MTree (mt_storage t) [])) as
        (s' & res & W & Ej & HW & Hv & D); auto.
      { rewrite Bx. lia. } { apply (height_small h (2 * c) (length ds)); lia. }
      { rewrite <- BS. apply (good_block good good_app). exact G. }
      rewrite Ej. cbn [mt_storage mt_head] in Hv |- *.
      rewrite <- BS in HW, D. clear BS. rewrite (carry_odd _ _ _ Hn1). cbn [map].
      rewrite (block_tail ds (S h) c Hn1) in HW, D.
      destruct D as [[-> Wj]|[[e ->] NI]].
      * unfold bind at 1, mt_set_head at 1. cbn [mt_storage].
        match goal with |- context [mt_join_all_subtrees_loop H pr st f ?t1] =>
          destruct (IH t1 (S h) c (node_for (tail_at ds (S h))) l) as (t' & r & W' & Er & C1 & C3 & C4) end; auto.
        { cbn [length] in Hf. lia. } { unfold SumProofs.rnode. rewrite (block_tail ds (S h) c Hn1). reflexivity. }
        exists t', r, (W ++ W'). rewrite Er, Wj in *. cbn [app]. split; [reflexivity|].
        split; [apply (prefix_app_r [_]); exact C1|].
        split. { intros k. rewrite C3. change (tail_at ds (S h) :: W') with ([tail_at ds (S h)] ++ W').
                 rewrite wr_app. apply wr_ext. cbn [mt_storage]. exact Hv. }
        destruct C4 as [(-> & D1 & ->)|D]; [left|right; exact D]. auto.
      * unfold ret. exists (Build_MTree s' []), (Err e), W. split; [reflexivity|].
        split. { destruct HW as [->| ->]; [apply prefix_nil|]. exists 1%nat. reflexivity. }
        split; auto. right. split; eauto.
Qed.

Lemma push_exact : forall ds x t, Heads (rnode ds) 0 (length ds) (mt_head t) ->
  good (ds ++ [x]) -> Z.of_nat (length ds + 1) <= sum_limit ->
  exists t' r W, mt_push H pr st (fst x) (snd x) t = (t', Val r) /\
    prefix W (push_writes (ds ++ [x])) /\ (forall k, view (mt_storage t') k = wr W (view (mt_storage t)) k) /\
    ((r = Ok tt /\ Heads (rnode (ds ++ [x])) 0 (length (ds ++ [x])) (mt_head t') /\ W = push_writes (ds ++ [x])) \/
     ((exists e, r = Err e) /\ ~ Infallible st)).
Proof.
  intros ds x t Ih G HN. set (n := length ds) in *. set (ds' := ds ++ [x]) in *.
  assert (Hlen : length ds' = (n + 1)%nat) by (unfold ds'; rewrite app_length; reflexivity).
  assert (Blk : block 0 n ds' = [x]).
  { apply block_0. unfold ds'. rewrite nth_error_app2 by lia. replace (n - length ds)%nat with O by (unfold n; lia). reflexivity. }
  assert (Tl : tail_at ds' 0 = [x]).
  { rewrite <- Blk. symmetry. apply block_tail. change (2 ^ 0)%nat with 1%nat. lia. }
  assert (G1 : good [x]) by (apply good_app in G; apply G).
  rewrite (push_writes_eq ds') by lia. rewrite Tl.
  unfold mt_push. cbv zeta.
  assert (EL : mnode_create_leaf H (fst x) (snd x) = node_for [x]).
  { unfold mnode_create_leaf, SumProofs.node_for. cbn [length]. rewrite (fee_one x G1).
    change (1 <=? 1)%nat with true. cbv iota. destruct x as [f d]; reflexivity. }
  rewrite EL. change (mn_hash (node_for [x])) with (mst [x]).
  unfold bind_try at 1. unfold bind at 1.
  destruct (insert_ok H fee st view L [x] t) as (s' & r & W & Ei & HW & Hv & D). rewrite Ei.
  destruct D as [[-> Wl]|[[e ->] NI]].
  2:{ unfold ret. exists (Build_MTree s' (mt_head t)), (Err e), W. split; [reflexivity|].
      split. { destruct HW as [->| ->]; [apply prefix_nil|]. exists 1%nat. reflexivity. }
      split; auto. right. split; eauto. }
  unfold bind at 1, get_state at 1. cbn [mt_head mt_storage].
  unfold bind at 1, mt_set_head at 1. cbn [mt_head mt_storage].
  unfold mt_join_all_subtrees. unfold bind_try at 1. unfold bind at 1. unfold bind at 1, get_state at 1. cbn [mt_head].
  assert (HN' : Z.of_nat (length ds') <= sum_limit) by (rewrite Hlen; exact HN).
  match goal with |- context [mt_join_all_subtrees_loop H pr st ?f0 ?t1] =>
    destruct (carry_loop ds' G HN' f0 t1 O n (node_for [x]) (mt_head t))
      as (t' & r & W' & Er & C1 & C3 & C4) end.
  - reflexivity.
  - cbn [length]. lia.
  - rewrite Hlen. change (2 ^ 0)%nat with 1%nat. lia.
  - unfold SumProofs.rnode. rewrite Blk. reflexivity.
  - apply Heads_impl with (P := rnode ds); [|exact Ih].
    intros h' b y Hb Hy. unfold SumProofs.rnode in *. unfold ds'. rewrite block_app; auto. change (2 ^ 0)%nat with 1%nat in Hb. fold n. lia.
  - rewrite Er. cbn [mt_storage] in C3. subst W.
    exists t', r, ([x] :: W'). split; [destruct C4 as [(-> & _)|[[e ->] _]]; reflexivity|].
    split; [apply (prefix_app_r [[x]]); exact C1|].
    split. { intros k. rewrite C3. change ([x] :: W') with ([[x]] ++ W'). rewrite wr_app. apply wr_ext. exact Hv. }
    destruct C4 as [(-> & D1 & ->)|D]; [left|right; exact D]. auto.
Qed.

(** * Root requests *)
Lemma root_loop_exact : forall ds, good ds -> Z.of_nat (length ds) <= sum_limit ->
  forall next h m t, Heads (rnode ds) h m next ->
  (m * 2 ^ h < length ds)%nat -> (length ds < (m + 1) * 2 ^ h)%nat ->
  exists s' r W, mt_root_node_loop H pr st (node_for (block h m ds)) next t = (Build_MTree s' (mt_head t), Val r) /\
    prefix W (map (rest_at ds) (spine (length ds) h)) /\ (forall k, view s' k = wr W (view (mt_storage t)) k) /\
    ((r = Ok (node_for ds) /\ W = map (rest_at ds) (spine (length ds) h)) \/ ((exists e, r = Err e) /\ ~ Infallible st)).
Proof.
  intros ds G HN. induction next as [|y next IH]; intros h m t Hh Hlt Hle; cbn [mt_root_node_loop].
  - apply Heads_nil_inv in Hh. subst m. exists (mt_storage t), (Ok (node_for ds)), [].
    rewrite block_all by lia. rewrite spine_end by lia.
    split; [destruct t; reflexivity|]. split; [apply prefix_nil|]. auto.
  - destruct (Heads_cons_inv _ _ _ _ _ Hh) as (k & b & Hk & Hmk & Hy & Hl').
    pose proof (pow2_pos k).
    assert (Hp : (2 ^ h <= 2 ^ k)%nat) by (apply pow2_le; lia).
    assert (LE : (length ds < (2 * b + 1 + 1) * 2 ^ k)%nat) by lia.
    assert (EB : block h m ds = block k (2 * b + 1) ds).
    { unfold block. rewrite Hmk. rewrite !firstn_all2; auto; rewrite skipn_length; lia. }
    assert (By : length (block k (2 * b) ds) = (2 ^ k)%nat) by (apply block_length; lia).
    rewrite (spine_step (length ds) h k b (length ds - m * 2 ^ h)) by lia. cbn [map].
    assert (ER : block (S k) b ds = rest_at ds k).
    { unfold block, rest_at.
      assert (EM : (length ds mod 2 ^ S k = length ds - b * 2 ^ S k)%nat).
      { replace (length ds) with (b * 2 ^ S k + (length ds - b * 2 ^ S k))%nat at 1 by (rewrite pow2_S; nia).
        apply mod_in. rewrite pow2_S. nia. }
      rewrite EM. replace (length ds - (length ds - b * 2 ^ S k))%nat with (b * 2 ^ S k)%nat by (rewrite pow2_S; nia).
      apply firstn_all2. rewrite skipn_length, pow2_S. nia. }
    unfold SumProofs.rnode in Hy. rewrite EB, Hy. unfold bind_try at 1. unfold bind at 1.
    destruct (join_ok H fee pr good good_app fee_app st view L k (block k (2 * b) ds) (block k (2 * b + 1) ds) t) as (s1 & res & W & Ej & HW & Hv & D); auto.
    { rewrite block_length_eq. lia. } { apply (height_small k (2 * b) (length ds)); lia. }
    { rewrite <- block_S. apply (good_block good good_app); exact G. }
    rewrite <- block_S in *. rewrite Ej.
    destruct D as [[-> Wj]|[[e ->] NI]].
    + destruct (IH (S k) b (Build_MTree s1 (mt_head t)) Hl') as (s2 & r & W' & Er & C1 & C3 & C4).
      { rewrite pow2_S. nia. } { rewrite pow2_S. nia. }
      rewrite Er. cbn [mt_head mt_storage] in *. exists s2, r, (W ++ W'). rewrite Wj in *. rewrite ER in *. cbn [app].
      split; [reflexivity|]. split; [apply (prefix_app_r [_]); exact C1|].
      split. { intros q. rewrite C3. change (rest_at ds k :: W') with ([rest_at ds k] ++ W'). rewrite wr_app. apply wr_ext. exact Hv. }
      destruct C4 as [(-> & ->)|D]; [left|right; exact D]. auto.
    + unfold ret. exists s1, (Err e), W. split; [reflexivity|].
      split. { rewrite ER in HW. destruct HW as [->| ->]; [apply prefix_nil|]. exists 1%nat. reflexivity. }
      split; auto. right. split; eauto.
Qed.

Lemma root_exact : forall ds t, Heads (rnode ds) 0 (length ds) (mt_head t) ->
  good ds -> Z.of_nat (length ds) <= sum_limit ->
  exists s' r W, mt_root H pr st t = (Build_MTree s' (mt_head t), Val r) /\
    prefix W (root_writes ds) /\ (forall k, view s' k = wr W (view (mt_storage t)) k) /\
    ((r = Ok (fee ds, mst ds) /\ W = root_writes ds) \/ ((exists e, r = Err e) /\ ~ Infallible st)).
Proof.
  intros ds t Ih G HN. rewrite root_writes_eq. unfold mt_root, mt_root_node. unfold bind_try at 1. unfold bind at 1.
  unfold bind at 1, get_state at 1. destruct (mt_head t) as [|x next] eqn:Eh.
  - apply Heads_nil_inv in Ih. apply length_zero_iff_nil in Ih. subst ds.
    exists (mt_storage t), (Ok (0, empty_sum)), []. unfold ret. rewrite <- Eh.
    split; [destruct t; reflexivity|]. split; [apply prefix_nil|]. split; auto. left. rewrite fee_nil, <- He.
    split; reflexivity.
  - destruct (Heads_cons_inv _ _ _ _ _ Ih) as (k & b & Hk & Hmk & Hx & Hl').
    change (2 ^ 0)%nat with 1%nat in Hmk. pose proof (pow2_pos k).
    unfold SumProofs.rnode in Hx. rewrite (spine_start (length ds) k b) by lia.
    assert (EB : block k (2 * b) ds = block (S k) b ds).
    { symmetry. apply block_S_left. lia. }
    rewrite EB in Hx. rewrite Hx.
    destruct (root_loop_exact ds G HN next (S k) b t) as (s' & r & W & Er & C1 & C3 & C4).
    { exact Hl'. } { rewrite pow2_S. nia. } { rewrite pow2_S. nia. }
    unfold bind_try at 1. unfold bind at 1. rewrite Er, Eh.
    exists s', (match r with Ok n => Ok (mn_fee n, mn_hash n) | Err e => Err e end), W. rewrite <- Hx.
    split; [destruct r; reflexivity|]. split; auto. split; auto.
    destruct C4 as [(-> & ->)|[[e ->] NI]]; [left|right]; split; eauto.
Qed.

(** * Runs *)
Lemma run_exact : forall os ds t, Heads (rnode ds) 0 (length ds) (mt_head t) -> good (ds ++ pushed os) ->
  Z.of_nat (length (ds ++ pushed os)) <= sum_limit ->
  exists t' r W, mt_run H pr st os t = (t', Val r) /\
    prefix W (writes ds os) /\ (forall k, view (mt_storage t') k = wr W (view (mt_storage t)) k) /\
    ((r = Ok (sum_answers H fee ds os) /\ W = writes ds os) \/ ((exists e, r = Err e) /\ ~ Infallible st)).
Proof.
  induction os as [|o os IH]; intros ds t Hh G HN.
  - exists t, (Ok []), []. split; [reflexivity|]. split; [apply prefix_nil|]. split; auto.
  - destruct o as [x|]; cbn [mt_run pushed sum_answers writes] in *.
    + replace (ds ++ x :: pushed os) with ((ds ++ [x]) ++ pushed os) in * by (rewrite <- app_assoc; reflexivity).
      assert (G1 : good (ds ++ [x])) by (apply good_app in G; apply G).
      assert (HN1 : Z.of_nat (length ds + 1) <= sum_limit).
      { rewrite !app_length in HN. cbn [length] in HN. lia. }
      destruct (push_exact ds x t Hh G1 HN1) as (t1 & r1 & W1 & E1 & B1 & V1 & D1).
      unfold bind_try at 1. unfold bind at 1. rewrite E1.
      destruct D1 as [(-> & Hh1 & ->)|((e & ->) & NI)].
      2:{ exists t1, (Err e), W1. split; [reflexivity|]. split; [apply prefix_app_l; exact B1|]. split; auto.
          right. split; eauto. }
      destruct (IH (ds ++ [x]) t1 Hh1 G HN) as (t2 & r & W2 & E2 & B2 & V2 & D2).
      exists t2, r, (push_writes (ds ++ [x]) ++ W2). rewrite E2. split; [reflexivity|].
      split; [apply prefix_app_r; exact B2|].
      split; [intros k; rewrite V2, wr_app; apply wr_ext; exact V1|].
      destruct D2 as [(-> & ->)|D2]; [left|right; exact D2]. auto.
    + assert (G1 : good ds) by (apply good_app in G; apply G).
      assert (HN1 : Z.of_nat (length ds) <= sum_limit) by (rewrite app_length in HN; lia).
      destruct (root_exact ds t Hh G1 HN1) as (s1 & r1 & W1 & E1 & B1 & V1 & D1).
      unfold bind_try at 1. unfold bind at 1. rewrite E1.
      destruct D1 as [(-> & ->)|((e & ->) & NI)].
      2:{ eexists _, (Err e), W1. split; [reflexivity|]. split; [apply prefix_app_l; exact B1|]. split; auto.
          right. split; eauto. }
      destruct (IH ds (Build_MTree s1 (mt_head t)) Hh G HN) as (t2 & r & W2 & E2 & B2 & V2 & D2).
      unfold bind_try at 1. unfold bind at 1. rewrite E2.
      exists t2, (match r with Ok rs => Ok ((fee ds, mst ds) :: rs) | Err e => Err e end), (root_writes ds ++ W2).
      split; [destruct r; reflexivity|]. split; [apply prefix_app_r; exact B2|].
      split; [intros k; rewrite V2, wr_app; apply wr_ext; exact V1|].
      destruct D2 as [(-> & ->)|[[e ->] NI]]; [left|right]; split; eauto.
Qed.
End Model.
End Spec.

(** * Which nodes are written *)
Lemma push_writes_in : forall ds ls, (0 < length ds)%nat ->
  In ls (push_writes ds) <-> exists h b, ((b + 1) * 2 ^ h = length ds)%nat /\ ls = block h b ds.
Proof.
  intros ds ls Hn. unfold push_writes. cbv zeta. rewrite in_map_iff. split.
  - intros (h & <- & I). apply filter_In in I. destruct I as [_ D]. apply Nat.eqb_eq in D.
    pose proof (pow2_pos h). apply Nat.mod_divides in D; [|lia]. destruct D as [q D].
    assert (0 < q)%nat by nia. exists h, (q - 1)%nat.
    assert (E' : ((q - 1 + 1) * 2 ^ h = length ds)%nat) by (replace (q - 1 + 1)%nat with q by lia; lia).
    split; auto. symmetry. apply block_tail. exact E'.
  - intros (h & b & E' & ->). exists h. pose proof (pow2_pos h). split; [symmetry; apply block_tail; exact E'|].
    apply filter_In. split.
    + apply in_seq. assert (h <= Nat.log2 (length ds))%nat by (apply Nat.log2_le_pow2; nia). lia.
    + apply Nat.eqb_eq. rewrite <- E'. apply Nat.mod_mul. lia.
Qed.

Lemma root_writes_in : forall ds ls, In ls (root_writes ds) <->
  exists h, (2 ^ h < length ds mod 2 ^ S h)%nat /\ ls = skipn (length ds - length ds mod 2 ^ S h) ds.
Proof.
  intros ds ls. unfold root_writes. cbv zeta. rewrite in_map_iff. split.
  - intros (h & <- & I). apply filter_In in I. destruct I as [_ D]. apply Nat.ltb_lt in D. eauto.
  - intros (h & D & ->). exists h. split; auto. apply filter_In. pose proof (pow2_pos h). pose proof (pow2_pos (S h)).
    assert (length ds mod 2 ^ S h <= length ds)%nat by (apply Nat.mod_le; lia).
    split; [|apply Nat.ltb_lt; exact D].
    apply in_seq. assert (h <= Nat.log2 (length ds))%nat by (apply Nat.log2_le_pow2; lia). lia.
Qed.

Lemma writes_in : forall os ds ls, In ls (writes ds os) <->
  (exists h b, (length ds < (b + 1) * 2 ^ h <= length (ds ++ pushed os))%nat /\ ls = block h b (ds ++ pushed os)) \/
  (exists os1 os2, os = os1 ++ Root :: os2 /\ In ls (root_writes (ds ++ pushed os1))).
Proof.
  induction os as [|o os IH]; intros ds ls; cbn [writes pushed].
  - split; [intros []|]. intros [(h & b & A & _)|(os1 & os2 & A & _)].
    + rewrite app_nil_r in A. lia.
    + destruct os1; discriminate A.
  - destruct o as [x|]; rewrite in_app_iff, IH; clear IH.
    + replace (ds ++ x :: pushed os) with ((ds ++ [x]) ++ pushed os) by (rewrite <- app_assoc; reflexivity).
      assert (Ln : length (ds ++ [x]) = (length ds + 1)%nat) by (rewrite app_length; reflexivity).
      rewrite push_writes_in by lia. split.
      * intros [(h & b & A & ->)|[(h & b & A & ->)|(os1 & os2 & -> & I)]].
        -- left. exists h, b. rewrite (block_app h b (ds ++ [x])) by lia. rewrite (app_length (ds ++ [x])). split; auto. lia.
        -- left. exists h, b. split; auto. lia.
        -- right. exists (Push x :: os1), os2. split; auto. cbn [pushed]. rewrite <- app_assoc in I. exact I.
      * intros [(h & b & A & ->)|(os1 & os2 & E' & I)].
        -- destruct (Nat.eq_dec ((b + 1) * 2 ^ h) (length ds + 1)) as [Q|Q].
           ++ left. exists h, b. rewrite (block_app h b (ds ++ [x])) by lia. split; auto. lia.
           ++ right. left. exists h, b. split; auto. lia.
        -- right. right. destruct os1 as [|o os1]; inversion E'; subst. exists os1, os2. split; auto.
           cbn [pushed] in I. rewrite <- app_assoc. exact I.
    + split.
      * intros [I|[A|(os1 & os2 & -> & I)]].
        -- right. exists [], os. rewrite app_nil_r. auto.
        -- left. exact A.
        -- right. exists (Root :: os1), os2. auto.
      * intros [A|(os1 & os2 & E' & I)]; [right; left; exact A|].
        destruct os1 as [|o os1]; inversion E'; subst.
        -- left. cbn [pushed] in I. rewrite app_nil_r in I. exact I.
        -- right. right. exists os1, os2. auto.
Qed.

Lemma pushed_root : forall os1 os2, pushed (os1 ++ Root :: os2) = pushed os1 ++ pushed os2.
Proof. intros. rewrite pushed_app. reflexivity. Qed.

Lemma div_mod_eq : forall n d, d <> O -> (n / d * d = n - n mod d /\ n mod d <= n /\ n mod d < d)%nat.
Proof.
  intros n d Hd. pose proof (Nat.div_mod n d Hd) as E1. pose proof (Nat.mod_upper_bound n d Hd) as E2.
  generalize dependent (n / d)%nat. generalize dependent (n mod d)%nat. intros r E2 q E1. nia.
Qed.

Lemma root_block : forall (ds : list leaf) h, (2 ^ h < length ds mod 2 ^ S h)%nat ->
  skipn (length ds - length ds mod 2 ^ S h) ds = block (S h) (length ds / 2 ^ S h) ds.
Proof.
  intros ds h D. unfold block.
  destruct (div_mod_eq (length ds) (2 ^ S h)) as (E1 & E2 & E3); [pose proof (pow2_pos (S h)); lia|].
  rewrite E1. symmetry. apply firstn_all2. rewrite skipn_length.
  generalize dependent (length ds mod 2 ^ S h)%nat. intros. lia.
Qed.

Lemma writes_blocks : forall os ls, In ls (writes [] os) -> prefix_block (pushed os) ls.
Proof.
  intros os ls I. apply writes_in in I. cbn [app length] in I. destruct I as [(h & b & A & ->)|(os1 & os2 & -> & I)].
  - exists (length (pushed os)), h, b. rewrite firstn_all. split; auto. split; auto.
    intros C. apply (f_equal (@length leaf)) in C. pose proof (pow2_pos h). rewrite block_length in C by lia. cbn [length] in C. lia.
  - apply root_writes_in in I. destruct I as (h & D & ->). rewrite root_block by exact D.
    pose proof (pow2_pos (S h)). pose proof (pow2_pos h).
    exists (length (pushed os1)), (S h), (length (pushed os1) / 2 ^ S h)%nat.
    rewrite pushed_root, firstn_app, Nat.sub_diag, firstn_all. cbn [firstn]. rewrite app_nil_r, app_length.
    split; [lia|]. split; auto. rewrite <- root_block by exact D.
    intros C. apply (f_equal (@length leaf)) in C. rewrite skipn_length in C. cbn [length] in C.
    assert (length (pushed os1) mod 2 ^ S h <= length (pushed os1))%nat by (apply Nat.mod_le; lia). lia.
Qed.

(** * Complete blocks and joined blocks are the subtrees *)
Definition piece (ds ls : list leaf) : Prop :=
  (exists h b, ((b + 1) * 2 ^ h <= length ds)%nat /\ ls = block h b ds) \/ In ls (root_writes ds).

Lemma split_multiple : forall n h, (2 <= n)%nat -> (2 ^ h < n)%nat -> exists u, split_point n = (u * 2 ^ h)%nat.
Proof.
  intros n h Hn Gt. pose proof (split_point_largest n h Hn Gt) as LK. unfold split_point in *.
  set (j := Nat.log2 (n - 1)) in *.
  assert (h <= j)%nat. { destruct (le_lt_dec h j); auto. assert (2 ^ S j <= 2 ^ h)%nat by (apply pow2_le; lia).
    rewrite pow2_S in *. pose proof (pow2_pos j). lia. }
  exists (2 ^ (j - h))%nat. rewrite <- Nat.pow_add_r. f_equal. lia.
Qed.

Lemma piece_subtree : forall ds ls, (0 < length ds)%nat -> piece ds ls -> subtree ds ls.
Proof.
  assert (A : forall n ds ls, (length ds <= n)%nat -> (0 < length ds)%nat -> piece ds ls -> subtree ds ls).
  { induction n as [|n IH]; intros ds ls Hn H0 P; [lia|].
    destruct P as [(h & b & Hb & ->)|I].
    - pose proof (pow2_pos h). destruct (Nat.eq_dec (length ds) (2 ^ h)) as [Q|Q].
      + assert (b = O) by nia. subst b. rewrite block_all by lia. constructor.
      + assert (Gt : (2 ^ h < length ds)%nat) by nia. assert (Hl : (2 <= length ds)%nat) by lia.
        destruct (split_point_bounds _ Hl) as [[B1 B2] B3].
        destruct (split_multiple _ h Hl Gt) as [u EK]. set (k := split_point (length ds)) in *.
        destruct (le_lt_dec u b) as [Ge|Lt].
        * assert (EB : block h b ds = block h (b - u) (skipn k ds)).
          { unfold block. rewrite <- skipn_plus. f_equal. f_equal. nia. }
          rewrite EB. apply subtree_right; auto. fold k. apply IH; [rewrite skipn_length; lia..|].
          left. exists h, (b - u)%nat. rewrite skipn_length. split; auto. nia.
        * assert (EB : block h b ds = block h b (firstn k ds)).
          { rewrite <- (firstn_skipn k ds) at 1. apply block_app. rewrite firstn_length. nia. }
          rewrite EB. apply subtree_left; auto. fold k. apply IH; [rewrite firstn_length; lia..|].
          left. exists h, b. rewrite firstn_length. split; auto. nia.
    - apply root_writes_in in I. destruct I as (h & D & ->).
      pose proof (pow2_pos h). pose proof (pow2_pos (S h)).
      pose proof (Nat.div_mod (length ds) (2 ^ S h) ltac:(lia)) as DM.
      pose proof (Nat.mod_upper_bound (length ds) (2 ^ S h) ltac:(lia)) as MU.
      set (r := (length ds mod 2 ^ S h)%nat) in *. set (q := (length ds / 2 ^ S h)%nat) in *.
      destruct q as [|q].
      + replace (length ds - r)%nat with O by lia. cbn [skipn]. constructor.
      + assert (Gt : (2 ^ S h < length ds)%nat) by nia. assert (Hl : (2 <= length ds)%nat) by lia.
        destruct (split_point_bounds _ Hl) as [[B1 B2] B3].
        destruct (split_multiple _ (S h) Hl Gt) as [u EK]. set (k := split_point (length ds)) in *.
        assert (Hu : (u <= S q)%nat) by nia.
        assert (EL : (length (skipn k ds) = (S q - u) * 2 ^ S h + r)%nat) by (rewrite skipn_length; nia).
        assert (EM : (length (skipn k ds) mod 2 ^ S h = r)%nat) by (rewrite EL; apply mod_in; lia).
        apply subtree_right; auto. fold k. apply IH; [rewrite skipn_length; lia..|].
        right. apply root_writes_in. exists h. rewrite EM. split; auto.
        rewrite <- skipn_plus. f_equal. rewrite skipn_length. nia. }
  intros ds ls. apply (A (length ds)). lia.
Qed.

Lemma root_writes_pow : forall (ds : list leaf) j, length ds = (2 ^ j)%nat -> root_writes ds = [].
Proof.
  intros ds j Hj. destruct (root_writes ds) as [|x W] eqn:E'; auto. exfalso.
  assert (I : In x (root_writes ds)) by (rewrite E'; left; auto).
  apply root_writes_in in I. destruct I as (h & D & _). rewrite Hj in D.
  destruct (le_lt_dec (S h) j) as [Le|Gt].
  - replace j with ((j - S h) + S h)%nat in D by lia. pose proof (pow2_pos (S h)).
    rewrite Nat.pow_add_r, Nat.mod_mul in D by lia. lia.
  - assert (2 ^ j <= 2 ^ h)%nat by (apply pow2_le; lia). pose proof (pow2_pos h).
    rewrite Nat.mod_small in D by (rewrite pow2_S; lia). lia.
Qed.

Lemma subtree_piece : forall ds ls, (0 < length ds)%nat -> subtree ds ls -> piece ds ls.
Proof.
  intros ds ls H0 T. revert H0. induction T as [ds|ds ls Hl T IH|ds ls Hl T IH]; intros H0.
  - destruct (Nat.eq_dec (length ds) (2 ^ Nat.log2 (length ds))) as [Q|Q].
    + left. exists (Nat.log2 (length ds)), O. rewrite block_all by lia. split; auto. lia.
    + right. apply root_writes_in. exists (Nat.log2 (length ds)).
      destruct (Nat.log2_spec (length ds) H0) as [A B].
      rewrite Nat.mod_small by exact B. rewrite Nat.sub_diag. split; [lia|reflexivity].
  - destruct (split_point_bounds _ Hl) as [[B1 B2] B3].
    destruct IH as [(h & b & Hb & ->)|I]; [rewrite firstn_length; lia| |].
    + left. exists h, b. rewrite firstn_length in Hb. split; [lia|].
      set (k := split_point (length ds)) in *. symmetry. rewrite <- (firstn_skipn k ds) at 1. apply block_app.
      rewrite firstn_length. lia.
    + rewrite (root_writes_pow _ (Nat.log2 (length ds - 1))) in I; [destruct I|].
      rewrite firstn_length, Nat.min_l by lia. reflexivity.
  - destruct (split_point_bounds _ Hl) as [[B1 B2] B3].
    destruct IH as [(h & b & Hb & ->)|I]; [rewrite skipn_length; lia| |].
    + pose proof (pow2_pos h). rewrite skipn_length in Hb.
      assert (Gt : (2 ^ h < length ds)%nat) by nia.
      destruct (split_multiple _ h Hl Gt) as [u EK]. set (k := split_point (length ds)) in *.
      left. exists h, (b + u)%nat. split; [nia|]. unfold block. rewrite <- skipn_plus. f_equal. f_equal. nia.
    + apply root_writes_in in I. destruct I as (h & D & ->).
      pose proof (pow2_pos h). pose proof (pow2_pos (S h)).
      assert (Hr : (length (skipn (split_point (length ds)) ds) mod 2 ^ S h <=
                    length (skipn (split_point (length ds)) ds))%nat) by (apply Nat.mod_le; lia).
      set (k := split_point (length ds)) in *. rewrite skipn_length in *.
      assert (EK : exists u, k = (u * 2 ^ S h)%nat).
      { unfold k, split_point in *. set (j := Nat.log2 (length ds - 1)) in *.
        assert (h < j)%nat. { destruct (le_lt_dec j h); auto. assert (2 ^ j <= 2 ^ h)%nat by (apply pow2_le; lia). lia. }
        exists (2 ^ (j - S h))%nat. rewrite <- Nat.pow_add_r. f_equal. lia. }
      destruct EK as [u EK].
      assert (EM : (length ds mod 2 ^ S h = (length ds - k) mod 2 ^ S h)%nat).
      { replace (length ds) with ((length ds - k) + u * 2 ^ S h)%nat at 1 by lia. apply Nat.mod_add. lia. }
      right. apply root_writes_in. exists h. rewrite EM. split; auto.
      rewrite <- skipn_plus. f_equal. lia.
Qed.

Lemma C91_tree_lemma : forall ds ls, ds <> [] ->
  In ls (writes [] (map Push ds ++ [Root])) <-> subtree ds ls.
Proof.
  intros ds ls NE. assert (H0 : (0 < length ds)%nat) by (destruct ds; [congruence|cbn [length]; lia]).
  assert (E' : In ls (writes [] (map Push ds ++ [Root])) <-> piece ds ls).
  { rewrite writes_in. cbn [app length]. rewrite pushed_app, pushed_pushes. cbn [pushed]. rewrite app_nil_r. unfold piece.
    split; (intros [(h & b & A & ->)|B]; [left; exists h, b; split; auto; pose proof (pow2_pos h); nia|right]).
    - destruct B as (os1 & os2 & E1 & I). destruct os2 as [|o os2].
      + apply app_inj_tail in E1. destruct E1 as [<- _]. rewrite pushed_pushes in I. exact I.
      + exfalso. assert (J : In Root (map Push ds)).
        { destruct (exists_last (l := o :: os2)) as (os3 & z & E3); [discriminate|]. rewrite E3 in E1.
          change (os1 ++ Root :: os3 ++ [z]) with (os1 ++ (Root :: os3) ++ [z]) in E1.
          rewrite app_assoc in E1. apply app_inj_tail in E1. destruct E1 as [-> _]. apply in_or_app. right. left. auto. }
        apply in_map_iff in J. destruct J as (y & J & _). discriminate J.
    - exists (map Push ds), []. rewrite pushed_pushes. auto. }
  rewrite E'. split; [apply piece_subtree|apply subtree_piece]; exact H0.
Qed.

(** * Storage content *)
Definition fields (n : MNode) : sum_entry :=
  (mn_height n, mn_hash n, mn_fee n, mn_left_child_key n, mn_right_child_key n).

Section Main.
Variable H : list byte -> bytes32.
Variable pr : profile.
Context {St E : Type}.
Variable st : StorageT St bytes32 MNode E.
Variable view : St -> bytes32 -> option MNode.
Hypothesis L : Lawful st view.
Hypothesis He : H [] = empty_sum.

Lemma wr_written : forall W v (d : sum_disk), (forall k, option_map fields (v k) = d k) ->
  forall k, option_map fields (wr H wrapped_fee W v k) = written H wrapped_fee W d k.
Proof.
  induction W as [|ls W IH]; intros v d Hd k; cbn [wr]; [apply Hd|].
  unfold written. cbn [fold_left]. apply IH. intros q. unfold upd.
  destruct (b32_eqb q (mst H wrapped_fee ls)); [|apply Hd]. cbn. unfold entry_of, fields, node_for. reflexivity.
Qed.

Lemma C91_lemma : forall os s0, fees_fit pr (pushed os) -> Z.of_nat (length (pushed os)) <= 2 ^ 64 ->
  exists t r n, mt_run H pr st os (mt_new s0) = (t, Val r) /\
    (forall k, option_map fields (view (mt_storage t) k) =
       written H wrapped_fee (firstn n (writes [] os)) (fun k => option_map fields (view s0 k)) k) /\
    ((r = Ok (sum_answers H wrapped_fee [] os) /\ n = length (writes [] os)) \/ ((exists e, r = Err e) /\ ~ Infallible st)).
Proof.
  intros os s0 F HN.
  destruct (run_exact H wrapped_fee pr (fees_fit pr) (fit_app pr) (fit_one pr) (fit_app_fee pr) eq_refl st view L He
    os [] (mt_new s0)) as (t & r & W & A & (n & B) & C & D); auto; [constructor|].
  destruct D as [(-> & D)|D].
  - exists t. eexists. exists (length (writes [] os)). split; [exact A|]. split; [|left; split; reflexivity].
    rewrite firstn_all. intros k. rewrite C, D. apply wr_written. reflexivity.
  - exists t, r, n. split; [exact A|]. split; [|right; exact D].
    intros k. rewrite C, B. apply wr_written. reflexivity.
Qed.

Lemma C91_content_lemma : forall os s0, (forall k, view s0 k = None) ->
  fees_fit pr (pushed os) -> Z.of_nat (length (pushed os)) <= 2 ^ 64 ->
  ~ has_collision H (prefix_inputs H wrapped_fee (pushed os)) ->
  forall t rs, mt_run H pr st os (mt_new s0) = (t, Val (Ok rs)) ->
  forall k e, option_map fields (view (mt_storage t) k) = Some e <->
    exists ls, In ls (writes [] os) /\ k = mst H wrapped_fee ls /\ e = entry_of H wrapped_fee ls.
Proof.
  intros os s0 Em F HN NC t rs Er k e.
  destruct (run_exact H wrapped_fee pr (fees_fit pr) (fit_app pr) (fit_one pr) (fit_app_fee pr) eq_refl st view L He
    os [] (mt_new s0)) as (t' & r & W & A & _ & C & D); auto; [constructor|].
  rewrite Er in A. inversion A; subst t' r. destruct D as [(_ & ->)|[[e' D] _]]; [|discriminate D].
  rewrite C. cbn [mt_new mt_storage].
  destruct (wr_cases H wrapped_fee (writes [] os) (view s0) k) as [(ls & I & Ek & Ew)|[N Ew]]; rewrite Ew.
  - split.
    + intros Q. exists ls. split; auto. split; auto. cbn [option_map] in Q. inversion Q. reflexivity.
    + intros (ls' & I' & Ek' & ->). cbn [option_map]. f_equal.
      pose proof (writes_blocks _ _ I) as P1. pose proof (writes_blocks _ _ I') as P2.
      rewrite Ek in Ek'.
      destruct (mst_binding H wrapped_fee (fees_fit pr) (fit_app pr) (fit_one_range pr) ls ls'
        (prefix_block_fit pr (pushed os) ls F P1) (prefix_block_fit pr (pushed os) ls' F P2) Ek') as [<-|Col]; [reflexivity|].
      exfalso. apply NC. eapply collision_app; [|exact Col].
      intros z Hz. apply in_app_or in Hz. destruct Hz as [Hz|Hz];
        [apply (prefix_block_inputs H _ _ P1 z Hz)|apply (prefix_block_inputs H _ _ P2 z Hz)].
  - rewrite Em. split; [discriminate|]. intros (ls & I & Ek & _). exfalso. apply (N ls I Ek).
Qed.

(** The leaves under the nodes written. *)
Lemma C91_written_lemma : forall os ls, In ls (writes [] os) <->
  (exists h b, ((b + 1) * 2 ^ h <= length (pushed os))%nat /\ ls = block h b (pushed os)) \/
  (exists os1 os2, os = os1 ++ Root :: os2 /\ pushed os1 <> [] /\ subtree (pushed os1) ls).
Proof.
  intros os ls. rewrite writes_in. cbn [app length]. split.
  - intros [(h & b & A & ->)|(os1 & os2 & -> & I)]; [left; exists h, b; split; auto; lia|].
    right. exists os1, os2. split; auto. destruct (pushed os1) as [|x l] eqn:Q; [destruct I|]. split; [discriminate|].
    apply piece_subtree; [cbn [length]; lia|]. right. exact I.
  - intros [(h & b & A & ->)|(os1 & os2 & -> & NE & T)]; [left; exists h, b; split; auto; pose proof (pow2_pos h); nia|].
    apply subtree_piece in T; [|destruct (pushed os1); [congruence|cbn [length]; lia]].
    destruct T as [(h & b & A & ->)|I]; [left|right; eauto].
    exists h, b. rewrite pushed_root, app_length. pose proof (pow2_pos h). split; [nia|]. symmetry. apply block_app. exact A.
Qed.
End Main.
