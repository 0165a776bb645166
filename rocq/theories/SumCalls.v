(** SumCalls.v -- the exact calls a sum tree makes to its storage. *)
From Verif Require Import Base Storage ModelCommon ModelSum SpecBinary SpecBinaryFacts SpecPosition
  SpecSum SpecSumAny SpecSumDisk SpecCalls SpecSumCalls PositionProofs PathProofs HeadsProofs RunsSum RunsCalls SumProofs SumMain SumDisk SumAny.
From Coq Require Import Arith ZifyBool ZifyNat ZifyN.
Ltac Zify.zify_post_hook ::= Z.div_mod_to_equations.
Arguments Z.pow : simpl never.
Arguments Z.mul : simpl never.
Arguments Z.add : simpl never.
Arguments Z.sub : simpl never.
Arguments Z.of_nat : simpl never.
Arguments Nat.pow : simpl never.
Arguments Nat.mul : simpl never.
Arguments Nat.div : simpl never.
Arguments Nat.modulo : simpl never.
Arguments Nat.add : simpl never.
Arguments Nat.log2 : simpl never.
Arguments Nat.log2_up : simpl never.
Arguments split_point : simpl never.

Section Calls.
Variable H : list byte -> bytes32.
Hypothesis He : H [] = empty_sum.
Variable pr : profile.
Context {St E : Type}.
Variable st : StorageT St bytes32 MNode E.
Notation fee := wrapped_fee.
Notation mst := (mst H fee).
Notation node_for := (node_for H fee).
Notation rnode := (rnode H fee).
Notation good := (fees_fit pr).
Notation lst := (Logged st).

Definition put (ls : list leaf) : call bytes32 MNode := Put (mst ls) (node_for ls).
Definition cut (script : list (call bytes32 MNode)) (l : list (event bytes32 MNode E)) (before : list (call bytes32 MNode)) (e : E) : Prop :=
  exists failed rest, script = before ++ failed :: rest /\ l = map done before ++ [(failed, Some e)].
Definition ores {A} (o : option E) (a : A) : result E A := match o with None => Ok a | Some e => Err e end.

Lemma insert_log : forall ls t, exists s' o, mt_insert lst (mst ls) (node_for ls) t =
  (Build_MTree (fst (mt_storage t) ++ [(put ls, o)], s') (mt_head t), Val (ores o tt)).
Proof.
  intros ls [[l s] hd]. unfold mt_insert. cbn [Logged s_insert mt_storage mt_head fst].
  destruct (s_insert st (mst ls) (node_for ls) s) as [s' [p|e]]; cbn [outcome].
  - exists s', None. reflexivity.
  - exists s', (Some e). reflexivity.
Qed.

Lemma join_log : forall h l r t, length l = (2 ^ h)%nat -> (0 < length r <= 2 ^ h)%nat -> (h <= 64)%nat ->
  good (l ++ r) ->
  exists s' o, mt_join_subtrees H pr lst (node_for l) (node_for r) t =
    (Build_MTree (fst (mt_storage t) ++ [(put (l ++ r), o)], s') (mt_head t), Val (ores o (node_for (l ++ r)))).
Proof.
  intros h l r t Hl Hr Hh G. unfold mt_join_subtrees.
  rewrite (node_for_height H fee l h Hl).
  unfold bind at 1, lift at 1. rewrite u32_ok by (change (2 ^ 32) with 4294967296; lia).
  unfold bind at 1, lift at 1. unfold mnode_create_node. cbn [mn_fee mn_hash SumProofs.node_for].
  rewrite (fit_app_fee pr) by exact G. cbn [obind].
  assert (EQ : {| mn_height := Z.of_nat h + 1;
         mn_hash := sum_node_sum H (fee l) (mst l) (fee r) (mst r); mn_fee := fee (l ++ r);
         mn_left_child_key := Some (mst l); mn_right_child_key := Some (mst r) |} = node_for (l ++ r)).
  { rewrite (node_for_join H fee h) by auto. reflexivity. }
  rewrite EQ. change (mn_hash (node_for (l ++ r))) with (mst (l ++ r)).
  unfold bind_try, bind.
  destruct (insert_log (l ++ r) t) as (s' & o & Ei). rewrite Ei. exists s', o. destruct o; reflexivity.
Qed.

Lemma carry_log : forall ds, good ds -> Z.of_nat (length ds) <= sum_limit ->
  forall f t h m x l,
  mt_head t = x :: l -> (length l < f)%nat ->
  ((m + 1) * 2 ^ h = length ds)%nat ->
  rnode ds h m x -> Heads (rnode ds) h m l ->
  exists t' r lg, mt_join_all_subtrees_loop H pr lst f t = (t', Val r) /\ fst (mt_storage t') = fst (mt_storage t) ++ lg /\
    ((r = Ok tt /\ Heads (rnode ds) 0 (length ds) (mt_head t') /\ lg = map done (map put (map (tail_at ds) (carry (length ds) h)))) \/
     (exists e b, r = Err e /\ mt_head t' = [] /\ cut (map put (map (tail_at ds) (carry (length ds) h))) lg b e)).
Proof.
  intros ds G HN. induction f as [|f IH]; intros t h m x l Ht Hf Hm Hx Hl; [lia|].
  cbn [mt_join_all_subtrees_loop]. unfold bind at 1, get_state at 1. rewrite Ht.
  assert (Done : Nat.even m = true -> exists t' r lg, (t, Val (Ok tt)) = (t', Val r) /\ fst (mt_storage t') = fst (mt_storage t) ++ lg /\
    ((r = Ok tt /\ Heads (rnode ds) 0 (length ds) (mt_head t') /\ lg = map done (map put (map (tail_at ds) (carry (length ds) h)))) \/
     (exists (e : E) b, r = Err e /\ mt_head t' = [] /\ cut (map put (map (tail_at ds) (carry (length ds) h))) lg b e))).
  { intros Ev. apply Nat.even_spec in Ev. destruct Ev as [c ->].
    exists t, (Ok tt), []. rewrite Ht, (carry_even _ _ _ Hm), app_nil_r.
    split; [reflexivity|]. split; [reflexivity|]. left. split; [reflexivity|].
    split; [|reflexivity]. rewrite <- Hm. apply Heads_down. constructor; [|exact Hx].
    apply Heads_even_inv; exact Hl. }
  destruct l as [|y l].
  - apply Heads_nil_inv in Hl. subst m. apply Done. reflexivity.
  - destruct (Heads_cons_inv _ _ _ _ _ Hl) as (k & b & Hk & Hmk & Hy & Hl').
    assert (C2 : ((2 * b + 1) * 2 ^ k <= length ds)%nat) by lia.
    assert (Bx : length (block h m ds) = (2 ^ h)%nat) by (apply block_length; lia).
    assert (By : length (block k (2 * b) ds) = (2 ^ k)%nat) by (apply block_length; lia).
    unfold SumProofs.rnode in Hx, Hy. rewrite Hx, Hy.
    rewrite (node_for_height H fee _ h Bx), (node_for_height H fee _ k By).
    destruct (Nat.even m) eqn:Ev.
    + assert (k <> h).
      { intros ->. apply Nat.even_spec in Ev. destruct Ev as [c ->].
        pose proof (pow2_pos h). apply Nat.mul_cancel_r in Hmk; lia. }
      replace (Z.of_nat h =? Z.of_nat k) with false by lia.
      unfold ret. apply Done. reflexivity.
    + assert (Od : Nat.odd m = true) by (rewrite <- Nat.negb_even, Ev; reflexivity).
      apply Nat.odd_spec in Od. destruct Od as [c Ec].
      assert (Hl2 : rnode ds h (2 * c) y /\ Heads (rnode ds) (S h) c l).
      { rewrite Ec in Hl. apply Heads_odd_inv; exact Hl. }
      destruct Hl2 as [Hy2 Hl2].
      assert (k = h).
      { destruct (le_lt_dec k h); [lia|]. exfalso. pose proof (pow2_pos h).
        replace k with (S (k - S h) + h)%nat in Hmk by lia. rewrite Nat.pow_add_r, pow2_S, Nat.mul_assoc in Hmk.
        apply Nat.mul_cancel_r in Hmk; lia. }
      subst k. assert (b = c). { pose proof (pow2_pos h). apply Nat.mul_cancel_r in Hmk; lia. }
      subst b. replace (Z.of_nat h =? Z.of_nat h) with true by lia.
      unfold bind at 1, mt_set_head at 1. unfold bind_try at 1. unfold bind at 1.
      assert (Hn1 : ((c + 1) * 2 ^ S h = length ds)%nat) by (rewrite pow2_S; lia).
      assert (BS : block (S h) c ds = block h (2 * c) ds ++ block h m ds) by (rewrite block_S, Ec; reflexivity).
      pose proof (pow2_pos h).
      destruct (join_log h (block h (2 * c) ds) (block h m ds) (Build_MTree (mt_storage t) [])) as (s' & o & Ej); auto.
      { rewrite Bx. lia. } { apply (height_small h (2 * c) (length ds)); lia. }
      { rewrite <- BS. apply (good_block good (fit_app pr)). exact G. }
      rewrite Ej. cbn [mt_storage mt_head].
      rewrite <- BS. clear BS. rewrite (carry_odd _ _ _ Hn1). cbn [map].
      rewrite (block_tail ds (S h) c Hn1).
      destruct o as [e|]; cbn [ores].
      * unfold ret. eexists _, (Err e), [(put (tail_at ds (S h)), Some e)]. split; [reflexivity|]. split; [reflexivity|].
        right. exists e, []. split; [reflexivity|]. split; [reflexivity|]. eexists _, _. split; reflexivity.
      * unfold bind at 1, mt_set_head at 1. cbn [mt_storage].
        match goal with |- context [mt_join_all_subtrees_loop H pr lst f ?t1] =>
          destruct (IH t1 (S h) c (node_for (tail_at ds (S h))) l) as (t' & r & lg & Er & C1 & C4) end; auto.
        { cbn [length] in Hf. lia. } { unfold SumProofs.rnode. rewrite (block_tail ds (S h) c Hn1). reflexivity. }
        exists t', r, ((put (tail_at ds (S h)), None) :: lg). rewrite Er. split; [reflexivity|].
        split. { rewrite C1. cbn [mt_storage fst]. rewrite <- app_assoc. reflexivity. }
        destruct C4 as [(-> & D1 & ->)|(e & b & -> & D1 & failed & rest & D2 & ->)]; [left; auto|right].
        exists e, (put (tail_at ds (S h)) :: b). split; [reflexivity|]. split; [exact D1|].
        exists failed, rest. rewrite D2. split; reflexivity.
Qed.

Lemma push_log : forall ds x t, Heads (rnode ds) 0 (length ds) (mt_head t) ->
  good (ds ++ [x]) -> Z.of_nat (length ds + 1) <= sum_limit ->
  exists t' r lg, mt_push H pr lst (fst x) (snd x) t = (t', Val r) /\ fst (mt_storage t') = fst (mt_storage t) ++ lg /\
    ((r = Ok tt /\ Heads (rnode (ds ++ [x])) 0 (length (ds ++ [x])) (mt_head t') /\
      lg = map done (map put (push_writes (ds ++ [x])))) \/
     (exists e b, r = Err e /\ mt_head t' = match b with [] => mt_head t | _ => [] end /\
        cut (map put (push_writes (ds ++ [x]))) lg b e)).
Proof.
  intros ds x t Ih G HN. set (n := length ds) in *. set (ds' := ds ++ [x]) in *.
  assert (Hlen : length ds' = (n + 1)%nat) by (unfold ds'; rewrite app_length; reflexivity).
  assert (Blk : block 0 n ds' = [x]).
  { apply block_0. unfold ds'. rewrite nth_error_app2 by lia. replace (n - length ds)%nat with O by (unfold n; lia). reflexivity. }
  assert (Tl : tail_at ds' 0 = [x]).
  { rewrite <- Blk. symmetry. apply block_tail. change (2 ^ 0)%nat with 1%nat. lia. }
  assert (G1 : good [x]) by (apply (fit_app pr) in G; apply G).
  rewrite (push_writes_eq ds') by lia. rewrite Tl. cbn [map].
  unfold mt_push. cbv zeta.
  assert (EL : mnode_create_leaf H (fst x) (snd x) = node_for [x]).
  { unfold mnode_create_leaf, SumProofs.node_for. cbn [length]. rewrite (fit_one pr x G1).
    change (1 <=? 1)%nat with true. cbv iota. destruct x as [f d]; reflexivity. }
  rewrite EL. change (mn_hash (node_for [x])) with (mst [x]).
  unfold bind_try at 1. unfold bind at 1.
  destruct (insert_log [x] t) as (s' & o & Ei). rewrite Ei. destruct o as [e|]; cbn [ores].
  { unfold ret. eexists _, (Err e), [(put [x], Some e)]. split; [reflexivity|]. split; [reflexivity|].
    right. exists e, []. split; [reflexivity|]. split; [reflexivity|]. eexists _, _. split; reflexivity. }
  unfold bind at 1, get_state at 1. cbn [mt_head mt_storage].
  unfold bind at 1, mt_set_head at 1. cbn [mt_head mt_storage].
  unfold mt_join_all_subtrees. unfold bind_try at 1. unfold bind at 1. unfold bind at 1, get_state at 1. cbn [mt_head].
  assert (HN' : Z.of_nat (length ds') <= sum_limit) by (rewrite Hlen; exact HN).
  match goal with |- context [mt_join_all_subtrees_loop H pr lst ?f0 ?t1] =>
    destruct (carry_log ds' G HN' f0 t1 O n (node_for [x]) (mt_head t))
      as (t' & r & lg & Er & C1 & C4) end.
  - reflexivity.
  - cbn [length]. lia.
  - rewrite Hlen. change (2 ^ 0)%nat with 1%nat. lia.
  - unfold SumProofs.rnode. rewrite Blk. reflexivity.
  - apply Heads_impl with (P := rnode ds); [|exact Ih].
    intros h' b y Hb Hy. unfold SumProofs.rnode in *. unfold ds'. rewrite block_app; auto. change (2 ^ 0)%nat with 1%nat in Hb. fold n. lia.
  - rewrite Er. cbn [mt_storage fst] in C1.
    exists t', r, ((put [x], None) :: lg).
    split; [destruct C4 as [(-> & _)|(e & b & -> & _)]; reflexivity|].
    split; [rewrite C1, <- app_assoc; reflexivity|].
    destruct C4 as [(-> & D1 & ->)|(e & b & -> & D1 & failed & rest & D2 & ->)]; [left; auto|right].
    exists e, (put [x] :: b). split; [reflexivity|]. split; [exact D1|].
    exists failed, rest. rewrite D2. split; reflexivity.
Qed.

Lemma root_loop_log : forall ds, good ds -> Z.of_nat (length ds) <= sum_limit ->
  forall next h m t, Heads (rnode ds) h m next ->
  (m * 2 ^ h < length ds)%nat -> (length ds < (m + 1) * 2 ^ h)%nat ->
  exists s' r lg, mt_root_node_loop H pr lst (node_for (block h m ds)) next t =
      (Build_MTree (fst (mt_storage t) ++ lg, s') (mt_head t), Val r) /\
    ((r = Ok (node_for ds) /\ lg = map done (map put (map (rest_at ds) (spine (length ds) h)))) \/
     (exists e b, r = Err e /\ cut (map put (map (rest_at ds) (spine (length ds) h))) lg b e)).
Proof.
  intros ds G HN. induction next as [|y next IH]; intros h m t Hh Hlt Hle; cbn [mt_root_node_loop].
  - apply Heads_nil_inv in Hh. subst m. exists (snd (mt_storage t)), (Ok (node_for ds)), [].
    rewrite block_all by lia. rewrite spine_end by lia. rewrite app_nil_r.
    split; [destruct t as [[? ?] ?]; reflexivity|]. left. auto.
  - destruct (Heads_cons_inv _ _ _ _ _ Hh) as (k & b & Hk & Hmk & Hy & Hl').
    pose proof (pow2_pos k).
    assert (Hp : (2 ^ h <= 2 ^ k)%nat) by (apply pow2_le; lia).
    assert (LE : (length ds < (2 * b + 1 + 1) * 2 ^ k)%nat) by lia.
    assert (EB : block h m ds = block k (2 * b + 1) ds).
    { unfold block. rewrite Hmk. rewrite !firstn_all2; auto; rewrite skipn_length; lia. }
    assert (By : length (block k (2 * b) ds) = (2 ^ k)%nat) by (apply block_length; lia).
    rewrite (spine_step (length ds) h k b (length ds - m * 2 ^ h)) by lia. cbn [map].
    assert (ER : block (S k) b ds = rest_at ds k).
    { unfold block, rest_at.
      assert (EM : (length ds mod 2 ^ S k = length ds - b * 2 ^ S k)%nat).
      { replace (length ds) with (b * 2 ^ S k + (length ds - b * 2 ^ S k))%nat at 1 by (rewrite pow2_S; nia).
        apply mod_in. rewrite pow2_S. nia. }
      rewrite EM. replace (length ds - (length ds - b * 2 ^ S k))%nat with (b * 2 ^ S k)%nat by (rewrite pow2_S; nia).
      apply firstn_all2. rewrite skipn_length, pow2_S. nia. }
    unfold SumProofs.rnode in Hy. rewrite EB, Hy. unfold bind_try at 1. unfold bind at 1.
    destruct (join_log k (block k (2 * b) ds) (block k (2 * b + 1) ds) t) as (s1 & o & Ej); auto.
    { rewrite block_length_eq. lia. } { apply (height_small k (2 * b) (length ds)); lia. }
    { rewrite <- block_S. apply (good_block good (fit_app pr)); exact G. }
    rewrite <- block_S in *. rewrite Ej, ER. destruct o as [e|]; cbn [ores].
    + unfold ret. eexists s1, (Err e), [(put (rest_at ds k), Some e)]. split; [reflexivity|].
      right. exists e, []. split; [reflexivity|]. eexists _, _. split; reflexivity.
    + rewrite <- ER.
      match goal with |- context [mt_root_node_loop H pr lst _ next ?t1] => destruct (IH (S k) b t1 Hl') as (s2 & r & lg & Er & C4) end.
      { rewrite pow2_S. nia. } { rewrite pow2_S. nia. }
      rewrite Er. cbn [mt_head mt_storage fst] in *. exists s2, r, ((put (block (S k) b ds), None) :: lg).
      split; [rewrite <- app_assoc; reflexivity|].
      destruct C4 as [(-> & ->)|(e & b' & -> & failed & rest & D2 & ->)]; [left; auto|right].
      exists e, (put (block (S k) b ds) :: b'). split; [reflexivity|]. exists failed, rest. rewrite D2. split; reflexivity.
Qed.

Lemma root_log : forall ds t, Heads (rnode ds) 0 (length ds) (mt_head t) ->
  good ds -> Z.of_nat (length ds) <= sum_limit ->
  exists s' r lg, mt_root H pr lst t = (Build_MTree (fst (mt_storage t) ++ lg, s') (mt_head t), Val r) /\
    ((r = Ok (fee ds, mst ds) /\ lg = map done (map put (root_writes ds))) \/
     (exists e b, r = Err e /\ cut (map put (root_writes ds)) lg b e)).
Proof.
  intros ds t Ih G HN. rewrite root_writes_eq. unfold mt_root, mt_root_node. unfold bind_try at 1. unfold bind at 1.
  unfold bind at 1, get_state at 1. destruct (mt_head t) as [|x next] eqn:Eh.
  - apply Heads_nil_inv in Ih. apply length_zero_iff_nil in Ih. subst ds.
    exists (snd (mt_storage t)), (Ok (0, empty_sum)), []. unfold ret. rewrite <- Eh, app_nil_r.
    split; [destruct t as [[? ?] ?]; reflexivity|]. left. rewrite <- He. split; reflexivity.
  - destruct (Heads_cons_inv _ _ _ _ _ Ih) as (k & b & Hk & Hmk & Hx & Hl').
    change (2 ^ 0)%nat with 1%nat in Hmk. pose proof (pow2_pos k).
    unfold SumProofs.rnode in Hx. rewrite (spine_start (length ds) k b) by lia.
    assert (EB : block k (2 * b) ds = block (S k) b ds).
    { symmetry. apply block_S_left. lia. }
    rewrite EB in Hx. rewrite Hx.
    destruct (root_loop_log ds G HN next (S k) b t) as (s' & r & lg & Er & C4).
    { exact Hl'. } { rewrite pow2_S. nia. } { rewrite pow2_S. nia. }
    unfold bind_try at 1. unfold bind at 1. rewrite Er, Eh.
    exists s', (match r with Ok n => Ok (mn_fee n, mn_hash n) | Err e => Err e end), lg. rewrite <- Hx.
    split; [destruct r; reflexivity|].
    destruct C4 as [(-> & ->)|(e & b' & -> & D)]; [left; split; reflexivity|right; eauto].
Qed.

(** * In terms of the fields written *)
Notation fl := (log_map fields).
Lemma fields_puts : forall W, map (call_map fields) (map put W) = puts H W.
Proof. intros W. unfold puts. rewrite map_map. apply map_ext. intros ls. reflexivity. Qed.
Lemma fl_app : forall a b : list (event bytes32 MNode E), fl (a ++ b) = fl a ++ fl b.
Proof. intros. apply map_app. Qed.
Lemma fl_done : forall cs, fl (map done cs) = map done (map (call_map fields) cs) :> list (event bytes32 sum_entry E).
Proof. intros. unfold log_map. rewrite !map_map. reflexivity. Qed.
Lemma fl_cut : forall W lg b e, cut (map put W) lg b e ->
  exists failed, cut_short (puts H W) (fl lg) (map (call_map fields) b) failed e [].
Proof.
  intros W lg b e (failed & rest & Q & ->). exists (call_map fields failed), (map (call_map fields) rest), [].
  rewrite <- fields_puts, Q, map_app. cbn [map app]. split; [reflexivity|]. split; [|reflexivity].
  rewrite fl_app, fl_done. reflexivity.
Qed.

Lemma run_log : forall os ds A t, Heads (rnode ds) 0 (length ds) (mt_head t) ->
  In ds (sublists A) -> good (A ++ pushed os) -> Z.of_nat (length (A ++ pushed os)) <= 2 ^ 64 ->
  exists t' rs lg ds', mt_run_all H pr lst os t = (t', Val rs) /\ fst (mt_storage t') = fst (mt_storage t) ++ lg /\
    sum_log H ds os rs (fl lg) ds'.
Proof.
  induction os as [|o os IH]; intros ds A t Hh Hs F HN.
  - exists t, [], [], ds. rewrite app_nil_r. split; [reflexivity|]. split; [reflexivity|]. constructor.
  - destruct o as [x|]; cbn [mt_run_all mt_do pushed] in *.
    + replace (A ++ x :: pushed os) with ((A ++ [x]) ++ pushed os) in * by (rewrite <- app_assoc; reflexivity).
      assert (Hsx : In (ds ++ [x]) (sublists (A ++ [x]))) by (apply sub_snoc; exact Hs).
      assert (Fx : good (ds ++ [x])) by (apply (sub_fit pr _ _ F); apply sub_more; exact Hsx).
      assert (HNx : Z.of_nat (length ds + 1) <= 2 ^ 64).
      { apply sub_length in Hsx. rewrite !app_length in *. cbn [length] in *. lia. }
      destruct (push_log ds x t Hh Fx HNx) as (t1 & r1 & l1 & E1 & L1 & D1).
      unfold bind at 1. unfold bind_try at 1. unfold bind at 1. rewrite E1.
      destruct D1 as [(-> & Hh1 & ->)|(e & b & -> & Hd & C)]; unfold ret at 1; cbv iota beta; unfold bind at 1.
      * destruct (IH (ds ++ [x]) (A ++ [x]) t1 Hh1 Hsx F HN) as (t2 & rs & lg & ds' & E2 & L2 & S2).
        rewrite E2. exists t2, (Ok None :: rs), (map done (map put (push_writes (ds ++ [x]))) ++ lg), ds'.
        split; [reflexivity|]. split; [rewrite L2, L1, app_assoc; reflexivity|].
        rewrite fl_app, fl_done, fields_puts. constructor. exact S2.
      * destruct (fl_cut _ _ _ _ C) as (failed & C').
        destruct (IH (match b with [] => ds | _ => [] end) (A ++ [x]) t1) as (t2 & rs & lg & ds' & E2 & L2 & S2).
        { rewrite Hd. destruct b; [exact Hh|constructor]. }
        { destruct b; [apply sub_more; exact Hs|apply sub_nil]. } { exact F. } { exact HN. }
        rewrite E2. exists t2, (Err e :: rs), (l1 ++ lg), ds'.
        split; [reflexivity|]. split; [rewrite L2, L1, app_assoc; reflexivity|].
        rewrite fl_app. eapply SL_push_err; [exact C'|]. destruct b; exact S2.
    + assert (F1 : good ds) by (apply (sub_fit pr _ _ F); apply sub_more; exact Hs).
      assert (HN1 : Z.of_nat (length ds) <= sum_limit).
      { pose proof (sub_length _ _ Hs). rewrite app_length in HN. unfold sum_limit. lia. }
      destruct (root_log ds t Hh F1 HN1) as (s1 & r1 & l1 & E1 & D1).
      unfold bind at 1. unfold bind_try at 1. unfold bind at 1. rewrite E1.
      destruct (IH ds A (Build_MTree (fst (mt_storage t) ++ l1, s1) (mt_head t)) Hh Hs F HN) as (t2 & rs & lg & ds' & E2 & L2 & S2).
      cbn [mt_storage fst] in L2.
      destruct D1 as [(-> & ->)|(e & b & -> & C)]; unfold ret at 1; cbv iota beta; unfold bind at 1; rewrite E2.
      * eexists t2, (_ :: rs), (_ ++ lg), ds'. split; [reflexivity|]. split; [rewrite L2, <- app_assoc; reflexivity|].
        rewrite fl_app, fl_done, fields_puts. constructor. exact S2.
      * destruct (fl_cut _ _ _ _ C) as (failed & C').
        exists t2, (Err e :: rs), (l1 ++ lg), ds'. split; [reflexivity|]. split; [rewrite L2, <- app_assoc; reflexivity|].
        rewrite fl_app. eapply SL_root_err; [exact C'|exact S2].
Qed.

Theorem C100_lemma : forall os s0, good (pushed os) -> Z.of_nat (length (pushed os)) <= 2 ^ 64 ->
  exists t rs ds, mt_run_all H pr lst os (mt_new ([], s0)) = (t, Val rs) /\
    sum_log H [] os rs (fl (fst (mt_storage t))) ds.
Proof.
  intros os s0 F HN.
  destruct (run_log os [] [] (mt_new ([], s0))) as (t & rs & lg & ds & E1 & L1 & S1); auto; [constructor|left; reflexivity|].
  exists t, rs, ds. split; [exact E1|]. rewrite L1. exact S1.
Qed.
End Calls.
