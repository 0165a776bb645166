(** BinaryCalls.v -- the exact calls a binary tree makes to its storage. *)
From Verif Require Import Base Storage ModelCommon ModelBinary SpecBits SpecBinary SpecBinaryFacts SpecPosition SpecCalls Runs
  PositionProofs PathProofs HeadsProofs StorageProofs BinaryProofs BinaryReadProofs BinaryMain.
From Coq Require Import Arith ZifyBool ZifyNat ZifyN.
Ltac Zify.zify_post_hook ::= Z.div_mod_to_equations.
Arguments Z.pow : simpl never.
Arguments Z.mul : simpl never.
Arguments Z.add : simpl never.
Arguments Z.sub : simpl never.
Arguments Z.of_nat : simpl never.
Arguments Nat.pow : simpl never.
Arguments Nat.mul : simpl never.
Arguments Nat.div : simpl never.
Arguments Nat.add : simpl never.

(** * Scripts *)
Lemma peaks_more : forall n h h', (n < 2 ^ h)%nat -> (h <= h')%nat -> peaks h' n = peaks h n.
Proof.
  intros n h h' Hn Hh. induction h' as [|h' IH]; [replace h with O by lia; reflexivity|].
  destruct (Nat.eq_dec h (S h')) as [->|]; [reflexivity|]. cbn [peaks].
  rewrite ancestor_top by (assert (2 ^ h <= 2 ^ h')%nat by (apply Nat.pow_le_mono_r; lia); lia). cbn [Nat.odd Nat.even negb].
  apply IH. lia.
Qed.
Lemma load_script_ok : forall n, load_script n = map (fun p => Get (index_of_pair p)) (peaks (root_height n) n).
Proof.
  intros n. unfold load_script.
  assert (A : (n < 2 ^ S (Nat.log2 n))%nat).
  { destruct n as [|n]; [vm_compute; lia|]. apply Nat.log2_spec. lia. }
  pose proof (root_height_spec n) as B.
  destruct (Nat.le_ge_cases (S (Nat.log2 n)) (root_height n)) as [C|C];
    [rewrite (peaks_more n _ _ A C)|rewrite (peaks_more n (root_height n) _ ltac:(lia) C)]; reflexivity.
Qed.

Lemma log2_up_eq : forall h n, (1 <= n)%nat -> (n <= 2 ^ S h)%nat -> (2 ^ h < n)%nat -> Nat.log2_up n = S h.
Proof. intros h n H1 H2 H3. apply Nat.log2_up_unique; [lia|]. cbn [pred]. split; [exact H3|exact H2]. Qed.
Lemma represent_place : forall n h b, (b * 2 ^ h < n)%nat ->
  index_of_pair (represent n h b) = place (b * 2 ^ h, Nat.min (2 ^ h) (n - b * 2 ^ h))%nat.
Proof.
  intros n. induction h as [|h IH]; intros b Hb; cbn [represent node_exists].
  - change (2 ^ 0)%nat with 1%nat in *. replace (Nat.min 1 (n - b * 1)) with 1%nat by lia. unfold place. cbn [fst snd].
    change (Nat.log2_up 1) with O. change (2 ^ 0)%nat with 1%nat. rewrite Nat.div_1_r, Nat.mul_1_r.
    destruct (b <? n)%nat; reflexivity.
  - pose proof (pow2_S h) as P2. pose proof (pow2_pos h) as PP. destruct ((2 * b + 1) * 2 ^ h <? n)%nat eqn:Ex.
    + apply Nat.ltb_lt in Ex. unfold place. cbn [fst snd]. rewrite (log2_up_eq h) by lia.
      rewrite Nat.div_mul by (pose proof (pow2_pos (S h)); lia). reflexivity.
    + apply Nat.ltb_ge in Ex. rewrite IH by lia. f_equal. f_equal; [lia|]. rewrite P2. 
      replace (b * (2 * 2 ^ h))%nat with (2 * b * 2 ^ h)%nat by lia. lia.
Qed.

Lemma side_ranges_fuel : forall f f' m off n, (n <= f)%nat -> (n <= f')%nat -> side_ranges f m off n = side_ranges f' m off n.
Proof.
  induction f as [|f IH]; intros f' m off n Hf Hf'.
  - replace n with O by lia. destruct f'; reflexivity.
  - destruct f' as [|f']; [replace n with O by lia; reflexivity|]. cbn [side_ranges].
    destruct (n <=? 1)%nat eqn:Q; [reflexivity|]. apply Nat.leb_gt in Q. cbv zeta.
    pose proof (split_point_bounds n ltac:(lia)) as Hk.
    destruct (m <? split_point n)%nat; rewrite (IH f') by lia; reflexivity.
Qed.
Lemma side_ranges_sides : forall n i, (i < n)%nat -> forall h,
  map index_of_pair (rev (sides n h i)) =
    map place (side_ranges n (i - ancestor i h * 2 ^ h) (ancestor i h * 2 ^ h) (Nat.min (2 ^ h) (n - ancestor i h * 2 ^ h))).
Proof.
  intros n i Hi. induction h as [|h IH]; cbn [sides].
  - rewrite ancestor_0. change (2 ^ 0)%nat with 1%nat. replace (Nat.min 1 (n - i * 1)) with 1%nat by lia.
    destruct n; [lia|]. reflexivity.
  - pose proof (ancestor_le i h) as Lo. pose proof (ancestor_gt i h) as Hi2.
    pose proof (pow2_pos h) as Hp. pose proof (pow2_S h) as P2S.
    destruct (node_exists n (S h) (ancestor i (S h))) eqn:Ex.
    + cbn [rev]. rewrite map_app, IH. cbn [map].
      pose proof (side_exists _ _ _ Hi Ex) as Hs. rewrite represent_place by exact Hs.
      cbn [node_exists] in Ex. apply Nat.ltb_lt in Ex. set (a := ancestor i (S h)) in *.
      set (off := (a * 2 ^ S h)%nat). assert (Eo : off = (2 * a * 2 ^ h)%nat) by (unfold off; rewrite P2S; ring).
      set (len := Nat.min (2 ^ S h) (n - off)).
      assert (Ll : (2 ^ h < len <= 2 ^ S h)%nat) by (unfold len; rewrite Eo, P2S; lia).
      rewrite (side_ranges_fuel n (S n) (i - off)) by (unfold len; lia). cbn [side_ranges].
      replace (len <=? 1)%nat with false by (symmetry; apply Nat.leb_gt; lia). cbv zeta.
      rewrite (split_point_pow len h) by lia.
      destruct (ancestor_cases i h) as [(E1 & E2 & _)|(E1 & E2 & _)]; fold a in E1, E2; rewrite E2; rewrite E1 in *.
      * replace (i - off <? 2 ^ h)%nat with true by (symmetry; apply Nat.ltb_lt; lia). rewrite map_app. cbn [map].
        rewrite <- Eo. replace (Nat.min (2 ^ h) (n - off)) with (2 ^ h)%nat by lia.
        replace ((2 * a + 1) * 2 ^ h)%nat with (off + 2 ^ h)%nat by lia.
        replace (Nat.min (2 ^ h) (n - (off + 2 ^ h))) with (len - 2 ^ h)%nat by (unfold len; rewrite P2S; lia). reflexivity.
      * replace (i - off <? 2 ^ h)%nat with false by (symmetry; apply Nat.ltb_ge; lia). rewrite map_app. cbn [map].
        rewrite <- Eo. replace (Nat.min (2 ^ h) (n - off)) with (2 ^ h)%nat by lia.
        replace (i - (2 * a + 1) * 2 ^ h)%nat with (i - off - 2 ^ h)%nat by lia.
        replace ((2 * a + 1) * 2 ^ h)%nat with (off + 2 ^ h)%nat by lia.
        replace (Nat.min (2 ^ h) (n - (off + 2 ^ h))) with (len - 2 ^ h)%nat by (unfold len; rewrite P2S; lia). reflexivity.
    + rewrite IH. cbn [node_exists] in Ex. apply Nat.ltb_ge in Ex.
      destruct (ancestor_cases i h) as [(E1 & E2 & _)|(E1 & E2 & _)]; [|rewrite E1 in Lo; lia].
      rewrite E1. set (a := ancestor i (S h)) in *. replace (a * 2 ^ S h)%nat with (2 * a * 2 ^ h)%nat by (rewrite P2S; ring).
      do 2 f_equal. rewrite P2S. lia.
Qed.
Lemma prove_script_ok : forall n i h, (i < n)%nat -> (n <= 2 ^ h)%nat ->
  prove_script n i = Get (index_of 0 i) :: map (fun x => Get (index_of_pair x)) (rev (sides n h i)).
Proof.
  intros n i h Hi Hh. unfold prove_script. f_equal.
  pose proof (side_ranges_sides n i Hi h) as Q. rewrite ancestor_top in Q by lia.
  rewrite Nat.mul_0_l, !Nat.sub_0_r in Q. replace (Nat.min (2 ^ h) n) with n in Q by lia.
  rewrite <- (map_map place Get), <- Q, map_map. reflexivity.
Qed.

Section Calls.
Variable pr : profile.
Context {St E : Type}.
Variable st : StorageT St Z BPrimitive E.
Notation lst := (Logged st).
Notation log := (list (event Z BPrimitive E)).

(** * Load *)
Lemma build_log : forall ps acc L s, exists s' r l, bt_build_loop lst (map index_of_pair ps) acc (L, s) = ((L ++ l, s'), Val r) /\
  ((exists a, r = Ok a /\ l = map done (map (fun p => Get (index_of_pair p)) ps)) \/
   (exists e, r = Err (BStorageError e) /\ stopped (map (fun p => Get (index_of_pair p)) ps) l e) \/
   (exists b k, r = Err (BLoadError k) /\ missed (map (fun p => Get (index_of_pair p)) ps) l b k)).
Proof.
  induction ps as [|p ps IH]; intros acc L s; cbn [map bt_build_loop].
  - exists s, (Ok acc), []. rewrite app_nil_r. split; [reflexivity|]. left. eauto.
  - unfold bind_try, bind, bst_get. cbn [Logged s_get]. destruct (s_get st (index_of_pair p) s) as [s1 [[x|]|e]]; cbn [outcome].
    + destruct (IH (bnode_of_prim x :: acc) (L ++ [(Get (index_of_pair p), None)]) s1) as (s' & r & l & Q & R).
      exists s', r, ((Get (index_of_pair p), None) :: l). split; [etransitivity; [exact Q|rewrite <- app_assoc; reflexivity]|].
      destruct R as [(a & -> & ->)|[(e & -> & b & c & rest & outs & Q1 & -> & Q2)|(b & k & -> & rest & Q1 & ->)]].
      * left. exists a. auto.
      * right. left. exists e. split; [reflexivity|]. exists (Get (index_of_pair p) :: b), c, rest, outs. rewrite Q1. auto.
      * right. right. exists (Get (index_of_pair p) :: b), k. split; [reflexivity|]. exists rest. rewrite Q1. auto.
    + exists s1, (Err (BLoadError (index_of_pair p))), [(Get (index_of_pair p), None)]. split; [reflexivity|]. right. right.
      exists [], (index_of_pair p). split; [reflexivity|]. eexists. split; reflexivity.
    + exists s1, (Err (BStorageError e)), [(Get (index_of_pair p), Some e)]. split; [reflexivity|]. right. left.
      exists e. split; [reflexivity|]. exists [], (Get (index_of_pair p)). eexists _, []. split; [reflexivity|]. auto.
Qed.

Theorem C97_load_lemma : forall n L s, Z.of_nat n < leaf_limit pr ->
  exists s' r l, bt_load pr lst (Z.of_nat n) (L, s) = ((L ++ l, s'), Val r) /\
    ((exists t, r = Ok t /\ l = map done (load_script n)) \/
     (exists e, r = Err (BStorageError e) /\ stopped (load_script n) l e) \/
     (exists before k, r = Err (BLoadError k) /\ missed (load_script n) l before k)).
Proof.
  intros n L s Hn. apply count_ok_limit in Hn. unfold bt_load. unfold bind at 1, lift at 1. rewrite peak_positions_ok by exact Hn.
  rewrite load_script_ok. unfold bind_try, bind.
  destruct (build_log (peaks (root_height n) n) [] L s) as (s' & r & l & -> & R).
  destruct R as [(a & -> & ->)|[(e & -> & Q)|(b & k & -> & Q)]]; unfold get_state, ret; eexists s', _, _; (split; [reflexivity|]).
  - left. eexists. split; reflexivity.
  - right. left. exists e. auto.
  - right. right. exists b, k. auto.
Qed.

(** * Prove *)
Variable H : list byte -> bytes32.

Lemma prove_loop_log : forall sc ps acc L s hd c, exists s' r l,
  bt_prove_loop lst sc (map index_of_pair ps) acc (Build_BTree (L, s) hd c) = (Build_BTree (L ++ l, s') hd c, Val r) /\
  ((exists a, r = Ok a /\ l = map done (map (fun p => Get (index_of_pair p)) ps)) \/
   (exists e, r = Err (BStorageError e) /\ stopped (map (fun p => Get (index_of_pair p)) ps) l e) \/
   (exists b k, r = Err (BLoadError k) /\ missed (map (fun p => Get (index_of_pair p)) ps) l b k)).
Proof.
  intros sc. induction ps as [|p ps IH]; intros acc L s hd c; cbn [map bt_prove_loop].
  - exists s, (Ok acc), []. rewrite app_nil_r. split; [reflexivity|]. left. eauto.
  - unfold bind_try, bind, bt_get, bst_get. cbn [bt_storage bt_head bt_leaves_count Logged s_get].
    destruct (s_get st (index_of_pair p) s) as [s1 [v|e]]; cbn [outcome].
    + destruct (match smap_lookup Z.eqb sc (index_of_pair p) with Some p0 => Some p0 | None => v end) as [x|].
      * destruct (IH (acc ++ [bn_hash (bnode_of_prim x)]) (L ++ [(Get (index_of_pair p), None)]) s1 hd c) as (s' & r & l & Q & R).
        exists s', r, ((Get (index_of_pair p), None) :: l). split; [etransitivity; [exact Q|rewrite <- app_assoc; reflexivity]|].
        destruct R as [(a & -> & ->)|[(e & -> & b & f & rest & outs & Q1 & -> & Q2)|(b & k & -> & rest & Q1 & ->)]].
        -- left. exists a. auto.
        -- right. left. exists e. split; [reflexivity|]. exists (Get (index_of_pair p) :: b), f, rest, outs. rewrite Q1. auto.
        -- right. right. exists (Get (index_of_pair p) :: b), k. split; [reflexivity|]. exists rest. rewrite Q1. auto.
      * exists s1, (Err (BLoadError (index_of_pair p))), [(Get (index_of_pair p), None)]. split; [reflexivity|]. right. right.
        exists [], (index_of_pair p). split; [reflexivity|]. eexists. split; reflexivity.
    + exists s1, (Err (BStorageError e)), [(Get (index_of_pair p), Some e)]. split; [reflexivity|]. right. left.
      exists e. split; [reflexivity|]. exists [], (Get (index_of_pair p)). eexists _, []. split; [reflexivity|]. auto.
Qed.

Lemma prove_log : forall ds hd i L s, Heads (right_node H ds) 0 (length ds) hd -> count_ok pr (length ds) -> (i < length ds)%nat ->
  exists s' r l, bt_prove H pr lst (Z.of_nat i) (Build_BTree (L, s) hd (Z.of_nat (length ds))) =
      (Build_BTree (L ++ l, s') hd (Z.of_nat (length ds)), Val r) /\
    ((exists x, r = Ok x /\ l = map done (prove_script (length ds) i)) \/
     (exists e, r = Err (BStorageError e) /\ stopped (prove_script (length ds) i) l e) \/
     (exists before k, r = Err (BLoadError (match before with [] => Z.of_nat i | _ => k end)) /\
        missed (prove_script (length ds) i) l before k)).
Proof.
  intros ds hd i L s Hh Hn Hi.
  assert (Hn' : Z.of_nat (length ds) < 2 ^ 63) by (unfold count_ok in Hn; destruct (overflow_checks pr); cbn in Hn; lia).
  pose proof (root_height_spec (length ds)) as Hrs.
  set (k := root_height (length ds)) in *. rewrite (prove_script_ok _ _ k) by lia.
  unfold bt_prove. unfold bind at 1, get_state at 1. unfold bind at 1, lift at 1. cbn [bt_leaves_count].
  rewrite u64_ovf_in by (change U64 with (2 * 2 ^ 63); lia).
  replace (Z.of_nat i + 1 >? Z.of_nat (length ds)) with false by lia.
  unfold bind at 1, lift at 1. rewrite root_position_ok by exact Hn.
  unfold bind at 1, lift at 1. unfold pos_from_leaf_index.
  rewrite u64_ovf_in by (change U64 with (2 * 2 ^ 63); lia).
  replace (Z.of_nat i * 2) with (index_of 0 i) by (rewrite index_of_0; lia).
  unfold bind_try at 1, bind at 1. unfold bt_get at 1, bst_get at 1. cbn [bt_storage bt_head bt_leaves_count Logged s_get].
  destruct (s_get st (index_of 0 i) s) as [s1 [[x|]|e]]; cbn [outcome].
  - unfold bind at 1, lift at 1. cbn [bt_leaves_count]. change (root_height (length ds)) with k. rewrite (position_path_ok pr (length ds) i k) by (first [exact (root_height_ok pr _ Hn)|lia]).
    rewrite (tree_path_sides _ _ _ _ Hi). cbn [rev]. rewrite removelast_last.
    unfold bind at 1, lift at 1.
    destruct (root_node_ok H pr ds (Build_BTree (L, s) hd (Z.of_nat (length ds))) ltac:(unfold max_leaves; lia) Hh) as (rn & sc & Er & _).
    { intros ->. cbn in Hi. lia. }
    rewrite Er. rewrite <- map_rev. unfold bind_try, bind.
    destruct (prove_loop_log sc (rev (sides (length ds) k i)) [bn_hash (bnode_of_prim x)] (L ++ [(Get (index_of 0 i), None)]) s1 hd (Z.of_nat (length ds)))
      as (s' & r & l & Q & R).
    match goal with |- context [bt_prove_loop ?a ?b ?c ?d ?t] => assert (Q' : bt_prove_loop a b c d t =
      (Build_BTree ((L ++ [(Get (index_of 0 i), None)]) ++ l, s') hd (Z.of_nat (length ds)), Val r)) by exact Q; rewrite Q' end.
    rewrite <- app_assoc.
    destruct R as [(a & -> & ->)|[(e & -> & b & f & rest & outs & Q1 & -> & Q2)|(b & q & -> & rest & Q1 & ->)]]; eexists s', _, _; (split; [reflexivity|]).
    + left. eexists. split; reflexivity.
    + right. left. exists e. split; [reflexivity|]. exists (Get (index_of 0 i) :: b), f, rest, outs. rewrite Q1. auto.
    + right. right. exists (Get (index_of 0 i) :: b), q. split; [reflexivity|]. exists rest. rewrite Q1. auto.
  - eexists s1, _, [(Get (index_of 0 i), None)]. split; [reflexivity|]. right. right.
    exists [], (index_of 0 i). split; [reflexivity|]. eexists. split; reflexivity.
  - eexists s1, _, [(Get (index_of 0 i), Some e)]. split; [reflexivity|]. right. left.
    exists e. split; [reflexivity|]. exists [], (Get (index_of 0 i)). eexists _, []. split; [reflexivity|]. auto.
Qed.

(** * Push *)
Lemma cut_cons : forall {K V X} (c : call K V) sc (l : list (event K V X)) b f e a,
  cut_short sc l b f e a -> cut_short (c :: sc) (done c :: l) (c :: b) f e a.
Proof. intros K V X c sc l b f e a (rest & outs & -> & -> & Q). exists rest, outs. auto. Qed.

(** The writes after the one of block (h, m). *)
Definition carries (fuel h m : nat) (ds : list (list byte)) : list bcall := tl (put_blocks H fuel h m ds).
Lemma carries_even : forall fuel h c ds, carries fuel h (2 * c) ds = [].
Proof.
  intros [|fuel] h c ds; [reflexivity|]. unfold carries. cbn [put_blocks tl].
  replace (Nat.odd (2 * c)) with false; [reflexivity|]. symmetry. rewrite <- Nat.negb_even. rewrite Nat.even_mul. reflexivity.
Qed.
Lemma carries_odd : forall fuel h c ds, (2 * c + 1 <= fuel)%nat -> exists fuel', (c <= fuel')%nat /\
  carries fuel h (2 * c + 1) ds = Put (index_of (S h) c) (right_prim H ds (S h) c) :: carries fuel' (S h) c ds.
Proof.
  intros fuel h c ds Hf. destruct fuel as [|fuel]; [lia|]. exists fuel. split; [lia|]. unfold carries. cbn [put_blocks tl].
  replace (Nat.odd (2 * c + 1)) with true by (symmetry; apply Nat.odd_spec; exists c; reflexivity).
  replace (Nat.div2 (2 * c + 1)) with c by (rewrite Nat.div2_div; lia). destruct fuel; reflexivity.
Qed.

Lemma join_log : forall ds d, let ds' := ds ++ [d] in let n := length ds in Z.of_nat (n + 1) <= max_leaves ->
  forall f L s c x l h m fuel, (length l < f)%nat -> ((m + 1) * 2 ^ h = n + 1)%nat -> (m <= fuel)%nat ->
  right_node H ds' h m x -> Heads (right_node H ds') h m l ->
  exists s' hd r lg, bt_join_all_subtrees_loop H pr lst f (Build_BTree (L, s) (x :: l) c) = (Build_BTree (L ++ lg, s') hd c, Val r) /\
    ((r = Ok tt /\ Heads (right_node H ds') 0 (n + 1) hd /\ lg = map done (carries fuel h m ds')) \/
     (exists e, r = Err (BStorageError e) /\ stopped (carries fuel h m ds') lg e)).
Proof.
  intros ds d ds' n HN. induction f as [|f IH]; intros L s c x l h m fuel Hf Hm Hfu Hx Hl; [lia|].
  cbn [bt_join_all_subtrees_loop]. unfold bind at 1, get_state at 1. cbn [bt_head].
  assert (Hlen : length ds' = (n + 1)%nat) by (unfold ds'; rewrite app_length; reflexivity).
  assert (Stop : Nat.even m = true -> Heads (right_node H ds') 0 (n + 1) (x :: l)).
  { intros Ev. apply Nat.even_spec in Ev. destruct Ev as [q ->].
    rewrite <- Hm. apply Heads_down. constructor; [|exact Hx]. apply Heads_even_inv; exact Hl. }
  destruct l as [|y l].
  - apply Heads_nil_inv in Hl. subst m. exists s, [x], (Ok tt), []. rewrite app_nil_r. split; [reflexivity|]. left.
    split; [reflexivity|]. split; [apply (Stop eq_refl)|]. change (carries fuel h 0 ds') with (carries fuel h (2 * 0) ds'). rewrite carries_even. reflexivity.
  - pose proof Hx as [Px Hx'].
    destruct (Heads_cons_inv _ _ _ _ _ Hl) as (k & b & Hk & Hmk & [Py Hy] & Hl').
    destruct (complete_bounds h m (n + 1) ltac:(lia) HN) as [B1 B2].
    assert (C2 : ((2 * b + 1) * 2 ^ k <= n + 1)%nat) by lia.
    destruct (complete_bounds k (2 * b) (n + 1) C2 HN) as [B3 B4].
    rewrite Px, Py, !pos_height_index by lia.
    destruct (Nat.even m) eqn:Ev.
    + assert (k <> h).
      { intros ->. apply Nat.even_spec in Ev. destruct Ev as [q ->].
        pose proof (pow2_pos h). apply Nat.mul_cancel_r in Hmk; lia. }
      replace (Z.of_nat h =? Z.of_nat k) with false by lia.
      pose proof (Stop eq_refl) as A. clear Stop. apply Nat.even_spec in Ev. destruct Ev as [q ->].
      eexists s, _, (Ok tt), []. rewrite app_nil_r. split; [reflexivity|]. left. split; [reflexivity|]. split; [exact A|]. rewrite carries_even. reflexivity.
    + assert (Od : Nat.odd m = true) by (rewrite <- Nat.negb_even, Ev; reflexivity).
      apply Nat.odd_spec in Od. destruct Od as [q Ec].
      assert (Hl2 : right_node H ds' h (2 * q) y /\ Heads (right_node H ds') (S h) q l).
      { rewrite Ec in Hl. apply Heads_odd_inv; exact Hl. }
      destruct Hl2 as [Hy2 Hl2].
      assert (k = h).
      { destruct Hy2 as [Q _]. rewrite Q in Py. apply index_of_inj in Py. lia. }
      subst k. replace (Z.of_nat h =? Z.of_nat h) with true by lia.
      unfold bind at 1, bt_set_head at 1. unfold bind at 1, lift at 1. cbn [bt_storage bt_leaves_count].
      subst m.
      destruct (create_node_ok H pr ds' h q x y) as (j & Ej & Hj); auto.
      { rewrite Hlen. nia. } { rewrite Hlen. exact HN. }
      rewrite Ej.
      assert (Hn1 : ((q + 1) * 2 ^ S h = n + 1)%nat) by (rewrite pow2_S; lia).
      unfold bind_try at 1, bind at 1.
      replace (bn_position j) with (index_of (S h) q) by (symmetry; apply Hj).
      rewrite (right_node_prim _ _ _ _ _ Hj).
      destruct (carries_odd fuel h q ds' ltac:(lia)) as (fuel' & Hf' & ->).
      unfold bt_insert at 1. cbn [bt_storage bt_head bt_leaves_count Logged s_insert].
      destruct (s_insert st (index_of (S h) q) (right_prim H ds' (S h) q) s) as [s1 [o|e]]; cbn [outcome].
      * unfold bind at 1, bt_set_head at 1. cbn [bt_storage bt_head bt_leaves_count].
        destruct (IH (L ++ [(Put (index_of (S h) q) (right_prim H ds' (S h) q), None)]) s1 c j l (S h) q fuel' ltac:(cbn [length] in Hf; lia) Hn1 Hf' Hj Hl2)
          as (s' & hd & r & lg & Q & R).
        exists s', hd, r, ((Put (index_of (S h) q) (right_prim H ds' (S h) q), None) :: lg).
        split; [etransitivity; [exact Q|rewrite <- app_assoc; reflexivity]|].
        destruct R as [(-> & Hd & ->)|(e & -> & b1 & f1 & Q1)]; [left; auto|].
        right. exists e. split; [reflexivity|]. exists (Put (index_of (S h) q) (right_prim H ds' (S h) q) :: b1), f1.
        apply (cut_cons (Put (index_of (S h) q) (right_prim H ds' (S h) q))). exact Q1.
      * eexists s1, [], _, [(Put (index_of (S h) q) (right_prim H ds' (S h) q), Some e)]. split; [reflexivity|]. right.
        exists e. split; [reflexivity|]. exists [], (Put (index_of (S h) q) (right_prim H ds' (S h) q)). eexists _, []. split; [reflexivity|]. auto.
Qed.

Lemma push_log : forall ds d hd L s, Heads (right_node H ds) 0 (length ds) hd -> Z.of_nat (length ds + 1) <= max_leaves ->
  exists s' hd' c' r l, bt_push H pr lst d (Build_BTree (L, s) hd (Z.of_nat (length ds))) = (Build_BTree (L ++ l, s') hd' c', Val r) /\
    ((r = Ok tt /\ l = map done (push_script H ds d) /\ Heads (right_node H (ds ++ [d])) 0 (length (ds ++ [d])) hd' /\
        c' = Z.of_nat (length (ds ++ [d]))) \/
     (exists e, r = Err (BStorageError e) /\ stopped (push_script H ds d) l e)).
Proof.
  intros ds d hd L s Ih HN. set (n := length ds) in *. set (ds' := ds ++ [d]).
  assert (Hlen : length ds' = (n + 1)%nat) by (unfold ds'; rewrite app_length; reflexivity).
  assert (Blk : block 0 n ds' = [d]).
  { apply block_0. unfold ds'. rewrite nth_error_app2 by lia. replace (n - length ds)%nat with O by (unfold n; lia). reflexivity. }
  unfold bt_push. unfold bind at 1, get_state at 1. unfold bind at 1, lift at 1.
  unfold bnode_create_leaf, pos_from_leaf_index. cbn [bt_leaves_count].
  rewrite u64_ovf_in by (change U64 with (2 * 2 ^ 63); unfold max_leaves in HN; lia). cbn [obind].
  replace (Z.of_nat n * 2) with (index_of 0 n) by (rewrite index_of_0; lia).
  set (x := {| bn_position := index_of 0 n; bn_hash := leaf_sum H d |}).
  assert (Hx : right_node H ds' 0 n x).
  { split; [reflexivity|]. cbn. rewrite Blk. reflexivity. }
  unfold bind_try at 1, bind at 1. rewrite (right_node_prim _ _ _ _ _ Hx). cbn [bn_position x].
  assert (Hn1 : ((n + 1) * 2 ^ 0 = n + 1)%nat) by (change (2 ^ 0)%nat with 1%nat; lia).
  assert (Sc : push_script H ds d = Put (index_of 0 n) (right_prim H ds' 0 n) :: carries n 0 n ds').
  { unfold push_script, carries. fold n ds'. destruct n; reflexivity. }
  rewrite Sc. unfold bt_insert at 1. cbn [bt_storage bt_head bt_leaves_count Logged s_insert].
  destruct (s_insert st (index_of 0 n) (right_prim H ds' 0 n) s) as [s1 [o|e]]; cbn [outcome].
  - unfold bind at 1, get_state at 1. cbn [bt_storage bt_head bt_leaves_count].
    unfold bind at 1, bt_set_head at 1. cbn [bt_storage bt_head bt_leaves_count].
    unfold bt_join_all_subtrees. unfold bind_try at 1. unfold bind at 1. unfold bind at 1, get_state at 1. cbn [bt_head].
    destruct (join_log ds d HN (length (x :: hd)) (L ++ [(Put (index_of 0 n) (right_prim H ds' 0 n), None)]) s1 (Z.of_nat n) x hd 0 n n
      ltac:(cbn [length]; lia) Hn1 ltac:(lia) Hx) as (s' & hd' & r & lg & Q & R).
    { apply Heads_impl with (P := right_node H ds); [|exact Ih].
      intros h' b y Hb. apply right_node_app. change (2 ^ 0)%nat with 1%nat in Hb. fold n. lia. }
    match goal with |- context [bt_join_all_subtrees_loop ?a ?b ?c0 ?f0 ?t] => assert (Q' : bt_join_all_subtrees_loop a b c0 f0 t =
      (Build_BTree ((L ++ [(Put (index_of 0 n) (right_prim H ds' 0 n), None)]) ++ lg, s') hd' (Z.of_nat n), Val r)) by exact Q; rewrite Q' end.
    rewrite <- app_assoc. fold ds' in R. destruct R as [(-> & Hd & ->)|(e & -> & b1 & f1 & Q1)].
    + unfold bind at 1, get_state at 1. cbn [bt_leaves_count]. unfold bind at 1, lift at 1.
      rewrite u64_ovf_in by (change U64 with (2 * 2 ^ 63); unfold max_leaves in HN; lia).
      unfold bind at 1, bt_set_leaves_count at 1, ret. cbn [bt_storage bt_head].
      eexists s', hd', _, (Ok tt), _. split; [reflexivity|]. left. split; [reflexivity|]. split; [reflexivity|].
      fold ds'. rewrite Hlen. split; [exact Hd|lia].
    + eexists s', hd', _, _, _. split; [reflexivity|]. right. exists e. split; [reflexivity|].
      exists (Put (index_of 0 n) (right_prim H ds' 0 n) :: b1), f1.
      apply (cut_cons (Put (index_of 0 n) (right_prim H ds' 0 n))). exact Q1.
  - eexists s1, hd, _, _, [(Put (index_of 0 n) (right_prim H ds' 0 n), Some e)]. split; [reflexivity|]. right.
    exists e. split; [reflexivity|]. exists [], (Put (index_of 0 n) (right_prim H ds' 0 n)). eexists _, []. split; [reflexivity|]. auto.
Qed.

Lemma pushes_log : forall new ds hd L s, Heads (right_node H ds) 0 (length ds) hd -> Z.of_nat (length (ds ++ new)) <= max_leaves ->
  exists s' hd' c' r l, bt_push_all H pr lst new (Build_BTree (L, s) hd (Z.of_nat (length ds))) = (Build_BTree (L ++ l, s') hd' c', Val r) /\
    ((r = Ok tt /\ l = map done (push_scripts H ds new) /\ Heads (right_node H (ds ++ new)) 0 (length (ds ++ new)) hd' /\
        c' = Z.of_nat (length (ds ++ new))) \/
     (exists e before d rest l', r = Err (BStorageError e) /\ new = before ++ d :: rest /\
        l = map done (push_scripts H ds before) ++ l' /\ stopped (push_script H (ds ++ before) d) l' e)).
Proof.
  induction new as [|d new IH]; intros ds hd L s Hh HN; cbn [bt_push_all push_scripts].
  { exists s, hd, (Z.of_nat (length ds)), (Ok tt), []. rewrite !app_nil_r. split; [reflexivity|]. left. auto. }
  assert (HN' : Z.of_nat (length ds + 1) <= max_leaves) by (rewrite app_length in HN; cbn [length] in HN; lia).
  destruct (push_log ds d hd L s Hh HN') as (s1 & hd1 & c1 & r1 & l1 & Q & R). unfold bind_try, bind.
  match goal with |- context [bt_push ?a ?b ?c0 ?f0 ?t] => assert (Q' : bt_push a b c0 f0 t =
    (Build_BTree (L ++ l1, s1) hd1 c1, Val r1)) by exact Q; rewrite Q' end. clear Q Q'.
  destruct R as [(-> & -> & Hd & ->)|(e & -> & St1)].
  - replace (ds ++ d :: new) with ((ds ++ [d]) ++ new) in * by (rewrite <- app_assoc; reflexivity).
    destruct (IH (ds ++ [d]) hd1 (L ++ map done (push_script H ds d)) s1 Hd HN) as (s' & hd' & c' & r & l & Q & R).
    exists s', hd', c', r, (map done (push_script H ds d) ++ l). split; [etransitivity; [exact Q|rewrite <- app_assoc; reflexivity]|].
    destruct R as [(-> & -> & Hd' & ->)|(e & before & d' & rest & l' & -> & -> & -> & St1)].
    + left. rewrite map_app. auto.
    + right. exists e, (d :: before), d', rest, l'. split; [reflexivity|]. split; [reflexivity|]. cbn [push_scripts].
      rewrite map_app, <- app_assoc. split; [reflexivity|].
      replace (ds ++ d :: before) with ((ds ++ [d]) ++ before) by (rewrite <- app_assoc; reflexivity). exact St1.
  - exists s1, hd1, c1, (Err (BStorageError e)), l1. split; [reflexivity|]. right. exists e, [], d, new, l1.
    rewrite app_nil_r. auto.
Qed.

Theorem C97_push_lemma : forall ds s0, Z.of_nat (length ds) <= 2 ^ 63 ->
  exists t r, bt_push_all H pr lst ds (bt_new ([], s0)) = (t, Val r) /\
    ((r = Ok tt /\ fst (bt_storage t) = map done (push_scripts H [] ds)) \/
     (exists before d rest l e, ds = before ++ d :: rest /\ r = Err (BStorageError e) /\
        fst (bt_storage t) = map done (push_scripts H [] before) ++ l /\ stopped (push_script H before d) l e)).
Proof.
  intros ds s0 HN. destruct (pushes_log ds [] [] [] s0 (Heads_zero _ _) HN) as (s' & hd' & c' & r & l & Q & R).
  eexists _, r. split; [exact Q|]. cbn [bt_storage fst app].
  destruct R as [(-> & -> & _)|(e & before & d & rest & l' & -> & -> & -> & St1)]; [left; auto|].
  right. exists before, d, rest, l', e. auto.
Qed.

Theorem C97_prove_lemma : forall ds s0 t i, Z.of_nat (length ds) < leaf_limit pr ->
  bt_push_all H pr lst ds (bt_new ([], s0)) = (t, Val (Ok tt)) -> (i < length ds)%nat ->
  forall L s, let u := Build_BTree (L, s) (bt_head t) (bt_leaves_count t) in
  exists s' r l, bt_prove H pr lst (Z.of_nat i) u = (Build_BTree (L ++ l, s') (bt_head t) (bt_leaves_count t), Val r) /\
    ((exists x, r = Ok x /\ l = map done (prove_script (length ds) i)) \/
     (exists e, r = Err (BStorageError e) /\ stopped (prove_script (length ds) i) l e) \/
     (exists before k, r = Err (BLoadError (match before with [] => Z.of_nat i | _ => k end)) /\
        missed (prove_script (length ds) i) l before k)).
Proof.
  intros ds s0 t i HN Ep Hi L s. pose proof (limit_max _ _ HN) as HM.
  destruct (pushes_log ds [] [] [] s0 (Heads_zero _ _) ltac:(unfold max_leaves; cbn [app]; lia)) as (s' & hd' & c' & r & l & Q & R).
  change (Build_BTree ([], s0) [] (Z.of_nat (length []))) with (@bt_new (list (event Z BPrimitive E) * St) ([], s0)) in Q.
  assert (X : (t, Val (Ok tt)) = (Build_BTree ([] ++ l, s') hd' c', Val r)) by (etransitivity; [symmetry; exact Ep|exact Q]).
  injection X as -> <-. destruct R as [(_ & _ & Hd & ->)|(e & before & d & rest & l' & X & _)]; [|discriminate X].
  cbn [bt_head bt_leaves_count app] in *. exact (prove_log ds hd' i L s Hd (count_ok_limit _ _ HN) Hi).
Qed.
End Calls.
