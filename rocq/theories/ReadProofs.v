(** ReadProofs.v -- proofs of a binary tree made from a storage with any content, and the writes of pushes. *)
From Verif Require Import Base Storage ModelCommon ModelBinary SpecBits SpecBinary SpecBinaryFacts SpecPosition SpecCalls SpecRead Runs
  PositionProofs PathProofs HeadsProofs StorageProofs BinaryProofs BinaryReadProofs BinaryMain BinaryCalls SparseCalls.
From Coq Require Import Arith ZifyBool ZifyNat ZifyN.
Ltac Zify.zify_post_hook ::= Z.div_mod_to_equations.
Arguments Z.pow : simpl never.
Arguments Z.mul : simpl never.
Arguments Z.add : simpl never.
Arguments Z.sub : simpl never.
Arguments Z.of_nat : simpl never.
Arguments Nat.pow : simpl never.
Arguments Nat.mul : simpl never.
Arguments Nat.div : simpl never.
Arguments Nat.add : simpl never.

(** * Nodes and ranges *)
Definition same_node (n : nat) (p x : nat * nat) : Prop :=
  fst p = Nat.log2_up (snd x) /\ (snd p * 2 ^ fst p = fst x)%nat /\ snd x = Nat.min (2 ^ fst p) (n - fst x) /\ (fst x < n)%nat.

Lemma represent_same : forall n h b, (b * 2 ^ h < n)%nat ->
  same_node n (represent n h b) (b * 2 ^ h, Nat.min (2 ^ h) (n - b * 2 ^ h))%nat.
Proof.
  intros n. induction h as [|h IH]; intros b Hb; cbn [represent node_exists].
  - change (2 ^ 0)%nat with 1%nat in *. replace (Nat.min 1 (n - b * 1)) with 1%nat by lia. unfold same_node.
    destruct (b <? n)%nat; cbn [fst snd]; change (Nat.log2_up 1) with O; change (2 ^ 0)%nat with 1%nat; repeat split; lia.
  - pose proof (pow2_S h) as P2. pose proof (pow2_pos h) as PP. destruct ((2 * b + 1) * 2 ^ h <? n)%nat eqn:Ex.
    + apply Nat.ltb_lt in Ex. unfold same_node. cbn [fst snd]. rewrite (log2_up_eq h) by lia. repeat split; lia.
    + apply Nat.ltb_ge in Ex. specialize (IH (2 * b)%nat ltac:(lia)).
      replace (2 * b * 2 ^ h)%nat with (b * 2 ^ S h)%nat in IH by lia.
      replace (Nat.min (2 ^ h) (n - b * 2 ^ S h)) with (Nat.min (2 ^ S h) (n - b * 2 ^ S h)) in IH by lia. exact IH.
Qed.

Lemma sides_same : forall n i, (i < n)%nat -> forall h,
  Forall2 (same_node n) (rev (sides n h i))
    (side_ranges n (i - ancestor i h * 2 ^ h) (ancestor i h * 2 ^ h) (Nat.min (2 ^ h) (n - ancestor i h * 2 ^ h))).
Proof.
  intros n i Hi. induction h as [|h IH]; cbn [sides].
  - rewrite ancestor_0. change (2 ^ 0)%nat with 1%nat. replace (Nat.min 1 (n - i * 1)) with 1%nat by lia.
    destruct n; [lia|]. constructor.
  - pose proof (ancestor_le i h) as Lo. pose proof (ancestor_gt i h) as Hi2.
    pose proof (pow2_pos h) as Hp. pose proof (pow2_S h) as P2S.
    destruct (node_exists n (S h) (ancestor i (S h))) eqn:Ex.
    + cbn [rev].
      pose proof (side_exists _ _ _ Hi Ex) as Hs. pose proof (represent_same _ _ _ Hs) as Rs.
      cbn [node_exists] in Ex. apply Nat.ltb_lt in Ex. set (a := ancestor i (S h)) in *.
      set (off := (a * 2 ^ S h)%nat). assert (Eo : off = (2 * a * 2 ^ h)%nat) by (unfold off; rewrite P2S; ring).
      set (len := Nat.min (2 ^ S h) (n - off)).
      assert (Ll : (2 ^ h < len <= 2 ^ S h)%nat) by (unfold len; rewrite Eo, P2S; lia).
      rewrite (side_ranges_fuel n (S n) (i - off)) by (unfold len; lia). cbn [side_ranges].
      replace (len <=? 1)%nat with false by (symmetry; apply Nat.leb_gt; lia). cbv zeta.
      rewrite (split_point_pow len h) by lia.
      destruct (ancestor_cases i h) as [(E1 & E2 & _)|(E1 & E2 & _)]; fold a in E1, E2; rewrite E2 in *; rewrite E1 in *.
      * replace (i - off <? 2 ^ h)%nat with true by (symmetry; apply Nat.ltb_lt; lia).
        rewrite <- Eo in IH. replace (Nat.min (2 ^ h) (n - off)) with (2 ^ h)%nat in IH by lia.
        apply Forall2_app; [exact IH|]. constructor; [|constructor].
        replace ((2 * a + 1) * 2 ^ h)%nat with (off + 2 ^ h)%nat in Rs by lia.
        replace (Nat.min (2 ^ h) (n - (off + 2 ^ h))) with (len - 2 ^ h)%nat in Rs by (unfold len; rewrite P2S; lia). exact Rs.
      * replace (i - off <? 2 ^ h)%nat with false by (symmetry; apply Nat.ltb_ge; lia).
        replace (i - (2 * a + 1) * 2 ^ h)%nat with (i - off - 2 ^ h)%nat in IH by lia.
        replace ((2 * a + 1) * 2 ^ h)%nat with (off + 2 ^ h)%nat in IH by lia.
        replace (Nat.min (2 ^ h) (n - (off + 2 ^ h))) with (len - 2 ^ h)%nat in IH by (unfold len; rewrite P2S; lia).
        apply Forall2_app; [exact IH|]. constructor; [|constructor].
        rewrite <- Eo in Rs. replace (Nat.min (2 ^ h) (n - off)) with (2 ^ h)%nat in Rs by lia. exact Rs.
    + cbn [node_exists] in Ex. apply Nat.ltb_ge in Ex.
      destruct (ancestor_cases i h) as [(E1 & E2 & _)|(E1 & E2 & _)]; [|rewrite E1 in Lo; lia].
      rewrite E1 in IH. set (a := ancestor i (S h)) in *. replace (2 * a * 2 ^ h)%nat with (a * 2 ^ S h)%nat in IH by (rewrite P2S; ring).
      replace (Nat.min (2 ^ S h) (n - a * 2 ^ S h)) with (Nat.min (2 ^ h) (n - a * 2 ^ S h)); [exact IH|].
      rewrite P2S. lia.
Qed.
Lemma sides_ranges : forall n i h, (i < n)%nat -> (n <= 2 ^ h)%nat ->
  Forall2 (same_node n) (rev (sides n h i)) (side_ranges n i 0 n).
Proof.
  intros n i h Hi Hh. pose proof (sides_same n i Hi h) as Q. rewrite ancestor_top in Q by lia.
  rewrite Nat.mul_0_l, !Nat.sub_0_r in Q. replace (Nat.min (2 ^ h) n) with n in Q by lia. exact Q.
Qed.

Lemma same_place : forall n p x, same_node n p x -> index_of_pair p = place x.
Proof.
  intros n [h b] [o l] (A & B & _). cbn [fst snd] in *. unfold place, index_of_pair. cbn [fst snd]. rewrite <- A, <- B.
  rewrite Nat.div_mul by (pose proof (pow2_pos h); lia). reflexivity.
Qed.
Lemma same_block : forall (ds : list (list byte)) p x, same_node (length ds) p x ->
  block (fst p) (snd p) ds = firstn (snd x) (skipn (fst x) ds).
Proof.
  intros ds [h b] [o l] (_ & B & C & _). cbn [fst snd] in *. unfold block. rewrite B, C.
  destruct (Nat.le_ge_cases (2 ^ h) (length ds - o)) as [Q|Q].
  - replace (Nat.min (2 ^ h) (length ds - o)) with (2 ^ h)%nat by lia. reflexivity.
  - replace (Nat.min (2 ^ h) (length ds - o)) with (length ds - o)%nat by lia.
    rewrite !firstn_all2; auto; rewrite skipn_length; lia.
Qed.
Lemma same_full : forall n p x, same_node n p x ->
  (snd x =? 2 ^ Nat.log2_up (snd x))%nat = ((snd p + 1) * 2 ^ fst p <=? n)%nat.
Proof.
  intros n [h b] [o l] (A & B & C & D). cbn [fst snd] in *. rewrite <- A.
  destruct (Nat.eqb_spec l (2 ^ h)); destruct (Nat.leb_spec ((b + 1) * 2 ^ h) n); auto; exfalso; lia.
Qed.

(** * The nodes computed for the root *)
Section Binary.
Variable H : list byte -> bytes32.
Variable pr : profile.
Notation mth := (mth H).

Definition scratch_part (ds : list (list byte)) (sc : Scratch) : Prop :=
  forall key p, smap_lookup Z.eqb sc key = Some p -> exists h b, key = index_of h b /\ (length ds < (b + 1) * 2 ^ h)%nat.

Lemma build_part : forall ds, Z.of_nat (length ds) <= max_leaves ->
  forall next h m cur sc n sc',
  Heads (right_node H ds) h m next -> bn_hash cur = mth (block h m ds) ->
  (m * 2 ^ h < length ds)%nat -> (length ds <= (m + 1) * 2 ^ h)%nat ->
  (Nat.even m = true \/ (length ds < (m + 1) * 2 ^ h)%nat) ->
  scratch_part ds sc -> build_root_node H pr cur next sc = Val (n, sc') -> scratch_part ds sc'.
Proof.
  intros ds HN. induction next as [|y next IH]; intros h m cur sc n sc' Hh Hc Hlo Hhi He Hr R; cbn [build_root_node] in R.
  - injection R as <- <-. exact Hr.
  - destruct (Heads_cons_inv _ _ _ _ _ Hh) as (k & b & Hk & Hm & Hy & Hnext).
    assert (Hp : (2 ^ h <= 2 ^ k)%nat) by (apply pow2_le; lia).
    assert (Hblk : block h m ds = block k (2 * b + 1) ds) by (apply block_same_start; nia).
    destruct (create_node_ok H pr ds k b cur y) as (j & Ej & Hj); auto.
    { lia. } { rewrite <- Hblk. exact Hc. }
    rewrite Ej in R. cbn [obind] in R. destruct Hj as [Pj Hj'].
    assert (St : (length ds < (b + 1) * 2 ^ S k)%nat).
    { rewrite pow2_S. destruct (Nat.eq_dec h k) as [->|Nk].
      - assert (m = 2 * b + 1)%nat by (pose proof (pow2_pos k); nia). subst m. destruct He as [He|He]; [|lia].
        exfalso. rewrite Nat.add_comm, Nat.even_add_mul_2 in He. discriminate He.
      - assert (2 ^ S h <= 2 ^ k)%nat by (apply pow2_le; lia). pose proof (pow2_S h). pose proof (pow2_pos h). nia. }
    refine (IH (S k) b j _ n sc' Hnext Hj' _ _ _ _ R); [rewrite pow2_S; nia|lia|right; exact St|].
    intros key p. rewrite (smap_lookup_insert Z.eqb Z.eqb_eq), Pj.
    destruct (Z.eqb_spec key (index_of (S k) b)) as [->|N]; [|apply Hr]. intros _. exists (S k), b. auto.
Qed.

Lemma root_part : forall {St} ds (t : BTree St) n sc, Z.of_nat (length ds) <= max_leaves ->
  Heads (right_node H ds) 0 (length ds) (bt_head t) -> bt_root_node H pr t smap_new = Val (n, sc) -> scratch_part ds sc.
Proof.
  intros St ds t n sc HN Hh R. unfold bt_root_node in R. destruct (bt_head t) as [|x l].
  { injection R as <- <-. intros key p Q. discriminate Q. }
  destruct (Heads_cons_inv _ _ _ _ _ Hh) as (k & b & _ & Hm & Hx & Hl).
  change (2 ^ 0)%nat with 1%nat in Hm. rewrite Nat.mul_1_r in Hm.
  destruct (build_root_node H pr x l smap_new) as [[n1 sc1]| |] eqn:B; try discriminate R. cbn [obind] in R. injection R as <- <-.
  refine (build_part ds HN l k (2 * b)%nat x smap_new n1 sc1 _ _ _ _ _ _ B).
  - apply Heads_double. exact Hl.
  - apply Hx.
  - pose proof (pow2_pos k). nia.
  - lia.
  - left. rewrite Nat.even_mul. reflexivity.
  - intros key p Q. discriminate Q.
Qed.

Section Storage.
Context {St E : Type}.
Variable st : StorageT St Z BPrimitive E.
Variable view : St -> Z -> option BPrimitive.
Hypothesis L : Lawful st view.

Lemma read_on_ext : forall d d' ds l, (forall k, d k = d' k) -> read_on H d ds l = read_on H d' ds l.
Proof.
  intros d d' ds l X. induction l as [|x l IH]; [reflexivity|]. cbn [read_on]. unfold hash_used. rewrite X, IH. reflexivity.
Qed.

Lemma loop_any : forall ds sc, scratch_right H ds sc -> scratch_part ds sc -> (forall h, scratch_has H ds h sc) ->
  forall xs rs acc t, Forall2 (same_node (length ds)) xs rs ->
  (forall x, In x xs -> node_exists (length ds) (fst x) (snd x) = true) ->
  exists t' r, bt_prove_loop st sc (map index_of_pair xs) acc t = (t', Val r) /\
    (r = match read_on H (view (bt_storage t)) ds rs with Ok hs => Ok (acc ++ hs) | Err k => Err (BLoadError k) end \/
     (exists e, r = Err (BStorageError e) /\ ~ Infallible st)).
Proof.
  intros ds sc Sr Sp Sh. induction xs as [|[h b] xs IH]; intros rs acc t F2 Hx; inversion F2 as [|? x ? rs' Sx F2']; subst; cbn [map bt_prove_loop read_on].
  - exists t, (Ok acc). rewrite app_nil_r. auto.
  - unfold bind_try, bind. change (index_of_pair (h, b)) with (index_of h b).
    pose proof (same_place _ _ _ Sx) as Ep. change (index_of_pair (h, b)) with (index_of h b) in Ep.
    destruct (bt_get_cases st view L (index_of h b) t) as (t1 & R & [G|(e & G & F)]); rewrite G.
    2:{ exists t1, (Err (BStorageError e)). split; [reflexivity|]. right. eauto. }
    assert (Ex : node_exists (length ds) h b = true) by (apply (Hx (h, b)); left; reflexivity).
    assert (Next : forall v, exists t' r, bt_prove_loop st sc (map index_of_pair xs) (acc ++ [v]) t1 = (t', Val r) /\
      (r = match (match read_on H (view (bt_storage t)) ds rs' with Ok hs => Ok (v :: hs) | Err k => Err k end) with
           | Ok hs => Ok (acc ++ hs) | Err k => Err (BLoadError k) end \/
       (exists e, r = Err (BStorageError e) /\ ~ Infallible st))).
    { intros v. destruct (IH rs' (acc ++ [v]) t1 F2') as (t' & r & E1 & C).
      - intros y Hin. apply Hx. right. exact Hin.
      - exists t', r. split; [exact E1|]. destruct C as [->|C]; [left|right; exact C].
        rewrite (read_on_ext _ (view (bt_storage t))) by (intros k; apply R).
        destruct (read_on H (view (bt_storage t)) ds rs'); [rewrite <- app_assoc|]; reflexivity. }
    unfold hash_used. rewrite (same_full _ _ _ Sx), <- Ep. cbn [fst snd].
    destruct (Nat.leb_spec ((b + 1) * 2 ^ h) (length ds)) as [C|C].
    + destruct (smap_lookup Z.eqb sc (index_of h b)) as [p|] eqn:Lk.
      { exfalso. destruct (Sp _ _ Lk) as (h' & b' & Q & Q2). apply index_of_inj in Q. destruct Q as [<- <-]. lia. }
      destruct (view (bt_storage t) (index_of h b)) as [[q v]|] eqn:Vw; [apply Next|].
      exists t1, (Err (BLoadError (index_of h b))). split; [reflexivity|]. left. reflexivity.
    + rewrite (Sh h h b) by (auto; lia).
      pose proof (same_block ds (h, b) x Sx) as Eb. cbn [fst snd] in Eb. rewrite <- Eb. apply Next.
Qed.

Lemma prove_any : forall ds s0 t s i, Z.of_nat (length ds) < leaf_limit pr ->
  bt_push_all H pr st ds (bt_new s0) = (t, Val (Ok tt)) -> (i < length ds)%nat ->
  exists t' r, bt_prove H pr st (Z.of_nat i) (Build_BTree s (bt_head t) (bt_leaves_count t)) = (t', Val r) /\
    (r = match proof_read H (view s) ds i with Ok hs => Ok (mth ds, hs) | Err k => Err (BLoadError k) end \/
     (exists e, r = Err (BStorageError e) /\ ~ Infallible st)).
Proof.
  intros ds s0 t s i HN Ep Hi. pose proof (limit_max _ _ HN) as HM.
  destruct (reach_binv H pr st view L ds s0 t) as [Ic Ih _]; [unfold max_leaves; lia|exact Ep|].
  pose proof (count_ok_limit _ _ HN) as Hn.
  unfold bt_prove. unfold bind at 1, get_state at 1. unfold bind at 1, lift at 1. cbn [bt_leaves_count].
  rewrite u64_ovf_in by (change U64 with (2 * 2 ^ 63); lia).
  rewrite Ic. replace (Z.of_nat i + 1 >? Z.of_nat (length ds)) with false by lia.
  unfold bind at 1, lift at 1. rewrite root_position_ok by exact Hn.
  unfold bind at 1, lift at 1. unfold pos_from_leaf_index.
  rewrite u64_ovf_in by (change U64 with (2 * 2 ^ 63); lia).
  replace (Z.of_nat i * 2) with (index_of 0 i) by (rewrite index_of_0; lia).
  unfold bind_try at 1, bind at 1.
  match goal with |- context [bt_get st ?k ?t0] => destruct (bt_get_cases st view L k t0) as (t1 & R & [G|(e & G & F)]) end; rewrite G.
  2:{ exists t1, (Err (BStorageError e)). split; [reflexivity|]. right. eauto. }
  cbn [bt_storage] in *. unfold proof_read.
  destruct (view s (index_of 0 i)) as [[q v]|] eqn:Vw.
  2:{ exists t1, (Err (BLoadError (Z.of_nat i))). split; [reflexivity|]. left. reflexivity. }
  unfold bind at 1, lift at 1.
  pose proof (root_height_spec (length ds)) as Hrs.
  rewrite position_path_ok by (auto using root_height_ok; lia).
  set (k := root_height (length ds)) in *.
  rewrite (tree_path_sides _ _ _ _ Hi). cbn [rev]. rewrite removelast_last.
  unfold bind at 1, lift at 1.
  match goal with |- context [bt_root_node H pr ?t0 smap_new] =>
    destruct (root_node_ok H pr ds t0 ltac:(unfold max_leaves; lia) Ih) as (rn & sc & Er & Hr & Sr & Sh); [intros ->; cbn in Hi; lia|];
    pose proof (root_part ds t0 (Some rn) sc ltac:(unfold max_leaves; lia) Ih Er) as Sp end.
  rewrite Er. rewrite <- map_rev. unfold bind_try, bind.
  destruct (loop_any ds sc Sr Sp Sh (rev (sides (length ds) k i)) (side_ranges (length ds) i 0 (length ds)) [bn_hash (bnode_of_prim (q, v))] t1)
    as (t2 & r & El & C).
  - apply sides_ranges; [exact Hi|unfold k in *; lia].
  - intros x Hin. apply in_rev in Hin. eapply sides_complete_or; eauto.
  - rewrite El. cbn [bn_hash bnode_of_prim snd] in C.
    rewrite (read_on_ext _ (view s)) in C by (intros z; apply R).
    destruct C as [->|(e & -> & F)]; unfold ret.
    + destruct (read_on H (view s) ds (side_ranges (length ds) i 0 (length ds))) as [hs|z]; eexists t2, _; (split; [reflexivity|]); left;
        [rewrite Hr|]; reflexivity.
    + eexists t2, _. split; [reflexivity|]. right. eauto.
Qed.
End Storage.
End Binary.

(** * The writes of a push *)
Section Fresh.
Variable H : list byte -> bytes32.
Variable pr : profile.
Context {St E : Type}.
Variable st : StorageT St Z BPrimitive E.
Variable view : St -> Z -> option BPrimitive.
Hypothesis L : Lawful st view.

Lemma nodup_front : forall {A} (l l' : list A), NoDup (l ++ l') -> NoDup l.
Proof.
  intros A l l'. induction l as [|x l IH]; intros N; [constructor|]. cbn [app] in N. inversion N as [|? ? N1 N2]; subst.
  constructor; [|apply IH; exact N2]. intros Q. apply N1. apply in_or_app. left. exact Q.
Qed.
Lemma put_blocks_new : forall ds n fuel h b, ((b + 1) * 2 ^ h = n + 1)%nat ->
  Forall (fun c => exists h' b' v, c = Put (index_of h' b') v /\ ((b' + 1) * 2 ^ h' = n + 1)%nat /\ (h <= h')%nat) (put_blocks H fuel h b ds) /\
  NoDup (map key_of (put_blocks H fuel h b ds)).
Proof.
  intros ds n. induction fuel as [|fuel IH]; intros h b Hb; cbn [put_blocks].
  { split; [constructor; [|constructor]; eexists _, _, _; eauto|repeat constructor; intros []]. }
  destruct (Nat.odd b) eqn:Od.
  2:{ split; [constructor; [|constructor]; eexists _, _, _; eauto|repeat constructor; intros []]. }
  apply Nat.odd_spec in Od. destruct Od as [q ->].
  replace (Nat.div2 (2 * q + 1)) with q by (rewrite Nat.div2_div; lia).
  destruct (IH (S h) q) as [A B]; [rewrite pow2_S; lia|]. split.
  - constructor; [eexists _, _, _; eauto|]. eapply Forall_impl; [|exact A].
    intros c (h' & b' & v & Q1 & Q2 & Q3). exists h', b', v. repeat split; auto; lia.
  - cbn [map key_of]. constructor; [|exact B]. intros Q. apply in_map_iff in Q. destruct Q as (c & Q1 & Q2).
    rewrite Forall_forall in A. destruct (A c Q2) as (h' & b' & v & -> & _ & Q3). cbn [key_of] in Q1.
    apply index_of_inj in Q1. lia.
Qed.

Lemma stopped_prefix : forall script (l : list (event Z (Z * bytes32) E)) e, stopped script l e ->
  exists rest, script = map fst l ++ rest.
Proof.
  intros script l e (before & failed & rest & outs & -> & -> & Q). exists rest.
  destruct outs; [|discriminate Q]. rewrite map_app, map_map. cbn [map fst done app]. rewrite map_id, <- app_assoc. reflexivity.
Qed.

Lemma C13_fresh_lemma : forall ds s0 t d t' r, (forall k, view s0 k = None) ->
  Z.of_nat (length ds) < 2 ^ 63 ->
  bt_push_all H pr (Logged st) ds (bt_new ([], s0)) = (t, Val (Ok tt)) ->
  bt_push H pr (Logged st) d t = (t', Val r) ->
  exists l, fst (bt_storage t') = fst (bt_storage t) ++ l /\ NoDup (map (fun x => key_of (fst x)) l) /\
    forall c o, In (c, o) l -> exists k v, c = Put k v /\ view (snd (bt_storage t)) k = None.
Proof.
  intros ds s0 t d t' r Hs HN Ep Ed.
  pose proof (Logged_lawful _ _ _ _ st view L) as LL.
  assert (HN' : Z.of_nat (length ds) <= max_leaves) by (unfold max_leaves; lia).
  destruct (push_all_exact H pr (Logged st) (fun ls => view (snd ls)) LL ds [] (bt_new ([], s0)) t (binv_new _ _ _) HN' Ep
    (exact_nil _ _ ([], s0) Hs)) as [[Ic Ih _] B].
  cbn [app] in *. destruct t as [[Lg s] hd c]. cbn [bt_storage bt_head bt_leaves_count fst snd] in *. subst c.
  destruct (push_log pr st H ds d hd Lg s Ih ltac:(unfold max_leaves; lia)) as (s' & hd' & c' & r' & l & Q & R).
  assert (Q' := eq_trans (eq_sym Ed) Q). injection Q' as -> ->. exists l. cbn [bt_storage fst]. split; [reflexivity|].
  assert (P : exists rest, push_script H ds d = map fst l ++ rest).
  { destruct R as [(_ & -> & _)|(e & _ & R)]; [|eapply stopped_prefix; exact R].
    exists []. rewrite app_nil_r, map_map. cbn [fst done]. rewrite map_id. reflexivity. }
  destruct P as [rest P].
  destruct (put_blocks_new (ds ++ [d]) (length ds) (length ds) 0 (length ds)) as [A N]; [change (2 ^ 0)%nat with 1%nat; lia|].
  fold (push_script H ds d) in A, N. rewrite P in A, N. split.
  - rewrite map_app in N. rewrite <- map_map. eapply nodup_front. exact N.
  - intros c o Hin. apply Forall_app in A. destruct A as [A _]. rewrite Forall_forall in A.
    destruct (A c) as (h & b & v & -> & Eb & _); [apply in_map_iff; exists (c, o); auto|].
    eexists _, v. split; [reflexivity|]. destruct (view s (index_of h b)) as [p|] eqn:V; [|reflexivity].
    exfalso. apply B in V. destruct V as (h2 & b2 & Q1 & Q2 & _). apply index_of_inj in Q2. destruct Q2 as [-> ->]. lia.
Qed.
End Fresh.
