(** SumMain.v -- properties of the Merkle sum tree. *)
From Verif Require Import Base Storage ModelCommon ModelSum SpecBinary SpecBinaryFacts SpecPosition
  SpecSum BitsProofs PositionProofs PathProofs HeadsProofs RunsSum SumProofs CommonProofs BindingProofs.
From Coq Require Import Arith ZifyBool ZifyNat ZifyN.
Ltac Zify.zify_post_hook ::= Z.div_mod_to_equations.
Arguments Z.pow : simpl never.
Arguments Z.mul : simpl never.
Arguments Z.add : simpl never.
Arguments Z.sub : simpl never.
Arguments Z.of_nat : simpl never.
Arguments Nat.pow : simpl never.
Arguments Nat.mul : simpl never.
Arguments Nat.div : simpl never.
Arguments Nat.add : simpl never.
Arguments split_point : simpl never.

Lemma total_fee_app : forall a b, total_fee (a ++ b) = total_fee a + total_fee b.
Proof.
  unfold total_fee. induction a as [|x a IH]; intros b; cbn [app fold_right]; [lia|]. rewrite IH. lia.
Qed.
Lemma total_fee_nonneg : forall a, fees_ok a -> 0 <= total_fee a.
Proof. unfold total_fee. induction 1 as [|x a Hx Ha IH]; cbn [fold_right]; lia. Qed.
Lemma fees_ok_app : forall a b, fees_ok (a ++ b) -> fees_ok a /\ fees_ok b.
Proof. intros a b F. apply Forall_app in F. exact F. Qed.

Definition good_exact (ls : list leaf) : Prop := fees_ok ls /\ total_fee ls < 2 ^ 64.
Lemma good_exact_app : forall a b, good_exact (a ++ b) -> good_exact a /\ good_exact b.
Proof.
  intros a b [F T]. apply fees_ok_app in F. destruct F as [Fa Fb].
  pose proof (total_fee_nonneg a Fa). pose proof (total_fee_nonneg b Fb). rewrite total_fee_app in T.
  split; split; auto; lia.
Qed.
Lemma exact_one : forall l, good_exact [l] -> total_fee [l] = fst l.
Proof. intros l _. unfold total_fee. cbn [fold_right]. lia. Qed.
Lemma exact_app : forall pr a b, good_exact (a ++ b) -> u64_ovf pr (total_fee a + total_fee b) = Val (total_fee (a ++ b)).
Proof.
  intros pr a b [F T]. rewrite total_fee_app in *. apply fees_ok_app in F. destruct F as [Fa Fb].
  pose proof (total_fee_nonneg a Fa). pose proof (total_fee_nonneg b Fb). apply u64_ovf_in. unfold U64. lia.
Qed.

Lemma fit_app : forall pr a b, fees_fit pr (a ++ b) -> fees_fit pr a /\ fees_fit pr b.
Proof.
  intros pr a b [F T]. pose proof F as F'. apply fees_ok_app in F'. destruct F' as [Fa Fb].
  pose proof (total_fee_nonneg a Fa). pose proof (total_fee_nonneg b Fb). rewrite total_fee_app in T.
  split; split; auto; destruct T as [T|T]; auto; right; lia.
Qed.
Lemma fit_one : forall pr l, fees_fit pr [l] -> wrapped_fee [l] = fst l.
Proof.
  intros pr l [F _]. inversion F; subst. unfold wrapped_fee. cbn. rewrite Z.add_0_r. apply Z.mod_small. auto.
Qed.
Lemma fit_app_fee : forall pr a b, fees_fit pr (a ++ b) ->
  u64_ovf pr (wrapped_fee a + wrapped_fee b) = Val (wrapped_fee (a ++ b)).
Proof.
  intros pr a b [F T]. unfold wrapped_fee. rewrite total_fee_app in *. apply fees_ok_app in F. destruct F as [Fa Fb].
  pose proof (total_fee_nonneg a Fa). pose proof (total_fee_nonneg b Fb).
  destruct T as [T|T].
  - unfold u64_ovf. rewrite T. set (x := total_fee a) in *. set (y := total_fee b) in *.
    destruct (in_u64 (x mod 2 ^ 64 + y mod 2 ^ 64)) eqn:I.
    + f_equal. unfold in_u64, U64 in I. rewrite Z.add_mod by (intros C; discriminate C).
      symmetry. apply Z.mod_small. lia.
    + f_equal. unfold as_u64, U64. symmetry. apply Z.add_mod. intros C; discriminate C.
  - rewrite !Z.mod_small by lia. apply u64_ovf_in. unfold U64. lia.
Qed.

Section Sum.
Variable H : list byte -> bytes32.
Variable fee : list leaf -> Z.
Notation mst := (mst H fee).
Notation mst_inputs := (mst_inputs H fee).
Notation rnode := (rnode H fee).

(** * Binding *)
Section Binding.
Variable fok : list leaf -> Prop.
Hypothesis fok_app : forall a b, fok (a ++ b) -> fok a /\ fok b.
Hypothesis fok_one : forall l, fok [l] -> 0 <= fst l < 2 ^ 64.

Lemma mst_root_input : forall ls, exists x, mst ls = H x /\ In x (mst_inputs ls) /\
  ((ls = [] /\ x = []) \/ (exists l, ls = [l] /\ x = sum_leaf_input l) \/
   ((2 <= length ls)%nat /\ let k := split_point (length ls) in
     x = sum_node_input (fee (firstn k ls)) (mst (firstn k ls)) (fee (skipn k ls)) (mst (skipn k ls)))).
Proof.
  intros ls. destruct ls as [|d [|d2 ds]].
  - exists []. repeat split; [left; reflexivity|]. left. auto.
  - exists (sum_leaf_input d). repeat split; [left; reflexivity|]. right. left. eauto.
  - assert (Hl : (2 <= length (d :: d2 :: ds))%nat) by (cbn [length]; lia).
    eexists. split; [rewrite mst_split by exact Hl; cbv zeta; reflexivity|].
    split; [rewrite mst_inputs_split by exact Hl; left; reflexivity|]. right. right. split; [exact Hl|reflexivity].
Qed.

Lemma sum_node_input_inj : forall f x g y f' x' g' y', sum_node_input f x g y = sum_node_input f' x' g' y' ->
  x = x' /\ y = y'.
Proof.
  intros f x g y f' x' g' y' E. unfold sum_node_input in E. apply cons_tl in E.
  apply app_len_inj in E; [|reflexivity]. destruct E as [_ E].
  apply app_len_inj in E; [|rewrite !b32_length; reflexivity]. destruct E as [E1 E].
  apply app_len_inj in E; [|reflexivity]. destruct E as [_ E2]. split; apply bytes32_ext; auto.
Qed.

Lemma sum_leaf_input_inj : forall l l', 0 <= fst l < 2 ^ 64 -> 0 <= fst l' < 2 ^ 64 ->
  sum_leaf_input l = sum_leaf_input l' -> l = l'.
Proof.
  intros [f d] [f' d'] Hf Hf' E. unfold sum_leaf_input in E. apply cons_tl in E.
  apply app_len_inj in E; [|reflexivity]. destruct E as [E1 E2]. cbn [fst snd] in *.
  apply u64_to_be_bytes_inj in E1; auto. congruence.
Qed.

Lemma fok_firstn : forall ls k, fok ls -> fok (firstn k ls) /\ fok (skipn k ls).
Proof. intros ls k F. rewrite <- (firstn_skipn k ls) in F. apply fok_app in F. exact F. Qed.

Lemma mst_binding : forall ls ls', fok ls -> fok ls' -> mst ls = mst ls' ->
  ls = ls' \/ has_collision H (mst_inputs ls ++ mst_inputs ls').
Proof.
  assert (A : forall n ls ls', (length ls <= n)%nat -> fok ls -> fok ls' -> mst ls = mst ls' ->
    ls = ls' \/ has_collision H (mst_inputs ls ++ mst_inputs ls')).
  { induction n as [|n IH]; intros ls ls' Hn F F' E;
    destruct (mst_root_input ls) as (x & Ex & Ix & Cx);
    destruct (mst_root_input ls') as (y & Ey & Iy & Cy);
    (destruct (bytes_eq_dec x y) as [Exy|N];
     [|right; exists x, y; repeat split; auto; [apply in_or_app; auto|apply in_or_app; auto|congruence]]).
    - destruct ls as [|d ls]; [|cbn [length] in Hn; lia].
      destruct Cx as [[_ ->]|[(d & C & _)|[C _]]]; [|discriminate C|cbn [length] in C; lia].
      subst y. destruct Cy as [[-> _]|[(d & _ & C)|[_ C]]]; [left; reflexivity|discriminate C|discriminate C].
    - subst y. destruct Cx as [[-> ->]|[(d & -> & ->)|[Hl ->]]].
      + destruct Cy as [[-> _]|[(d & _ & C)|[_ C]]]; [left; reflexivity|discriminate C|discriminate C].
      + destruct Cy as [[_ C]|[(d' & -> & C)|[_ C]]]; [discriminate C| |discriminate C].
        apply sum_leaf_input_inj in C; auto. subst. left. reflexivity.
      + destruct Cy as [[_ C]|[(d' & -> & C)|[Hl' C]]]; [discriminate C|discriminate C|].
        cbv zeta in C. apply sum_node_input_inj in C. destruct C as [C1 C2].
        set (k := split_point (length ls)) in *. set (k' := split_point (length ls')) in *.
        destruct (split_point_bounds _ Hl) as [B1 B2]. fold k in B1, B2.
        assert (I1 : incl (mst_inputs (firstn k ls) ++ mst_inputs (firstn k' ls')) (mst_inputs ls ++ mst_inputs ls')).
        { rewrite (mst_inputs_split _ _ ls Hl), (mst_inputs_split _ _ ls' Hl'). cbv zeta. fold k k'.
          intros z Hz. apply in_app_or in Hz. apply in_or_app. destruct Hz as [Hz|Hz]; [left|right]; right; apply in_or_app; auto. }
        assert (I2 : incl (mst_inputs (skipn k ls) ++ mst_inputs (skipn k' ls')) (mst_inputs ls ++ mst_inputs ls')).
        { rewrite (mst_inputs_split _ _ ls Hl), (mst_inputs_split _ _ ls' Hl'). cbv zeta. fold k k'.
          intros z Hz. apply in_app_or in Hz. apply in_or_app. destruct Hz as [Hz|Hz]; [left|right]; right; apply in_or_app; auto. }
        assert (L1 : (length (firstn k ls) <= n)%nat) by (rewrite firstn_length; lia).
        assert (L2 : (length (skipn k ls) <= n)%nat) by (rewrite skipn_length; lia).
        destruct (fok_firstn ls k F) as [F1 F2]. destruct (fok_firstn ls' k' F') as [F1' F2'].
        destruct (IH _ _ L1 F1 F1' C1) as [E1|C']; [|right; exact (collision_app H _ _ I1 C')].
        destruct (IH _ _ L2 F2 F2' C2) as [E2|C']; [|right; exact (collision_app H _ _ I2 C')].
        left. rewrite <- (firstn_skipn k ls), <- (firstn_skipn k' ls'), E1, E2. reflexivity. }
  intros ls ls' F F' E. apply (A (length ls)); auto.
Qed.
End Binding.

(** * Every truncated block is a subtree *)
Lemma block_inputs : forall ds h b, block h b ds <> [] -> incl (mst_inputs (block h b ds)) (mst_inputs ds).
Proof.
  assert (A : forall n ds h b, (length ds <= n)%nat -> block h b ds <> [] ->
    incl (mst_inputs (block h b ds)) (mst_inputs ds)).
  { induction n as [|n IH]; intros ds h b Hn NE.
    - destruct ds; [|cbn [length] in Hn; lia]. exfalso. apply NE. unfold block. rewrite skipn_nil, firstn_nil. reflexivity.
    - pose proof (pow2_pos h) as Hp.
      assert (Hb : (b * 2 ^ h < length ds)%nat).
      { destruct (le_lt_dec (length ds) (b * 2 ^ h)) as [C|]; auto. exfalso. apply NE.
        apply length_zero_iff_nil. rewrite block_length_eq. lia. }
      destruct (le_lt_dec (length ds) (2 ^ h)) as [Le|Gt].
      + assert (b = O) by nia. subst b. rewrite block_all by lia. apply incl_refl.
      + assert (Hl : (2 <= length ds)%nat) by lia.
        destruct (split_point_bounds _ Hl) as [[B1 B2] B3].
        assert (EK : exists u, split_point (length ds) = (u * 2 ^ h)%nat).
        { pose proof (split_point_largest (length ds) h Hl Gt) as LK. unfold split_point in *.
          set (j := Nat.log2 (length ds - 1)) in *.
          assert (h <= j)%nat. { destruct (le_lt_dec h j); auto. assert (2 ^ S j <= 2 ^ h)%nat by (apply pow2_le; lia).
            rewrite pow2_S in *. pose proof (pow2_pos j). lia. }
          exists (2 ^ (j - h))%nat. rewrite <- Nat.pow_add_r. f_equal. lia. }
        destruct EK as [u EK]. rewrite (mst_inputs_split _ _ ds Hl). cbv zeta.
        set (k := split_point (length ds)) in *.
        destruct (le_lt_dec u b) as [Ge|Lt].
        * assert (EB : block h b ds = block h (b - u) (skipn k ds)).
          { unfold block. rewrite <- skipn_plus. f_equal. f_equal. nia. }
          rewrite EB in *. intros z Hz. right. apply in_or_app. right.
          apply (IH (skipn k ds) h (b - u)%nat); auto. rewrite skipn_length. lia.
        * assert (EB : block h b ds = block h b (firstn k ds)).
          { rewrite <- (firstn_skipn k ds) at 1. apply block_app. rewrite firstn_length. nia. }
          rewrite EB in *. intros z Hz. right. apply in_or_app. left.
          apply (IH (firstn k ds) h b); auto. rewrite firstn_length. lia. }
  intros ds h b. apply (A (length ds)). lia.
Qed.

(** * Runs *)
Section Model.
Variable pr : profile.
Variable good : list leaf -> Prop.
Hypothesis good_app : forall a b, good (a ++ b) -> good a /\ good b.
Hypothesis fee_one : forall l, good [l] -> fee [l] = fst l.
Hypothesis fee_app : forall a b, good (a ++ b) -> u64_ovf pr (fee a + fee b) = Val (fee (a ++ b)).
Hypothesis fee_nil : fee [] = 0.
Context {St E : Type}.
Variable st : StorageT St bytes32 MNode E.
Variable view : St -> bytes32 -> option MNode.
Hypothesis L : Lawful st view.
Hypothesis He : H [] = empty_sum.

(** Written lists are non-empty truncated blocks of a prefix of [ds]. *)
Definition prefix_block (ds : list leaf) (ls : list leaf) : Prop :=
  exists n h b, (n <= length ds)%nat /\ ls = block h b (firstn n ds) /\ ls <> [].

Lemma blocks_prefix : forall ds es W, blocks_of ds W -> Forall (prefix_block (ds ++ es)) W.
Proof.
  intros ds es W F. eapply Forall_impl; [|exact F]. intros ls (h & b & E1 & E2).
  exists (length ds), h, b. rewrite firstn_app, Nat.sub_diag, firstn_all, firstn_O, app_nil_r, app_length.
  repeat split; auto. lia.
Qed.

Lemma run_ok : forall os ds t, Heads (rnode ds) 0 (length ds) (mt_head t) -> good (ds ++ pushed os) ->
  Z.of_nat (length (ds ++ pushed os)) <= sum_limit ->
  exists t' r W, mt_run H pr st os t = (t', Val r) /\
    Forall (prefix_block (ds ++ pushed os)) W /\
    (forall k, view (mt_storage t') k = wr H fee W (view (mt_storage t)) k) /\
    ((r = Ok (sum_answers H fee ds os) /\
      Heads (rnode (ds ++ pushed os)) 0 (length (ds ++ pushed os)) (mt_head t') /\
      (forall h b, (length ds < (b + 1) * 2 ^ h)%nat -> ((b + 1) * 2 ^ h <= length (ds ++ pushed os))%nat ->
         In (block h b (ds ++ pushed os)) W)) \/
     ((exists e, r = Err e) /\ ~ Infallible st)).
Proof.
  induction os as [|o os IH]; intros ds t Hh G HN.
  - cbn [pushed] in *. rewrite app_nil_r in *. exists t, (Ok []), [].
    split; [reflexivity|]. split; [constructor|]. split; auto. left. split; [reflexivity|]. split; auto.
    intros h b A B. lia.
  - destruct o as [x|]; cbn [mt_run pushed sum_answers] in *.
    + replace (ds ++ x :: pushed os) with ((ds ++ [x]) ++ pushed os) in * by (rewrite <- app_assoc; reflexivity).
      assert (G1 : good (ds ++ [x])) by (apply good_app in G; apply G).
      assert (HN1 : Z.of_nat (length ds + 1) <= sum_limit).
      { rewrite !app_length in HN. cbn [length] in HN. lia. }
      destruct (mpush_ok H fee pr good good_app fee_one fee_app st view L ds x t Hh G1 HN1)
        as (t1 & r1 & W1 & E1 & B1 & V1 & D1).
      unfold bind_try at 1. unfold bind at 1. rewrite E1.
      destruct D1 as [(-> & Hh1 & In1)|((e & ->) & NI & _)].
      2:{ exists t1, (Err e), W1. split; [reflexivity|]. split; [apply blocks_prefix; exact B1|]. split; auto.
          right. split; eauto. }
      assert (Hh1' : Heads (rnode (ds ++ [x])) 0 (length (ds ++ [x])) (mt_head t1))
        by (rewrite app_length; exact Hh1).
      destruct (IH (ds ++ [x]) t1 Hh1' G HN) as (t2 & r & W2 & E2 & B2 & V2 & D2).
      exists t2, r, (W1 ++ W2). rewrite E2. split; [reflexivity|].
      split; [apply Forall_app; split; auto; apply blocks_prefix; exact B1|].
      split; [intros k; rewrite V2, wr_app; apply wr_ext; exact V1|].
      destruct D2 as [(-> & Hh2 & In2)|D2]; [left|right; exact D2].
      split; auto. split; auto. intros h b A B. apply in_or_app.
      destruct (le_lt_dec ((b + 1) * 2 ^ h) (length ds + 1)) as [Le|Gt].
      * left. rewrite block_app by (rewrite app_length; cbn [length]; lia). apply In1. lia.
      * right. apply In2; auto. rewrite app_length. cbn [length]. lia.
    + assert (G1 : good ds) by (apply good_app in G; apply G).
      assert (HN1 : Z.of_nat (length ds) <= sum_limit) by (rewrite app_length in HN; lia).
      destruct (mroot_ok H fee pr good good_app fee_app st view L ds t Hh G1 HN1 He fee_nil)
        as (s1 & r1 & W1 & E1 & B1 & V1 & D1).
      unfold bind_try at 1. unfold bind at 1. rewrite E1.
      destruct D1 as [->|((e & ->) & NI)].
      2:{ eexists _, (Err e), W1. split; [reflexivity|]. split; [apply blocks_prefix; exact B1|]. split; auto.
          right. split; eauto. }
      destruct (IH ds (Build_MTree s1 (mt_head t)) Hh G HN) as (t2 & r & W2 & E2 & B2 & V2 & D2).
      unfold bind_try at 1. unfold bind at 1. rewrite E2.
      assert (FW : Forall (prefix_block (ds ++ pushed os)) (W1 ++ W2))
        by (apply Forall_app; split; auto; apply blocks_prefix; exact B1).
      assert (VW : forall k, view (mt_storage t2) k = wr H fee (W1 ++ W2) (view (mt_storage t)) k)
        by (intros k; rewrite V2, wr_app; apply wr_ext; exact V1).
      destruct D2 as [(-> & Hh2 & In2)|((e & ->) & NI)].
      * exists t2, (Ok ((fee ds, mst ds) :: sum_answers H fee ds os)), (W1 ++ W2). split; [reflexivity|].
        split; auto. split; auto. left. split; auto. split; auto.
        intros h b A B. apply in_or_app. right. apply In2; auto.
      * exists t2, (Err e), (W1 ++ W2). split; [reflexivity|]. split; auto. split; auto. right. split; eauto.
Qed.

Lemma run_new_ok : forall os s0, good (pushed os) -> Z.of_nat (length (pushed os)) <= sum_limit ->
  exists t' r W, mt_run H pr st os (mt_new s0) = (t', Val r) /\
    Forall (prefix_block (pushed os)) W /\
    (forall k, view (mt_storage t') k = wr H fee W (view s0) k) /\
    ((r = Ok (sum_answers H fee [] os) /\
      Heads (rnode (pushed os)) 0 (length (pushed os)) (mt_head t') /\
      (forall h b, ((b + 1) * 2 ^ h <= length (pushed os))%nat -> In (block h b (pushed os)) W)) \/
     ((exists e, r = Err e) /\ ~ Infallible st)).
Proof.
  intros os s0 G HN. destruct (run_ok os [] (mt_new s0)) as (t' & r & W & A & B & C & D); auto; [constructor|].
  exists t', r, W. split; auto. split; auto. split; auto.
  destruct D as [(D1 & D2 & D3)|D]; [left|right; exact D]. split; auto. split; auto.
  intros h b Hb. apply D3; auto. cbn [length]. pose proof (pow2_pos h). nia.
Qed.

Lemma pushed_pushes : forall ls, pushed (map Push ls) = ls.
Proof. induction ls; cbn; congruence. Qed.
Lemma pushed_app : forall a b, pushed (a ++ b) = pushed a ++ pushed b.
Proof. induction a as [|[x|] a IH]; intros b; cbn; rewrite ?IH; auto. Qed.
Lemma answers_app : forall a b ds, sum_answers H fee ds (a ++ b) = sum_answers H fee ds a ++ sum_answers H fee (ds ++ pushed a) b.
Proof.
  induction a as [|[x|] a IH]; intros b ds; cbn [app sum_answers pushed].
  - rewrite app_nil_r. reflexivity.
  - rewrite IH, <- app_assoc. reflexivity.
  - rewrite IH. reflexivity.
Qed.
End Model.
End Sum.

(** After a failed push the list of subtrees is the old one, or lost. *)
Section FailedPush.
Variable H : list byte -> bytes32.
Variable pr : profile.
Context {St E : Type}.
Variable st : StorageT St bytes32 MNode E.

Lemma insert_head : forall k v t t' r, mt_insert st k v t = (t', r) -> mt_head t' = mt_head t.
Proof. intros k v t t' r E0. unfold mt_insert in E0. destruct (s_insert st k v (mt_storage t)) as [s' [p|e]]; inversion E0; reflexivity. Qed.

Lemma join_head : forall a b t t' r, mt_join_subtrees H pr st a b t = (t', r) -> mt_head t' = mt_head t.
Proof.
  intros a b t t' r E0. unfold mt_join_subtrees in E0. unfold bind, bind_try, lift, ret in E0.
  destruct (u32_ovf pr (mn_height a + 1)) as [h| |]; try (inversion E0; reflexivity).
  destruct (mnode_create_node H pr h (mn_fee a) (mn_hash a) (mn_fee b) (mn_hash b)) as [n| |]; try (inversion E0; reflexivity).
  unfold bind in E0. destruct (mt_insert st (mn_hash n) n t) as [t1 o] eqn:Ei.
  apply insert_head in Ei. destruct o as [[u|e]| |]; inversion E0; subst; auto.
Qed.

Lemma loop_err_head : forall f t t' e,
  mt_join_all_subtrees_loop H pr st f t = (t', Val (Err e)) -> mt_head t' = [].
Proof.
  induction f as [|f IH]; intros t t' e E0; [discriminate E0|].
  cbn [mt_join_all_subtrees_loop] in E0. unfold bind at 1, get_state at 1 in E0.
  destruct (mt_head t) as [|x [|y l]] eqn:Eh; [discriminate E0|discriminate E0|].
  destruct (mn_height x =? mn_height y); [|discriminate E0].
  unfold bind at 1, mt_set_head at 1 in E0. unfold bind_try at 1 in E0. unfold bind at 1 in E0.
  match type of E0 with context [mt_join_subtrees H pr st ?a ?b ?t0] =>
    destruct (mt_join_subtrees H pr st a b t0) as [t1 [[j|e1]| |]] eqn:Ej end; try discriminate E0.
  - unfold bind at 1, mt_set_head at 1 in E0. apply IH in E0. exact E0.
  - apply join_head in Ej. inversion E0; subst. exact Ej.
Qed.

Lemma push_err_head : forall f d t t' e,
  mt_push H pr st f d t = (t', Val (Err e)) -> mt_head t' = mt_head t \/ mt_head t' = [].
Proof.
  intros f d t t' e E0. unfold mt_push in E0. unfold bind_try at 1 in E0. unfold bind at 1 in E0.
  match type of E0 with context [mt_insert st ?k ?v ?t0] =>
    destruct (mt_insert st k v t0) as [t1 [[u|e1]| |]] eqn:Ei end; try discriminate E0.
  2:{ apply insert_head in Ei. inversion E0; subst. auto. }
  unfold bind at 1, get_state at 1 in E0. unfold bind at 1, mt_set_head at 1 in E0.
  unfold mt_join_all_subtrees in E0. unfold bind_try at 1 in E0. unfold bind at 1 in E0.
  unfold bind at 1, get_state at 1 in E0.
  match type of E0 with context [mt_join_all_subtrees_loop H pr st ?g ?t0] =>
    destruct (mt_join_all_subtrees_loop H pr st g t0) as [t2 [[u2|e2]| |]] eqn:El end; try discriminate E0.
  apply loop_err_head in El. inversion E0; subst. auto.
Qed.
End FailedPush.

Section Main.
Variable H : list byte -> bytes32.
Variable pr : profile.
Context {St E : Type}.
Variable st : StorageT St bytes32 MNode E.
Variable view : St -> bytes32 -> option MNode.
Hypothesis L : Lawful st view.
Hypothesis He : H [] = empty_sum.

Lemma C50_lemma : forall ls s0, Infallible st -> fees_ok ls -> total_fee ls < 2 ^ 64 ->
  Z.of_nat (length ls) <= 2 ^ 64 ->
  exists t, mt_run H pr st (map Push ls ++ [Root]) (mt_new s0) = (t, Val (Ok [(total_fee ls, mst H total_fee ls)])).
Proof.
  intros ls s0 Inf F T HN.
  assert (P : pushed (map Push ls ++ [Root]) = ls) by (rewrite pushed_app, pushed_pushes; apply app_nil_r).
  destruct (run_new_ok H total_fee pr good_exact good_exact_app exact_one (exact_app pr) eq_refl st view L He
    (map Push ls ++ [Root]) s0) as (t & r & W & A & _ & _ & [(-> & _)|(_ & NI)]).
  - rewrite P. split; auto.
  - rewrite P. exact HN.
  - exists t. rewrite A. rewrite answers_app, pushed_pushes. cbn [sum_answers app].
    assert (N : forall ds, sum_answers H total_fee ds (map Push ls) = []) by (clear; induction ls; intros ds; cbn; auto).
    rewrite N. reflexivity.
  - contradiction.
Qed.

(** The answers of all root requests of any sequence of operations. *)
Lemma C52_lemma : forall os s0, Infallible st -> fees_fit pr (pushed os) ->
  Z.of_nat (length (pushed os)) <= 2 ^ 64 ->
  exists t, mt_run H pr st os (mt_new s0) = (t, Val (Ok (sum_answers H wrapped_fee [] os))).
Proof.
  intros os s0 Inf F HN.
  destruct (run_new_ok H wrapped_fee pr (fees_fit pr) (fit_app pr) (fit_one pr) (fit_app_fee pr) eq_refl st view L He
    os s0 F HN) as (t & r & W & A & _ & _ & [(-> & _)|(_ & NI)]); [eauto|contradiction].
Qed.

(** Two runs with the same pushes before the last root request. *)
Lemma C52_undisturbed : forall os ps s0, Infallible st -> fees_fit pr (pushed os) ->
  Z.of_nat (length (pushed os)) <= 2 ^ 64 -> ps = map Push (pushed os) ->
  exists t t' answers r,
    mt_run H pr st (os ++ [Root]) (mt_new s0) = (t, Val (Ok (answers ++ [r]))) /\
    mt_run H pr st (ps ++ [Root]) (mt_new s0) = (t', Val (Ok [r])).
Proof.
  intros os ps s0 Inf F HN ->.
  destruct (C52_lemma (os ++ [Root]) s0 Inf) as [t Et]; [rewrite pushed_app, app_nil_r; auto..|].
  destruct (C52_lemma (map Push (pushed os) ++ [Root]) s0 Inf) as [t' Et'];
    [rewrite pushed_app, pushed_pushes, app_nil_r; auto..|].
  rewrite answers_app in Et. rewrite answers_app, pushed_pushes in Et'. cbn [sum_answers app] in *.
  assert (N : forall ls ds, sum_answers H wrapped_fee ds (map Push ls) = []) by (clear; induction ls; intros ds; cbn; auto).
  rewrite N in Et'. exists t, t'. eexists _, _. split; [exact Et|exact Et'].
Qed.

Lemma wrapped_range : forall pr' ls, fees_fit pr' ls -> 0 <= wrapped_fee ls < 2 ^ 64.
Proof. intros pr' ls _. unfold wrapped_fee. apply Z.mod_pos_bound. reflexivity. Qed.
Lemma fit_one_range : forall pr' l, fees_fit pr' [l] -> 0 <= fst l < 2 ^ 64.
Proof. intros pr' l [F _]. inversion F; auto. Qed.

Lemma C53_lemma : forall ls ls' s0 s0', Infallible st ->
  fees_fit pr ls -> fees_fit pr ls' -> Z.of_nat (length ls) <= 2 ^ 64 -> Z.of_nat (length ls') <= 2 ^ 64 ->
  exists t t' f f' root root',
    mt_run H pr st (map Push ls ++ [Root]) (mt_new s0) = (t, Val (Ok [(f, root)])) /\
    mt_run H pr st (map Push ls' ++ [Root]) (mt_new s0') = (t', Val (Ok [(f', root')])) /\
    (root = root' -> ls = ls' \/ has_collision H (mst_inputs H wrapped_fee ls ++ mst_inputs H wrapped_fee ls')).
Proof.
  intros ls ls' s0 s0' Inf F F' HN HN'.
  assert (R : forall ls s0, fees_fit pr ls -> Z.of_nat (length ls) <= 2 ^ 64 -> exists t,
    mt_run H pr st (map Push ls ++ [Root]) (mt_new s0) = (t, Val (Ok [(wrapped_fee ls, mst H wrapped_fee ls)]))).
  { clear ls ls' s0 s0' F F' HN HN'. intros ls s0 F HN.
    destruct (C52_lemma (map Push ls ++ [Root]) s0 Inf) as [t Et]; [rewrite pushed_app, pushed_pushes, app_nil_r; auto..|].
    exists t. rewrite Et, answers_app, pushed_pushes. cbn [sum_answers app].
    assert (N : forall ds, sum_answers H wrapped_fee ds (map Push ls) = []) by (clear; induction ls; intros ds; cbn; auto).
    rewrite N. reflexivity. }
  destruct (R ls s0 F HN) as [t Et]. destruct (R ls' s0' F' HN') as [t' Et'].
  exists t, t'. eexists _, _, _, _. split; [exact Et|]. split; [exact Et'|].
  intros Er. apply (mst_binding H wrapped_fee (fees_fit pr) (fit_app pr) (fit_one_range pr)); auto.
Qed.

(** * Storage content *)
Lemma prefix_block_inputs : forall ds ls, prefix_block ds ls ->
  incl (mst_inputs H wrapped_fee ls) (prefix_inputs H wrapped_fee ds).
Proof.
  intros ds ls (n & h & b & Hn & -> & NE).
  assert (N0 : (0 < n)%nat).
  { destruct n; [|lia]. exfalso. apply NE. cbn. unfold block. rewrite skipn_nil, firstn_nil. reflexivity. }
  intros z Hz. apply (block_inputs H wrapped_fee (firstn n ds) h b NE) in Hz.
  unfold prefix_inputs. apply in_concat. exists (mst_inputs H wrapped_fee (firstn n ds)). split; auto.
  apply in_map_iff. exists n. split; auto. apply in_seq. lia.
Qed.

Lemma prefix_block_fit : forall ds ls, fees_fit pr ds -> prefix_block ds ls -> fees_fit pr ls.
Proof.
  intros ds ls F (n & h & b & Hn & -> & NE). unfold block.
  apply (fok_firstn (fees_fit pr) (fit_app pr)). apply (fok_firstn (fees_fit pr) (fit_app pr)).
  apply (fok_firstn (fees_fit pr) (fit_app pr)). exact F.
Qed.

Lemma C55_keyed : forall os s0, (forall k, view s0 k = None) -> fees_fit pr (pushed os) ->
  Z.of_nat (length (pushed os)) <= 2 ^ 64 ->
  forall t r, mt_run H pr st os (mt_new s0) = (t, Val r) ->
  forall k v, view (mt_storage t) k = Some v -> mn_hash v = k.
Proof.
  intros os s0 Em F HN t r Er k v Hv.
  destruct (run_new_ok H wrapped_fee pr (fees_fit pr) (fit_app pr) (fit_one pr) (fit_app_fee pr) eq_refl st view L He
    os s0 F HN) as (t1 & r1 & W & A & B & C & D).
  rewrite A in Er. inversion Er; subst t1 r1. rewrite C in Hv.
  destruct (wr_cases H wrapped_fee W (view s0) k) as [(ls & I & Ek & Ew)|[_ Ew]]; rewrite Ew in Hv.
  - inversion Hv; subst. reflexivity.
  - rewrite Em in Hv. discriminate.
Qed.

Lemma C55_present : forall os s0, fees_fit pr (pushed os) ->
  Z.of_nat (length (pushed os)) <= 2 ^ 64 ->
  ~ has_collision H (prefix_inputs H wrapped_fee (pushed os)) ->
  forall t rs, mt_run H pr st os (mt_new s0) = (t, Val (Ok rs)) ->
  forall h b, ((b + 1) * 2 ^ h <= length (pushed os))%nat ->
  let ls := block h b (pushed os) in
  view (mt_storage t) (mst H wrapped_fee ls) = Some
    {| mn_height := Z.of_nat h; mn_hash := mst H wrapped_fee ls; mn_fee := wrapped_fee ls;
       mn_left_child_key := match h with O => None | S h' => Some (mst H wrapped_fee (block h' (2 * b) (pushed os))) end;
       mn_right_child_key := match h with O => None | S h' => Some (mst H wrapped_fee (block h' (2 * b + 1) (pushed os))) end |}.
Proof.
  intros os s0 F HN NC t rs Er h b Hb ls.
  destruct (run_new_ok H wrapped_fee pr (fees_fit pr) (fit_app pr) (fit_one pr) (fit_app_fee pr) eq_refl st view L He
    os s0 F HN) as (t1 & r1 & W & A & B & C & D).
  rewrite A in Er. inversion Er; subst t1 r1.
  destruct D as [(_ & _ & D)|((e & D) & _)]; [|discriminate D].
  specialize (D h b Hb). fold ls in D.
  assert (NF : node_for H wrapped_fee ls =
    {| mn_height := Z.of_nat h; mn_hash := mst H wrapped_fee ls; mn_fee := wrapped_fee ls;
       mn_left_child_key := match h with O => None | S h' => Some (mst H wrapped_fee (block h' (2 * b) (pushed os))) end;
       mn_right_child_key := match h with O => None | S h' => Some (mst H wrapped_fee (block h' (2 * b + 1) (pushed os))) end |}).
  { assert (Len : length ls = (2 ^ h)%nat) by (apply block_length; exact Hb).
    destruct h as [|h].
    - unfold node_for. rewrite Len. reflexivity.
    - assert (LL : length (block h (2 * b) (pushed os)) = (2 ^ h)%nat) by (apply block_length; rewrite pow2_S in Hb; lia).
      assert (LR : length (block h (2 * b + 1) (pushed os)) = (2 ^ h)%nat) by (apply block_length; rewrite pow2_S in Hb; lia).
      pose proof (pow2_pos h). unfold ls. rewrite block_S.
      assert (MH : mst H wrapped_fee (block h (2 * b) (pushed os) ++ block h (2 * b + 1) (pushed os)) =
        mn_hash (node_for H wrapped_fee (block h (2 * b) (pushed os) ++ block h (2 * b + 1) (pushed os)))) by reflexivity.
      rewrite MH. rewrite (node_for_join H wrapped_fee h) by (auto; lia).
      replace (Z.of_nat (S h)) with (Z.of_nat h + 1) by lia. reflexivity. }
  rewrite C. rewrite <- NF.
  destruct (wr_cases H wrapped_fee W (view s0) (mst H wrapped_fee ls)) as [(ls' & I & Ek & Ew)|[N _]].
  - rewrite Ew. rewrite Forall_forall in B. pose proof (B _ D) as P1. pose proof (B _ I) as P2.
    destruct (mst_binding H wrapped_fee (fees_fit pr) (fit_app pr) (fit_one_range pr) ls ls'
      (prefix_block_fit (pushed os) ls F P1) (prefix_block_fit (pushed os) ls' F P2) Ek) as [<-|Col]; [reflexivity|].
    exfalso. apply NC. eapply collision_app; [|exact Col].
    intros z Hz. apply in_app_or in Hz. destruct Hz as [Hz|Hz];
      [apply (prefix_block_inputs _ _ P1 z Hz)|apply (prefix_block_inputs _ _ P2 z Hz)].
  - exfalso. apply (N ls D). reflexivity.
Qed.

(** * A failing push *)
Lemma C54_partial_lemma : forall os s0 t rs x t' e,
  fees_fit pr (pushed os ++ [x]) -> Z.of_nat (length (pushed os ++ [x])) <= 2 ^ 64 ->
  mt_run H pr st os (mt_new s0) = (t, Val (Ok rs)) ->
  mt_push H pr st (fst x) (snd x) t = (t', Val (Err e)) ->
  exists t2 r, mt_root H pr st t' = (t2, Val r) /\
    (r = Ok (wrapped_fee (pushed os), mst H wrapped_fee (pushed os)) \/
     (Nat.Odd (length (pushed os)) /\ r = Ok (0, mst H wrapped_fee [])) \/
     (exists e', r = Err e') /\ ~ Infallible st).
Proof.
  intros os s0 t rs x t' e F HN Er Ep.
  pose proof F as F1. apply fit_app in F1. destruct F1 as [F1 _].
  assert (HN1 : Z.of_nat (length (pushed os)) <= 2 ^ 64) by (rewrite app_length in HN; lia).
  destruct (run_new_ok H wrapped_fee pr (fees_fit pr) (fit_app pr) (fit_one pr) (fit_app_fee pr) eq_refl st view L He
    os s0 F1 HN1) as (t1 & r1 & W & A & B & C & D).
  rewrite A in Er. inversion Er; subst t1 r1.
  destruct D as [(_ & Hh & _)|((e' & D) & _)]; [|discriminate D].
  destruct (mpush_ok H wrapped_fee pr (fees_fit pr) (fit_app pr) (fit_one pr) (fit_app_fee pr) st view L (pushed os) x t Hh F)
    as (t2 & r2 & W2 & E2 & _ & _ & D2).
  { rewrite app_length in HN. exact HN. }
  rewrite Ep in E2. inversion E2; subst t2 r2.
  destruct D2 as [(C2 & _)|(_ & _ & Hd)]; [discriminate C2|].
  assert (Same : mt_head t' = mt_head t -> exists t2 r, mt_root H pr st t' = (t2, Val r) /\
    (r = Ok (wrapped_fee (pushed os), mst H wrapped_fee (pushed os)) \/
     (Nat.Odd (length (pushed os)) /\ r = Ok (0, mst H wrapped_fee [])) \/
     (exists e', r = Err e') /\ ~ Infallible st)).
  { intros Hd'. destruct (mroot_ok H wrapped_fee pr (fees_fit pr) (fit_app pr) (fit_app_fee pr) st view L (pushed os) t')
      as (s3 & r3 & W3 & E3 & _ & _ & D3); auto.
    { rewrite Hd'. exact Hh. }
    exists (Build_MTree s3 (mt_head t')), r3. split; auto. destruct D3 as [->|((e3 & ->) & NI)]; eauto 6. }
  destruct (Nat.Even_or_Odd (length (pushed os))) as [Ev|Od]; [exact (Same (Hd Ev))|].
  destruct (push_err_head H pr st _ _ _ _ _ Ep) as [Hd'|Hd']; [exact (Same Hd')|].
  exists t', (Ok (0, empty_sum)). split.
  - unfold mt_root, mt_root_node, bind_try, bind, get_state. rewrite Hd'. reflexivity.
  - right. left. split; auto. unfold mst. cbn [length mst_fuel]. rewrite He. reflexivity.
Qed.
End Main.

(** * Fees, for any storage and without bounds *)
Section Fees.
Variable H : list byte -> bytes32.
Variable pr : profile.
Context {St E : Type}.
Variable st : StorageT St bytes32 MNode E.

Definition fee_is (x y : Z) : Prop := if overflow_checks pr then x = y else x = y mod 2 ^ 64.

Definition head_fee (l : list MNode) : Z := fold_right (fun n s => mn_fee n + s) 0 l.
Definition head_ok (l : list MNode) : Prop := Forall (fun n => 0 <= mn_fee n < 2 ^ 64) l.

Lemma ovf_fee : forall z f, u64_ovf pr z = Val f -> 0 <= z -> fee_is f z /\ 0 <= f < 2 ^ 64.
Proof.
  intros z f E0 Hz. unfold u64_ovf, in_u64, U64 in E0. unfold fee_is.
  destruct (Z.leb_spec 0 z); destruct (Z.ltb_spec z (2 ^ 64)); cbn [andb] in E0; try lia.
  - inversion E0; subst. split; [destruct (overflow_checks pr); auto|lia]. symmetry. apply Z.mod_small. lia.
  - destruct (overflow_checks pr); [discriminate|]. inversion E0; subst. split; [reflexivity|]. unfold as_u64, U64. apply Z.mod_pos_bound. reflexivity.
Qed.

Lemma join_fee : forall a b t t' j, 0 <= mn_fee a < 2 ^ 64 -> 0 <= mn_fee b < 2 ^ 64 ->
  mt_join_subtrees H pr st a b t = (t', Val (Ok j)) ->
  mt_head t' = mt_head t /\ fee_is (mn_fee j) (mn_fee a + mn_fee b) /\ 0 <= mn_fee j < 2 ^ 64.
Proof.
  intros a b t t' j Ha Hb E0. unfold mt_join_subtrees in E0. unfold bind, bind_try, lift, ret in E0.
  destruct (u32_ovf pr (mn_height a + 1)) as [h| |]; try discriminate E0.
  unfold mnode_create_node in E0.
  destruct (u64_ovf pr (mn_fee a + mn_fee b)) as [f| |] eqn:Ef; cbn [obind] in E0; try discriminate E0.
  apply ovf_fee in Ef; [|lia].
  unfold bind in E0.
  match type of E0 with context [mt_insert st ?k ?v ?t0] =>
    destruct (mt_insert st k v t0) as [t1 [[u|e]| |]] eqn:Ei end; try discriminate E0.
  apply insert_head in Ei. inversion E0; subst. cbn [mn_fee]. auto.
Qed.

Lemma fee_is_trans : forall x y z, fee_is x y -> fee_is (x + z) (y + z) \/ overflow_checks pr = false.
Proof. intros x y z. unfold fee_is. destruct (overflow_checks pr); auto. intros ->. auto. Qed.

(** congruence of fees: equal in debug builds, equal modulo 2^64 in release builds *)
Definition feq (x y : Z) : Prop := if overflow_checks pr then x = y else x mod 2 ^ 64 = y mod 2 ^ 64.
Lemma feq_refl : forall x, feq x x.
Proof. intros x. unfold feq. destruct (overflow_checks pr); reflexivity. Qed.
Lemma feq_trans : forall x y z, feq x y -> feq y z -> feq x z.
Proof. intros x y z. unfold feq. destruct (overflow_checks pr); congruence. Qed.
Lemma feq_add : forall a b c d, feq a b -> feq c d -> feq (a + c) (b + d).
Proof.
  intros a b c d. unfold feq. destruct (overflow_checks pr); intros E1 E2; [congruence|].
  rewrite Z.add_mod, E1, E2, <- Z.add_mod by (intros C; discriminate C). reflexivity.
Qed.
Lemma feq_is : forall x y, fee_is x y -> feq x y.
Proof.
  intros x y. unfold fee_is, feq. destruct (overflow_checks pr); auto. intros ->. apply Z.mod_mod. intros C; discriminate C.
Qed.
Lemma is_feq : forall x y, feq x y -> 0 <= x < 2 ^ 64 -> fee_is x y.
Proof.
  intros x y. unfold fee_is, feq. destruct (overflow_checks pr); auto. intros E0 Hx. rewrite <- E0. symmetry. apply Z.mod_small. exact Hx.
Qed.

Lemma loop_fee : forall f t t', head_ok (mt_head t) ->
  mt_join_all_subtrees_loop H pr st f t = (t', Val (Ok tt)) ->
  head_ok (mt_head t') /\ feq (head_fee (mt_head t')) (head_fee (mt_head t)).
Proof.
  induction f as [|f IH]; intros t t' Hk E0; [discriminate E0|].
  cbn [mt_join_all_subtrees_loop] in E0. unfold bind at 1, get_state at 1 in E0.
  destruct (mt_head t) as [|x [|y l]] eqn:Eh; [discriminate E0| |].
  - inversion E0; subst. rewrite Eh. auto using feq_refl.
  - destruct (mn_height x =? mn_height y).
    + unfold bind at 1, mt_set_head at 1 in E0. unfold bind_try at 1 in E0. unfold bind at 1 in E0.
      inversion Hk as [|? ? Hx Hk1]; subst. inversion Hk1 as [|? ? Hy Hk2]; subst.
      match type of E0 with context [mt_join_subtrees H pr st ?a ?b ?t0] =>
        destruct (mt_join_subtrees H pr st a b t0) as [t1 [[j|e]| |]] eqn:Ej end; try discriminate E0.
      apply join_fee in Ej; auto. destruct Ej as (_ & Fj & Rj).
      unfold bind at 1, mt_set_head at 1 in E0.
      apply IH in E0; [|cbn [mt_head]; constructor; auto]. destruct E0 as [A B]. cbn [mt_head] in B.
      split; auto. eapply feq_trans; [exact B|]. cbn [head_fee fold_right]. fold (head_fee l).
      rewrite Z.add_assoc. apply feq_add; [|apply feq_refl]. apply feq_is in Fj. rewrite Z.add_comm. exact Fj.
    + inversion E0; subst. rewrite Eh. auto using feq_refl.
Qed.

Lemma push_fee : forall f d t t', 0 <= f < 2 ^ 64 -> head_ok (mt_head t) ->
  mt_push H pr st f d t = (t', Val (Ok tt)) ->
  head_ok (mt_head t') /\ feq (head_fee (mt_head t')) (head_fee (mt_head t) + f).
Proof.
  intros f d t t' Hf Hk E0. unfold mt_push in E0. unfold bind_try at 1 in E0. unfold bind at 1 in E0.
  match type of E0 with context [mt_insert st ?k ?v ?t0] =>
    destruct (mt_insert st k v t0) as [t1 [[u|e]| |]] eqn:Ei end; try discriminate E0.
  apply insert_head in Ei.
  unfold bind at 1, get_state at 1 in E0. unfold bind at 1, mt_set_head at 1 in E0.
  unfold mt_join_all_subtrees in E0. unfold bind_try at 1 in E0. unfold bind at 1 in E0.
  unfold bind at 1, get_state at 1 in E0.
  match type of E0 with context [mt_join_all_subtrees_loop H pr st ?g ?t0] =>
    destruct (mt_join_all_subtrees_loop H pr st g t0) as [t2 [[u2|e]| |]] eqn:El end; try discriminate E0.
  inversion E0; subst. destruct u2.
  apply loop_fee in El; cbn [mt_head] in *; rewrite Ei in *.
  - destruct El as [A B]. split; auto. cbn [head_fee fold_right] in B. fold (head_fee (mt_head t)) in B.
    rewrite Z.add_comm. exact B.
  - constructor; auto.
Qed.

Lemma root_loop_fee : forall next cur t t' n, head_ok (cur :: next) ->
  mt_root_node_loop H pr st cur next t = (t', Val (Ok n)) ->
  mt_head t' = mt_head t /\ 0 <= mn_fee n < 2 ^ 64 /\ feq (mn_fee n) (head_fee (cur :: next)).
Proof.
  induction next as [|y l IH]; intros cur t t' n Hk E0; cbn [mt_root_node_loop] in E0.
  - inversion E0; subst. inversion Hk; subst. split; auto. split; auto. cbn. rewrite Z.add_0_r. apply feq_refl.
  - inversion Hk as [|? ? Hx Hk1]; subst. inversion Hk1 as [|? ? Hy Hk2]; subst.
    unfold bind_try at 1 in E0. unfold bind at 1 in E0.
    destruct (mt_join_subtrees H pr st y cur t) as [t1 [[j|e]| |]] eqn:Ej; try discriminate E0.
    apply join_fee in Ej; auto. destruct Ej as (Hd & Fj & Rj).
    destruct (IH j t1 t' n ltac:(constructor; auto) E0) as (A & B & C).
    split; [congruence|]. split; auto. eapply feq_trans; [exact C|].
    cbn [head_fee fold_right]. fold (head_fee l). rewrite Z.add_assoc. apply feq_add; [|apply feq_refl].
    apply feq_is in Fj. rewrite Z.add_comm. exact Fj.
Qed.

Lemma root_fee : forall t t' f h, head_ok (mt_head t) -> mt_root H pr st t = (t', Val (Ok (f, h))) ->
  mt_head t' = mt_head t /\ fee_is f (head_fee (mt_head t)).
Proof.
  intros t t' f h Hk E0. unfold mt_root, mt_root_node in E0. unfold bind_try at 1 in E0. unfold bind at 1 in E0.
  unfold bind at 1, get_state at 1 in E0. destruct (mt_head t) as [|x next] eqn:Eh.
  - inversion E0; subst. rewrite Eh. split; auto. unfold fee_is. destruct (overflow_checks pr); reflexivity.
  - unfold bind_try at 1 in E0. unfold bind at 1 in E0.
    destruct (mt_root_node_loop H pr st x next t) as [t1 [[n|e]| |]] eqn:El; try discriminate E0.
    apply root_loop_fee in El; auto. destruct El as (A & B & C).
    inversion E0; subst. rewrite A, Eh. split; auto. apply is_feq; auto.
Qed.

(** What each root request answers as fee. *)
Fixpoint fee_answers (acc : Z) (os : list sum_op) : list Z :=
  match os with
  | [] => []
  | Push l :: os' => fee_answers (acc + fst l) os'
  | Root :: os' => acc :: fee_answers acc os'
  end.

Lemma run_fee : forall os t t' rs acc, head_ok (mt_head t) -> feq (head_fee (mt_head t)) acc ->
  fees_ok (pushed os) -> mt_run H pr st os t = (t', Val (Ok rs)) ->
  Forall2 (fun r a => fee_is (fst r) a) rs (fee_answers acc os).
Proof.
  induction os as [|[x|] os IH]; intros t t' rs acc Hk Hf F E0; cbn [mt_run pushed fee_answers] in *.
  - inversion E0; subst. constructor.
  - inversion F as [|? ? Fx F']; subst. unfold bind_try at 1 in E0. unfold bind at 1 in E0.
    destruct (mt_push H pr st (fst x) (snd x) t) as [t1 [[u|e]| |]] eqn:Ep; try discriminate E0.
    destruct u. apply push_fee in Ep; auto. destruct Ep as [A B].
    apply (IH t1 t' rs); auto. eapply feq_trans; [exact B|]. apply feq_add; auto using feq_refl.
  - unfold bind_try at 1 in E0. unfold bind at 1 in E0.
    destruct (mt_root H pr st t) as [t1 [[[f h]|e]| |]] eqn:Er; try discriminate E0.
    apply root_fee in Er; auto. destruct Er as [A B].
    unfold bind_try at 1 in E0. unfold bind at 1 in E0.
    destruct (mt_run H pr st os t1) as [t2 [[rs'|e]| |]] eqn:En; try discriminate E0.
    inversion E0; subst. constructor.
    + cbn [fst]. unfold fee_is, feq in *. destruct (overflow_checks pr); congruence.
    + apply (IH t1 t' rs'); auto; rewrite A; auto.
Qed.

Lemma fee_answers_pushes : forall ls acc, fee_answers acc (map Push ls ++ [Root]) = [acc + total_fee ls].
Proof.
  induction ls as [|l ls IH]; intros acc; cbn [map app fee_answers].
  - cbn. f_equal. lia.
  - rewrite IH. unfold total_fee. cbn [fold_right]. f_equal. lia.
Qed.

Lemma C51_partial_lemma : forall ls s0 t f root, fees_ok ls ->
  mt_run H pr st (map Push ls ++ [Root]) (mt_new s0) = (t, Val (Ok [(f, root)])) ->
  f = if overflow_checks pr then total_fee ls else total_fee ls mod 2 ^ 64.
Proof.
  intros ls s0 t f root F E0.
  pose proof (run_fee (map Push ls ++ [Root]) (mt_new s0) t [(f, root)] 0) as R.
  rewrite fee_answers_pushes in R.
  assert (P : pushed (map Push ls ++ [Root]) = ls) by (rewrite pushed_app, pushed_pushes; apply app_nil_r).
  rewrite P in R. specialize (R ltac:(constructor) (feq_refl 0) F E0).
  inversion R as [|? ? ? ? R1 _]; subst. unfold fee_is in R1. cbn [fst] in R1. rewrite Z.add_0_l in R1.
  destruct (overflow_checks pr); exact R1.
Qed.
End Fees.
