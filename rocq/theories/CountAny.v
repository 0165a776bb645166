(** CountAny.v -- how often trees call their storage, whatever the tree value and the storage. *)
From Verif Require Import Base Storage ModelCommon ModelBinary ModelSum SpecCount CountProofs EndProofs.
From Coq Require Import ZifyBool ZifyNat ZifyN.

Lemma peaks_length : forall pr n l, bt_peak_positions pr n = Val l -> (length l <= 65)%nat.
Proof.
  intros pr n l Q. unfold bt_peak_positions in Q.
  apply obind_val in Q. destruct Q as (m & _ & Q). apply obind_val in Q. destruct Q as (la & _ & Q). apply obind_val in Q. destruct Q as (lp & _ & Q).
  apply obind_val in Q. destruct Q as (rp & E & Q). apply obind_val in Q. destruct Q as (it & E2 & Q). apply obind_val in Q. destruct Q as ([o it'] & E3 & Q).
  apply obind_val in Q. destruct Q as (ps & C & Q). injection Q as <-. rewrite map_length.
  pose proof (pp_new_range _ _ _ _ _ (root_position_range _ _ _ E) E2) as R. destruct (pp_next pr it R) as [_ St]. destruct (St _ _ E3) as [R' _].
  pose proof (pp_collect_length _ _ _ _ R' C). pose proof (budget_max _ (proj1 R')). lia.
Qed.
Lemma sides_length : forall A B (l : list (A * B)), (length (removelast (rev (map snd l))) <= length l - 1)%nat.
Proof.
  intros A B l. assert (Q : length (rev (map snd l)) = length l) by (rewrite rev_length; apply map_length). rewrite <- Q.
  destruct (rev (map snd l)) as [|x m] using rev_ind; [cbn; lia|]. rewrite removelast_last, app_length. cbn. lia.
Qed.

Lemma load_any : forall pr St E (st : StorageT St Z BPrimitive E) n s s' o, bt_load pr (Counted st) n s = (s', o) ->
  at_most 65 0 0 (fst s) (fst s').
Proof.
  intros pr St E st n s s' o R. unfold bt_load in R. unfold bind at 1, lift in R.
  destruct (bt_peak_positions pr n) as [ps| |] eqn:P; try (injection R as <- _; apply at_most_refl).
  unfold bind_try, bind at 1 in R. destruct (bt_build_loop (Counted st) ps [] s) as [s1 o1] eqn:B.
  destruct (build_count _ _ _ _ _ _ B) as [C _]. apply peaks_length in P.
  assert (s' = s1) as -> by (destruct o1 as [[x|e]| |]; injection R as <- _; reflexivity).
  eapply at_most_mono; [exact C|lia..].
Qed.
Lemma prove_any : forall H pr St E (st : StorageT St Z BPrimitive E) i t t' o, bt_prove H pr (Counted st) i t = (t', o) ->
  at_most 65 0 0 (fst (bt_storage t)) (fst (bt_storage t')).
Proof.
  intros H pr St E st i t t' o R. unfold bt_prove in R. unfold bind at 1, get_state at 1 in R. unfold bind at 1, lift in R.
  destruct (u64_ovf pr (i + 1)) as [su| |]; try (injection R as <- _; apply at_most_refl).
  destruct (su >? bt_leaves_count t); [injection R as <- _; apply at_most_refl|].
  unfold bind at 1 in R. destruct (bt_root_position pr (bt_leaves_count t)) as [rp| |] eqn:RP; try (injection R as <- _; apply at_most_refl).
  unfold bind at 1 in R. destruct (pos_from_leaf_index pr i) as [lp| |]; try (injection R as <- _; apply at_most_refl).
  unfold bind_try at 1, bind at 1 in R. destruct (bt_get (Counted st) lp t) as [t1 o1] eqn:G.
  destruct (tget_count _ _ _ _ _ G) as (G1 & G2 & G3).
  destruct o1 as [[[p|]|e]| |]; try (injection R as <- _; unfold at_most; lia).
  unfold bind at 1 in R. destruct (position_path pr rp lp (bt_leaves_count t)) as [path| |] eqn:PP; try (injection R as <- _; unfold at_most; lia).
  apply path_length in PP; [|exact (root_position_range _ _ _ RP)].
  unfold bind at 1 in R. destruct (bt_root_node H pr t smap_new) as [[[rn|] sc]| |]; try (injection R as <- _; unfold at_most; lia).
  unfold bind_try, bind at 1 in R. pose proof (sides_length _ _ path) as SL.
  destruct (bt_prove_loop (Counted st) sc (removelast (rev (map snd path))) [bn_hash (bnode_of_prim p)] t1) as [t2 o2] eqn:P.
  destruct (prove_loop_count _ _ _ _ _ _ _ P) as [A _].
  assert (t' = t2) as -> by (destruct o2 as [[x|e]| |]; injection R as <- _; reflexivity).
  unfold at_most in *. lia.
Qed.

Lemma C113_binary_lemma : forall H pr St E (st : StorageT St Z BPrimitive E) t,
  (forall d t' o, bt_push H pr (Counted st) d t = (t', o) ->
     at_most 0 (1 + length (bt_head t)) 0 (fst (bt_storage t)) (fst (bt_storage t'))) /\
  (forall i t' o, bt_prove H pr (Counted st) i t = (t', o) -> at_most 65 0 0 (fst (bt_storage t)) (fst (bt_storage t'))) /\
  (forall n s s' o, bt_load pr (Counted st) n s = (s', o) -> at_most 65 0 0 (fst s) (fst s')).
Proof.
  intros H pr St E st t. split; [|split].
  - intros d t' o R. exact (proj1 (push_count _ _ _ _ _ _ _ R)).
  - intros i t' o R. exact (prove_any _ _ _ _ _ _ _ _ _ R).
  - intros n s s' o R. exact (load_any _ _ _ _ _ _ _ _ R).
Qed.
Lemma C113_sum_lemma : forall H pr St E (st : StorageT St bytes32 MNode E) t,
  (forall fee d t' o, mt_push H pr (Counted st) fee d t = (t', o) ->
     at_most 0 (1 + length (mt_head t)) 0 (fst (mt_storage t)) (fst (mt_storage t'))) /\
  (forall t' o, mt_root H pr (Counted st) t = (t', o) ->
     at_most 0 (length (mt_head t) - 1) 0 (fst (mt_storage t)) (fst (mt_storage t'))).
Proof.
  intros H pr St E st t. split.
  - intros fee d t' o R. exact (proj1 (mpush_count _ _ _ _ _ _ _ _ R)).
  - intros t' o R. exact (proj1 (proj2 (mroot_count _ _ _ _ _ _ R))).
Qed.
