(** EndProofs.v -- no call of the library runs out of the loop bounds of the model, on any
    tree value, storage and index. *)
From Coq Require Import ZifyBool ZifyNat ZifyN.
From Verif Require Import Base Storage ModelCommon ModelBinary ModelSparse ModelSum ModelVerify SpecBinary SpecSum RunsCalls RunsSparse
  SpecBinaryFacts PositionProofs BitsProofs CommonProofs SparseAny.
Ltac Zify.zify_post_hook ::= Z.div_mod_to_equations.

(** * Positions *)
Lemma u64_range : forall pr z q, u64_ovf pr z = Val q -> 0 <= q < U64.
Proof.
  intros pr z q R. unfold u64_ovf, in_u64, as_u64, U64 in *. destruct ((0 <=? z) && (z <? 2 ^ 64)) eqn:B.
  - injection R as <-. lia.
  - destruct (overflow_checks pr); [discriminate|]. injection R as <-. lia.
Qed.
Lemma offset_range : forall pr p s d q, pos_offset pr p s d = Val q -> 0 <= q < U64.
Proof.
  intros pr p s d q R. unfold pos_offset in R. destruct (i64_ovf pr (s * d)) as [x| |]; try discriminate. cbn [obind] in R.
  destruct (i64_ovf pr (as_i64 p + x)) as [y| |]; try discriminate. cbn [obind] in R. injection R as <-. unfold as_u64, U64. lia.
Qed.
Lemma child_range : forall pr p d q, pos_child pr p d = Val q -> 0 <= q < U64.
Proof.
  intros pr p d q R. unfold pos_child in R. destruct (assert (pos_is_node p)); try discriminate. cbn [obind] in R.
  destruct (shl1_i64 pr (pos_height p - 1)); try discriminate. cbn [obind] in R. exact (offset_range _ _ _ _ _ R).
Qed.
Lemma left_child_lower : forall pr p q, 0 <= p < U64 -> pos_left_child pr p = Val q -> 0 <= q < U64 /\ pos_height q = pos_height p - 1.
Proof.
  intros pr p q Hp R. split; [exact (child_range _ _ _ _ R)|].
  destruct (Z.eq_dec p (U64 - 1)) as [->|N].
  - destruct pr as [[] [] []]; vm_compute in R; try discriminate; injection R as <-; reflexivity.
  - destruct (index_of_exists p) as (h & b & Hh & ->); [lia|]. destruct h as [|g].
    { unfold pos_left_child, pos_child, pos_is_node in R. rewrite pos_is_leaf_0 in R. discriminate. }
    rewrite pos_left_child_ok in R by lia. injection R as <-. rewrite !pos_height_index by lia. lia.
Qed.
Lemma height_range : forall p, 0 <= pos_height p <= 64.
Proof.
  intros p. unfold pos_height, trailing_zeros.
  assert (G : forall f z, 0 <= trailing_zeros_loop f z <= Z.of_nat f).
  { induction f as [|f IH]; intros z; cbn [trailing_zeros_loop]; [lia|]. destruct (Z.odd z); [lia|]. specialize (IH (z / 2)). lia. }
  exact (G 64%nat _).
Qed.
Lemma leaf_of_height : forall pr p, 0 <= p < U64 -> pos_height p = 0 -> pos_left_child pr p = Panic.
Proof.
  intros pr p Hp Z0. destruct (Z.eq_dec p (U64 - 1)) as [->|N]; [rewrite pos_height_max in Z0; lia|].
  destruct (index_of_exists p) as (h & b & Hh & ->); [lia|]. rewrite pos_height_index in Z0 by lia. assert (h = 0%nat) by lia. subst h.
  unfold pos_left_child, pos_child, pos_is_node. rewrite pos_is_leaf_0. reflexivity.
Qed.
Lemma nf_i64 : forall pr z, i64_ovf pr z <> Fuel.
Proof. intros pr z. unfold i64_ovf. destruct (in_i64 z), (overflow_checks pr); discriminate. Qed.
Lemma nf_shift : forall pr z, shift_amount pr z <> Fuel.
Proof. intros pr z. unfold shift_amount. destruct (z <? 64), (overflow_checks pr); discriminate. Qed.
Lemma nf_child : forall pr p d, pos_child pr p d <> Fuel.
Proof.
  intros. unfold pos_child. apply nf_obind; [apply nf_assert|]. intros _. apply nf_obind; [|intros s].
  - unfold shl1_i64. apply nf_obind; [apply nf_shift|discriminate].
  - unfold pos_offset. apply nf_obind; [apply nf_i64|]. intros x. apply nf_obind; [apply nf_i64|discriminate].
Qed.
Lemma descend_ends : forall pr f r s, 0 <= s < U64 -> pos_height s < Z.of_nat f -> side_descend pr f r s <> Fuel.
Proof.
  intros pr. induction f as [|f IH]; intros r s Hs Hh; [pose proof (height_range s); lia|]. cbn [side_descend].
  destruct (s <=? r); [discriminate|]. destruct (pos_left_child pr s) as [q| |] eqn:L; try discriminate.
  - cbn [obind]. destruct (left_child_lower _ _ _ Hs L) as [Hq Eq]. apply IH; [exact Hq|lia].
  - exfalso. exact (nf_child _ _ _ L).
Qed.

(** * The path iterators: a step costs one key bit. *)
Definition pbudget (it : PathIter Z Empty_set) : nat :=
  match it_current it with None => 0%nat | Some _ => S (Z.to_nat (64 - it_current_offset it)) end.
Definition prange (it : PathIter Z Empty_set) : Prop :=
  0 <= it_current_offset it /\ match it_current it with Some (Ok p, Ok s) => 0 <= p < U64 /\ 0 <= s < U64 | _ => True end.

Lemma instruction_short8 : forall (a : list byte) i j, length a = 8%nat -> 0 <= i -> get_instruction a i = Some j -> i < 64.
Proof.
  intros a i j L I0 G. unfold get_instruction, get_bit_at_index_from_msb, slice_get in G.
  destruct (Z.ltb_spec i 64) as [|B]; auto. exfalso.
  replace (i / 8 <? Z.of_nat (length a)) with false in G by lia. discriminate.
Qed.
Lemma pos_next : forall pr it, prange it ->
  snd (path_iter_next (PositionNode pr) it tt) <> Fuel /\
  forall item it', snd (path_iter_next (PositionNode pr) it tt) = Val (item, it') ->
    item = it_current it /\ prange it' /\ (item <> None -> (pbudget it' < pbudget it)%nat).
Proof.
  intros pr [leaf cur off] [O0 Rg]. cbn [it_current it_current_offset] in *. unfold path_iter_next.
  cbn [it_current it_leaf it_current_offset].
  destruct cur as [[[p|[]] sd]|].
  2:{ cbn. split; [discriminate|]. intros item it' Q. injection Q as <- <-. split; [reflexivity|]. split; [split; auto|congruence]. }
  cbn [pn_is_node PositionNode].
  assert (Stop : forall item it', Val (Some (Ok (E := Empty_set) p, sd), Build_PathIter leaf None off) = Val (item, it') ->
    item = Some (Ok (E := Empty_set) p, sd) /\ prange it' /\ (item <> None -> (pbudget it' < pbudget (Build_PathIter leaf (Some (Ok p, sd)) off))%nat)).
  { intros item it' Q. injection Q as <- <-. split; [reflexivity|]. split; [split; [exact O0|exact I]|]. intros _. unfold pbudget. cbn. lia. }
  destruct (pos_is_node p); [|split; [discriminate|exact Stop]].
  cbn [pn_leaf_key pn_left_child pn_right_child PositionNode]. unfold bind, lift, ret.
  unfold pos_leaf_key, pos_leaf_index. destruct (pos_is_leaf leaf); cbn [assert obind]; [|split; discriminate].
  set (key := u64_to_be_bytes (leaf / 2)) in *. assert (Lk : length key = 8%nat) by reflexivity. clearbody key.
  destruct (get_instruction key off) as [j|] eqn:G; [|split; [discriminate|exact Stop]].
  pose proof (instruction_short8 _ _ _ Lk O0 G) as Lt.
  assert (Go : forall x y, 0 <= x < U64 -> 0 <= y < U64 -> forall item it',
    Val (Some (Ok (E := Empty_set) p, sd), Build_PathIter (CE := Empty_set) leaf (Some (Ok x, Ok y)) (off + 1)) = Val (item, it') ->
    item = Some (Ok (E := Empty_set) p, sd) /\ prange it' /\ (item <> None -> (pbudget it' < pbudget (Build_PathIter leaf (Some (Ok p, sd)) off))%nat)).
  { intros x y Hx Hy item it' Q. injection Q as <- <-. split; [reflexivity|]. split; [split; cbn; auto; lia|]. intros _. unfold pbudget. cbn. lia. }
  destruct j.
  - destruct (pos_left_child pr p) as [l| |] eqn:EL; [|split; discriminate|exfalso; exact (nf_child _ _ _ EL)].
    destruct (pos_right_child pr p) as [r| |] eqn:ER; [|split; discriminate|exfalso; exact (nf_child _ _ _ ER)].
    cbn [snd]. split; [discriminate|]. apply Go; [exact (child_range _ _ _ _ EL)|exact (child_range _ _ _ _ ER)].
  - destruct (pos_right_child pr p) as [r| |] eqn:ER; [|split; discriminate|exfalso; exact (nf_child _ _ _ ER)].
    destruct (pos_left_child pr p) as [l| |] eqn:EL; [|split; discriminate|exfalso; exact (nf_child _ _ _ EL)].
    cbn [snd]. split; [discriminate|]. apply Go; [exact (child_range _ _ _ _ ER)|exact (child_range _ _ _ _ EL)].
Qed.
Lemma iter_collect_ends : forall pr f it, prange it -> (pbudget it < f)%nat -> position_iter_collect pr f it <> Fuel.
Proof.
  intros pr. induction f as [|f IH]; intros it Rg B; [lia|]. cbn [position_iter_collect].
  destruct (pos_next pr it Rg) as [NF St]. destruct (snd (path_iter_next (PositionNode pr) it tt)) as [[item it']| |]; cbn [obind]; [|discriminate|congruence].
  destruct (St _ _ eq_refl) as (_ & Rg' & Lt). destruct item as [[[p|[]] [s|[]]]|]; [|discriminate].
  apply nf_obind; [|discriminate]. apply IH; [exact Rg'|]. specialize (Lt ltac:(discriminate)). lia.
Qed.
Lemma iter_new : forall pr root leaf it, 0 <= root < U64 -> path_iter_new pr (PositionNode pr) root leaf = Val it ->
  prange it /\ (pbudget it <= 65)%nat.
Proof.
  intros pr root leaf it Hr Q. unfold path_iter_new in Q. cbn [pn_key_size_in_bits pn_height PositionNode] in Q.
  pose proof (height_range root). rewrite usize_ovf_in in Q by lia. cbn [obind] in Q. injection Q as <-.
  split; [split; [cbn [it_current_offset]; lia|cbn [it_current]; auto]|]. unfold pbudget. cbn [it_current it_current_offset]. lia.
Qed.
Lemma nf_iter_new : forall pr root leaf, path_iter_new pr (PositionNode pr) root leaf <> Fuel.
Proof. intros. unfold path_iter_new. apply nf_obind; [apply nf_usize|discriminate]. Qed.
Lemma position_iter_ends : forall pr root leaf, 0 <= root < U64 -> position_iter pr root leaf <> Fuel.
Proof.
  intros pr root leaf Hr. unfold position_iter. destruct (path_iter_new pr (PositionNode pr) root leaf) as [it| |] eqn:E; [|discriminate|exfalso; exact (nf_iter_new _ _ _ E)].
  cbn [obind]. destruct (iter_new _ _ _ _ Hr E) as [Rg B]. apply iter_collect_ends; [exact Rg|lia].
Qed.

Definition pprange (it : PositionPathIter) : Prop :=
  prange (pp_path_iter it) /\ match pp_current_side_node it with Some s => 0 <= s < U64 | None => True end.
Lemma pp_loop : forall pr f it, pprange it -> (pbudget (pp_path_iter it) < f)%nat ->
  position_path_next_loop pr f it <> Fuel /\
  forall o it', position_path_next_loop pr f it = Val (o, it') ->
    pprange it' /\ (o <> None -> (pbudget (pp_path_iter it') < pbudget (pp_path_iter it))%nat).
Proof.
  intros pr. induction f as [|f IH]; intros it [Rg Sd] B; [lia|]. cbn [position_path_next_loop]. unfold run_unit.
  destruct (pos_next pr (pp_path_iter it) Rg) as [NF St].
  destruct (snd (path_iter_next (PositionNode pr) (pp_path_iter it) tt)) as [[item inner]| |]; cbn [obind]; [|split; discriminate|congruence].
  destruct (St _ _ eq_refl) as (Ei & Rg' & Lt). destruct item as [[[p|[]] [s|[]]]|].
  2:{ split; [discriminate|]. intros o it' Q. injection Q as <- <-. split; [split; auto|congruence]. }
  specialize (Lt ltac:(discriminate)). assert (Hs : 0 <= s < U64) by (destruct Rg as [_ Rg]; rewrite <- Ei in Rg; tauto).
  destruct (p <=? pp_rightmost_position it).
  - set (sd := match pp_current_side_node it with Some n => n | None => s end).
    assert (Hd : 0 <= sd < U64) by (subst sd; destruct (pp_current_side_node it); auto).
    pose proof (descend_ends pr 65 (pp_rightmost_position it) sd Hd ltac:(pose proof (height_range sd); lia)) as De.
    destruct (side_descend pr 65 (pp_rightmost_position it) sd) as [q| |]; cbn [obind]; [|split; discriminate|congruence].
    split; [discriminate|]. intros o it' Q. injection Q as _ <-. split; [split; [exact Rg'|exact I]|intros _; exact Lt].
  - destruct (IH {| pp_rightmost_position := pp_rightmost_position it;
        pp_current_side_node := match pp_current_side_node it with None => Some s | Some n => Some n end;
        pp_path_iter := inner |}) as [A C].
    { split; [exact Rg'|]. cbn [pp_current_side_node]. destruct (pp_current_side_node it); auto. }
    { cbn [pp_path_iter]. lia. }
    split; [exact A|]. intros o it' Q. destruct (C o it' Q) as [C1 C2]. split; [exact C1|]. intros No. specialize (C2 No). cbn [pp_path_iter] in C2. lia.
Qed.
Lemma budget_max : forall it, prange it -> (pbudget it <= 65)%nat.
Proof. intros it [O0 _]. unfold pbudget. destruct (it_current it); lia. Qed.
Lemma pp_next : forall pr it, pprange it ->
  position_path_next pr it <> Fuel /\
  forall o it', position_path_next pr it = Val (o, it') ->
    pprange it' /\ (o <> None -> (pbudget (pp_path_iter it') < pbudget (pp_path_iter it))%nat).
Proof. intros pr it R. apply pp_loop; [exact R|]. pose proof (budget_max _ (proj1 R)). lia. Qed.
Lemma pp_collect : forall pr f it, pprange it -> (pbudget (pp_path_iter it) < f)%nat -> position_path_collect pr f it <> Fuel.
Proof.
  intros pr. induction f as [|f IH]; intros it R B; [lia|]. cbn [position_path_collect].
  destruct (pp_next pr it R) as [NF St]. destruct (position_path_next pr it) as [[[x|] it']| |]; cbn [obind]; try discriminate; [|congruence].
  destruct (St _ _ eq_refl) as [R' Lt]. specialize (Lt ltac:(discriminate)). apply nf_obind; [|discriminate]. apply IH; [exact R'|lia].
Qed.
Lemma pp_new : forall pr root leaf n, position_path_iter_new pr root leaf n <> Fuel.
Proof.
  intros. unfold position_path_iter_new. apply nf_obind; [apply nf_u64|]. intros l. apply nf_obind; [apply nf_u64|]. intros r.
  apply nf_obind; [apply nf_iter_new|discriminate].
Qed.
Lemma pp_new_range : forall pr root leaf n it, 0 <= root < U64 -> position_path_iter_new pr root leaf n = Val it -> pprange it.
Proof.
  intros pr root leaf n it Hr Q. unfold position_path_iter_new in Q. destruct (u64_ovf pr (n - 1)) as [l| |]; try discriminate. cbn [obind] in Q.
  destruct (pos_from_leaf_index pr l) as [r| |]; try discriminate. cbn [obind] in Q.
  destruct (path_iter_new pr (PositionNode pr) root leaf) as [i| |] eqn:E; try discriminate. cbn [obind] in Q. injection Q as <-.
  split; [exact (proj1 (iter_new _ _ _ _ Hr E))|exact I].
Qed.
Lemma position_path_ends : forall pr root leaf n, 0 <= root < U64 -> position_path pr root leaf n <> Fuel.
Proof.
  intros pr root leaf n Hr. unfold position_path. destruct (position_path_iter_new pr root leaf n) as [it| |] eqn:E; [|discriminate|exfalso; exact (pp_new _ _ _ _ E)].
  cbn [obind]. pose proof (pp_new_range _ _ _ _ _ Hr E) as R. apply pp_collect; [exact R|]. pose proof (budget_max _ (proj1 R)). lia.
Qed.

(** * The binary tree *)
Section Binary.
Variable H : list byte -> bytes32.
Variable pr : profile.

Lemma nf_pos_index : forall i, pos_from_leaf_index pr i <> Fuel.
Proof. intros. apply nf_u64. Qed.
Lemma nf_shl_i : forall z, shl1_i64 pr z <> Fuel.
Proof. intros. unfold shl1_i64. apply nf_obind; [apply nf_shift|discriminate]. Qed.
Lemma nf_shl_u : forall z, shl1_u64 pr z <> Fuel.
Proof. intros. unfold shl1_u64. apply nf_obind; [apply nf_shift|discriminate]. Qed.
Lemma nf_direction : forall p, pos_direction pr p <> Fuel.
Proof.
  intros. unfold pos_direction, pos_orientation. apply nf_obind; [|discriminate]. apply nf_obind; [apply nf_shl_u|discriminate].
Qed.
Lemma nf_offset : forall p s d, pos_offset pr p s d <> Fuel.
Proof. intros. unfold pos_offset. apply nf_obind; [apply nf_i64|]. intros x. apply nf_obind; [apply nf_i64|discriminate]. Qed.
Lemma nf_sibling : forall p, pos_sibling pr p <> Fuel.
Proof. intros. unfold pos_sibling. apply nf_obind; [apply nf_shl_i|]. intros s. apply nf_obind; [apply nf_direction|]. intros d. apply nf_offset. Qed.
Lemma nf_parent : forall p, pos_parent pr p <> Fuel.
Proof. intros. unfold pos_parent. apply nf_obind; [apply nf_shl_i|]. intros s. apply nf_obind; [apply nf_direction|]. intros d. apply nf_offset. Qed.
Lemma nf_uncle : forall p, pos_uncle pr p <> Fuel.
Proof. intros. unfold pos_uncle. apply nf_obind; [apply nf_parent|]. intros q. apply nf_sibling. Qed.
Lemma nf_leaf : forall i d, bnode_create_leaf H pr i d <> Fuel.
Proof. intros. unfold bnode_create_leaf. apply nf_obind; [apply nf_pos_index|discriminate]. Qed.
Lemma nf_node : forall a b, bnode_create_node H pr a b <> Fuel.
Proof. intros. unfold bnode_create_node. apply nf_obind; [apply nf_parent|discriminate]. Qed.
Lemma nf_build_root : forall next cur sc, build_root_node H pr cur next sc <> Fuel.
Proof.
  induction next as [|n next IH]; intros cur sc; cbn [build_root_node]; [discriminate|]. apply nf_obind; [apply nf_node|]. intros j. apply IH.
Qed.
Lemma nf_root_node : forall S (t : BTree S) sc, bt_root_node H pr t sc <> Fuel.
Proof.
  intros. unfold bt_root_node. destruct (bt_head t); [discriminate|]. apply nf_obind; [apply nf_build_root|]. intros [r sc']. discriminate.
Qed.
Lemma nf_root : forall S (t : BTree S), bt_root H pr t <> Fuel.
Proof. intros. unfold bt_root. apply nf_obind; [apply nf_root_node|]. intros [[r|] sc]; discriminate. Qed.
Lemma nf_next_pow : forall n, next_power_of_two pr n <> Fuel.
Proof. intros. unfold next_power_of_two. destruct (n <=? 1); [discriminate|apply nf_u64]. Qed.
Lemma nf_root_position : forall n, bt_root_position pr n <> Fuel.
Proof. intros. unfold bt_root_position. apply nf_obind; [apply nf_u64|]. intros m. apply nf_obind; [apply nf_next_pow|]. intros k. apply nf_u64. Qed.
Lemma root_position_range : forall n p, bt_root_position pr n = Val p -> 0 <= p < U64.
Proof.
  intros n p Q. unfold bt_root_position in Q. destruct (u64_ovf pr (n + 1)) as [m| |]; try discriminate. cbn [obind] in Q.
  destruct (next_power_of_two pr m) as [k| |]; try discriminate. cbn [obind] in Q. exact (u64_range _ _ _ Q).
Qed.
Lemma nf_peaks : forall n, bt_peak_positions pr n <> Fuel.
Proof.
  intros n. unfold bt_peak_positions. apply nf_obind; [apply nf_u64|]. intros m. apply nf_obind; [apply nf_u64|]. intros l.
  apply nf_obind; [apply nf_pos_index|]. intros lp. destruct (bt_root_position pr n) as [rp| |] eqn:E; [|discriminate|exfalso; exact (nf_root_position _ E)].
  cbn [obind]. destruct (position_path_iter_new pr rp lp m) as [it| |] eqn:E2; [|discriminate|exfalso; exact (pp_new _ _ _ _ E2)].
  cbn [obind]. pose proof (pp_new_range _ _ _ _ _ (root_position_range _ _ E) E2) as R.
  destruct (pp_next pr it R) as [NF St]. destruct (position_path_next pr it) as [[o it']| |] eqn:E3; cbn [obind]; [|discriminate|congruence].
  destruct (St _ _ eq_refl) as [R' _]. apply nf_obind; [|discriminate]. apply pp_collect; [exact R'|]. pose proof (budget_max _ (proj1 R')). lia.
Qed.

Context {St E : Type}.
Variable st : StorageT St Z BPrimitive E.
Lemma nf_bst_get : forall k, nf (bst_get st k).
Proof. intros k s. unfold bst_get. destruct (s_get st k s) as [s' [v|e]]; discriminate. Qed.
Lemma nf_bt_get : forall k, nf (bt_get st k).
Proof. intros k t. unfold bt_get. pose proof (nf_bst_get k (bt_storage t)) as N. destruct (bst_get st k (bt_storage t)) as [s' o]. exact N. Qed.
Lemma nf_bt_insert : forall k v, nf (bt_insert st k v).
Proof. intros k v t. unfold bt_insert. destruct (s_insert st k v (bt_storage t)) as [s' [p|e]]; discriminate. Qed.
Lemma nf_state : forall S A (f : S -> M S A), (forall s, nf (f s)) -> nf (bind get_state f).
Proof. intros S A f F s. exact (F s s). Qed.
Lemma nf_lift_bind : forall S A B (o : out A) (f : A -> M S B), o <> Fuel -> (forall a, o = Val a -> nf (f a)) -> nf (bind (lift o) f).
Proof. intros S A B o f N F s. unfold bind, lift. destruct o as [a| |]; [exact (F a eq_refl s)|discriminate|congruence]. Qed.
Lemma nf_build : forall ps l, nf (bt_build_loop st ps l).
Proof.
  induction ps as [|k ps IH]; intros l; cbn [bt_build_loop]; [apply nf_ret|]. apply nf_try; [apply nf_bst_get|]. intros [p|]; [apply IH|apply nf_ret].
Qed.
Lemma bt_load_ends : forall n, nf (bt_load pr st n).
Proof.
  intros n. unfold bt_load. apply nf_bind; [apply nf_lift, nf_peaks|]. intros ps. apply nf_try; [apply nf_build|]. intros h.
  apply nf_state. intros s. apply nf_ret.
Qed.
Lemma bt_insert_head : forall k v t t' o, bt_insert st k v t = (t', o) -> bt_head t' = bt_head t.
Proof. intros k v t t' o R. unfold bt_insert in R. destruct (s_insert st k v (bt_storage t)) as [s' [p|e]]; injection R as <- _; reflexivity. Qed.
Lemma bt_join_ends : forall f t, length (bt_head t) = f -> (0 < f)%nat -> snd (bt_join_all_subtrees_loop H pr st f t) <> Fuel.
Proof.
  induction f as [|f IH]; intros t L P; [lia|]. cbn [bt_join_all_subtrees_loop]. unfold bind at 1, get_state.
  destruct (bt_head t) as [|a [|b l]] eqn:Hd; [discriminate..|].
  destruct (pos_height (bn_position a) =? pos_height (bn_position b)); [|discriminate].
  unfold bind at 1, bt_set_head at 1. unfold bind at 1, lift. destruct (bnode_create_node H pr b a) as [j| |] eqn:J; [|discriminate|exfalso; exact (nf_node _ _ J)].
  unfold bind_try, bind at 1. pose proof (nf_bt_insert (bn_position j) (bprim_of_node j) (Build_BTree (bt_storage t) [] (bt_leaves_count t))) as NI.
  destruct (bt_insert st (bn_position j) (bprim_of_node j) (Build_BTree (bt_storage t) [] (bt_leaves_count t))) as [t1 [[u|e]| |]]; [|discriminate..|congruence].
  unfold bind at 1, bt_set_head at 1. apply IH; cbn [bt_head length] in *; lia.
Qed.
Lemma bt_push_ends : forall d, nf (bt_push H pr st d).
Proof.
  intros d t. unfold bt_push. unfold bind at 1, get_state at 1. unfold bind at 1, lift at 1.
  destruct (bnode_create_leaf H pr (bt_leaves_count t) d) as [n| |] eqn:L; [|discriminate|exfalso; exact (nf_leaf _ _ L)].
  unfold bind_try at 1, bind at 1. pose proof (nf_bt_insert (bn_position n) (bprim_of_node n) t) as NI.
  destruct (bt_insert st (bn_position n) (bprim_of_node n) t) as [t1 [[u|e]| |]]; [|discriminate..|congruence].
  unfold bind at 1, get_state at 1. unfold bind at 1, bt_set_head at 1. unfold bind_try at 1, bind at 1.
  unfold bt_join_all_subtrees at 1, bind at 1, get_state at 1. cbn [bt_head].
  match goal with |- context [bt_join_all_subtrees_loop H pr st ?f ?x] => pose proof (bt_join_ends f x eq_refl ltac:(cbn; lia)) as NJ;
    destruct (bt_join_all_subtrees_loop H pr st f x) as [t2 [[u2|e]| |]] end; [|discriminate..|congruence].
  refine (nf_bind _ _ _ get_state _ _ _ t2); [intros s; discriminate|]. intros s. apply nf_bind; [apply nf_lift, nf_u64|].
  intros c. apply nf_bind; [intros s'; discriminate|]. intros _. apply nf_ret.
Qed.
Lemma nf_prove_loop : forall sc l ps, nf (bt_prove_loop st sc l ps).
Proof.
  intros sc. induction l as [|k l IH]; intros ps; cbn [bt_prove_loop]; [apply nf_ret|]. apply nf_try; [apply nf_bt_get|]. intros o.
  destruct (match smap_lookup Z.eqb sc k with Some p => Some p | None => o end); [apply IH|apply nf_ret].
Qed.
Lemma bt_prove_ends : forall i, nf (bt_prove H pr st i).
Proof.
  intros i. unfold bt_prove. apply nf_state. intros t. apply nf_bind; [apply nf_lift, nf_u64|]. intros succ.
  destruct (succ >? bt_leaves_count t); [apply nf_ret|]. apply nf_lift_bind; [apply nf_root_position|]. intros rp Er.
  apply nf_bind; [apply nf_lift, nf_pos_index|]. intros lp. apply nf_try; [apply nf_bt_get|]. intros [p|]; [|apply nf_ret].
  apply nf_bind; [apply nf_lift, position_path_ends; exact (root_position_range _ _ Er)|]. intros path. cbv zeta.
  apply nf_bind; [apply nf_lift, nf_root_node|]. intros [[rn|] sc]; [|apply nf_panic]. apply nf_try; [apply nf_prove_loop|]. intros ps. apply nf_ret.
Qed.
Lemma bt_calls_end : forall cs, nf (bt_calls H pr st cs).
Proof.
  induction cs as [|c cs IH]; cbn [bt_calls]; [apply nf_ret|]. apply nf_bind; [|intros a; apply nf_bind; [exact IH|]; intros l; apply nf_ret].
  destruct c as [d|i|]; cbn [bt_do].
  - apply nf_bind; [apply bt_push_ends|]. intros r. apply nf_ret.
  - apply nf_bind; [apply bt_prove_ends|]. intros r. apply nf_ret.
  - apply nf_state. intros t. apply nf_bind; [apply nf_lift, nf_root|]. intros h. apply nf_ret.
Qed.
End Binary.

(** * The sum tree *)
Section Sum.
Variable H : list byte -> bytes32.
Variable pr : profile.
Context {St E : Type}.
Variable st : StorageT St bytes32 MNode E.
Lemma nf_mt_insert : forall k v, nf (mt_insert st k v).
Proof. intros k v t. unfold mt_insert. destruct (s_insert st k v (mt_storage t)) as [s' [p|e]]; discriminate. Qed.
Lemma nf_mnode : forall h a b c d, mnode_create_node H pr h a b c d <> Fuel.
Proof. intros. unfold mnode_create_node. apply nf_obind; [apply nf_u64|discriminate]. Qed.
Lemma nf_mt_join : forall a b, nf (mt_join_subtrees H pr st a b).
Proof.
  intros. unfold mt_join_subtrees. apply nf_bind; [apply nf_lift, nf_u32|]. intros h. apply nf_bind; [apply nf_lift, nf_mnode|]. intros n.
  apply nf_try; [apply nf_mt_insert|]. intros _. apply nf_ret.
Qed.
Lemma nf_mt_root_loop : forall l c, nf (mt_root_node_loop H pr st c l).
Proof. induction l as [|x l IH]; intros c; cbn [mt_root_node_loop]; [apply nf_ret|]. apply nf_try; [apply nf_mt_join|exact IH]. Qed.
Lemma mt_root_ends : nf (mt_root H pr st).
Proof.
  unfold mt_root, mt_root_node. apply nf_try; [|intros [n|]; apply nf_ret]. apply nf_state. intros t.
  destruct (mt_head t) as [|x l]; [apply nf_ret|]. apply nf_try; [apply nf_mt_root_loop|]. intros n. apply nf_ret.
Qed.
Lemma mt_join_ends : forall f t, length (mt_head t) = f -> (0 < f)%nat -> snd (mt_join_all_subtrees_loop H pr st f t) <> Fuel.
Proof.
  induction f as [|f IH]; intros t L P; [lia|]. cbn [mt_join_all_subtrees_loop]. unfold bind at 1, get_state.
  destruct (mt_head t) as [|a [|b l]] eqn:Hd; [discriminate..|].
  destruct (mn_height a =? mn_height b); [|discriminate].
  unfold bind at 1, mt_set_head at 1. unfold bind_try at 1, bind at 1.
  match goal with |- context [mt_join_subtrees H pr st b a ?x] => pose proof (nf_mt_join b a x) as NJ; destruct (mt_join_subtrees H pr st b a x) as [t1 [[j|e]| |]] end;
    [|discriminate..|exfalso; exact (NJ eq_refl)].
  unfold bind at 1, mt_set_head at 1. apply IH; cbn [mt_head length] in *; lia.
Qed.
Lemma mt_push_ends : forall fee d, nf (mt_push H pr st fee d).
Proof.
  intros fee d. unfold mt_push. cbv zeta. apply nf_try; [apply nf_mt_insert|]. intros _. apply nf_state. intros t t0.
  unfold bind at 1, mt_set_head at 1. unfold bind_try at 1, bind at 1. unfold mt_join_all_subtrees, bind at 1, get_state. cbn [mt_head].
  match goal with |- context [mt_join_all_subtrees_loop H pr st ?f ?x] => pose proof (mt_join_ends f x eq_refl ltac:(cbn; lia)) as NJ;
    destruct (mt_join_all_subtrees_loop H pr st f x) as [t2 [[u2|e]| |]] end; [discriminate..|exfalso; exact (NJ eq_refl)].
Qed.
Lemma mt_calls_end : forall os, nf (mt_run_all H pr st os).
Proof.
  induction os as [|c os IH]; cbn [mt_run_all]; [apply nf_ret|]. apply nf_bind; [|intros a; apply nf_bind; [exact IH|]; intros l; apply nf_ret].
  destruct c as [l|]; cbn [mt_do]; [apply nf_try; [apply mt_push_ends|]|apply nf_try; [apply mt_root_ends|]]; intros; apply nf_ret.
Qed.
End Sum.

(** * The sparse tree *)
Lemma sp_calls_end : forall H pr St E (st : StorageT St bytes32 SPrimitive E) os, nf (sp_run_all H pr st os).
Proof.
  intros H pr St E st. induction os as [|o os IH]; cbn [sp_run_all]; [apply nf_ret|]. apply nf_bind; [intros t; apply apply_ends|].
  intros r. apply nf_bind; [exact IH|]. intros rs. apply nf_ret.
Qed.

(** * The reference tree of the test helpers *)
Section Reference.
Variable H : list byte -> bytes32.
Variable pr : profile.
Lemma nf_rt_join : forall a b, rt_join_subtrees H pr a b <> Fuel.
Proof. intros. unfold rt_join_subtrees. apply nf_obind; [apply nf_u32|discriminate]. Qed.
Lemma nf_rt_root_loop : forall l c, rt_root_loop H pr c l <> Fuel.
Proof. induction l as [|x l IH]; intros c; cbn [rt_root_loop]; [discriminate|]. apply nf_obind; [apply nf_rt_join|]. intros j. apply IH. Qed.
Lemma rt_root_ends : forall t, rt_root H pr t <> Fuel.
Proof. intros t. unfold rt_root. destruct (rt_head t); [discriminate|apply nf_rt_root_loop]. Qed.
Lemma rt_join_ends : forall f t, length (rt_head t) = f -> (0 < f)%nat -> rt_join_all_loop H pr f t <> Fuel.
Proof.
  induction f as [|f IH]; intros t L P; [lia|]. cbn [rt_join_all_loop]. destruct (rt_head t) as [|a [|b l]] eqn:Hd; [discriminate..|].
  destruct (rn_height a =? rn_height b); [|discriminate]. cbv zeta. apply nf_obind; [apply nf_u32|]. intros h1. apply nf_obind.
  - destruct (h1 =? Z.of_nat (length (rt_proof_set t))); [|discriminate]. apply nf_obind; [apply nf_shl_u|]. intros c.
    destruct (c =? 0); [discriminate|]. apply nf_obind; [apply nf_u64|]. intros m. destruct (rt_proof_index t <? m); discriminate.
  - intros ps. apply nf_obind; [apply nf_rt_join|]. intros j. apply IH; cbn [rt_head length] in *; lia.
Qed.
Lemma rt_push_ends : forall d t, rt_push H pr d t <> Fuel.
Proof.
  intros d t. unfold rt_push. cbv zeta. apply nf_obind; [apply rt_join_ends; cbn; lia|]. intros t2. apply nf_obind; [apply nf_u64|discriminate].
Qed.
Lemma nf_rt_prove_join : forall k l c, rt_prove_join H pr k c l <> Fuel.
Proof.
  intros k. induction l as [|x l IH]; intros c; cbn [rt_prove_join]; [discriminate|]. destruct (rn_height x <? k); [|discriminate].
  apply nf_obind; [apply nf_rt_join|]. intros j. apply IH.
Qed.
Lemma rt_prove_ends : forall t, rt_prove H pr t <> Fuel.
Proof.
  intros t. unfold rt_prove. cbv zeta. destruct (rt_head t) as [|h l]; [apply nf_obind; [apply rt_root_ends|discriminate]|].
  destruct (Z.of_nat (length (rt_proof_set t)) =? 0); [apply nf_obind; [apply rt_root_ends|discriminate]|].
  apply nf_obind; [apply nf_rt_prove_join|]. intros [c nx]. destruct (match nx with [] => _ | _ :: _ => _ end) as [ps rest].
  apply nf_obind; [apply rt_root_ends|discriminate].
Qed.
End Reference.

Lemma iter_collect_length : forall pr f it l, prange it -> position_iter_collect pr f it = Val l -> (length l <= pbudget it)%nat.
Proof.
  intros pr. induction f as [|f IH]; intros it l Rg Q; [discriminate|]. cbn [position_iter_collect] in Q.
  destruct (pos_next pr it Rg) as [NF St]. destruct (snd (path_iter_next (PositionNode pr) it tt)) as [[item it']| |]; try discriminate. cbn [obind] in Q.
  destruct (St _ _ eq_refl) as (_ & Rg' & Lt). destruct item as [[[p|[]] [s|[]]]|].
  - destruct (position_iter_collect pr f it') as [xs| |] eqn:C; try discriminate. cbn [obind] in Q. injection Q as <-.
    specialize (IH _ _ Rg' C). specialize (Lt ltac:(discriminate)). cbn [length]. lia.
  - injection Q as <-. cbn [length]. lia.
Qed.
Lemma pp_collect_S : forall pr f it, position_path_collect pr (S f) it =
  obind (position_path_next pr it) (fun r => match fst r with None => Val [] | Some x => xs <-! position_path_collect pr f (snd r) ;; Val (x :: xs) end).
Proof. intros. cbn [position_path_collect]. destruct (position_path_next pr it) as [[[x|] it']| |]; reflexivity. Qed.
Lemma pp_collect_length : forall pr f it l, pprange it -> position_path_collect pr f it = Val l -> (length l <= pbudget (pp_path_iter it))%nat.
Proof.
  intros pr. induction f as [|f IH]; intros it l R Q; [discriminate|]. rewrite pp_collect_S in Q.
  destruct (pp_next pr it R) as [NF St]. destruct (position_path_next pr it) as [[[x|] it']| |]; try discriminate Q; cbn [obind fst snd] in Q.
  - destruct (St _ _ eq_refl) as [R' Lt]. specialize (Lt ltac:(discriminate)).
    destruct (position_path_collect pr f it') as [xs| |] eqn:C; try discriminate. cbn [obind] in Q. injection Q as <-.
    specialize (IH _ _ R' C). cbn [length]. lia.
  - injection Q as <-. cbn [length]. lia.
Qed.
Lemma obind_val : forall A B (o : out A) (f : A -> out B) l, obind o f = Val l -> exists a, o = Val a /\ f a = Val l.
Proof. intros A B [a| |] f l Q; try discriminate Q. exists a. split; [reflexivity|exact Q]. Qed.
Lemma iter_length : forall pr root leaf l, 0 <= root < U64 -> position_iter pr root leaf = Val l -> (length l <= 65)%nat.
Proof.
  intros pr root leaf l Hr Q. destruct (obind_val _ _ _ _ _ Q) as (it & E & C). destruct (iter_new _ _ _ _ Hr E) as [Rg B].
  pose proof (iter_collect_length _ _ _ _ Rg C). lia.
Qed.
Lemma path_length : forall pr root leaf n l, 0 <= root < U64 -> position_path pr root leaf n = Val l -> (length l <= 65)%nat.
Proof.
  intros pr root leaf n l Hr Q. destruct (obind_val _ _ _ _ _ Q) as (it & E & C). pose proof (pp_new_range _ _ _ _ _ Hr E) as R.
  pose proof (pp_collect_length _ _ _ _ R C). pose proof (budget_max _ (proj1 R)). lia.
Qed.
Lemma ends_val : forall A (o : out A) (P : A -> Prop), o <> Fuel -> (forall l, o = Val l -> P l) -> o = Panic \/ exists l, o = Val l /\ P l.
Proof. intros A [l| |] P N F; [right; exists l; auto|auto|congruence]. Qed.
Lemma C78_positions_lemma : forall pr root leaf n, 0 <= root < 2 ^ 64 ->
  (position_iter pr root leaf = Panic \/ exists l, position_iter pr root leaf = Val l /\ (length l <= 65)%nat) /\
  (position_path pr root leaf n = Panic \/ exists l, position_path pr root leaf n = Val l /\ (length l <= 65)%nat).
Proof.
  intros pr root leaf n Hr. split; apply ends_val.
  - exact (position_iter_ends _ _ _ Hr).
  - intros l Q. exact (iter_length _ _ _ _ Hr Q).
  - exact (position_path_ends _ _ _ _ Hr).
  - intros l Q. exact (path_length _ _ _ _ _ Hr Q).
Qed.
Lemma C78_binary_lemma : forall H pr St E (st : StorageT St Z BPrimitive E),
  (forall cs t, snd (bt_calls H pr st cs t) <> Fuel) /\ (forall n s, snd (bt_load pr st n s) <> Fuel).
Proof. intros. split; [apply bt_calls_end|apply bt_load_ends]. Qed.
Lemma C78_sparse_lemma : forall H pr St E (st : StorageT St bytes32 SPrimitive E),
  (forall os t, snd (sp_run_all H pr st os t) <> Fuel) /\ (forall r s, snd (sp_load st r s) <> Fuel).
Proof. intros. split; [apply sp_calls_end|apply nf_load]. Qed.
Lemma C78_sum_lemma : forall H pr St E (st : StorageT St bytes32 MNode E) os t, snd (mt_run_all H pr st os t) <> Fuel.
Proof. intros. apply mt_calls_end. Qed.
Lemma C78_reference_lemma : forall H pr (t : RTree) d,
  rt_push H pr d t <> Fuel /\ rt_root H pr t <> Fuel /\ rt_prove H pr t <> Fuel.
Proof. intros. split; [apply rt_push_ends|]. split; [apply rt_root_ends|apply rt_prove_ends]. Qed.
