(** PropertiesCommon.v -- C19 to C28, C56, C57: positions, paths, bits, serialization, the
    storage map, hash inputs and the empty roots.  A position is its in-order index, [pr] the
    build profile; [index_of h b] is the index of block [b] of [2^h] leaves (SpecBinary.v). *)
From Verif Require Import Base Sha256 Storage ModelCommon ModelBinary ModelSparse ModelSum SpecBinary SpecBits
  SpecPosition SpecCommon RunsCommon CommonProofs CommonWitness.

Theorem C19_children : forall pr p, 0 <= p < 2 ^ 64 -> pos_is_node p = true -> pos_height p <= 61 + 1 ->
  exists l r, pos_left_child pr p = Val l /\ pos_right_child pr p = Val r /\
    0 <= l < p /\ p < r < 2 ^ 64 /\ p - l = r - p /\
    pos_height l = pos_height p - 1 /\ pos_height r = pos_height p - 1 /\
    pos_parent pr l = Val p /\ pos_parent pr r = Val p.
Proof. exact C19_down. Qed.
Print Assumptions C19_children.

Theorem C19_parent : forall pr p, 0 <= p < 2 ^ 64 -> pos_height p <= 61 ->
  exists q, pos_parent pr p = Val q /\ 0 <= q < 2 ^ 64 /\ pos_height q = pos_height p + 1 /\
    pos_is_node q = true /\
    (pos_left_child pr q = Val p \/ pos_right_child pr q = Val p).
Proof. exact C19_up. Qed.
Print Assumptions C19_parent.

Example C19_example : pos_is_node 19 = true /\ pos_height 19 = 2 /\ pos_left_child Debug 19 = Val 17 /\
  pos_right_child Debug 19 = Val 21 /\ pos_parent Debug 19 = Val 23 /\
  pos_height (2 ^ 62 - 1) = 62 /\ pos_height (2 ^ 61 - 1) = 61.
Proof. exact C19_witness. Qed.

Theorem C20_sibling : forall pr p, 0 <= p < 2 ^ 64 -> pos_height p <= 61 ->
  exists s q, pos_sibling pr p = Val s /\ 0 <= s < 2 ^ 64 /\ s <> p /\
    pos_height s = pos_height p /\ pos_sibling pr s = Val p /\
    pos_parent pr p = Val q /\ pos_parent pr s = Val q /\
    (pos_height p <= 60 -> exists u, pos_uncle pr p = Val u /\ pos_sibling pr q = Val u /\
       pos_uncle pr s = Val u /\ pos_height u = pos_height p + 1).
Proof. exact C20_lemma. Qed.
Print Assumptions C20_sibling.

Example C20_example : pos_height 19 = 2 /\ pos_sibling Debug 19 = Val 27 /\ pos_sibling Debug 27 = Val 19 /\
  pos_uncle Debug 19 = Val 7.
Proof. exact C20_witness. Qed.

Theorem C21_unique_pair : forall p, 0 <= p < 2 ^ 64 - 1 ->
  exists h i, p = Z.of_nat i * 2 ^ (Z.of_nat h + 1) + 2 ^ Z.of_nat h - 1 /\
    pos_height p = Z.of_nat h /\ (pos_is_leaf p = true <-> h = O) /\
    forall h' i', p = Z.of_nat i' * 2 ^ (Z.of_nat h' + 1) + 2 ^ Z.of_nat h' - 1 -> h' = h /\ i' = i.
Proof. exact C21_pair. Qed.
Print Assumptions C21_unique_pair.

Theorem C21_leaf_index : forall pr i, 0 <= i < 2 ^ 63 ->
  exists p, pos_from_leaf_index pr i = Val p /\ pos_is_leaf p = true /\ pos_leaf_index p = Val i.
Proof. exact C21_leaf. Qed.
Print Assumptions C21_leaf_index.

Theorem C21_leaf_positions : forall pr p, 0 <= p < 2 ^ 64 ->
  (pos_is_leaf p = true -> exists i, pos_leaf_index p = Val i /\ 0 <= i < 2 ^ 63 /\ pos_from_leaf_index pr i = Val p) /\
  (pos_is_leaf p = false -> pos_leaf_index p = Panic).
Proof. exact C21_leaf_inv. Qed.
Print Assumptions C21_leaf_positions.

Example C21_example : 19 = Z.of_nat 2 * 2 ^ (Z.of_nat 2 + 1) + 2 ^ Z.of_nat 2 - 1 /\ pos_height 19 = 2 /\
  pos_from_leaf_index Debug 9 = Val 18 /\ pos_leaf_index 18 = Val 9 /\ pos_leaf_index 19 = Panic.
Proof. exact C21_witness. Qed.

Theorem C22_positions_exact : forall pr h b, (h <= 61)%nat -> index_of h b < 2 ^ 64 ->
  pos_parent pr (index_of h b) = Val (index_of (S h) (b / 2)) /\
  pos_sibling pr (index_of h b) = Val (index_of h (sib b)) /\
  ((h <= 60)%nat -> pos_uncle pr (index_of h b) = Val (index_of (S h) (sib (b / 2)))) /\
  (forall g, h = S g ->
     pos_left_child pr (index_of h b) = Val (index_of g (2 * b)) /\
     pos_right_child pr (index_of h b) = Val (index_of g (2 * b + 1))).
Proof. exact C22_lemma. Qed.
Print Assumptions C22_positions_exact.

Example C22_example : index_of 2 2 = 19 /\ index_of 61 0 < 2 ^ 64 /\
  pos_sibling Debug (index_of 61 3) = Val (index_of 61 2) /\ index_of 61 3 < 2 ^ 64.
Proof. exact C22_witness. Qed.
(** The bound on the height is sharp in debug builds. *)
Example C22_limit : pos_sibling Debug (index_of 62 1) = Panic /\ pos_parent Debug (index_of 62 1) = Panic /\
  index_of 62 1 < 2 ^ 64.
Proof. exact C22_limit_witness. Qed.

Theorem C23_position_iter : forall pr k i, (k <= 62)%nat -> (i < 2 ^ k)%nat ->
  position_iter pr (index_of k 0) (index_of 0 i) =
    Val ((index_of k 0, index_of k 0) :: path_below k i).
Proof. exact C23_lemma. Qed.
Print Assumptions C23_position_iter.

(** The path component of the specification is the list of ancestors of leaf [i]. *)
Theorem C23_path_is_ancestors : forall k i,
  map fst ((index_of k 0, index_of k 0) :: path_below k i) =
    index_of k 0 :: map (fun h => index_of h (i / 2 ^ h)) (rev (seq 0 k)).
Proof. exact C23_shape. Qed.
Print Assumptions C23_path_is_ancestors.

Example C23_example : position_iter Debug 7 8 = Val [(7, 7); (11, 3); (9, 13); (8, 10)] /\
  index_of 3 0 = 7 /\ index_of 0 4 = 8.
Proof. exact C23_witness. Qed.

Theorem C24_position_path : forall pr n i k, (i < n)%nat -> (n <= 2 ^ k)%nat -> (k <= 62)%nat ->
  exists path, position_path pr (index_of k 0) (index_of 0 i) (Z.of_nat n) = Val path /\
    path = tree_path n k i (k, O) /\
    map fst path =
      map (fun h => index_of h (ancestor i h)) (filter (fun h => node_exists n h (ancestor i h)) (down_from k)) /\
    Forall (fun x => exists_in n (fst x) /\ exists_in n (snd x)) path.
Proof. exact C24_lemma. Qed.
Print Assumptions C24_position_path.

Example C24_example : position_path Debug 7 8 5 = Val [(7, 7); (8, 3)] /\
  position_path Debug 7 0 5 = Val [(7, 7); (3, 8); (1, 5); (0, 2)].
Proof. exact C24_witness. Qed.

Theorem C25_bits_big_endian : forall a j, 0 <= j ->
  get_bit_at_index_from_msb a j =
    if j <? 8 * Z.of_nat (length a)
    then Some (if Z.testbit (be_value a) (8 * Z.of_nat (length a) - 1 - j) then Bit1 else Bit0)
    else None.
Proof. exact C25_lemma. Qed.
Print Assumptions C25_bits_big_endian.

Example C25_example : get_bit_at_index_from_msb [x80; x01] 0 = Some Bit1 /\
  get_bit_at_index_from_msb [x80; x01] 15 = Some Bit1 /\ get_bit_at_index_from_msb [x80; x01] 14 = Some Bit0 /\
  get_bit_at_index_from_msb [x80; x01] 16 = None /\ be_value [x80; x01] = 32769.
Proof. exact C25_witness. Qed.

Theorem C26_common_prefix : forall a b, length a = length b ->
  exists c, common_prefix_count a b = Val (Z.of_nat c) /\
    common_prefix_count b a = Val (Z.of_nat c) /\
    (c <= 8 * length a)%nat /\ agree c a b /\
    (forall c', (c' <= 8 * length a)%nat -> agree c' a b -> (c' <= c)%nat) /\
    (c = (8 * length a)%nat <-> a = b).
Proof. exact C26_lemma. Qed.
Print Assumptions C26_common_prefix.

Example C26_example : common_prefix_count [x80; x01] [x80; x05] = Val 13 /\
  common_prefix_count [x80; x01] [x80; x01] = Val 16 /\ agree 13 [x80; x01] [x80; x05].
Proof. exact C26_witness. Qed.

Theorem C27_serialization :
  (forall n, snode_try_from (sprim_of_node n) = Ok n) /\
  (forall p n, snode_try_from p = Ok n -> sprim_of_node n = p) /\
  (forall h b lo hi, (b = x00 \/ b = x01) <-> exists n, snode_try_from (h, b, lo, hi) = Ok n) /\
  (forall h b lo hi, b <> x00 -> b <> x01 ->
     snode_try_from (h, b, lo, hi) = Err (DPrefixError (InvalidPrefix b))) /\
  (forall n, bnode_of_prim (bprim_of_node n) = n) /\
  (forall p, bprim_of_node (bnode_of_prim p) = p).
Proof. exact C27_lemma. Qed.
Print Assumptions C27_serialization.

Example C27_example :
  snode_try_from (5, x01, zero32, empty_sum) =
    Ok {| sn_height := 5; sn_prefix := PNode; sn_bytes_lo := zero32; sn_bytes_hi := empty_sum |} /\
  snode_try_from (5, x02, zero32, empty_sum) = Err (DPrefixError (InvalidPrefix x02)).
Proof. exact C27_witness. Qed.

Theorem C28_storage_map : forall (K V : Type) (keqb : K -> K -> bool) (keqb_eq : forall a b, keqb a b = true <-> a = b) os,
  exists m xs, smap_run (V := V) keqb os smap_new = (m, map Ok xs) /\
    map_run (fun _ => None) os xs (smap_lookup keqb m).
Proof. exact C28_lemma. Qed.
Print Assumptions C28_storage_map.

Example C28_example :
  snd (smap_run Z.eqb [OpInsert 1 10; OpInsert 2 20; OpInsert 1 11; OpGet 1; OpRemove 2; OpContains 2; OpContains 1; OpGet 2] smap_new) =
  map Ok [Value None; Value None; Value (Some 10); Value (Some 11); Value (Some 20); Flag false; Flag true; Value None].
Proof. exact C28_witness. Qed.

(** The input of the hash function is visible by quantifying over the hash function. *)
Theorem C56_binary_inputs : exists (leaf_input : list byte -> list byte) (node_input : bytes32 -> bytes32 -> list byte),
  (forall H d, leaf_sum H d = H (leaf_input d)) /\
  (forall H l r, node_sum H (b32 l) (b32 r) = H (node_input l r)) /\
  (forall d d', leaf_input d = leaf_input d' -> d = d') /\
  (forall l r l' r', node_input l r = node_input l' r' -> l = l' /\ r = r') /\
  (forall d l r, hd_error (leaf_input d) <> hd_error (node_input l r)) /\
  (forall d, leaf_input d <> []) /\ (forall l r, node_input l r <> []).
Proof. exact C56_binary_lemma. Qed.
Print Assumptions C56_binary_inputs.

Theorem C56_sum_inputs : exists (leaf_input : Z -> list byte -> list byte)
    (node_input : Z -> bytes32 -> Z -> bytes32 -> list byte),
  (forall H f d, sum_leaf_sum H f d = H (leaf_input f d)) /\
  (forall H f l g r, sum_node_sum H f (b32 l) g (b32 r) = H (node_input f l g r)) /\
  (forall f d f' d', 0 <= f < 2 ^ 64 -> 0 <= f' < 2 ^ 64 ->
     leaf_input f d = leaf_input f' d' -> f = f' /\ d = d') /\
  (forall f l g r f' l' g' r', 0 <= f < 2 ^ 64 -> 0 <= f' < 2 ^ 64 -> 0 <= g < 2 ^ 64 -> 0 <= g' < 2 ^ 64 ->
     node_input f l g r = node_input f' l' g' r' -> f = f' /\ l = l' /\ g = g' /\ r = r') /\
  (forall f d f' l g r, hd_error (leaf_input f d) <> hd_error (node_input f' l g r)) /\
  (forall f d, leaf_input f d <> []) /\ (forall f l g r, node_input f l g r <> []).
Proof. exact C56_sum_lemma. Qed.
Print Assumptions C56_sum_inputs.

Theorem C56_sparse_inputs : exists (input : Prefix -> bytes32 -> bytes32 -> list byte),
  (forall H n, snode_is_placeholder n = false ->
     snode_hash H n = H (input (sn_prefix n) (sn_bytes_lo n) (sn_bytes_hi n))) /\
  (forall H n, snode_is_placeholder n = true -> snode_hash H n = zero_sum) /\
  (forall p a b p' a' b', input p a b = input p' a' b' -> p = p' /\ a = a' /\ b = b') /\
  (forall a b a' b', hd_error (input PLeaf a b) <> hd_error (input PNode a' b')) /\
  (forall p a b, input p a b <> []).
Proof. exact C56_sparse_lemma. Qed.
Print Assumptions C56_sparse_inputs.

Example C56_example : snode_is_placeholder (snode_create_leaf sha256 zero32 []) = false.
Proof. exact C56_witness. Qed.

Theorem C57_empty_roots :
  (forall pr St (s : St), bt_root sha256 pr (bt_new s) = Val (sha256 [])) /\
  (forall pr St E (st : StorageT St bytes32 MNode E) s,
     snd (mt_root sha256 pr st (mt_new s)) = Val (Ok (0, sha256 []))) /\
  (forall St (s : St), b32 (sp_root sha256 (sp_new s)) = repeat x00 32).
Proof. exact C57_lemma. Qed.
Print Assumptions C57_empty_roots.
