(** CommonWitness.v -- concrete cases for PropertiesCommon.v. *)
From Verif Require Import Base Sha256 Storage ModelCommon ModelBinary ModelSparse ModelSum SpecBinary SpecBits
  SpecPosition SpecCommon RunsCommon WitnessBinary.

Lemma C19_witness : pos_is_node 19 = true /\ pos_height 19 = 2 /\ pos_left_child Debug 19 = Val 17 /\
  pos_right_child Debug 19 = Val 21 /\ pos_parent Debug 19 = Val 23 /\
  pos_height (2 ^ 62 - 1) = 62 /\ pos_height (2 ^ 61 - 1) = 61.
Proof. repeat split; vm_compute; reflexivity. Qed.

Lemma C20_witness : pos_height 19 = 2 /\ pos_sibling Debug 19 = Val 27 /\ pos_sibling Debug 27 = Val 19 /\
  pos_uncle Debug 19 = Val 7.
Proof. repeat split; vm_compute; reflexivity. Qed.

Lemma C21_witness : 19 = Z.of_nat 2 * 2 ^ (Z.of_nat 2 + 1) + 2 ^ Z.of_nat 2 - 1 /\ pos_height 19 = 2 /\
  pos_from_leaf_index Debug 9 = Val 18 /\ pos_leaf_index 18 = Val 9 /\ pos_leaf_index 19 = Panic.
Proof. repeat split; vm_compute; reflexivity. Qed.

Lemma C22_witness : index_of 2 2 = 19 /\ index_of 61 0 < 2 ^ 64 /\
  pos_sibling Debug (index_of 61 3) = Val (index_of 61 2) /\ index_of 61 3 < 2 ^ 64.
Proof. repeat split; vm_compute; reflexivity. Qed.

Lemma C22_limit_witness : pos_sibling Debug (index_of 62 1) = Panic /\ pos_parent Debug (index_of 62 1) = Panic /\
  index_of 62 1 < 2 ^ 64.
Proof. repeat split; vm_compute; reflexivity. Qed.

Lemma C23_witness : position_iter Debug 7 8 = Val [(7, 7); (11, 3); (9, 13); (8, 10)] /\
  index_of 3 0 = 7 /\ index_of 0 4 = 8.
Proof. repeat split; vm_compute; reflexivity. Qed.

Lemma C24_witness : position_path Debug 7 8 5 = Val [(7, 7); (8, 3)] /\
  position_path Debug 7 0 5 = Val [(7, 7); (3, 8); (1, 5); (0, 2)].
Proof. split; vm_compute; reflexivity. Qed.

Lemma C25_witness : get_bit_at_index_from_msb [x80; x01] 0 = Some Bit1 /\
  get_bit_at_index_from_msb [x80; x01] 15 = Some Bit1 /\ get_bit_at_index_from_msb [x80; x01] 14 = Some Bit0 /\
  get_bit_at_index_from_msb [x80; x01] 16 = None /\ be_value [x80; x01] = 32769.
Proof. repeat split; vm_compute; reflexivity. Qed.

Lemma C26_witness : common_prefix_count [x80; x01] [x80; x05] = Val 13 /\
  common_prefix_count [x80; x01] [x80; x01] = Val 16 /\ agree 13 [x80; x01] [x80; x05].
Proof. repeat split; vm_compute; reflexivity. Qed.

Lemma C27_witness :
  snode_try_from (5, x01, zero32, empty_sum) =
    Ok {| sn_height := 5; sn_prefix := PNode; sn_bytes_lo := zero32; sn_bytes_hi := empty_sum |} /\
  snode_try_from (5, x02, zero32, empty_sum) = Err (DPrefixError (InvalidPrefix x02)).
Proof. split; reflexivity. Qed.

Lemma C28_witness :
  snd (smap_run Z.eqb [OpInsert 1 10; OpInsert 2 20; OpInsert 1 11; OpGet 1; OpRemove 2; OpContains 2; OpContains 1; OpGet 2] smap_new) =
  map Ok [Value None; Value None; Value (Some 10); Value (Some 11); Value (Some 20); Flag false; Flag true; Value None].
Proof. reflexivity. Qed.

Lemma C56_witness : snode_is_placeholder (snode_create_leaf sha256 zero32 []) = false.
Proof. vm_compute. reflexivity. Qed.

Lemma C57_lemma :
  (forall pr St (s : St), bt_root sha256 pr (bt_new s) = Val (sha256 [])) /\
  (forall pr St E (st : StorageT St bytes32 MNode E) s,
     snd (mt_root sha256 pr st (mt_new s)) = Val (Ok (0, sha256 []))) /\
  (forall St (s : St), b32 (sp_root sha256 (sp_new s)) = repeat x00 32).
Proof.
  rewrite sha256_empty. split; [reflexivity|]. split; [reflexivity|].
  intros St s. unfold sp_root, sp_new. cbn [sp_root_node]. unfold snode_hash.
  change (snode_is_placeholder snode_placeholder) with true. reflexivity.
Qed.
