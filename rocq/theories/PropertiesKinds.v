(** PropertiesKinds.v -- C109: a binary, a sparse and a sum tree with the same root.  [H] is any hash function, the storages
    any that obey the laws of Storage.v.  Leaves of all three kinds are hashed behind the byte 0 and inner nodes behind the
    byte 1, so trees of different kinds can have the same root; only in the cases named here, or with a collision ([has_collision]),
    or an input hashed to 32 zero bytes ([zero_hash]), the inputs being among those of the two trees. *)
From Verif Require Import Base Sha256 Storage ModelCommon ModelBinary ModelSparse ModelSum SpecBits SpecBinary SpecSparse SpecSum SpecKinds
  Runs RunsSum RunsSparse KindsMain WitnessSum WitnessSparse WitnessKinds.
From Coq Require Import Sorting.Permutation Sorting.Sorted.

(** The roots are equal if the leaves of the binary tree are the entries of the sparse tree in the order of the keys, each as the key
    followed by the digest of its data, and the trees have the same shape ([binary_shaped]); and only then. *)
Theorem C109_binary_sparse : forall H pr St E (st : StorageT St Z BPrimitive E) view St' E' (st' : StorageT St' bytes32 SPrimitive E') view',
  Lawful st view -> Infallible st -> Lawful st' view' -> Infallible st' -> H [] = empty_sum ->
  forall ds s0 os s0', Z.of_nat (length ds) <= 2 ^ 63 ->
  (forall k, view' s0' k = None) -> clean [] [] os -> hash_ok H (map op_key os) (maps [] os) ->
  exists t t' root,
    bt_push_all H pr st ds (bt_new s0) = (t, Val (Ok tt)) /\ bt_root H pr t = Val root /\
    sp_run H pr st' os (sp_new s0') = (t', Val (Ok tt)) /\
    ((exists es, Permutation es (final os) /\ StronglySorted (fun e e' => key_before (fst e) (fst e')) es /\ ds = map (entry_data H) es /\
       binary_shaped 256 0 (final os)) -> root = sp_root H t') /\
    (root = sp_root H t' ->
       (exists es, Permutation es (final os) /\ StronglySorted (fun e e' => key_before (fst e) (fst e')) es /\ ds = map (entry_data H) es /\
          binary_shaped 256 0 (final os)) \/
       has_collision H (mth_inputs H ds ++ kv_inputs H (final os)) \/ zero_hash H (mth_inputs H ds)).
Proof. exact @C109_binary_sparse_lemma. Qed.
Print Assumptions C109_binary_sparse.

Example C109_binary_sparse_example :
  clean [] [] two_entries /\ hash_ok sha256 (map op_key two_entries) (maps [] two_entries) /\
  Permutation [(kA, va); (kB, vb)] (final two_entries) /\ key_before kA kB /\ binary_shaped 256 0 (final two_entries) /\
  match bt_push_all sha256 Debug BStorageMap entry_leaves (bt_new smap_new), sp_run sha256 Debug SStorageMap two_entries (sp_new smap_new) with
  | (t, Val (Ok tt)), (t', Val (Ok tt)) => match bt_root sha256 Debug t with Val r => b32_eqb r (sp_root sha256 t') | _ => false end
  | _, _ => false
  end = true.
Proof. exact C109_binary_sparse_witness. Qed.

(** Both trees are empty, or have one leaf each, the one of the binary tree being fee and data of the other. *)
Theorem C109_binary_sum : forall H pr St E (st : StorageT St Z BPrimitive E) view St' E' (st' : StorageT St' bytes32 MNode E') view',
  Lawful st view -> Infallible st -> Lawful st' view' -> Infallible st' -> H [] = empty_sum ->
  forall ds s0 ls s0', Z.of_nat (length ds) <= 2 ^ 63 -> fees_fit pr ls -> Z.of_nat (length ls) <= 2 ^ 64 ->
  exists t t' root f root',
    bt_push_all H pr st ds (bt_new s0) = (t, Val (Ok tt)) /\ bt_root H pr t = Val root /\
    mt_run H pr st' (map Push ls ++ [Root]) (mt_new s0') = (t', Val (Ok [(f, root')])) /\
    ((ds = [] /\ ls = []) \/ (exists l, ls = [l] /\ ds = [fee_data l]) -> root = root') /\
    (root = root' -> (ds = [] /\ ls = []) \/ (exists l, ls = [l] /\ ds = [fee_data l]) \/
       has_collision H (mth_inputs H ds ++ mst_inputs H wrapped_fee ls)).
Proof. exact @C109_binary_sum_lemma. Qed.
Print Assumptions C109_binary_sum.

Example C109_binary_sum_example :
  fees_fit Debug [leaf7] /\
  match bt_push_all sha256 Debug BStorageMap [fee_data leaf7] (bt_new smap_new), snd (mt_run sha256 Debug MStorageMap (map Push [leaf7] ++ [Root]) (mt_new smap_new)) with
  | (t, Val (Ok tt)), Val (Ok [(7, r')]) => match bt_root sha256 Debug t with Val r => b32_eqb r r' | _ => false end
  | _, _ => false
  end = true.
Proof. exact C109_binary_sum_witness. Qed.

(** There is one leaf and one entry, with the same bytes. *)
Theorem C109_sum_sparse : forall H pr St E (st : StorageT St bytes32 MNode E) view St' E' (st' : StorageT St' bytes32 SPrimitive E') view',
  Lawful st view -> Infallible st -> Lawful st' view' -> Infallible st' -> H [] = empty_sum ->
  forall ls s0 os s0', fees_fit pr ls -> Z.of_nat (length ls) <= 2 ^ 64 ->
  (forall k, view' s0' k = None) -> clean [] [] os -> hash_ok H (map op_key os) (maps [] os) ->
  exists t t' f root,
    mt_run H pr st (map Push ls ++ [Root]) (mt_new s0) = (t, Val (Ok [(f, root)])) /\
    sp_run H pr st' os (sp_new s0') = (t', Val (Ok tt)) /\
    ((exists l k v, ls = [l] /\ final os = [(k, v)] /\ fee_data l = entry_data H (k, v)) -> root = sp_root H t') /\
    (root = sp_root H t' ->
       (exists l k v, ls = [l] /\ final os = [(k, v)] /\ fee_data l = entry_data H (k, v)) \/
       has_collision H (mst_inputs H wrapped_fee ls ++ kv_inputs H (final os)) \/ zero_hash H (mst_inputs H wrapped_fee ls)).
Proof. exact @C109_sum_sparse_lemma. Qed.
Print Assumptions C109_sum_sparse.

Example C109_sum_sparse_example :
  fees_fit Debug [key_leaf] /\ clean [] [] [Update kA va] /\ hash_ok sha256 (map op_key [Update kA va]) (maps [] [Update kA va]) /\
  fee_data key_leaf = entry_data sha256 (kA, va) /\
  match snd (mt_run sha256 Debug MStorageMap (map Push [key_leaf] ++ [Root]) (mt_new smap_new)), sp_run sha256 Debug SStorageMap [Update kA va] (sp_new smap_new) with
  | Val (Ok [(_, r)]), (t', Val (Ok tt)) => b32_eqb r (sp_root sha256 t')
  | _, _ => false
  end = true.
Proof. exact C109_sum_sparse_witness. Qed.
