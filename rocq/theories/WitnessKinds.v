(** WitnessKinds.v -- trees of different kinds with the same root. *)
From Verif Require Import Base Sha256 Storage ModelText ModelCommon ModelBinary ModelSparse ModelSum SpecBits SpecBinary SpecSparse SpecSum SpecKinds
  Runs RunsSum RunsSparse StorageProofs BindingProofs SparseTheorems WitnessSum WitnessSparse.
From Coq Require Import Sorting.Permutation Sorting.Sorted.
Open Scope list_scope.

(** Two entries with keys starting 0001... and 1001...; the later key is written first. *)
Definition two_entries : list sp_op := [Update kB vb; Update kA va].
(** The binary tree of these two leaves has the same root. *)
Definition entry_leaves : list (list byte) := map (entry_data sha256) [(kA, va); (kB, vb)].
Lemma C109_binary_sparse_witness :
  clean [] [] two_entries /\ hash_ok sha256 (map op_key two_entries) (maps [] two_entries) /\
  Permutation [(kA, va); (kB, vb)] (final two_entries) /\ key_before kA kB /\ binary_shaped 256 0 (final two_entries) /\
  match bt_push_all sha256 Debug BStorageMap entry_leaves (bt_new smap_new), sp_run sha256 Debug SStorageMap two_entries (sp_new smap_new) with
  | (t, Val (Ok tt)), (t', Val (Ok tt)) => match bt_root sha256 Debug t with Val r => b32_eqb r (sp_root sha256 t') | _ => false end
  | _, _ => false
  end = true.
Proof.
  split; [apply cleanb_ok; reflexivity|]. split; [apply (listed_ok _ _ _ digests_used_ok); vm_compute; reflexivity|].
  split; [replace (final two_entries) with [(kA, va); (kB, vb)] by (symmetry; apply kv_eqb_eq; vm_compute; reflexivity); apply Permutation_refl|].
  split; [exists 0%nat; split; [reflexivity|split; vm_compute; reflexivity]|]. split; [vm_compute; auto|]. vm_compute. reflexivity.
Qed.

(** One leaf: fee 7 and two bytes, against the ten bytes. *)
Definition leaf7 : leaf := (7, [x61; x62]).
Lemma C109_binary_sum_witness :
  fees_fit Debug [leaf7] /\
  match bt_push_all sha256 Debug BStorageMap [fee_data leaf7] (bt_new smap_new), snd (mt_run sha256 Debug MStorageMap (map Push [leaf7] ++ [Root]) (mt_new smap_new)) with
  | (t, Val (Ok tt)), Val (Ok [(7, r')]) => match bt_root sha256 Debug t with Val r => b32_eqb r r' | _ => false end
  | _, _ => false
  end = true.
Proof. split; [split; [repeat constructor; cbn; lia|right; reflexivity]|]. vm_compute. reflexivity. Qed.

(** The first eight bytes of the key are the fee. *)
Definition key_leaf : leaf := (be_value (firstn 8 (b32 kA)), skipn 8 (b32 kA) ++ b32 (sha256 va)).
Lemma C109_sum_sparse_witness :
  fees_fit Debug [key_leaf] /\ clean [] [] [Update kA va] /\ hash_ok sha256 (map op_key [Update kA va]) (maps [] [Update kA va]) /\
  fee_data key_leaf = entry_data sha256 (kA, va) /\
  match snd (mt_run sha256 Debug MStorageMap (map Push [key_leaf] ++ [Root]) (mt_new smap_new)), sp_run sha256 Debug SStorageMap [Update kA va] (sp_new smap_new) with
  | Val (Ok [(_, r)]), (t', Val (Ok tt)) => b32_eqb r (sp_root sha256 t')
  | _, _ => false
  end = true.
Proof.
  split; [split; [constructor; [|constructor]; unfold key_leaf; cbn [fst]|right; vm_compute; reflexivity]|].
  { assert (E : be_value (firstn 8 (b32 kA)) = 2 ^ 60) by (vm_compute; reflexivity). rewrite E. lia. }
  split; [apply cleanb_ok; reflexivity|]. split; [apply (listed_ok _ _ _ digests_used_ok); vm_compute; reflexivity|].
  split; vm_compute; reflexivity.
Qed.
