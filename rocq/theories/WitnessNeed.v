(** WitnessNeed.v -- concrete deletes on storages that lost entries. *)
From Verif Require Import Base Sha256 Storage ModelCommon ModelSparse SpecBits SpecBinary SpecSparse SpecAnyRun SpecDisk
  RunsSparse SparseTheorems WitnessSparse WitnessShort.

Definition leafA : bytes32 := Eval vm_compute in sha256 (smt_leaf_input kA (sha256 va)).
Definition leafC : bytes32 := Eval vm_compute in sha256 (smt_leaf_input kC (sha256 vc)).
(** Three updates, the entries [hs] are lost, one delete: the answer, and if the root is the
    one expected. *)
Definition delete_without (hs : list bytes32) (k : bytes32) (root : bytes32) : option (result (SError Empty_set) unit * bool) :=
  match sp_run sha256 Debug SStorageMap first_three (sp_new smap_new) with
  | (t, Val (Ok tt)) =>
      match sp_delete sha256 Debug SStorageMap k (Build_SpTree (sp_root_node t) (fold_left (smap_erase b32_eqb) hs (sp_storage t))) with
      | (t', Val r) => Some (r, b32_eqb (sp_root sha256 t') root)
      | _ => None
      end
  | _ => None
  end.
(** The second key is alone in its half: the leaves of the other half are not needed.  The
    delete of the third key needs the first leaf, which is beside its path.  Without the entry
    of the key nothing happens. *)
Lemma C115_witness :
  hash_ok sha256 (kB :: map op_key first_three)
    (trail sha256 nothing first_three ++ [without_landing kB (fst (replay sha256 first_three))]) /\
  delete_without [leafA; leafC] kB (kv_root sha256 (mdel kB (final first_three))) = Some (Ok tt, true) /\
  delete_without [leafA] kC (kv_root sha256 (final first_three)) = Some (Err (SChildErr (ChildNotFound leafA)), true) /\
  delete_without [kB] kB (kv_root sha256 (final first_three)) = Some (Ok tt, true).
Proof.
  split; [apply (within_ok _ _ _ _ hist_ok); vm_compute; reflexivity|]. split; [vm_compute; reflexivity|]. split; vm_compute; reflexivity.
Qed.
