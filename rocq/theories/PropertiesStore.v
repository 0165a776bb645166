(** PropertiesStore.v -- property theorems about the contents of a sparse tree's storage. *)
From Verif Require Import Base Sha256 Storage ModelCommon ModelSparse SpecBits SpecBinary SpecSparse SpecStore RunsSparse
  RunsSparseRecover SparseStore SparseRecover WitnessSparse WitnessStore.

(** Whatever the calls answer, whatever the hash and the faults: the storage of a tree
    started empty holds leaves of attempted updates and content-addressed nodes only. *)
Theorem C70_storage_authentic : forall H pr St E (st : StorageT St bytes32 SPrimitive E) view,
  Lawful st view ->
  forall os s0 t o, (forall k, view s0 k = None) ->
  sp_run_all H pr st os (sp_new s0) = (t, o) ->
  forall k p, view (sp_storage t) k = Some p -> authentic H os k p.
Proof. exact @C70_lemma. Qed.
Print Assumptions C70_storage_authentic.

(** A load from that storage gives a tree with the requested root, or the requested root
    is the key of an attempted update and the tree is the one of that leaf. *)
Theorem C70_load_authentic : forall H pr St E (st : StorageT St bytes32 SPrimitive E) view,
  Lawful st view ->
  forall os s0 t o r s' t', (forall k, view s0 k = None) ->
  sp_run_all H pr st os (sp_new s0) = (t, o) ->
  sp_load st r (sp_storage t) = (s', Val (Ok t')) ->
  sp_root H t' = r \/
  exists v, In (Update r v) os /\ v <> [] /\ sp_root H t' = entry_hash H x00 r (H v).
Proof. exact @C70_load_lemma. Qed.
Print Assumptions C70_load_authentic.

Example C70_example :
  match sp_run_all sha256 Debug FaultySMap fail_delete (sp_new (fail_delete_script, smap_new)) with
  | (t, Val [Ok tt; Ok tt; Err _; Err _]) =>
      let v := fsview (sp_storage t) in
      entryb (v kB) 0 x00 kB (sha256 vb) && entryb (v hA) 0 x00 kA (sha256 va) && entryb (v (sp_root sha256 t)) 256 x01 hA hB &&
      match v hB with None => true | _ => false end &&
      match sp_load FaultySMap kB (sp_storage t) with
      | (_, Val (Ok t2)) => b32_eqb (sp_root sha256 t2) (entry_hash sha256 x00 kB (sha256 vb)) | _ => false end &&
      match sp_load FaultySMap (sp_root sha256 t) (sp_storage t) with
      | (_, Val (Ok t2)) => b32_eqb (sp_root sha256 t2) (sp_root sha256 t) | _ => false end
  | _ => false
  end = true.
Proof. exact C70_witness. Qed.

(** After a clean history every node of the tree of the map is in the storage under its
    hash, with its height and content, and every key of the map has its user entry. *)
Theorem C71_storage_complete : forall H pr St E (st : StorageT St bytes32 SPrimitive E) view,
  Lawful st view ->
  forall os s0 t, (forall k, view s0 k = None) -> clean [] [] os ->
  hash_ok H (map op_key os) (maps [] os) ->
  sp_run H pr st os (sp_new s0) = (t, Val (Ok tt)) ->
  (forall k d, (d <= 256)%nat -> agree d k (digests H (final os)) <> [] ->
     exists entry, tree_entry H d k (digests H (final os)) entry /\
       view (sp_storage t) (smt H (256 - d) d (agree d k (digests H (final os)))) = Some entry) /\
  (forall k v, In (k, v) (final os) -> view (sp_storage t) k = Some (0, x00, k, H v)).
Proof. exact @C71_lemma. Qed.
Print Assumptions C71_storage_complete.

Example C71_example : clean [] [] hist /\ hash_ok sha256 (map op_key hist) (maps [] hist) /\
  digests sha256 (final hist) = [(kA, sha256 vd); (kC, sha256 vc)] /\
  match sp_run sha256 Debug SStorageMap hist (sp_new smap_new) with
  | (t, Val (Ok tt)) =>
      let v := sview (sp_storage t) in
      let lA := entry_hash sha256 x00 kA (sha256 vd) in
      let lC := entry_hash sha256 x00 kC (sha256 vc) in
      let n2 := entry_hash sha256 x01 lA lC in
      let n1 := entry_hash sha256 x01 n2 zero32 in
      let n0 := entry_hash sha256 x01 n1 zero32 in
      entryb (v n0) 256 x01 n1 zero32 && entryb (v n1) 255 x01 n2 zero32 && entryb (v n2) 254 x01 lA lC &&
      entryb (v lA) 0 x00 kA (sha256 vd) && entryb (v lC) 0 x00 kC (sha256 vc) &&
      entryb (v kA) 0 x00 kA (sha256 vd) && entryb (v kC) 0 x00 kC (sha256 vc)
  | _ => false
  end = true.
Proof. exact C71_witness. Qed.

(** Any history of updates and deletes, failed ones included, new trees on the same
    storage and loads of saved roots, on a storage that may fail at any call. *)
Theorem C72_sparse_recovery : forall H pr St E (st : StorageT St bytes32 SPrimitive E) view,
  Lawful st view ->
  forall ks ms, hash_ok H ks ms ->
  forall saved m w t, sp_recovers H pr st view ks ms saved m w t ->
  sp_root H t = kv_root H m /\
  (forall m0, In m0 saved -> m0 <> [] ->
     exists s' r, sp_load st (kv_root H m0) (sp_storage t) = (s', Val r) /\
       ((exists t2, r = Ok t2 /\ sp_root H t2 = kv_root H m0 /\ sp_recovers H pr st view ks ms saved m0 w t2) \/
        ((exists e, r = Err (SStorageError e)) /\ ~ Infallible st))) /\
  (forall o, clean m w [o] -> In (op_key o) ks -> In (apply_op m o) ms ->
     exists t' r, sp_apply H pr st o t = (t', Val r) /\
       ((r = Ok tt /\ sp_root H t' = kv_root H (apply_op m o)) \/
        (exists e, r = Err e /\ sp_root H t' = kv_root H m /\
           ((storage_error e /\ ~ Infallible st) \/ (~ In m saved /\ exists h, e = SChildErr (ChildNotFound h)))))).
Proof. exact @C72_lemma. Qed.
Print Assumptions C72_sparse_recovery.

Example C72_example : hash_ok sha256 [kA; kB; kC] fail_outcomes /\
  exists t, sp_recovers sha256 Debug FaultySMap fsview [kA; kB; kC] fail_outcomes
    [[]; [(kC, vc); (kA, va)]; [(kA, va)]; []] [(kC, vc); (kA, va)] [kC; kB; kA] t.
Proof. exact C72_witness. Qed.

(** After an Ok delete the leaf of the deleted entry is gone, so no map holding that entry
    can be completely read any more. *)
Theorem C75_delete_forgets : forall H pr St E (st : StorageT St bytes32 SPrimitive E) view,
  Lawful st view ->
  forall ks ms, hash_ok H ks ms ->
  forall saved m w t k v t', sp_recovers H pr st view ks ms saved m w t ->
  In (k, v) m -> In k ks -> In (mdel k m) ms ->
  sp_delete H pr st k t = (t', Val (Ok tt)) ->
  view (sp_storage t') (entry_hash H x00 k (H v)) = None.
Proof. exact @C75_lemma. Qed.
Print Assumptions C75_delete_forgets.

Example C75_example : hash_ok sha256 [kA; kB; kC] fail_outcomes /\
  exists t t', sp_recovers sha256 Debug SStorageMap sview [kA; kB; kC] fail_outcomes
      [[(kB, vb); (kA, va)]; [(kA, va)]; []] [(kB, vb); (kA, va)] [kB; kA] t /\
    sp_delete sha256 Debug SStorageMap kB t = (t', Val (Ok tt)) /\
    entryb (sview (sp_storage t) (entry_hash sha256 x00 kB (sha256 vb))) 0 x00 kB (sha256 vb) = true.
Proof. exact C75_witness. Qed.
