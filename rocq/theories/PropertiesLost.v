(** PropertiesLost.v -- property theorems about sparse trees whose storage lost or changed entries. *)
From Verif Require Import Base Sha256 Storage ModelCommon ModelSparse SpecBits SpecBinary SpecSparse SpecAnyRun SpecLost RunsSparse RunsLost
  SparseLost WitnessSparse WitnessLost.

(** C88 as stated is false: the height of a node is not covered by its hash, so a node with a
    wrong height is accepted by load; a delete then answers Ok with a wrong root and an update
    panics.  And where the entry of a present key is lost, a delete of that key answers Ok and
    does nothing. *)
Theorem C88_damaged_refuted : exists os k v t,
  sp_run sha256 Debug SStorageMap os (sp_new smap_new) = (t, Val (Ok tt)) /\ In k (keys (final os)) /\
  (exists s t1 t2,
     (forall k', sview s k' = sview (sp_storage t) k' \/
        exists h b lo hi, k' = entry_hash sha256 b lo hi /\ sview s k' = Some (h, b, lo, hi)) /\
     sp_load SStorageMap (sp_root sha256 t) s = (s, Val (Ok t1)) /\ sp_root sha256 t1 = sp_root sha256 t /\
     sp_delete sha256 Debug SStorageMap k t1 = (t2, Val (Ok tt)) /\ sp_root sha256 t2 <> kv_root sha256 (mdel k (final os)) /\
     snd (sp_update sha256 Debug SStorageMap k v t1) = Panic) /\
  (exists s t2,
     (forall k', sview s k' = sview (sp_storage t) k' \/ sview s k' = None) /\
     sp_delete sha256 Debug SStorageMap k (Build_SpTree (sp_root_node t) s) = (t2, Val (Ok tt)) /\
     sp_root sha256 t2 <> kv_root sha256 (mdel k (final os))).
Proof. exact C88_refuted_lemma. Qed.
Print Assumptions C88_damaged_refuted.

(** What holds: updates, deletes, failures of the storage, losses of any entries and loads of
    the current root, in any order.  The root is always that of a map the answers allow, the
    only doubt being whether a delete did something; every entry of that map comes from an
    update that answered Ok; the errors are those of the storage and missing nodes; and the
    next call answers too, naming a node that is missing indeed if it reports one. *)
Theorem C88_damaged_partial : forall H pr St E (st : StorageT St bytes32 SPrimitive E) view,
  Lawful st view ->
  forall s0 obs t, (forall k, view s0 k = None) -> lost_run H pr st view (sp_new s0) obs t ->
  hash_ok H (map op_key (map fst obs)) (possible [] (map fst obs)) ->
  exists m, may_lost [] [] (seen obs) m /\ sp_root H t = kv_root H m /\
    (forall k v, In (k, v) m -> In (Update k v, true) (seen obs)) /\
    (forall o e, In (o, Err e) obs -> (storage_error e /\ ~ Infallible st) \/ exists h, e = SChildErr (ChildNotFound h)) /\
    (forall o, hash_ok H (map op_key (map fst obs ++ [o])) (possible [] (map fst obs ++ [o])) ->
       exists t' r, sp_apply H pr st o t = (t', Val r) /\
         (r = Ok tt \/ (exists e, r = Err e /\ storage_error e /\ ~ Infallible st) \/
          exists h, r = Err (SChildErr (ChildNotFound h)) /\ view (sp_storage t) h = None)).
Proof. exact @C88_lemma. Qed.
Print Assumptions C88_damaged_partial.

Example C88_example :
  hash_ok sha256 (map op_key (map fst torn_obs)) (possible [] (map fst torn_obs)) /\
  lost_run sha256 Debug SStorageMap sview (sp_new smap_new) torn_obs torn_tree /\
  sp_root sha256 torn_tree = kv_root sha256 [(kB, vb); (kA, va)] /\
  may_lost [] [] (seen torn_obs) [(kB, vb); (kA, va)].
Proof. exact C88_witness. Qed.
