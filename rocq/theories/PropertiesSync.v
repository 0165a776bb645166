(** PropertiesSync.v -- property theorems about sparse trees on storages filled by others. *)
From Verif Require Import Base Sha256 Storage ModelCommon ModelSparse SpecBits SpecBinary SpecSparse SpecAnyRun SpecDisk SpecCalls SpecSync
  RunsSparse RunsSync SyncProofs WitnessSparse WitnessSync.

(** C98 is false: the storage holds all nodes of the map of A and B, but nothing under the key A;
    deleting A answers Ok and changes nothing. *)
Theorem C98_sync_refuted : forall pr, exists t t', sp_load SStorageMap (kv_root sha256 synced_map) synced = (synced, Val (Ok t)) /\
  holds_nodes sha256 (sview synced) synced_map /\ lookup kA synced_map = Some va /\
  sp_run sha256 pr SStorageMap [Delete kA] t = (t', Val (Ok tt)) /\
  sp_root sha256 t' = kv_root sha256 synced_map /\ kv_root sha256 synced_map <> kv_root sha256 (mdel kA synced_map).
Proof. exact C98_refuted_lemma. Qed.
Print Assumptions C98_sync_refuted.

(** What holds, for every map and every storage content that holds its nodes: loading gives the
    tree of the map, and root and storage content after any calls are those of the replay that
    starts from this content. *)
Theorem C98_sync_partial : forall H pr St E (st : StorageT St bytes32 SPrimitive E) view, Lawful st view ->
  forall m os s0, m <> [] -> NoDup (keys m) -> hash_ok H (map op_key os) (trail H (m, view s0) os) ->
  holds_nodes H (view s0) m -> no_conflict H (view s0) (map op_key os) (trail H (m, view s0) os) ->
  exists s1 r, sp_load st (kv_root H m) s0 = (s1, Val r) /\
    ((exists t, r = Ok t /\ sp_root H t = kv_root H m /\ (forall k, view (sp_storage t) k = view s0 k) /\
        goes_on H pr st view os (m, view s0) t) \/
     (exists e, r = Err (SStorageError e) /\ ~ Infallible st)).
Proof. exact C98_lemma. Qed.
Print Assumptions C98_sync_partial.

Example C98_example : synced_map <> [] /\ NoDup (keys synced_map) /\
  hash_ok sha256 (map op_key synced_ops) (trail sha256 (synced_map, sview synced) synced_ops) /\
  holds_nodes sha256 (sview synced) synced_map /\
  no_conflict sha256 (sview synced) (map op_key synced_ops) (trail sha256 (synced_map, sview synced) synced_ops) /\
  fst (fold_left (replay_op sha256) synced_ops (synced_map, sview synced)) = [(kC, vc); (kA, va)] /\
  sview synced zero32 = Some (77, x05, kA, kB).
Proof. exact C98_witness. Qed.

(** A new tree on a storage that is not empty. *)
Theorem C98_new_partial : forall H pr St E (st : StorageT St bytes32 SPrimitive E) view, Lawful st view ->
  forall os s0, hash_ok H (map op_key os) (trail H ([], view s0) os) ->
  no_conflict H (view s0) (map op_key os) (trail H ([], view s0) os) ->
  goes_on H pr st view os ([], view s0) (sp_new s0).
Proof. exact C98_new_lemma. Qed.
Print Assumptions C98_new_partial.

Example C98_new_example :
  hash_ok sha256 (map op_key new_ops) (trail sha256 ([], sview synced) new_ops) /\
  no_conflict sha256 (sview synced) (map op_key new_ops) (trail sha256 ([], sview synced) new_ops) /\
  fst (fold_left (replay_op sha256) new_ops ([], sview synced)) = [(kA, vc)].
Proof. exact C98_new_witness. Qed.

(** If the entries of the keys are there as well -- for every key deleted, an entry is stored
    under it exactly if it is in the map -- the replay is what the calls make of the map. *)
Theorem C98_clean_partial : forall H m d os w, NoDup (keys m) -> hash_ok H (map op_key os) (maps m os) ->
  (forall k, In k (map op_key os) -> In k (keys m) -> d k <> None) ->
  (forall k, In k (map op_key os) -> d k <> None -> In k w) -> clean m w os ->
  fst (fold_left (replay_op H) os (m, d)) = fold_left apply_op os m /\ trail H (m, d) os = maps m os.
Proof. exact C98_clean_lemma. Qed.
Print Assumptions C98_clean_partial.

Example C98_clean_example : NoDup (keys synced_map) /\ hash_ok sha256 (map op_key clean_ops) (maps synced_map clean_ops) /\
  (forall k, In k (map op_key clean_ops) -> In k (keys synced_map) -> sview synced k <> None) /\
  (forall k, In k (map op_key clean_ops) -> sview synced k <> None -> In k [kB]) /\ clean synced_map [kB] clean_ops /\
  fold_left apply_op clean_ops synced_map = [(kA, va)].
Proof. exact C98_clean_witness. Qed.

(** The calls made to the storage: one read to load, then those of the script. *)
Theorem C98_calls_partial : forall H pr St E (st : StorageT St bytes32 SPrimitive E) view, Lawful st view ->
  forall m os s0, m <> [] -> NoDup (keys m) -> hash_ok H (map op_key os) (trail H (m, view s0) os) ->
  holds_nodes H (view s0) m -> no_conflict H (view s0) (map op_key os) (trail H (m, view s0) os) ->
  forall L s1 t, sp_load (Logged st) (kv_root H m) (L, s0) = (s1, Val (Ok t)) ->
  fst (sp_storage t) = L ++ [done (Get (kv_root H m))] /\
  exists t' r l, sp_run H pr (Logged st) os t = (t', Val r) /\ fst (sp_storage t') = fst (sp_storage t) ++ l /\
    ((r = Ok tt /\ l = map done (script H (m, view s0) os)) \/
     (exists before o rest l', os = before ++ o :: rest /\ l = map done (script H (m, view s0) before) ++ l' /\
        sparse_stop (script_op H (fold_left (replay_op H) before (m, view s0)) o) l' r)).
Proof. exact C98_calls_lemma. Qed.
Print Assumptions C98_calls_partial.

Example C98_calls_example : match sp_load (Logged SStorageMap) (kv_root sha256 synced_map) ([], synced) with
  | (_, Val (Ok _)) => true | _ => false end = true /\
  length (script sha256 (synced_map, sview synced) synced_ops) = 14%nat.
Proof. exact C98_calls_witness. Qed.
