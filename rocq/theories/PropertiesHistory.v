(** PropertiesHistory.v -- property theorems about sparse trees after any history [os] of updates
    and deletes, stale deletes included.  [replay] (SpecDisk.v) is the map and the content of the
    storage after such a history (C89), [trail] the maps passed through. *)
From Verif Require Import Base Sha256 Storage ModelCommon ModelSparse SpecBits SpecBinary SpecSparse SpecAnyRun SpecDisk RunsSparse
  SparseAny SparseTheorems HistoryProofs WitnessSparse WitnessHistory.

Theorem C32_last_write_wins_any : forall H pr St E (st : StorageT St bytes32 SPrimitive E) view, Lawful st view ->
  Infallible st -> forall os s0 k v1 v2, (forall k, view s0 k = None) -> v1 <> [] -> v2 <> [] ->
  hash_ok H (k :: map op_key os) (trail H nothing (os ++ [Update k v1; Update k v2])) ->
  exists t t', sp_run H pr st (os ++ [Update k v1; Update k v2]) (sp_new s0) = (t, Val (Ok tt)) /\
    sp_run H pr st (os ++ [Update k v2]) (sp_new s0) = (t', Val (Ok tt)) /\ sp_root H t = sp_root H t'.
Proof. exact @C32_any_lemma. Qed.
Print Assumptions C32_last_write_wins_any.

Theorem C32_repeated_update_any : forall H pr St E (st : StorageT St bytes32 SPrimitive E) view, Lawful st view ->
  Infallible st -> forall os s0 k v, (forall k, view s0 k = None) -> v <> [] ->
  hash_ok H (k :: map op_key os) (trail H nothing (os ++ [Update k v])) ->
  exists t t', sp_run H pr st (os ++ [Update k v]) (sp_new s0) = (t, Val (Ok tt)) /\
    sp_update H pr st k v t = (t', Val (Ok tt)) /\ sp_root H t' = sp_root H t /\
    forall k', view (sp_storage t') k' = view (sp_storage t) k'.
Proof. exact @C32_repeat_any_lemma. Qed.
Print Assumptions C32_repeated_update_any.

Theorem C33_delete_restores_any : forall H pr St E (st : StorageT St bytes32 SPrimitive E) view, Lawful st view ->
  Infallible st -> forall os s0 k v, (forall k, view s0 k = None) -> v <> [] ->
  ~ In k (keys (fst (replay H os))) -> hash_ok H (k :: map op_key os) (trail H nothing (os ++ [Update k v])) ->
  exists t t', sp_run H pr st os (sp_new s0) = (t, Val (Ok tt)) /\
    sp_run H pr st (os ++ [Update k v; Delete k]) (sp_new s0) = (t', Val (Ok tt)) /\ sp_root H t' = sp_root H t.
Proof. exact @C33_any_lemma. Qed.
Print Assumptions C33_delete_restores_any.

Theorem C35_delete_unknown_any : forall H pr St E (st : StorageT St bytes32 SPrimitive E) view, Lawful st view ->
  forall os s0 k t, (forall k, view s0 k = None) -> ~ In k (written os) ->
  hash_ok H (k :: map op_key os) (trail H nothing os) -> sp_run H pr st os (sp_new s0) = (t, Val (Ok tt)) ->
  exists t' r, sp_delete H pr st k t = (t', Val r) /\ sp_root H t' = sp_root H t /\
    (forall k', view (sp_storage t') k' = view (sp_storage t) k') /\
    (r = Ok tt \/ (exists e, r = Err (SStorageError e)) /\ ~ Infallible st).
Proof. exact @C35_any_lemma. Qed.
Print Assumptions C35_delete_unknown_any.

(** C37 (refuted in PropertiesSparse.v for the empty tree and for roots that are keys). *)
Theorem C37_load_resumes_any_partial : forall H pr St E (st : StorageT St bytes32 SPrimitive E) view, Lawful st view ->
  Infallible st -> forall os s0 t, (forall k, view s0 k = None) -> fst (replay H os) <> [] ->
  hash_ok H (map op_key os) (trail H nothing os) -> sp_run H pr st os (sp_new s0) = (t, Val (Ok tt)) ->
  exists s' t2, sp_load st (sp_root H t) (sp_storage t) = (s', Val (Ok t2)) /\ sp_root H t2 = sp_root H t /\
    forall us, exists t' t2' o, sp_run_all H pr st us t = (t', o) /\ sp_run_all H pr st us t2 = (t2', o) /\
      sp_root H t' = sp_root H t2' /\ forall k, view (sp_storage t') k = view (sp_storage t2') k.
Proof. exact @C37_any_lemma. Qed.
Print Assumptions C37_load_resumes_any_partial.

(** [us1], [us2], [us3] as in C38_old_roots_loadable. *)
Theorem C38_old_roots_any : forall H pr St E (st : StorageT St bytes32 SPrimitive E) view, Lawful st view ->
  Infallible st -> forall os us1 us2 us3 s0, (forall k, view s0 k = None) ->
  (forall o, In o (us1 ++ us2 ++ us3) -> is_update o) ->
  let m := fst (replay H os) in let m1 := fold_left apply_op us1 m in m1 <> [] ->
  hash_ok H (map op_key (os ++ us1 ++ us2 ++ us3)) (trail H nothing os ++ maps m (us1 ++ us2) ++ maps m1 us3) ->
  exists t t1 t2 s' t3 t4,
    sp_run H pr st os (sp_new s0) = (t, Val (Ok tt)) /\
    sp_run H pr st us1 t = (t1, Val (Ok tt)) /\ sp_run H pr st us2 t1 = (t2, Val (Ok tt)) /\
    sp_load st (sp_root H t1) (sp_storage t2) = (s', Val (Ok t3)) /\ sp_root H t3 = sp_root H t1 /\
    sp_run H pr st us3 t3 = (t4, Val (Ok tt)) /\ sp_root H t4 = kv_root H (fold_left apply_op us3 m1).
Proof. exact @C38_any_lemma. Qed.
Print Assumptions C38_old_roots_any.

Theorem C41_failed_update_any : forall H pr St E (st : StorageT St bytes32 SPrimitive E) view, Lawful st view ->
  forall os us s0 t, (forall k, view s0 k = None) -> (forall o, In o us -> is_update o) ->
  hash_ok H (map op_key (os ++ us)) (trail H nothing os ++ outcomes (fst (replay H os)) us) ->
  sp_run H pr st os (sp_new s0) = (t, Val (Ok tt)) ->
  exists t' rs, sp_run_all H pr st us t = (t', Val rs) /\
    sp_root H t' = kv_root H (achieved (fst (replay H os)) (flags us rs)) /\
    forall e, In (Err e) rs -> storage_error e /\ ~ Infallible st.
Proof. exact @C41_any_lemma. Qed.
Print Assumptions C41_failed_update_any.

Theorem C49_missing_reported_any : forall H pr St E (st : StorageT St bytes32 SPrimitive E) view, Lawful st view ->
  Infallible st -> forall os s0 t s k v, (forall k, view s0 k = None) ->
  sp_run H pr st os (sp_new s0) = (t, Val (Ok tt)) -> v <> [] ->
  hash_ok H (k :: map op_key os) (trail H nothing (os ++ [Update k v])) ->
  (forall k', view s k' = view (sp_storage t) k' \/ view s k' = None) ->
  let m := fst (replay H os) in
  exists t' r, sp_update H pr st k v (Build_SpTree (sp_root_node t) s) = (t', Val r) /\
  ((r = Ok tt /\ sp_root H t' = kv_root H (mset k v m) /\
    forall h, near_path H k (digests H m) h -> h <> H (smt_leaf_input k (H v)) -> view s h <> None) \/
   (exists h, r = Err (SChildErr (ChildNotFound h)) /\ view s h = None /\
      near_path H k (digests H m) h /\ sp_root H t' = sp_root H t)).
Proof. exact @C49_any_lemma. Qed.
Print Assumptions C49_missing_reported_any.

(** A history with a stale delete. *)
Example history_example : ~ clean [] [] stale /\ fst (replay sha256 stale) = [(kC, vc)] /\ final stale = [(kC, vc); (kA, va)] /\
  hash_ok sha256 (kD :: map op_key stale) (trail sha256 nothing stale) /\ ~ In kD (written stale) /\
  exists t, sp_run sha256 Debug SStorageMap stale (sp_new smap_new) = (t, Val (Ok tt)).
Proof. exact history_witness. Qed.
Example C32_any_example : hash_ok sha256 (kB :: map op_key stale) (trail sha256 nothing (stale ++ [Update kB va; Update kB vb])) /\
  hash_ok sha256 (kB :: map op_key stale) (trail sha256 nothing (stale ++ [Update kB vb])) /\ ~ In kB (keys (fst (replay sha256 stale))).
Proof. exact C32_any_witness. Qed.
Example C38_any_example : let us1 := [Update kB vb] in let us2 := [Update kB va] in let us3 := [Update kB va] in
  let m := fst (replay sha256 stale) in let m1 := fold_left apply_op us1 m in
  (forall o, In o (us1 ++ us2 ++ us3) -> is_update o) /\ m1 <> [] /\
  hash_ok sha256 (map op_key (stale ++ us1 ++ us2 ++ us3)) (trail sha256 nothing stale ++ maps m (us1 ++ us2) ++ maps m1 us3) /\
  hash_ok sha256 (map op_key (stale ++ us1 ++ us2)) (trail sha256 nothing stale ++ outcomes m (us1 ++ us2)).
Proof. exact C38_any_witness. Qed.
