(** PropertiesSparse.v -- C29 to C49, C59 and C60: the sparse tree.  [H] is any hash function,
    [pr] the build profile, [st] any storage obeying the laws of Storage.v, [view] its content.
    A history is a list of operations [Update k v] and [Delete k]; [sp_run] performs it on a tree
    and stops at the first error, [sp_run_all] carries on and returns all answers.  [final] is the
    resulting key-value map by the book, [maps] the maps passed through, [kv_root] the root of the
    compressed sparse Merkle tree of a map (SpecSparse.v).  [hash_ok ks ms]: no collisions and no
    zero digests among the inputs hashed for the roots of the maps [ms], and none of the digests is
    one of the keys [ks].  [clean]: deletes only hit keys that are present or were never written. *)
From Verif Require Import Base Sha256 Storage ModelText ModelCommon ModelSparse SpecBits SpecBinary SpecSparse
  RunsSparse SparseMain SparseAny SparseEntries SparseTheorems SparseSim WitnessSparse.

Theorem C29_sparse_root : forall H pr St E (st : StorageT St bytes32 SPrimitive E) view, Lawful st view ->
  Infallible st -> forall os s0, (forall k, view s0 k = None) -> clean [] [] os ->
  hash_ok H (map op_key os) (maps [] os) ->
  exists t, sp_run H pr st os (sp_new s0) = (t, Val (Ok tt)) /\ sp_root H t = kv_root H (final os).
Proof. exact @C29_lemma. Qed.
Print Assumptions C29_sparse_root.

Example C29_example :
  Lawful SStorageMap sview /\ Infallible SStorageMap /\ clean [] [] hist /\
  hash_ok sha256 (map op_key hist) (maps [] hist) /\ final hist = [(kA, vd); (kC, vc)] /\
  match sp_run sha256 Debug SStorageMap hist (sp_new smap_new) with
  | (t, Val (Ok tt)) => b32_eqb (sp_root sha256 t) (kv_root sha256 [(kA, vd); (kC, vc)])
  | _ => false
  end = true.
Proof. exact C29_witness. Qed.

(** C30 is false: deleting a key twice removes another entry the second time. *)
Theorem C30_arbitrary_deletes_refuted : exists os t,
  sp_run sha256 Debug SStorageMap os (sp_new smap_new) = (t, Val (Ok tt)) /\
  hash_ok sha256 (map op_key os) (maps [] os) /\ sp_root sha256 t <> kv_root sha256 (final os).
Proof. exact C30_refuted_lemma. Qed.
Print Assumptions C30_arbitrary_deletes_refuted.

(** What the tree really computes for every history, stale deletes included: deleting a key that
    was written before removes the entry the path of the key leads to ([real_final]). *)
Theorem C30_arbitrary_deletes_partial : forall H pr St E (st : StorageT St bytes32 SPrimitive E) view, Lawful st view ->
  Infallible st -> forall os s0, (forall k, view s0 k = None) -> ~ In zero32 (map op_key os) ->
  hash_ok H (map op_key os) (real_maps [] [] os) ->
  exists t, sp_run H pr st os (sp_new s0) = (t, Val (Ok tt)) /\ sp_root H t = kv_root H (real_final [] [] os).
Proof. exact @C30_lemma. Qed.
Print Assumptions C30_arbitrary_deletes_partial.

Example C30_example : ~ In zero32 (map op_key twice) /\ hash_ok sha256 (map op_key twice) (real_maps [] [] twice) /\
  final twice = [(kA, va)] /\ real_final [] [] twice = [] /\
  match sp_run sha256 Debug SStorageMap twice (sp_new smap_new) with
  | (t, Val (Ok tt)) => b32_eqb (sp_root sha256 t) zero32 | _ => false end = true.
Proof. exact C30_witness. Qed.

Theorem C31_order_independent : forall H pr pr' St E St' E'
  (st : StorageT St bytes32 SPrimitive E) (st' : StorageT St' bytes32 SPrimitive E') view view',
  Lawful st view -> Lawful st' view' -> Infallible st -> Infallible st' ->
  forall os os' s0 s0', (forall k, view s0 k = None) -> (forall k, view' s0' k = None) ->
  clean [] [] os -> clean [] [] os' -> hash_ok H (map op_key os) (maps [] os) -> hash_ok H (map op_key os') (maps [] os') ->
  (forall k, lookup k (final os) = lookup k (final os')) ->
  exists t t', sp_run H pr st os (sp_new s0) = (t, Val (Ok tt)) /\ sp_run H pr' st' os' (sp_new s0') = (t', Val (Ok tt)) /\
    sp_root H t = sp_root H t'.
Proof. exact @C31_lemma. Qed.
Print Assumptions C31_order_independent.

Example C31_example : Lawful SStorageMap sview /\ Lawful FunMap fview /\ Infallible SStorageMap /\ Infallible FunMap /\
  clean [] [] hist /\ clean [] [] hist2 /\ hash_ok sha256 (map op_key hist) (maps [] hist) /\ hash_ok sha256 (map op_key hist2) (maps [] hist2) /\
  forall k, lookup k (final hist) = lookup k (final hist2).
Proof. exact C31_witness. Qed.

Theorem C32_last_write_wins : forall H pr St E (st : StorageT St bytes32 SPrimitive E) view, Lawful st view ->
  Infallible st -> forall os s0 k v1 v2, (forall k, view s0 k = None) -> v1 <> [] -> v2 <> [] ->
  clean [] [] os -> hash_ok H (k :: map op_key os) (maps [] (os ++ [Update k v1; Update k v2])) ->
  exists t t', sp_run H pr st (os ++ [Update k v1; Update k v2]) (sp_new s0) = (t, Val (Ok tt)) /\
    sp_run H pr st (os ++ [Update k v2]) (sp_new s0) = (t', Val (Ok tt)) /\ sp_root H t = sp_root H t'.
Proof. exact @C32_lemma. Qed.
Print Assumptions C32_last_write_wins.

(** Repeating an update changes neither the tree nor the content of the storage. *)
Theorem C32_repeated_update : forall H pr St E (st : StorageT St bytes32 SPrimitive E) view, Lawful st view ->
  Infallible st -> forall os s0 k v, (forall k, view s0 k = None) -> v <> [] ->
  clean [] [] os -> hash_ok H (k :: map op_key os) (maps [] (os ++ [Update k v])) ->
  exists t t', sp_run H pr st (os ++ [Update k v]) (sp_new s0) = (t, Val (Ok tt)) /\
    sp_update H pr st k v t = (t', Val (Ok tt)) /\ sp_root_node t' = sp_root_node t /\
    forall k', view (sp_storage t') k' = view (sp_storage t) k'.
Proof. exact @C32_repeat_lemma. Qed.
Print Assumptions C32_repeated_update.

Example C32_example : clean [] [] hist /\
  hash_ok sha256 (kD :: map op_key hist) (maps [] (hist ++ [Update kD va; Update kD vb])) /\
  hash_ok sha256 (kD :: map op_key hist) (maps [] (hist ++ [Update kD va])) /\ In kD (keys (final (hist ++ [Update kD va]))).
Proof. exact C32_witness. Qed.

Theorem C33_delete_restores : forall H pr St E (st : StorageT St bytes32 SPrimitive E) view, Lawful st view ->
  Infallible st -> forall os s0 k v, (forall k, view s0 k = None) -> v <> [] ->
  clean [] [] os -> ~ In k (keys (final os)) ->
  hash_ok H (k :: map op_key os) (maps [] (os ++ [Update k v])) ->
  exists t t', sp_run H pr st os (sp_new s0) = (t, Val (Ok tt)) /\
    sp_run H pr st (os ++ [Update k v; Delete k]) (sp_new s0) = (t', Val (Ok tt)) /\ sp_root H t' = sp_root H t.
Proof. exact @C33_lemma. Qed.
Print Assumptions C33_delete_restores.

Example C33_example : clean [] [] hist /\ ~ In kD (keys (final hist)) /\
  hash_ok sha256 (kD :: map op_key hist) (maps [] (hist ++ [Update kD va])) /\ In kB (written hist) /\ ~ In kB (keys (final hist)).
Proof. exact C33_witness. Qed.

(** C34 is false. *)
Theorem C34_delete_idempotent_refuted : exists os k t t' t'',
  sp_run sha256 Debug SStorageMap os (sp_new smap_new) = (t, Val (Ok tt)) /\
  sp_delete sha256 Debug SStorageMap k t = (t', Val (Ok tt)) /\ sp_delete sha256 Debug SStorageMap k t' = (t'', Val (Ok tt)) /\
  sp_root sha256 t' <> sp_root sha256 t''.
Proof. exact C34_refuted_lemma. Qed.
Print Assumptions C34_delete_idempotent_refuted.

(** The second delete removes the entry at which the path of the key now ends, if there is one. *)
Theorem C34_delete_idempotent_partial : forall H pr St E (st : StorageT St bytes32 SPrimitive E) view, Lawful st view ->
  Infallible st -> forall os s0 k, (forall k, view s0 k = None) ->
  clean [] [] (os ++ [Delete k]) -> In k (keys (final os)) ->
  let m := final (os ++ [Delete k]) in
  let m' := match landing 256 0 k m with Some k' => mdel k' m | None => m end in
  hash_ok H (map op_key (os ++ [Delete k])) (maps [] (os ++ [Delete k]) ++ [m']) ->
  exists t t', sp_run H pr st (os ++ [Delete k]) (sp_new s0) = (t, Val (Ok tt)) /\
    sp_root H t = kv_root H m /\
    sp_delete H pr st k t = (t', Val (Ok tt)) /\ sp_root H t' = kv_root H m'.
Proof. exact @C34_lemma. Qed.
Print Assumptions C34_delete_idempotent_partial.

Example C34_example : let os := [Update kA va; Update kB vb] in
  clean [] [] (os ++ [Delete kB]) /\ In kB (keys (final os)) /\
  hash_ok sha256 (map op_key (os ++ [Delete kB])) (maps [] (os ++ [Delete kB]) ++ [[]]) /\
  landing 256 0 kB (final (os ++ [Delete kB])) = Some kA.
Proof. exact C34_witness. Qed.

Theorem C35_delete_unknown : forall H pr St E (st : StorageT St bytes32 SPrimitive E) view, Lawful st view ->
  forall os s0 k t, (forall k, view s0 k = None) -> clean [] [] os -> ~ In k (written os) ->
  hash_ok H (k :: map op_key os) (maps [] os) -> sp_run H pr st os (sp_new s0) = (t, Val (Ok tt)) ->
  exists t' r, sp_delete H pr st k t = (t', Val r) /\ sp_root H t' = sp_root H t /\
    (forall k', view (sp_storage t') k' = view (sp_storage t) k') /\
    (r = Ok tt \/ (exists e, r = Err (SStorageError e)) /\ ~ Infallible st).
Proof. exact @C35_lemma. Qed.
Print Assumptions C35_delete_unknown.

Example C35_example : clean [] [] hist /\ ~ In kD (written hist) /\ hash_ok sha256 (kD :: map op_key hist) (maps [] hist) /\
  exists t, sp_run sha256 Debug SStorageMap hist (sp_new smap_new) = (t, Val (Ok tt)).
Proof. exact C35_witness. Qed.

Theorem C36_empty_data_deletes : forall H pr St E (st : StorageT St bytes32 SPrimitive E) k t,
  sp_update H pr st k [] t = sp_delete H pr st k t.
Proof. exact update_nil. Qed.
Print Assumptions C36_empty_data_deletes.

Example C36_example : match sp_run sha256 Debug SStorageMap [Update kA va; Update kB vb; Update kB []] (sp_new smap_new) with
  | (t, Val (Ok tt)) => b32_eqb (sp_root sha256 t) (kv_root sha256 [(kA, va)]) | _ => false end = true.
Proof. exact C36_witness. Qed.

(** C37 is false in two ways: the root of an empty tree cannot be loaded, and loading a user key as
    if it were a root gives a tree with another root. *)
Theorem C37_load_resumes_refuted :
  (exists os t s', sp_run sha256 Debug SStorageMap os (sp_new smap_new) = (t, Val (Ok tt)) /\
    sp_load SStorageMap (sp_root sha256 t) (sp_storage t) = (s', Val (Err (SLoadError (hex_encode (b32 (sp_root sha256 t))))))) /\
  (exists os t r s' t2, sp_run sha256 Debug SStorageMap os (sp_new smap_new) = (t, Val (Ok tt)) /\
    sp_load SStorageMap r (sp_storage t) = (s', Val (Ok t2)) /\ sp_root sha256 t2 <> r).
Proof. exact C37_refuted_lemma. Qed.
Print Assumptions C37_load_resumes_refuted.

(** Loading the root of a non-empty tree gives a tree with the same root and the same behaviour
    under any operations [us] whatsoever: same answers, same root, same storage content. *)
Theorem C37_load_resumes_partial : forall H pr St E (st : StorageT St bytes32 SPrimitive E) view, Lawful st view -> Infallible st ->
  forall os s0 t, (forall k, view s0 k = None) -> clean [] [] os -> final os <> [] ->
  hash_ok H (map op_key os) (maps [] os) -> sp_run H pr st os (sp_new s0) = (t, Val (Ok tt)) ->
  exists s' t2, sp_load st (sp_root H t) (sp_storage t) = (s', Val (Ok t2)) /\ sp_root H t2 = sp_root H t /\
    forall us, exists t' t2' o, sp_run_all H pr st us t = (t', o) /\ sp_run_all H pr st us t2 = (t2', o) /\
      sp_root H t' = sp_root H t2' /\ forall k, view (sp_storage t') k = view (sp_storage t2') k.
Proof. exact load_resumes. Qed.
Print Assumptions C37_load_resumes_partial.

Example C37_example : clean [] [] hist /\ final hist <> [] /\ hash_ok sha256 (map op_key hist) (maps [] hist) /\
  match sp_run sha256 Debug SStorageMap hist (sp_new smap_new) with
  | (t, Val (Ok tt)) => match sp_load SStorageMap (sp_root sha256 t) (sp_storage t) with
                        | (_, Val (Ok t2)) => b32_eqb (sp_root sha256 t2) (sp_root sha256 t) | _ => false end
  | _ => false end = true.
Proof. exact C37_witness. Qed.

(** [us1], [us2] and [us3] are updates: the root after [us1] is loaded after [us2] was performed,
    and [us3] is performed on the loaded tree. *)
Theorem C38_old_roots_loadable : forall H pr St E (st : StorageT St bytes32 SPrimitive E) view, Lawful st view ->
  Infallible st -> forall os us1 us2 us3 s0, (forall k, view s0 k = None) -> clean [] [] os ->
  (forall o, In o (us1 ++ us2 ++ us3) -> is_update o) -> final (os ++ us1) <> [] ->
  hash_ok H (map op_key (os ++ us1 ++ us2 ++ us3)) (maps [] (os ++ us1 ++ us2) ++ maps (final (os ++ us1)) us3) ->
  exists t1 t2 s' t3 t4,
    sp_run H pr st (os ++ us1) (sp_new s0) = (t1, Val (Ok tt)) /\
    sp_run H pr st us2 t1 = (t2, Val (Ok tt)) /\
    sp_load st (sp_root H t1) (sp_storage t2) = (s', Val (Ok t3)) /\ sp_root H t3 = sp_root H t1 /\
    sp_run H pr st us3 t3 = (t4, Val (Ok tt)) /\ sp_root H t4 = kv_root H (final (os ++ us1 ++ us3)).
Proof. exact @C38_lemma. Qed.
Print Assumptions C38_old_roots_loadable.

Example C38_example : let us1 := [Update kA va; Update kB vb] in let us2 := [Update kC vc] in let us3 := [Update kB vb] in
  clean [] [] [] /\ (forall o, In o (us1 ++ us2 ++ us3) -> is_update o) /\ final ([] ++ us1) <> [] /\
  hash_ok sha256 (map op_key ([] ++ us1 ++ us2 ++ us3)) (maps [] ([] ++ us1 ++ us2) ++ maps (final ([] ++ us1)) us3).
Proof. exact C38_witness. Qed.

(** C39 is false. *)
Theorem C39_old_roots_after_delete_refuted : exists os k t t' s',
  sp_run sha256 Debug SStorageMap os (sp_new smap_new) = (t, Val (Ok tt)) /\
  sp_delete sha256 Debug SStorageMap k t = (t', Val (Ok tt)) /\
  sp_load SStorageMap (sp_root sha256 t) (sp_storage t') = (s', Val (Err (SLoadError (hex_encode (b32 (sp_root sha256 t)))))).
Proof. exact C39_refuted_lemma. Qed.
Print Assumptions C39_old_roots_after_delete_refuted.

(** Indeed deleting any key that is present makes the root from before unloadable. *)
Theorem C39_old_root_lost : forall H pr St E (st : StorageT St bytes32 SPrimitive E) view, Lawful st view ->
  Infallible st -> forall os s0 k, (forall k, view s0 k = None) -> clean [] [] os ->
  In k (keys (final os)) -> hash_ok H (map op_key os) (maps [] (os ++ [Delete k])) ->
  exists t t' s', sp_run H pr st os (sp_new s0) = (t, Val (Ok tt)) /\ sp_delete H pr st k t = (t', Val (Ok tt)) /\
    sp_load st (sp_root H t) (sp_storage t') = (s', Val (Err (SLoadError (hex_encode (b32 (sp_root H t)))))).
Proof. exact @C39_lemma. Qed.
Print Assumptions C39_old_root_lost.

Example C39_example : let os := [Update kA va; Update kB vb] in
  clean [] [] os /\ In kB (keys (final os)) /\ hash_ok sha256 (map op_key os) (maps [] (os ++ [Delete kB])).
Proof. exact C39_witness. Qed.

(** No law is assumed of the storage, nothing of the tree. *)
Theorem C40_failed_operation : forall H pr St E (st : StorageT St bytes32 SPrimitive E) o t t' e,
  sp_apply H pr st o t = (t', Val (Err e)) -> sp_root H t' = sp_root H t.
Proof. exact @apply_safe. Qed.
Print Assumptions C40_failed_operation.

Example C40_example : exists t t', sp_run_all sha256 Debug FaultySMap [Update kA va; Update kB vb] (sp_new (fail_delete_script, smap_new)) = (t, Val [Ok tt; Ok tt]) /\
  sp_delete sha256 Debug FaultySMap kB t = (t', Val (Err (SStorageError None))) /\
  fsview (sp_storage t) hB <> fsview (sp_storage t') hB.
Proof. exact C40_witness. Qed.

(** [flags us rs] pairs the calls with their success; [achieved] applies the successful ones only.
    [outcomes] are the maps reachable if any of the calls may fail. *)
Theorem C41_failed_update_harmless : forall H pr St E (st : StorageT St bytes32 SPrimitive E) view, Lawful st view ->
  forall os us s0 t, (forall k, view s0 k = None) -> clean [] [] os ->
  (forall o, In o us -> is_update o) ->
  hash_ok H (map op_key (os ++ us)) (maps [] os ++ outcomes (final os) us) ->
  sp_run H pr st os (sp_new s0) = (t, Val (Ok tt)) ->
  exists t' rs, sp_run_all H pr st us t = (t', Val rs) /\
    sp_root H t' = kv_root H (achieved (final os) (flags us rs)) /\
    forall e, In (Err e) rs -> storage_error e /\ ~ Infallible st.
Proof. exact @C41_lemma. Qed.
Print Assumptions C41_failed_update_harmless.

Example C41_example : clean [] [] [] /\ (forall o, In o fail_updates -> is_update o) /\
  hash_ok sha256 (map op_key ([] ++ fail_updates)) (maps [] [] ++ outcomes (final []) fail_updates) /\
  match sp_run_all sha256 Debug FaultySMap fail_updates (sp_new (fail_script, smap_new)) with
  | (t, Val [Ok tt; Err (SStorageError None); Ok tt]) => b32_eqb (sp_root sha256 t) (kv_root sha256 [(kC, vc); (kA, va)])
  | _ => false end = true.
Proof. exact C41_witness. Qed.

(** C42 is false: after a failing delete the storage works again, but an update does not. *)
Theorem C42_failed_delete_refuted : exists os script t h,
  sp_run_all sha256 Debug FaultySMap os (sp_new (script, smap_new)) =
    (t, Val [Ok tt; Ok tt; Err (SStorageError None); Err (SChildErr (ChildNotFound h))]).
Proof. exact C42_refuted_lemma. Qed.
Print Assumptions C42_failed_delete_refuted.

(** Whatever fails, if all calls return then the root is that of the successful calls. *)
Theorem C42_failed_delete_partial : forall H pr St E (st : StorageT St bytes32 SPrimitive E) view, Lawful st view ->
  forall os s0 t rs, (forall k, view s0 k = None) -> sp_run_all H pr st os (sp_new s0) = (t, Val rs) ->
  clean_flags [] [] (flags os rs) -> hash_ok H (map op_key os) (attempts [] (flags os rs)) ->
  sp_root H t = kv_root H (achieved [] (flags os rs)).
Proof. exact @C42_lemma. Qed.
Print Assumptions C42_failed_delete_partial.

Example C42_example : clean_flags [] [] (combine fail_delete [true; true; false; false]) /\
  hash_ok sha256 (map op_key fail_delete) (attempts [] (combine fail_delete [true; true; false; false])) /\
  match sp_run_all sha256 Debug FaultySMap fail_delete (sp_new (fail_delete_script, smap_new)) with
  | (t, Val [Ok tt; Ok tt; Err _; Err _]) => b32_eqb (sp_root sha256 t) (kv_root sha256 [(kB, vb); (kA, va)])
  | _ => false end = true.
Proof. exact C42_witness. Qed.

Theorem C43_root_binding : forall H m m', NoDup (keys m) -> NoDup (keys m') -> kv_root H m = kv_root H m' ->
  (forall k, lookup k m = lookup k m') \/
  has_collision H (kv_inputs H m ++ kv_inputs H m' ++ map snd m ++ map snd m') \/
  exists x, In x (kv_inputs H m ++ kv_inputs H m') /\ H x = zero32.
Proof. exact C43_lemma. Qed.
Print Assumptions C43_root_binding.

Example C43_example : NoDup (keys [(kA, vd); (kC, vc)]) /\ NoDup (keys [(kC, vc); (kA, vd)]) /\
  kv_root sha256 [(kA, vd); (kC, vc)] = kv_root sha256 [(kC, vc); (kA, vd)] /\
  kv_root sha256 [(kA, vd); (kC, vc)] <> kv_root sha256 [(kA, va); (kC, vc)].
Proof. exact C43_witness. Qed.

(** [Fuel] would mean that a loop of the model ran longer than its bound. *)
Theorem C44_operations_end : forall H pr St E (st : StorageT St bytes32 SPrimitive E) o t,
  snd (sp_apply H pr st o t) <> Fuel.
Proof. exact @apply_ends. Qed.
Print Assumptions C44_operations_end.
Theorem C44_load_ends : forall St E (st : StorageT St bytes32 SPrimitive E) r s, snd (sp_load st r s) <> Fuel.
Proof. exact @nf_load. Qed.
Print Assumptions C44_load_ends.
Theorem C44_walk_bounded : forall pr St E (st : StorageT St bytes32 SPrimitive E) root leaf s,
  snd (path_set pr st root leaf s) <> Fuel /\
  forall s' ps ss, path_set pr st root leaf s = (s', Val (Ok (ps, ss))) -> (length ps <= 257)%nat /\ (length ss <= 256)%nat.
Proof. exact (@path_set_ends sha256). Qed.
Print Assumptions C44_walk_bounded.

Example C44_example :
  match path_set Debug SStorageMap loopn (snode_create_leaf sha256 kB va) loop_storage with
  | (_, Val (Ok (ps, ss))) => (Z.of_nat (length ps) =? 257) && (Z.of_nat (length ss) =? 256) | _ => false end = true.
Proof. exact C44_witness. Qed.

(** C45 is false: if a key equals the hash of a node, its entry overwrites the node.  Then roots are
    wrong, and update panics. *)
Theorem C45_keys_and_nodes_refuted :
  (exists os t, clean [] [] os /\ ~ has_collision sha256 (concat (map (kv_inputs sha256) (maps [] os))) /\
    sp_run sha256 Debug SStorageMap os (sp_new smap_new) = (t, Val (Ok tt)) /\ sp_root sha256 t <> kv_root sha256 (final os)) /\
  (exists os t, (forall o, In o os -> is_update o) /\ sp_run sha256 Debug SStorageMap os (sp_new smap_new) = (t, Panic)).
Proof. exact C45_refuted_lemma. Qed.
Print Assumptions C45_keys_and_nodes_refuted.

Theorem C46_load_exact : forall St E H (st : StorageT St bytes32 SPrimitive E) r s,
  exists s' g res, s_get st r s = (s', g) /\ sp_load st r s = (s', Val res) /\
  (forall e, res = Err (SStorageError e) <-> g = Err e) /\
  (forall x, res = Err (SLoadError x) <-> x = hex_encode (b32 r) /\ g = Ok None) /\
  (forall b, res = Err (SDeserializeError (DPrefixError (InvalidPrefix b))) <->
     b <> x00 /\ b <> x01 /\ exists h lo hi, g = Ok (Some (h, b, lo, hi))) /\
  (forall e, res <> Err (SChildErr e)) /\
  ((exists t, res = Ok t) <-> exists h b lo hi, g = Ok (Some (h, b, lo, hi)) /\ (b = x00 \/ b = x01)) /\
  (forall t, res = Ok t -> sp_storage t = s' /\
     exists h b lo hi, g = Ok (Some (h, b, lo, hi)) /\ sp_root H t = entry_hash H b lo hi).
Proof. exact @load_exact. Qed.
Print Assumptions C46_load_exact.

Example C46_example :
  let s : SScratch := [(kA, (0, x00, kA, kB)); (kB, (0, x07, kA, kB))] in
  (exists t, sp_load SStorageMap kA s = (s, Val (Ok t))) /\
  sp_load SStorageMap kB s = (s, Val (Err (SDeserializeError (DPrefixError (InvalidPrefix x07))))) /\
  sp_load SStorageMap kC s = (s, Val (Err (SLoadError (hex_encode (b32 kC))))) /\
  exists fs, sp_load FaultySMap kA ([Fault], s) = (fs, Val (Err (SStorageError None))).
Proof. exact C46_witness. Qed.

Theorem C47_in_memory : forall H pr os, clean [] [] os -> hash_ok H (map op_key os) (maps [] os) ->
  exists t, sim_run H pr os sim_new = (t, Val tt) /\ sim_root H t = kv_root H (final os).
Proof. exact C47_lemma. Qed.
Print Assumptions C47_in_memory.

Example C47_example : clean [] [] hist /\ hash_ok sha256 (map op_key hist) (maps [] hist) /\
  match sim_run sha256 Release hist sim_new with
  | (t, Val tt) => b32_eqb (sim_root sha256 t) (kv_root sha256 [(kC, vc); (kA, vd)]) | _ => false end = true.
Proof. exact C47_witness. Qed.

(** [n] is the node stored as ([h], [b], [lo], [hi]); [child_read] (RunsSparse.v) lists the four
    outcomes of reading a child. *)
Theorem C48_child_access : forall St E H (st : StorageT St bytes32 SPrimitive E) h b lo hi n s,
  snode_try_from (h, b, lo, hi) = Ok n ->
  (b = x00 \/ lo = zero32 /\ hi = zero32 ->
     storage_node_left_child st n s = (s, Val (Err NodeIsLeaf)) /\ storage_node_right_child st n s = (s, Val (Err NodeIsLeaf))) /\
  (b = x01 -> lo <> zero32 \/ hi <> zero32 ->
     (exists s' res, storage_node_left_child st n s = (s', Val res) /\ child_read H st lo s s' res) /\
     (exists s' res, storage_node_right_child st n s = (s', Val res) /\ child_read H st hi s s' res)).
Proof. exact @child_exact. Qed.
Print Assumptions C48_child_access.

Example C48_example :
  let s : SScratch := [(kA, (0, x00, kA, kB)); (kB, (0, x07, kA, kB))] in
  (exists n, storage_node_left_child SStorageMap (Build_SNode 256 PNode kA kB) s = (s, Val (Ok n)) /\ sprim_of_node n = (0, x00, kA, kB)) /\
  storage_node_right_child SStorageMap (Build_SNode 256 PNode kA kB) s = (s, Val (Err (ChildErr (SNDeserializeError (DPrefixError (InvalidPrefix x07)))))) /\
  storage_node_left_child SStorageMap (Build_SNode 256 PNode kC kB) s = (s, Val (Err (ChildNotFound kC))) /\
  storage_node_left_child SStorageMap (Build_SNode 256 PNode zero32 kB) s = (s, Val (Ok snode_placeholder)) /\
  storage_node_left_child SStorageMap (Build_SNode 0 PLeaf kA kB) s = (s, Val (Err NodeIsLeaf)).
Proof. exact C48_witness. Qed.

(** [s] is the storage of the tree with any entries lost.  [near_path]: hashes of the nodes on and
    beside the path of [k]. *)
Theorem C49_missing_reported : forall H pr St E (st : StorageT St bytes32 SPrimitive E) view, Lawful st view ->
  Infallible st -> forall os s0 t s k v, (forall k, view s0 k = None) -> clean [] [] os ->
  sp_run H pr st os (sp_new s0) = (t, Val (Ok tt)) -> v <> [] ->
  hash_ok H (k :: map op_key os) (maps [] (os ++ [Update k v])) ->
  (forall k', view s k' = view (sp_storage t) k' \/ view s k' = None) ->
  exists t' r, sp_update H pr st k v (Build_SpTree (sp_root_node t) s) = (t', Val r) /\
  ((r = Ok tt /\ sp_root H t' = kv_root H (final (os ++ [Update k v])) /\
    forall h, near_path H k (digests H (final os)) h -> h <> H (smt_leaf_input k (H v)) -> view s h <> None) \/
   (exists h, r = Err (SChildErr (ChildNotFound h)) /\ view s h = None /\
      near_path H k (digests H (final os)) h /\ sp_root H t' = sp_root H t)).
Proof. exact @C49_lemma. Qed.
Print Assumptions C49_missing_reported.

Example C49_example : clean [] [] small /\ hash_ok sha256 (kD :: map op_key small) (maps [] (small ++ [Update kD va])) /\
  update_without hB (fun _ r => match r with Err (SChildErr (ChildNotFound h)) => b32_eqb h hB | _ => false end) = true /\
  update_without hA (fun t' r => match r with Ok tt => b32_eqb (sp_root sha256 t') (kv_root sha256 (final (small ++ [Update kD va]))) | _ => false end) = true.
Proof. exact C49_witness. Qed.

(** C59 is false: the failed update of [k'] leaves its entry behind, and the delete then removes
    the entry of [k]. *)
Theorem C59_delete_after_failed_update_refuted : exists k v k' v' script t t' t'',
  sp_run_all sha256 Debug FaultySMap [Update k v] (sp_new (script, smap_new)) = (t, Val [Ok tt]) /\
  sp_update sha256 Debug FaultySMap k' v' t = (t', Val (Err (SStorageError None))) /\
  sp_delete sha256 Debug FaultySMap k' t' = (t'', Val (Ok tt)) /\
  sp_root sha256 t <> zero32 /\ sp_root sha256 t'' = zero32.
Proof. exact C59_refuted_lemma. Qed.
Print Assumptions C59_delete_after_failed_update_refuted.

(** No assumption on the hash function, the root node or the content. *)
Theorem C60_storage_independent : forall H pr S1 S2 E
  (st1 : StorageT S1 bytes32 SPrimitive E) (st2 : StorageT S2 bytes32 SPrimitive E) view1 view2,
  Lawful st1 view1 -> Lawful st2 view2 -> Infallible st1 -> Infallible st2 ->
  forall n s1 s2 os, (forall k, view1 s1 k = view2 s2 k) ->
  exists t1 t2 o, sp_run_all H pr st1 os (Build_SpTree n s1) = (t1, o) /\ sp_run_all H pr st2 os (Build_SpTree n s2) = (t2, o) /\
    sp_root H t1 = sp_root H t2 /\ forall k, view1 (sp_storage t1) k = view2 (sp_storage t2) k.
Proof. exact @same_behaviour. Qed.
Print Assumptions C60_storage_independent.

Example C60_example : Lawful SStorageMap sview /\ Lawful FunMap fview /\ Infallible SStorageMap /\ Infallible FunMap /\
  (forall k, sview smap_new k = fview (fun _ => None) k) /\
  match sp_run_all sha256 Debug SStorageMap twice (sp_new smap_new), sp_run_all sha256 Debug FunMap twice (sp_new (fun _ => None)) with
  | (t1, Val [Ok tt; Ok tt; Ok tt; Ok tt]), (t2, Val [Ok tt; Ok tt; Ok tt; Ok tt]) => b32_eqb (sp_root sha256 t1) (sp_root sha256 t2)
  | _, _ => false end = true.
Proof. exact C60_witness. Qed.
