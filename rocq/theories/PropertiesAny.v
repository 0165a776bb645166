(** PropertiesAny.v -- property theorems about arbitrary calls on a sparse tree whose storage
    may fail at any time. *)
From Verif Require Import Base Sha256 Storage ModelCommon ModelSparse SpecBits SpecBinary SpecSparse SpecAnyRun RunsSparse
  SparseAnyRun WitnessSparse WitnessAny.

(** C59 (refuted in PropertiesSparse.v): a delete of [k] after a failed update of [k] gives
    the map without [k], or, only if [k] is not in the map, the map without the entry the
    path of [k] leads to. *)
Theorem C59_delete_after_failed_update_partial : forall H pr St E (st : StorageT St bytes32 SPrimitive E) view,
  Lawful st view ->
  forall os s0 t k v t' e, (forall k, view s0 k = None) -> clean [] [] os -> v <> [] ->
  hash_ok H (map op_key os ++ [k]) (maps [] os ++ [mset k v (final os); without_landing k (final os)]) ->
  sp_run H pr st os (sp_new s0) = (t, Val (Ok tt)) ->
  sp_update H pr st k v t = (t', Val (Err e)) ->
  sp_root H t' = kv_root H (final os) /\
  exists t2 r, sp_delete H pr st k t' = (t2, Val r) /\
    ((r = Ok tt /\ (sp_root H t2 = kv_root H (mdel k (final os)) \/
                    (~ In k (keys (final os)) /\ sp_root H t2 = kv_root H (without_landing k (final os))))) \/
     (exists e', r = Err e' /\ storage_error e' /\ ~ Infallible st /\ sp_root H t2 = kv_root H (final os))).
Proof. exact @C59_partial_lemma. Qed.
Print Assumptions C59_delete_after_failed_update_partial.

Example C59_example : clean [] [] [Update kA va] /\
  hash_ok sha256 (map op_key [Update kA va] ++ [kB])
    (maps [] [Update kA va] ++ [mset kB vb (final [Update kA va]); without_landing kB (final [Update kA va])]) /\
  match sp_run sha256 Debug FaultySMap [Update kA va] (sp_new (fail_script, smap_new)) with
  | (t, Val (Ok tt)) => match sp_update sha256 Debug FaultySMap kB vb t with
                        | (t', Val (Err _)) => b32_eqb (sp_root sha256 t') (kv_root sha256 [(kA, va)]) | _ => false end
  | _ => false end = true.
Proof. exact C59_witness. Qed.

(** Every history whatsoever: every call answers, the root is that of a map the answers
    allow, and every entry of that map comes from an update that answered Ok. *)
Theorem C73_any_history : forall H pr St E (st : StorageT St bytes32 SPrimitive E) view,
  Lawful st view ->
  forall os s0, (forall k, view s0 k = None) -> hash_ok H (map op_key os) (possible [] os) ->
  exists t rs m, sp_run_all H pr st os (sp_new s0) = (t, Val rs) /\ length rs = length os /\
    may [] [] (flags os rs) m /\ sp_root H t = kv_root H m /\
    (forall k v, In (k, v) m -> In (Update k v, true) (flags os rs)) /\
    (forall e, In (Err e) rs -> (storage_error e /\ ~ Infallible st) \/ exists h, e = SChildErr (ChildNotFound h)) /\
    (deletes_ok (flags os rs) = true -> forall e, In (Err e) rs -> storage_error e /\ ~ Infallible st).
Proof. exact @C73_lemma. Qed.
Print Assumptions C73_any_history.

Example C73_example : hash_ok sha256 (map op_key ghost) (possible [] ghost) /\
  may [] [] (combine ghost [true; false; true]) [] /\
  match sp_run_all sha256 Debug FaultySMap ghost (sp_new (fail_script, smap_new)) with
  | (t, Val [Ok tt; Err (SStorageError None); Ok tt]) => b32_eqb (sp_root sha256 t) zero32
  | _ => false end = true.
Proof. exact C73_witness. Qed.

(** C74 is false for the key of 32 zero bytes: a stale delete of another key can remove its
    entry, and deleting it then answers Ok without doing anything. *)
Theorem C74_delete_present_refuted : exists os k m t t',
  sp_run sha256 Debug SStorageMap os (sp_new smap_new) = (t, Val (Ok tt)) /\
  final os = m /\ In k (keys m) /\ sp_root sha256 t = kv_root sha256 m /\
  hash_ok sha256 (map op_key os ++ [k]) (possible [] (os ++ [Delete k])) /\
  sp_delete sha256 Debug SStorageMap k t = (t', Val (Ok tt)) /\ sp_root sha256 t' = kv_root sha256 m /\
  kv_root sha256 m <> kv_root sha256 (mdel k m).
Proof. exact C74_refuted_lemma. Qed.
Print Assumptions C74_delete_present_refuted.

(** True for every other key, after any history. *)
Theorem C74_delete_present_partial : forall H pr St E (st : StorageT St bytes32 SPrimitive E) view,
  Lawful st view ->
  forall os k s0, (forall k, view s0 k = None) -> k <> zero32 ->
  hash_ok H (map op_key os ++ [k]) (possible [] (os ++ [Delete k])) ->
  exists t rs m, sp_run_all H pr st os (sp_new s0) = (t, Val rs) /\ may [] [] (flags os rs) m /\ sp_root H t = kv_root H m /\
    (In k (keys m) ->
     exists t' r, sp_delete H pr st k t = (t', Val r) /\
       ((r = Ok tt /\ sp_root H t' = kv_root H (mdel k m)) \/ (exists e, r = Err e /\ sp_root H t' = kv_root H m))).
Proof. exact @C74_partial_lemma. Qed.
Print Assumptions C74_delete_present_partial.

Example C74_example : kB <> zero32 /\
  hash_ok sha256 (map op_key [Update kA va; Update kB vb] ++ [kB]) (possible [] ([Update kA va; Update kB vb] ++ [Delete kB])) /\
  may [] [] (combine [Update kA va; Update kB vb] [true; true]) [(kB, vb); (kA, va)] /\ In kB (keys [(kB, vb); (kA, va)]).
Proof. exact C74_witness. Qed.
