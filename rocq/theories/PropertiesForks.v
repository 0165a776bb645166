(** PropertiesForks.v -- property theorems about several sparse trees in one storage. *)
From Verif Require Import Base Sha256 Storage ModelCommon ModelSparse SpecBinary SpecSparse SpecForks RunsSparse RunsForks
  ForkProofs WitnessSparse WitnessForks.

(** C93 is false: a tree with the key B and a tree with the key A share a storage; deleting A,
    absent from the first tree, in the first tree answers Ok and deletes B. *)
Theorem C93_forks_refuted : forall pr, exists s' r1 r2 r3,
  sessions sha256 pr SStorageMap [] apart smap_new = (s', Val [Ok r1; Ok r2; Ok r3]) /\
  r1 = kv_root sha256 [(kB, vb)] /\ r2 = kv_root sha256 [(kA, va)] /\
  fold_left apply_op [Delete kA] [(kB, vb)] = [(kB, vb)] /\ r3 = zero32 /\ r3 <> r1.
Proof. exact C93_refuted_lemma. Qed.
Print Assumptions C93_forks_refuted.

(** What holds: without deletes all versions of all trees stay intact.  Every session that answers
    Ok answers the right root; only storage errors occur. *)
Theorem C93_forks_partial : forall H pr St E (st : StorageT St bytes32 SPrimitive E) view, Lawful st view ->
  forall acts s0 s' rs, (forall k, view s0 k = None) -> only_updates acts ->
  sessions H pr st [] acts s0 = (s', Val rs) -> hash_ok H (act_keys acts) (passed [] acts rs) ->
  all_right H (fun e => storage_error e /\ ~ Infallible st) [] acts rs.
Proof. exact @C93_lemma. Qed.
Print Assumptions C93_forks_partial.

(** No session panics. *)
Theorem C93_forks_answer_partial : forall H pr St E (st : StorageT St bytes32 SPrimitive E) view, Lawful st view ->
  forall acts s0, (forall k, view s0 k = None) -> only_updates acts ->
  hash_ok H (act_keys acts) (branches [] acts) ->
  exists s' rs, sessions H pr st [] acts s0 = (s', Val rs).
Proof. exact @C93_answer_lemma. Qed.
Print Assumptions C93_forks_answer_partial.

Example C93_failing_example : only_updates failing /\ hash_ok sha256 (act_keys failing) (branches [] failing) /\
  exists s' r1 e r3,
  sessions sha256 Debug FaultySMap [] failing ([NoFault; NoFault; NoFault; NoFault; Fault], smap_new) = (s', Val [Ok r1; Err e; Ok r3]) /\
  r3 = kv_root sha256 [(kB, vb); (kA, va)].
Proof. exact C93_failing_witness. Qed.

(** On an error-free storage all sessions succeed. *)
Theorem C93_forks_total_partial : forall H pr St E (st : StorageT St bytes32 SPrimitive E) view, Lawful st view ->
  Infallible st -> forall acts s0, (forall k, view s0 k = None) -> only_updates acts ->
  hash_ok H (act_keys acts) (trunk [] acts) ->
  exists s', sessions H pr st [] acts s0 = (s', Val (map (fun m => Ok (kv_root H m)) (versions [] acts))).
Proof. exact @C93_total_lemma. Qed.
Print Assumptions C93_forks_total_partial.

Example C93_example : only_updates tree_of_versions /\
  hash_ok sha256 (act_keys tree_of_versions) (trunk [] tree_of_versions) /\
  versions [] tree_of_versions =
    [[(kA, va)]; [(kB, vb); (kA, va)]; [(kA, vc)]; [(kB, vb); (kA, va)]].
Proof. exact C93_witness. Qed.
