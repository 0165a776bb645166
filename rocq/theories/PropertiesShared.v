(** PropertiesShared.v -- property theorems about several sparse trees in one storage, with deletes. *)
From Verif Require Import Base Sha256 Storage ModelCommon ModelSparse SpecBinary SpecSparse SpecDisk SpecSync SpecForks SpecShared
  RunsSparse RunsForks SharedProofs WitnessSparse WitnessShared.

(** A delete of an entry spoils only the versions that have the
    same entry.  If every session starts from a version that is not spoiled and deletes only keys
    that its map has or nobody has written, then every session that answers Ok answers the right
    root, and only storage errors occur. *)
Theorem C103_versions_right : forall H pr St E (st : StorageT St bytes32 SPrimitive E) view, Lawful st view ->
  forall acts s0 s' rs, (forall k, view s0 k = None) -> fair H [] [] acts rs ->
  sessions H pr st [] acts s0 = (s', Val rs) -> hash_ok H (act_keys acts) (passed [] acts rs) ->
  all_right H (fun e => storage_error e /\ ~ Infallible st) [] acts rs.
Proof. exact @C103_shared_lemma. Qed.
Print Assumptions C103_versions_right.

Example C103_broken_example : exists s' rs r4,
  sessions sha256 Debug FaultySMap [] broken (lost_answer, smap_new) = (s', Val rs) /\
  fair sha256 [] [] broken rs /\ hash_ok sha256 (act_keys broken) (passed [] broken rs) /\
  map is_ok rs = [true; true; false; true] /\ nth_error rs 3 = Some (Ok r4) /\ r4 = kv_root sha256 [(kB, vb); (kA, va)].
Proof. exact C103_broken_witness. Qed.

(** No session panics. *)
Theorem C103_versions_answer : forall H pr St E (st : StorageT St bytes32 SPrimitive E) view, Lawful st view ->
  forall acts s0, (forall k, view s0 k = None) ->
  (forall rs : list (result unit unit), length rs = length acts -> fair H [] [] acts rs) ->
  hash_ok H (act_keys acts) (branches [] acts) ->
  exists s' rs, sessions H pr st [] acts s0 = (s', Val rs).
Proof. exact @C103_shared_answer_lemma. Qed.
Print Assumptions C103_versions_answer.

Example C103_sturdy_example :
  (forall rs : list (result unit unit), length rs = length sturdy -> fair sha256 [] [] sturdy rs) /\
  hash_ok sha256 (act_keys sturdy) (branches [] sturdy).
Proof. exact C103_sturdy_witness. Qed.

(** On an error-free storage all sessions succeed, and in the end the storage holds all nodes of
    all versions that are not spoiled. *)
Theorem C103_versions_intact : forall H pr St E (st : StorageT St bytes32 SPrimitive E) view, Lawful st view ->
  Infallible st -> forall acts s0, (forall k, view s0 k = None) -> fair H [] [] acts (fine acts) ->
  hash_ok H (act_keys acts) (trunk [] acts) ->
  exists s', sessions H pr st [] acts s0 = (s', Val (map (fun m => Ok (kv_root H m)) (versions [] acts))) /\
    forall m, In (Some m) (usable H [] acts) -> holds_nodes H (view s') m.
Proof. exact @C103_shared_total_lemma. Qed.
Print Assumptions C103_versions_intact.

Example C103_pruned_example : fair sha256 [] [] pruned (fine pruned) /\
  hash_ok sha256 (act_keys pruned) (trunk [] pruned) /\
  versions [] pruned = [[(kB, vb); (kA, va)]; [(kA, vc); (kB, vb)]; [(kB, vb)]; [(kC, vc); (kB, vb); (kA, va)]] /\
  usable sha256 [] pruned = [Some [(kB, vb); (kA, va)]; None; Some [(kB, vb)]; Some [(kC, vc); (kB, vb); (kA, va)]].
Proof. exact C103_pruned_witness. Qed.

(** The condition cannot be weaker: after a delete of an entry the storage does not hold all nodes
    of any map with the same entry. *)
Theorem C103_versions_spoiled : forall H pr St E (st : StorageT St bytes32 SPrimitive E) view, Lawful st view ->
  Infallible st -> forall acts s0 m k, (forall k, view s0 k = None) -> fair H [] [] acts (fine acts) ->
  In (Some m) (usable H [] acts) -> In k (keys m) -> hash_ok H (k :: act_keys acts) (mdel k m :: trunk [] acts) ->
  exists s1 s2 rs, sessions H pr st [] acts s0 = (s1, Val rs) /\
    session H pr st (kv_root H m) [Delete k] s1 = (s2, Val (Ok (kv_root H (mdel k m)))) /\
    forall m2, NoDup (keys m2) -> shared H k m m2 = true -> ~ holds_nodes H (view s2) m2.
Proof. exact @C103_spoiled_lemma. Qed.
Print Assumptions C103_versions_spoiled.

Example C103_spoiled_example : fair sha256 [] [] pruned (fine pruned) /\
  In (Some [(kB, vb); (kA, va)]) (usable sha256 [] pruned) /\ In kA (keys [(kB, vb); (kA, va)]) /\
  hash_ok sha256 (kA :: act_keys pruned) (mdel kA [(kB, vb); (kA, va)] :: trunk [] pruned) /\
  shared sha256 kA [(kB, vb); (kA, va)] [(kC, vc); (kB, vb); (kA, va)] = true.
Proof. exact C103_spoiled_witness. Qed.
