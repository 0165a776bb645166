(** PropertiesShort.v -- property theorem about the number of calls of a sparse tree to its
    storage by the bits that tell a key apart. *)
From Verif Require Import Base Sha256 Storage ModelCommon ModelSparse SpecBits SpecBinary SpecSparse SpecAnyRun SpecDisk SpecCalls SpecShort
  Runs RunsSparse ShortProofs WitnessSparse WitnessShort.

(** One more call after any run that succeeded: if the first [c] bits tell its key apart from
    the other keys in the tree, the number of its calls to the storage is bounded by [c], also
    if it fails.  If [c] is the least such number, an update that succeeds makes exactly [2 + c]
    inserts, and a delete of a key in the tree exactly [1 + c] removals. *)
Theorem C114_short_paths : forall H pr St E (st : StorageT St bytes32 SPrimitive E) view, Lawful st view ->
  forall os o s0, (forall k, view s0 k = None) -> hash_ok H (map op_key (os ++ [o])) (trail H nothing (os ++ [o])) ->
  forall t, sp_run H pr (Logged st) os (sp_new ([], s0)) = (t, Val (Ok tt)) ->
  exists t' r l, sp_apply H pr (Logged st) o t = (t', Val r) /\ fst (sp_storage t') = fst (sp_storage t) ++ l /\
    forall c, apart c (op_key o) (fst (replay H os)) ->
      short o c l /\
      (r = Ok tt -> just c (op_key o) (fst (replay H os)) ->
       (is_update o -> n_writes l = (2 + c)%nat) /\
       (~ is_update o -> op_key o <> zero32 -> In (op_key o) (keys (fst (replay H os))) -> n_removals l = (1 + c)%nat)).
Proof. exact @C114_lemma. Qed.
Print Assumptions C114_short_paths.

(** The same with the plain meaning of the calls, if deletes only target keys that are in the
    tree or were never written. *)
Theorem C114_clean_histories : forall H pr St E (st : StorageT St bytes32 SPrimitive E) view, Lawful st view ->
  forall os o s0, (forall k, view s0 k = None) -> clean [] [] (os ++ [o]) -> hash_ok H (map op_key (os ++ [o])) (maps [] (os ++ [o])) ->
  forall t, sp_run H pr (Logged st) os (sp_new ([], s0)) = (t, Val (Ok tt)) ->
  exists t' r l, sp_apply H pr (Logged st) o t = (t', Val r) /\ fst (sp_storage t') = fst (sp_storage t) ++ l /\
    forall c, apart c (op_key o) (final os) ->
      short o c l /\
      (r = Ok tt -> just c (op_key o) (final os) ->
       (is_update o -> n_writes l = (2 + c)%nat) /\
       (~ is_update o -> op_key o <> zero32 -> In (op_key o) (keys (final os)) -> n_removals l = (1 + c)%nat)).
Proof. exact @C114_clean_lemma. Qed.
Print Assumptions C114_clean_histories.

Example C114_example :
  hash_ok sha256 (map op_key (first_two ++ [Update kC vc])) (trail sha256 nothing (first_two ++ [Update kC vc])) /\
  just 3 kC (fst (replay sha256 first_two)) /\
  tally_of first_two (Update kC vc) = Some (2, 5, 0)%nat /\
  hash_ok sha256 (map op_key (first_three ++ [Delete kB])) (trail sha256 nothing (first_three ++ [Delete kB])) /\
  just 1 kB (fst (replay sha256 first_three)) /\
  tally_of first_three (Delete kB) = Some (3, 1, 2)%nat /\
  tally_of first_three (Delete kA) = Some (6, 1, 4)%nat /\
  clean [] [] (first_three ++ [Delete kB]) /\
  hash_ok sha256 (map op_key (first_three ++ [Delete kB])) (maps [] (first_three ++ [Delete kB])) /\ just 1 kB (final first_three).
Proof. exact C114_witness. Qed.
