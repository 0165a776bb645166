(** PropertiesPart.v -- property theorem about updates on a part of the storage. *)
From Verif Require Import Base Sha256 Storage ModelCommon ModelSparse SpecBits SpecBinary SpecSparse SpecAnyRun SpecDisk SpecPart
  Runs RunsSparse PartProofs WitnessSparse WitnessShort WitnessNeed WitnessPart.

(** [s] is the storage after a run with any entries lost, the paths of the keys of [us] excepted:
    any number of updates of these keys works as on the whole storage. *)
Theorem C116_part_of_the_storage : forall H pr St E (st : StorageT St bytes32 SPrimitive E) view, Lawful st view -> Infallible st ->
  forall os us s0 t s, (forall k, view s0 k = None) -> (forall o, In o us -> is_update o) ->
  sp_run H pr st os (sp_new s0) = (t, Val (Ok tt)) ->
  let m := fst (replay H os) in
  hash_ok H (map op_key (os ++ us)) (trail H nothing os ++ maps m us) ->
  (forall k, view s k = view (sp_storage t) k \/ view s k = None) ->
  (forall o, In o us -> has_path H (op_key o) m (view s)) ->
  exists t', sp_run H pr st us (Build_SpTree (sp_root_node t) s) = (t', Val (Ok tt)) /\
    sp_root H t' = kv_root H (fold_left apply_op us m).
Proof. exact @C116_lemma. Qed.
Print Assumptions C116_part_of_the_storage.

Example C116_example :
  hash_ok sha256 (map op_key (first_three ++ later)) (trail sha256 nothing first_three ++ maps (fst (replay sha256 first_three)) later) /\
  (forall o, In o later -> has_path sha256 (op_key o) (fst (replay sha256 first_three)) (sview part)) /\
  (sview part leafA = None /\ sview part leafC = None /\ sview part kA = None) /\
  later_on part = Some (Ok tt, true) /\
  later_on (part_of [leafB]) = Some (Err (SChildErr (ChildNotFound leafB)), false).
Proof. exact C116_witness. Qed.

(** The same for a tree loaded from the part of the storage by its root. *)
Theorem C116_loaded : forall H pr St E (st : StorageT St bytes32 SPrimitive E) view, Lawful st view -> Infallible st ->
  forall os us s0 t s, (forall k, view s0 k = None) -> us <> [] -> (forall o, In o us -> is_update o) ->
  sp_run H pr st os (sp_new s0) = (t, Val (Ok tt)) ->
  let m := fst (replay H os) in m <> [] ->
  hash_ok H (map op_key (os ++ us)) (trail H nothing os ++ maps m us) ->
  (forall k, view s k = view (sp_storage t) k \/ view s k = None) ->
  (forall o, In o us -> has_path H (op_key o) m (view s)) ->
  exists t1 t', sp_load st (kv_root H m) s = (sp_storage t1, Val (Ok t1)) /\ sp_root H t1 = kv_root H m /\
    sp_run H pr st us t1 = (t', Val (Ok tt)) /\ sp_root H t' = kv_root H (fold_left apply_op us m).
Proof. exact @C116_load_lemma. Qed.
Print Assumptions C116_loaded.

(** The hypotheses are met as in the example above. *)
Example C116_load_example : fst (replay sha256 first_three) = final first_three /\ loaded_later = Some (true, Ok tt, true).
Proof. exact C116_load_witness. Qed.
