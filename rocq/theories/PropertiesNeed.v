(** PropertiesNeed.v -- property theorem about what a delete needs of its storage. *)
From Verif Require Import Base Sha256 Storage ModelCommon ModelSparse SpecBits SpecBinary SpecSparse SpecAnyRun SpecDisk
  Runs RunsSparse NeedProofs WitnessSparse WitnessShort WitnessNeed.

(** A delete after any run, on a storage that lost any entries since: without an entry under the
    key it does nothing.  Else it needs exactly the nodes on and beside the path of the key, the
    root excepted. *)
Theorem C115_delete_needs : forall H pr St E (st : StorageT St bytes32 SPrimitive E) view, Lawful st view -> Infallible st ->
  forall os s0 t s k, (forall k, view s0 k = None) -> sp_run H pr st os (sp_new s0) = (t, Val (Ok tt)) ->
  let m := fst (replay H os) in
  hash_ok H (k :: map op_key os) (trail H nothing os ++ [without_landing k m]) ->
  (forall k', view s k' = view (sp_storage t) k' \/ view s k' = None) ->
  exists t' r, sp_delete H pr st k (Build_SpTree (sp_root_node t) s) = (t', Val r) /\
  (m = [] \/ view s k = None -> r = Ok tt /\ sp_root H t' = sp_root H t /\ forall k', view (sp_storage t') k' = view s k') /\
  (m <> [] -> view s k <> None ->
   (r = Ok tt /\ sp_root H t' = kv_root H (without_landing k m) /\
    forall h, near_path H k (digests H m) h -> view s h <> None) \/
   (exists h, r = Err (SChildErr (ChildNotFound h)) /\ view s h = None /\ near_path H k (digests H m) h /\
      sp_root H t' = sp_root H t /\ forall k', view (sp_storage t') k' = view s k')) /\
  (In k (keys m) -> without_landing k m = mdel k m).
Proof. exact @C115_lemma. Qed.
Print Assumptions C115_delete_needs.

Example C115_example :
  hash_ok sha256 (kB :: map op_key first_three)
    (trail sha256 nothing first_three ++ [without_landing kB (fst (replay sha256 first_three))]) /\
  delete_without [leafA; leafC] kB (kv_root sha256 (mdel kB (final first_three))) = Some (Ok tt, true) /\
  delete_without [leafA] kC (kv_root sha256 (final first_three)) = Some (Err (SChildErr (ChildNotFound leafA)), true) /\
  delete_without [kB] kB (kv_root sha256 (final first_three)) = Some (Ok tt, true).
Proof. exact C115_witness. Qed.
