(** PropertiesCrowd.v -- property theorems about sparse tree objects at work on one storage at the same time. *)
From Verif Require Import Base Sha256 Storage ModelCommon ModelSparse SpecBinary SpecSparse SpecDisk SpecSync SpecForks SpecShared
  RunsSparse RunsForks RunsCrowd CrowdProofs WitnessSparse WitnessCrowd.

(** Objects that share a storage are used in any order, call by call.  If every action uses an
    object whose map is not spoiled, and deletes only keys that its map has or nobody has written,
    then every action that answers Ok answers the right root, and only storage errors occur. *)
Theorem C106_objects_right : forall H pr St E (st : StorageT St bytes32 SPrimitive E) view, Lawful st view ->
  forall acts s0 s' rs, (forall k, view s0 k = None) -> fair H [] [] (map one_call acts) rs ->
  crowd H pr st [] acts s0 = (s', Val rs) -> hash_ok H (act_keys (map one_call acts)) (passed [] (map one_call acts) rs) ->
  all_right H (fun e => storage_error e /\ ~ Infallible st) [] (map one_call acts) rs.
Proof. exact @C106_right_lemma. Qed.
Print Assumptions C106_objects_right.

Example C106_failing_example : exists s' rs r5,
  crowd sha256 Debug FaultySMap [] disturbed (late_fault, smap_new) = (s', Val rs) /\
  fair sha256 [] [] (map one_call disturbed) rs /\
  hash_ok sha256 (act_keys (map one_call disturbed)) (passed [] (map one_call disturbed) rs) /\
  map is_ok rs = [true; true; true; false; true] /\ nth_error rs 4 = Some (Ok r5) /\ r5 = kv_root sha256 [(kA, vc); (kB, vb)].
Proof. exact C106_failing_witness. Qed.

(** No action panics. *)
Theorem C106_objects_answer : forall H pr St E (st : StorageT St bytes32 SPrimitive E) view, Lawful st view ->
  forall acts s0, (forall k, view s0 k = None) ->
  (forall rs : list (result unit unit), length rs = length acts -> fair H [] [] (map one_call acts) rs) ->
  hash_ok H (act_keys (map one_call acts)) (branches [] (map one_call acts)) ->
  exists s' rs, crowd H pr st [] acts s0 = (s', Val rs).
Proof. exact @C106_answer_lemma. Qed.
Print Assumptions C106_objects_answer.

Example C106_steady_example :
  (forall rs : list (result unit unit), length rs = length steady -> fair sha256 [] [] (map one_call steady) rs) /\
  hash_ok sha256 (act_keys (map one_call steady)) (branches [] (map one_call steady)).
Proof. exact C106_steady_witness. Qed.

(** On an error-free storage all actions succeed, and in the end the storage holds all nodes of
    all objects, in all their states, that are not spoiled. *)
Theorem C106_objects_intact : forall H pr St E (st : StorageT St bytes32 SPrimitive E) view, Lawful st view ->
  Infallible st -> forall acts s0, (forall k, view s0 k = None) -> fair H [] [] (map one_call acts) (fine (map one_call acts)) ->
  hash_ok H (act_keys (map one_call acts)) (trunk [] (map one_call acts)) ->
  exists s', crowd H pr st [] acts s0 = (s', Val (map (fun m => Ok (kv_root H m)) (versions [] (map one_call acts)))) /\
    forall m, In (Some m) (usable H [] (map one_call acts)) -> holds_nodes H (view s') m.
Proof. exact @C106_total_lemma. Qed.
Print Assumptions C106_objects_intact.

Example C106_example : fair sha256 [] [] (map one_call in_turns) (fine (map one_call in_turns)) /\
  hash_ok sha256 (act_keys (map one_call in_turns)) (trunk [] (map one_call in_turns)) /\
  versions [] (map one_call in_turns) =
    [[(kA, va)]; [(kC, vc)]; [(kB, vb); (kA, va)]; [(kB, vb); (kC, vc)]; [(kA, va)]; [(kB, vb)]; [(kA, vc); (kB, vb)]] /\
  usable sha256 [] (map one_call in_turns) =
    [Some [(kA, va)]; None; Some [(kB, vb); (kA, va)]; None; Some [(kA, va)]; Some [(kB, vb)]; Some [(kA, vc); (kB, vb)]].
Proof. exact C106_witness. Qed.
