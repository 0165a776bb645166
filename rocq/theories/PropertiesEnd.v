(** PropertiesEnd.v -- every call ends.  [Fuel] would mean that a loop of the model ran longer than
    its bound; a call answers or panics instead.  No law of storages, no hash assumption. *)
From Verif Require Import Base Sha256 Storage ModelCommon ModelBinary ModelSparse ModelSum ModelVerify SpecSum SpecSparse RunsCalls RunsSparse
  WitnessBinary WitnessSparse EndProofs WitnessEnd.

(** Paths have at most 65 positions, for any root and leaf. *)
Theorem C78_positions : forall pr root leaf n, 0 <= root < 2 ^ 64 ->
  (position_iter pr root leaf = Panic \/ exists l, position_iter pr root leaf = Val l /\ (length l <= 65)%nat) /\
  (position_path pr root leaf n = Panic \/ exists l, position_path pr root leaf n = Val l /\ (length l <= 65)%nat).
Proof. exact @C78_positions_lemma. Qed.
Print Assumptions C78_positions.

Example C78_positions_example :
  match position_iter Release (2 ^ 64 - 1) 0 with Val l => Z.of_nat (length l) | _ => 0 end = 65 /\
  position_iter Debug (2 ^ 64 - 1) 0 = Panic /\
  match position_path Release (2 ^ 64 - 1) 12 7 with Val (_ :: l) => Z.of_nat (length l) | _ => 0 end = 2.
Proof. exact C78_positions_witness. Qed.

(** Any tree value (also with a wrong leaf count or list of peaks), any storage. *)
Theorem C78_binary : forall H pr St E (st : StorageT St Z BPrimitive E),
  (forall cs t, snd (bt_calls H pr st cs t) <> Fuel) /\ (forall n s, snd (bt_load pr st n s) <> Fuel).
Proof. exact @C78_binary_lemma. Qed.
Print Assumptions C78_binary.

Example C78_binary_example :
  match bt_calls sha256 Release BStorageMap [CPush [x01]; CProve 5; CPush [x02]; CRoot] odd_tree with
  | (t, Val [APush (Ok tt); AProve (Err _); APush (Ok tt); ARoot _]) => (bt_leaves_count t =? 1) | _ => false end = true /\
  snd (bt_calls sha256 Debug BStorageMap [CPush [x01]; CProve 5; CPush [x02]; CRoot] odd_tree) = Panic.
Proof. exact C78_binary_witness. Qed.

(** Any tree value, any storage (also one with cycles between nodes). *)
Theorem C78_sparse : forall H pr St E (st : StorageT St bytes32 SPrimitive E),
  (forall os t, snd (sp_run_all H pr st os t) <> Fuel) /\ (forall r s, snd (sp_load st r s) <> Fuel).
Proof. exact @C78_sparse_lemma. Qed.
Print Assumptions C78_sparse.

Example C78_sparse_example :
  match path_set Debug SStorageMap loopn (snode_create_leaf sha256 kB va) loop_storage with
  | (_, Val (Ok (ps, ss))) => (Z.of_nat (length ps) =? 257) && (Z.of_nat (length ss) =? 256) | _ => false end = true /\
  snd (sp_run_all sha256 Debug SStorageMap [Delete kB; Delete kC] loop_tree) = Val [Ok tt; Ok tt] /\
  match snd (sp_load SStorageMap kA loop_storage), snd (sp_load SStorageMap kB loop_storage) with Val (Ok _), Val (Err _) => true | _, _ => false end = true.
Proof. exact C78_sparse_witness. Qed.

(** Any tree value, any storage. *)
Theorem C78_sum : forall H pr St E (st : StorageT St bytes32 MNode E) os t, snd (mt_run_all H pr st os t) <> Fuel.
Proof. exact @C78_sum_lemma. Qed.
Print Assumptions C78_sum.

Example C78_sum_example :
  match mt_run_all sha256 Release (StorageMap b32_eqb) [Push (1, [x01]); Root] (Build_MTree smap_new [odd_node; odd_node; odd_node]) with
  | (t, Val [Ok None; Ok (Some (22, _))]) => (Z.of_nat (length (mt_head t)) =? 3) | _ => false end = true.
Proof. exact C78_sum_witness. Qed.

(** The reference tree of the test helpers; for the verifier see C66. *)
Theorem C78_reference : forall H pr (t : RTree) d,
  rt_push H pr d t <> Fuel /\ rt_root H pr t <> Fuel /\ rt_prove H pr t <> Fuel.
Proof. exact @C78_reference_lemma. Qed.
Print Assumptions C78_reference.

Example C78_reference_example :
  rt_push sha256 Debug [x01] odd_ref = Panic /\
  match rt_push sha256 Release [x01] odd_ref with Val t => (rt_leaves_count t =? 0) && (Z.of_nat (length (rt_head t)) =? 3) | _ => false end = true /\
  match rt_prove sha256 Debug odd_ref with Val (_, ps) => Z.of_nat (length ps) =? 3 | _ => false end = true.
Proof. exact C78_reference_witness. Qed.
