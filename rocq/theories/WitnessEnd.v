(** WitnessEnd.v -- runs outside the supported range, on trees no history produces. *)
From Verif Require Import Base Sha256 Storage ModelCommon ModelBinary ModelSparse ModelSum ModelVerify SpecSum SpecSparse RunsCalls RunsSparse
  WitnessBinary WitnessSparse.

Lemma C78_positions_witness :
  match position_iter Release (2 ^ 64 - 1) 0 with Val l => Z.of_nat (length l) | _ => 0 end = 65 /\
  position_iter Debug (2 ^ 64 - 1) 0 = Panic /\
  match position_path Release (2 ^ 64 - 1) 12 7 with Val (_ :: l) => Z.of_nat (length l) | _ => 0 end = 2.
Proof. vm_compute. auto. Qed.

(** Three peaks at one position, two of them joined by the next push; the leaf count is wrong. *)
Definition odd_leaf : BNode := Build_BNode 0 kA.
Definition odd_tree : BTree Scratch := Build_BTree smap_new [odd_leaf; odd_leaf; odd_leaf] (2 ^ 64 - 1).
Lemma C78_binary_witness :
  match bt_calls sha256 Release BStorageMap [CPush [x01]; CProve 5; CPush [x02]; CRoot] odd_tree with
  | (t, Val [APush (Ok tt); AProve (Err _); APush (Ok tt); ARoot _]) => (bt_leaves_count t =? 1) | _ => false end = true /\
  snd (bt_calls sha256 Debug BStorageMap [CPush [x01]; CProve 5; CPush [x02]; CRoot] odd_tree) = Panic.
Proof. split; vm_compute; reflexivity. Qed.

(** A root whose left and right child is itself: the walk ends at the last key bit. *)
Definition loop_tree : SpTree SScratch := Build_SpTree loopn loop_storage.
Lemma C78_sparse_witness :
  match path_set Debug SStorageMap loopn (snode_create_leaf sha256 kB va) loop_storage with
  | (_, Val (Ok (ps, ss))) => (Z.of_nat (length ps) =? 257) && (Z.of_nat (length ss) =? 256) | _ => false end = true /\
  snd (sp_run_all sha256 Debug SStorageMap [Delete kB; Delete kC] loop_tree) = Val [Ok tt; Ok tt] /\
  match snd (sp_load SStorageMap kA loop_storage), snd (sp_load SStorageMap kB loop_storage) with Val (Ok _), Val (Err _) => true | _, _ => false end = true.
Proof. (split; [vm_compute; reflexivity|]). (split; [vm_compute; reflexivity|]). vm_compute; reflexivity. Qed.

Definition odd_node : MNode := Build_MNode 0 kA 7 None None.
Lemma C78_sum_witness :
  match mt_run_all sha256 Release (StorageMap b32_eqb) [Push (1, [x01]); Root] (Build_MTree smap_new [odd_node; odd_node; odd_node]) with
  | (t, Val [Ok None; Ok (Some (22, _))]) => (Z.of_nat (length (mt_head t)) =? 3) | _ => false end = true.
Proof. vm_compute; reflexivity. Qed.

Definition odd_ref : RTree := Build_RTree [Build_RNode 0 kA; Build_RNode 0 kA; Build_RNode 1 kB] (2 ^ 64 - 1) 5 [kA].
Lemma C78_reference_witness :
  rt_push sha256 Debug [x01] odd_ref = Panic /\
  match rt_push sha256 Release [x01] odd_ref with Val t => (rt_leaves_count t =? 0) && (Z.of_nat (length (rt_head t)) =? 3) | _ => false end = true /\
  match rt_prove sha256 Debug odd_ref with Val (_, ps) => Z.of_nat (length ps) =? 3 | _ => false end = true.
Proof. (split; [vm_compute; reflexivity|]). (split; [vm_compute; reflexivity|]). vm_compute; reflexivity. Qed.
