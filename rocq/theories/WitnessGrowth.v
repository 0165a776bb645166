(** WitnessGrowth.v -- concrete cases for the number of entries. *)
From Verif Require Import Base Sha256 Storage ModelCommon ModelBinary ModelSparse ModelSum SpecBinary SpecSum SpecSparse SpecCount SpecGrowth SpecMemory
  Runs RunsSum RunsCalls RunsSparse StorageProofs WitnessBinary WitnessSum WitnessSparse WitnessCount.
Open Scope list_scope.

Lemma C110_exact_witness : Z.of_nat (length leaves7) <= 2 ^ 63 /\ (2 * length leaves7 - ones (length leaves7) = 11)%nat /\
  length (bt_storage (tree leaves7)) = 11%nat /\ NoDup (map fst (bt_storage (tree leaves7))).
Proof.
  split; [cbn; lia|]. split; [reflexivity|]. split; [vm_compute; reflexivity|].
  assert (Q : map fst (bt_storage (tree leaves7)) = [12; 9; 10; 8; 3; 5; 6; 4; 1; 2; 0]) by (vm_compute; reflexivity).
  rewrite Q. repeat constructor; cbn; lia.
Qed.

(** The fourth push fails after its first insert, and the fifth one goes on: five entries, at most ten. *)
Definition some_calls : list bt_call := [CPush [x01]; CPush [x02]; CRoot; CPush [x03]; CProve 0; CPush [x04]; CPush [x05]].
Definition some_script : list fault := repeat NoFault 8 ++ [Fault].
Lemma C110_binary_witness : Lawful FaultyMap faulty_view /\ SpecMemory.push_count some_calls = 5%nat /\
  match bt_calls sha256 Debug FaultyMap some_calls (bt_new (some_script, smap_new)) with
  | (t, Val [APush (Ok tt); APush (Ok tt); ARoot _; APush (Ok tt); AProve (Ok _); APush (Err _); APush (Ok tt)]) => (length (snd (bt_storage t)) =? 5)%nat
  | _ => false
  end = true.
Proof. split; [exact FaultyMap_lawful|]. split; [reflexivity|]. vm_compute. reflexivity. Qed.

(** Five pushes and four root requests: 8 entries, at most 14. *)
Lemma C110_sum_witness : Lawful MStorageMap mview /\ Z.of_nat (length (pushed ops5)) < 2 ^ 64 /\ root_count ops5 = 4%nat /\
  match mt_run_all sha256 Debug MStorageMap ops5 (mt_new smap_new) with
  | (t, Val _) => (length (mt_storage t) =? 8)%nat
  | _ => false
  end = true.
Proof. split; [apply StorageMap_lawful; apply b32_eqb_eq|]. split; [reflexivity|]. split; [reflexivity|]. vm_compute. reflexivity. Qed.

(** A delete whose second removal fails. *)
Lemma C110_sparse_witness : Lawful FaultySMap fsview /\ update_count fail_delete = 3%nat /\ delete_count fail_delete = 1%nat /\
  match sp_run_all sha256 Debug FaultySMap fail_delete (sp_new (fail_delete_script, smap_new)) with
  | (t, Val [Ok tt; Ok tt; Err _; Err _]) => (length (snd (sp_storage t)) =? 5)%nat
  | _ => false
  end = true.
Proof. split; [exact FaultySMap_lawful|]. split; [reflexivity|]. split; [reflexivity|]. vm_compute. reflexivity. Qed.
