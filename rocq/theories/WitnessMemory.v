(** WitnessMemory.v -- trees of seven leaves. *)
From Verif Require Import Base Storage ModelCommon ModelBinary ModelSum SpecBinary SpecSum SpecMemory Runs RunsSum RunsCalls
  WitnessBinary WitnessSum.

(** Any hash function will do. *)
Definition flat (_ : list byte) : bytes32 := empty_sum.
Definition seven_calls : list bt_call := map CPush leaves7 ++ [CProve 3; CRoot].
Definition seven_pushes : list sum_op := map (fun d => Push (1, d)) leaves7 ++ [Root].

Lemma C101_witness :
  push_count seven_calls = 7%nat /\ Nat.log2 (7 + 1) = 3%nat /\
  length (bt_head (fst (bt_calls flat Debug BStorageMap seven_calls (bt_new smap_new)))) = 3%nat /\
  match bt_load Debug BStorageMap 7 (bt_storage (fst (bt_calls flat Debug BStorageMap seven_calls (bt_new smap_new)))) with
  | (_, Val (Ok t)) => length (bt_head t) = 3%nat
  | _ => False
  end /\
  length (pushed seven_pushes) = 7%nat /\
  length (mt_head (fst (mt_run_all flat Debug MStorageMap seven_pushes (mt_new smap_new)))) = 3%nat.
Proof. vm_compute. repeat split. Qed.
