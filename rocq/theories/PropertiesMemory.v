(** PropertiesMemory.v -- C101: the memory a tree uses, in subtrees of its list. *)
From Verif Require Import Base Storage ModelCommon ModelBinary ModelSum SpecBinary SpecSum SpecMemory Runs RunsSum RunsCalls
  MemoryProofs WitnessBinary WitnessSum WitnessMemory.

(** Any binary tree whatever, any storage, any calls, whether they panic or not. *)
Theorem C101_binary : forall H pr St E (st : StorageT St Z BPrimitive E) cs t t' o,
  Z.of_nat (push_count cs) < 2 ^ 64 -> bt_calls H pr st cs t = (t', o) ->
  (length (bt_head t') <= length (bt_head t) + Nat.log2 (push_count cs + 1))%nat.
Proof. exact @C101_binary_lemma. Qed.
Print Assumptions C101_binary.

Theorem C101_load : forall pr St E (st : StorageT St Z BPrimitive E) n s s' t,
  Z.of_nat n < leaf_limit pr -> bt_load pr st (Z.of_nat n) s = (s', Val (Ok t)) ->
  (length (bt_head t) <= S (Nat.log2 n))%nat.
Proof. exact @C101_load_lemma. Qed.
Print Assumptions C101_load.

Theorem C101_sum : forall H pr St E (st : StorageT St bytes32 MNode E) os s0 t o,
  Z.of_nat (length (pushed os)) < 2 ^ 64 -> mt_run_all H pr st os (mt_new s0) = (t, o) ->
  (length (mt_head t) <= Nat.log2 (length (pushed os) + 1))%nat.
Proof. exact @C101_sum_lemma. Qed.
Print Assumptions C101_sum.

Example C101_example :
  push_count seven_calls = 7%nat /\ Nat.log2 (7 + 1) = 3%nat /\
  length (bt_head (fst (bt_calls flat Debug BStorageMap seven_calls (bt_new smap_new)))) = 3%nat /\
  match bt_load Debug BStorageMap 7 (bt_storage (fst (bt_calls flat Debug BStorageMap seven_calls (bt_new smap_new)))) with
  | (_, Val (Ok t)) => length (bt_head t) = 3%nat
  | _ => False
  end /\
  length (pushed seven_pushes) = 7%nat /\
  length (mt_head (fst (mt_run_all flat Debug MStorageMap seven_pushes (mt_new smap_new)))) = 3%nat.
Proof. exact C101_witness. Qed.
