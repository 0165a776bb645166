(** PropertiesGrowth.v -- C110: the number of entries of the storages.  [grown n f f']: of the keys with an entry in [f'] at most [n]
    have none in [f].  [entries n f]: [f] has exactly [n] entries (SpecGrowth.v). *)
From Verif Require Import Base Sha256 Storage ModelCommon ModelBinary ModelSparse ModelSum SpecBinary SpecSum SpecSparse SpecCount SpecGrowth SpecMemory
  Runs RunsSum RunsCalls RunsSparse GrowthProofs WitnessBinary WitnessSum WitnessSparse WitnessGrowth.

(** A binary tree of [n] leaves has [2 n] entries less the number of one bits of [n]. *)
Theorem C110_exact : forall H pr St E (st : StorageT St Z BPrimitive E) view, Lawful st view ->
  forall ds s0 t, (forall k, view s0 k = None) -> Z.of_nat (length ds) <= 2 ^ 63 ->
  bt_push_all H pr st ds (bt_new s0) = (t, Val (Ok tt)) -> entries (2 * length ds - ones (length ds)) (view (bt_storage t)).
Proof. exact @C110_exact_lemma. Qed.
Print Assumptions C110_exact.

Example C110_exact_example : Z.of_nat (length leaves7) <= 2 ^ 63 /\ (2 * length leaves7 - ones (length leaves7) = 11)%nat /\
  length (bt_storage (tree leaves7)) = 11%nat /\ NoDup (map fst (bt_storage (tree leaves7))).
Proof. exact C110_exact_witness. Qed.

(** Any calls on any tree, whatever fails: two new entries for a push, and what the nodes held in memory may be joined to;
    none without a push. *)
Theorem C110_binary : forall H pr St E (st : StorageT St Z BPrimitive E) view, Lawful st view ->
  forall cs t t' o, bt_calls H pr st cs t = (t', o) ->
  grown (length (bt_head t) + 2 * SpecMemory.push_count cs) (view (bt_storage t)) (view (bt_storage t')) /\
  (SpecMemory.push_count cs = 0%nat -> grown 0 (view (bt_storage t)) (view (bt_storage t'))).
Proof. exact @C110_binary_lemma. Qed.
Print Assumptions C110_binary.

Example C110_binary_example : Lawful FaultyMap faulty_view /\ SpecMemory.push_count some_calls = 5%nat /\
  match bt_calls sha256 Debug FaultyMap some_calls (bt_new (some_script, smap_new)) with
  | (t, Val [APush (Ok tt); APush (Ok tt); ARoot _; APush (Ok tt); AProve (Ok _); APush (Err _); APush (Ok tt)]) => (length (snd (bt_storage t)) =? 5)%nat
  | _ => false
  end = true.
Proof. exact C110_binary_witness. Qed.

(** A sum tree: two for a push, and a logarithm less one for a root request. *)
Theorem C110_sum : forall H pr St E (st : StorageT St bytes32 MNode E) view, Lawful st view ->
  forall os s0 t o, Z.of_nat (length (pushed os)) < 2 ^ 64 -> mt_run_all H pr st os (mt_new s0) = (t, o) ->
  grown (2 * length (pushed os) + root_count os * (Nat.log2 (length (pushed os) + 1) - 1)) (view s0) (view (mt_storage t)).
Proof. exact @C110_sum_lemma. Qed.
Print Assumptions C110_sum.

Example C110_sum_example : Lawful MStorageMap mview /\ Z.of_nat (length (pushed ops5)) < 2 ^ 64 /\ root_count ops5 = 4%nat /\
  match mt_run_all sha256 Debug MStorageMap ops5 (mt_new smap_new) with
  | (t, Val _) => (length (mt_storage t) =? 8)%nat
  | _ => false
  end = true.
Proof. exact C110_sum_witness. Qed.

(** Any calls on any sparse tree, whatever is stored and whatever fails: 259 for an update and 256 for a delete. *)
Theorem C110_sparse : forall H pr St E (st : StorageT St bytes32 SPrimitive E) view, Lawful st view ->
  forall os t t' o, sp_run_all H pr st os t = (t', o) ->
  grown (259 * update_count os + 256 * delete_count os) (view (sp_storage t)) (view (sp_storage t')).
Proof. exact @C110_sparse_lemma. Qed.
Print Assumptions C110_sparse.

Example C110_sparse_example : Lawful FaultySMap fsview /\ update_count fail_delete = 3%nat /\ delete_count fail_delete = 1%nat /\
  match sp_run_all sha256 Debug FaultySMap fail_delete (sp_new (fail_delete_script, smap_new)) with
  | (t, Val [Ok tt; Ok tt; Err _; Err _]) => (length (snd (sp_storage t)) =? 5)%nat
  | _ => false
  end = true.
Proof. exact C110_sparse_witness. Qed.
