(** PropertiesCount.v -- C61 to C63: how many storage calls the trees make.  [Counted st] is the
    storage [st] with counters; [ones n] is the number of one bits of [n]. *)
From Verif Require Import Base Sha256 Storage ModelCommon ModelBinary ModelSum ModelSparse SpecBinary SpecPosition
  SpecSum SpecSparse SpecCount Runs RunsSum RunsSparse SpecBinaryFacts BinaryMain CountProofs
  WitnessBinary WitnessSum WitnessSparse WitnessCount.

(** [n] pushes make [2n - ones n] inserts and nothing else; one more push makes at most
    [1 + ones n] inserts and nothing else, also when it fails. *)
Theorem C61_push_calls : forall H pr St E (st : StorageT St Z BPrimitive E) view, Lawful st view ->
  forall ds c0 s0 t, Z.of_nat (length ds) <= 2 ^ 63 ->
  bt_push_all H pr (Counted st) ds (bt_new (c0, s0)) = (t, Val (Ok tt)) ->
  fst (bt_storage t) =
    {| gets := gets c0; inserts := inserts c0 + (2 * length ds - ones (length ds)); removes := removes c0 |} /\
  forall d t' o, bt_push H pr (Counted st) d t = (t', o) ->
    at_most 0 (1 + ones (length ds)) 0 (fst (bt_storage t)) (fst (bt_storage t')).
Proof. exact @C61_push. Qed.
Print Assumptions C61_push_calls.

Theorem C61_load_calls : forall pr St E (st : StorageT St Z BPrimitive E) n c s c' s' o,
  Z.of_nat n < leaf_limit pr ->
  bt_load pr (Counted st) (Z.of_nat n) (c, s) = ((c', s'), o) ->
  at_most (ones n) 0 0 c c' /\ (forall t, o = Val (Ok t) -> gets c' = (gets c + ones n)%nat).
Proof. exact C61_load_lemma. Qed.
Print Assumptions C61_load_calls.

Theorem C61_prove_calls : forall H pr St E (st : StorageT St Z BPrimitive E) view, Lawful st view ->
  forall ds c0 s0 t i t' o, Z.of_nat (length ds) < leaf_limit pr ->
  bt_push_all H pr (Counted st) ds (bt_new (c0, s0)) = (t, Val (Ok tt)) -> 0 <= i < 2 ^ 64 - 1 ->
  bt_prove H pr (Counted st) i t = (t', o) ->
  at_most (1 + Z.to_nat (Z.log2_up (Z.of_nat (length ds)))) 0 0 (fst (bt_storage t)) (fst (bt_storage t')) /\
  (forall root proof, o = Val (Ok (root, proof)) ->
     gets (fst (bt_storage t')) = (gets (fst (bt_storage t)) + length proof)%nat).
Proof. exact C61_prove_lemma. Qed.
Print Assumptions C61_prove_calls.

Example C61_example : Lawful BStorageMap (smap_lookup Z.eqb) /\ Z.of_nat (length leaves7) < leaf_limit Debug /\
  match bt_push_all sha256 Debug (Counted BStorageMap) (firstn 6 leaves7) (bt_new (no_calls, smap_new)) with
  | (t, Val (Ok tt)) =>
      (inserts (fst (bt_storage t)) =? 10)%nat && (gets (fst (bt_storage t)) =? 0)%nat && (ones 6 =? 2)%nat &&
      match bt_load Debug (Counted BStorageMap) 6 (bt_storage t) with
      | ((c, _), Val (Ok _)) => (gets c =? 2)%nat && (inserts c =? 10)%nat
      | _ => false
      end &&
      match bt_prove sha256 Debug (Counted BStorageMap) 4 t with
      | (t', Val (Ok (_, proof))) => (gets (fst (bt_storage t')) =? 3)%nat && (length proof =? 3)%nat
      | _ => false
      end
  | _ => false
  end = true.
Proof. exact C61_witness. Qed.

(** The sum tree never reads; a push onto [n] leaves makes [2 + ones n - ones (n + 1)] inserts and
    a root request makes [ones n - 1]. *)
Theorem C62_sum_calls : forall H pr St E (st : StorageT St bytes32 MNode E) view, Lawful st view ->
  H [] = empty_sum -> forall os c0 s0 t rs, fees_fit pr (pushed os) ->
  Z.of_nat (length (pushed os)) <= 2 ^ 64 ->
  mt_run H pr (Counted st) os (mt_new (c0, s0)) = (t, Val (Ok rs)) ->
  fst (mt_storage t) =
    {| gets := gets c0; inserts := inserts c0 + sum_inserts 0 os; removes := removes c0 |}.
Proof. exact @C62_lemma. Qed.
Print Assumptions C62_sum_calls.

Example C62_example : Lawful MStorageMap mview /\ fees_fit Debug (pushed ops5) /\
  match mt_run sha256 Debug (Counted MStorageMap) ops5 (mt_new (no_calls, smap_new)) with
  | (t, Val (Ok _)) => (inserts (fst (mt_storage t)) =? sum_inserts 0 ops5)%nat && (8 <? sum_inserts 0 ops5)%nat
  | _ => false
  end = true.
Proof. exact C62_witness. Qed.

(** Any storage, also a corrupted one, and any tree. *)
Theorem C63_sparse_calls : forall H pr St E (st : StorageT St bytes32 SPrimitive E) k t t' r,
  (forall v, v <> [] -> sp_update H pr (Counted st) k v t = (t', r) ->
     at_most 512 259 0 (fst (sp_storage t)) (fst (sp_storage t'))) /\
  (sp_delete H pr (Counted st) k t = (t', r) \/ sp_update H pr (Counted st) k [] t = (t', r) ->
     at_most 513 256 257 (fst (sp_storage t)) (fst (sp_storage t'))).
Proof. exact C63_lemma. Qed.
Print Assumptions C63_sparse_calls.

Theorem C63_load_calls : forall St E (st : StorageT St bytes32 SPrimitive E) root c s c' s' o,
  sp_load (Counted st) root (c, s) = ((c', s'), o) -> at_most 1 0 0 c c'.
Proof. exact C63_load_lemma. Qed.
Print Assumptions C63_load_calls.

Example C63_example :
  match sp_run sha256 Debug (Counted SStorageMap) hist (sp_new (no_calls, smap_new)) with
  | (t, Val (Ok tt)) =>
      let c := fst (sp_storage t) in (0 <? gets c)%nat && (10 <? inserts c)%nat && (0 <? removes c)%nat
  | _ => false
  end = true.
Proof. exact C63_witness. Qed.
