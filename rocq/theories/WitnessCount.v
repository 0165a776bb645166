(** WitnessCount.v -- C61 to C63: the statements put together, and concrete cases. *)
From Verif Require Import Base Sha256 Storage ModelCommon ModelBinary ModelSum ModelSparse SpecBinary SpecPosition
  SpecSum SpecSparse SpecCount Runs RunsSum RunsSparse SpecBinaryFacts BinaryReadProofs BinaryMain CountProofs
  WitnessBinary WitnessSum WitnessSparse BinaryExtra.
From Coq Require Import ZifyBool ZifyNat ZifyN.

Lemma C61_load_lemma : forall pr St E (st : StorageT St Z BPrimitive E) n c s c' s' o,
  Z.of_nat n < leaf_limit pr ->
  bt_load pr (Counted st) (Z.of_nat n) (c, s) = ((c', s'), o) ->
  at_most (ones n) 0 0 c c' /\ (forall t, o = Val (Ok t) -> gets c' = (gets c + ones n)%nat).
Proof.
  intros pr St E st n c s c' s' o Hn R. apply (load_count pr st n (c, s) (c', s') o); [apply count_ok_limit; exact Hn|exact R].
Qed.

Lemma C61_prove_lemma : forall H pr St E (st : StorageT St Z BPrimitive E) view, Lawful st view ->
  forall ds c0 s0 t i t' o, Z.of_nat (length ds) < leaf_limit pr ->
  bt_push_all H pr (Counted st) ds (bt_new (c0, s0)) = (t, Val (Ok tt)) -> 0 <= i < 2 ^ 64 - 1 ->
  bt_prove H pr (Counted st) i t = (t', o) ->
  at_most (1 + Z.to_nat (Z.log2_up (Z.of_nat (length ds)))) 0 0 (fst (bt_storage t)) (fst (bt_storage t')) /\
  (forall root proof, o = Val (Ok (root, proof)) ->
     gets (fst (bt_storage t')) = (gets (fst (bt_storage t)) + length proof)%nat).
Proof.
  intros H pr St E st view L ds c0 s0 t i t' o Hn Ep Hi R. split.
  - eapply prove_count; eauto.
  - intros root proof ->. destruct (prove_count_ok _ _ _ _ _ _ _ _ R) as [A _]. exact A.
Qed.

Lemma C63_lemma : forall H pr St E (st : StorageT St bytes32 SPrimitive E) k t t' r,
  (forall v, v <> [] -> sp_update H pr (Counted st) k v t = (t', r) ->
     at_most 512 259 0 (fst (sp_storage t)) (fst (sp_storage t'))) /\
  (sp_delete H pr (Counted st) k t = (t', r) \/ sp_update H pr (Counted st) k [] t = (t', r) ->
     at_most 513 256 257 (fst (sp_storage t)) (fst (sp_storage t'))).
Proof.
  intros H pr St E st k t t' r. split.
  - intros v Nv R. pose proof (update_cost H pr st k v Nv t) as C. rewrite R in C. exact C.
  - intros [R|R].
    + pose proof (delete_cost H pr st k t) as C. rewrite R in C. exact C.
    + pose proof (update_empty_cost H pr st k t) as C. rewrite R in C. exact C.
Qed.

Lemma C63_load_lemma : forall St E (st : StorageT St bytes32 SPrimitive E) root c s c' s' o,
  sp_load (Counted st) root (c, s) = ((c', s'), o) -> at_most 1 0 0 c c'.
Proof. intros St E st root c s c' s' o R. pose proof (load_cost st root (c, s)) as C. rewrite R in C. exact C. Qed.

(** * Concrete cases *)
Lemma C61_witness : Lawful BStorageMap (smap_lookup Z.eqb) /\ Z.of_nat (length leaves7) < leaf_limit Debug /\
  match bt_push_all sha256 Debug (Counted BStorageMap) (firstn 6 leaves7) (bt_new (no_calls, smap_new)) with
  | (t, Val (Ok tt)) =>
      (inserts (fst (bt_storage t)) =? 10)%nat && (gets (fst (bt_storage t)) =? 0)%nat && (ones 6 =? 2)%nat &&
      match bt_load Debug (Counted BStorageMap) 6 (bt_storage t) with
      | ((c, _), Val (Ok _)) => (gets c =? 2)%nat && (inserts c =? 10)%nat
      | _ => false
      end &&
      match bt_prove sha256 Debug (Counted BStorageMap) 4 t with
      | (t', Val (Ok (_, proof))) => (gets (fst (bt_storage t')) =? 3)%nat && (length proof =? 3)%nat
      | _ => false
      end
  | _ => false
  end = true.
Proof. split; [exact BStorageMap_lawful|]. split; [reflexivity|]. vm_compute; reflexivity. Qed.

Lemma C62_witness : Lawful MStorageMap mview /\ fees_fit Debug (pushed ops5) /\
  match mt_run sha256 Debug (Counted MStorageMap) ops5 (mt_new (no_calls, smap_new)) with
  | (t, Val (Ok _)) => (inserts (fst (mt_storage t)) =? sum_inserts 0 ops5)%nat && (8 <? sum_inserts 0 ops5)%nat
  | _ => false
  end = true.
Proof.
  split; [exact MStorageMap_lawful|]. split; [apply C52_witness|]. vm_compute; reflexivity.
Qed.

Lemma C63_witness :
  match sp_run sha256 Debug (Counted SStorageMap) hist (sp_new (no_calls, smap_new)) with
  | (t, Val (Ok tt)) =>
      let c := fst (sp_storage t) in (0 <? gets c)%nat && (10 <? inserts c)%nat && (0 <? removes c)%nat
  | _ => false
  end = true.
Proof. vm_compute; reflexivity. Qed.

(** A test: two keys that differ in the last bit only come within one insert of the bound. *)
Definition kLast : bytes32 := Eval vm_compute in mk32 (x10 :: repeat x00 30 ++ [x01]).
Check (eq_refl true <:
  match sp_run sha256 Debug (Counted SStorageMap) [Update kA va; Update kLast vb] (sp_new (no_calls, smap_new)) with
  | (t, Val (Ok tt)) => (inserts (fst (sp_storage t)) =? 2 + 258)%nat && (gets (fst (sp_storage t)) =? 0)%nat
  | _ => false
  end = true).
