(** PropertiesStart.v -- C111: starting over.  [tries run l s0 s1]: new tree objects have carried out beginnings of the calls [l] one
    after the other, up to their first error, and have brought the storage from [s0] to [s1] (RunsStart.v). *)
From Verif Require Import Base Sha256 Storage ModelCommon ModelBinary ModelSparse ModelSum SpecBinary SpecSum SpecSumDisk SpecSparse SpecAnyRun SpecDisk
  Runs RunsSum RunsSparse RunsStart SumDisk StartProofs StartSparse WitnessBinary WitnessSum WitnessSumDisk WitnessSparse WitnessStart.

(** Binary trees: after the try that succeeds, the root is right, the places of the blocks hold the
    right entries, and all others what they held before the first try. *)
Theorem C111_binary : forall H pr St E (st : StorageT St Z BPrimitive E) view, Lawful st view -> H [] = empty_sum ->
  forall ds s0 s1, Z.of_nat (length ds) <= 2 ^ 63 -> tries (bt_try H pr st) ds s0 s1 ->
  exists t r, bt_push_all H pr st ds (bt_new s1) = (t, Val r) /\
    ((r = Ok tt /\ bt_root H pr t = Val (mth H ds) /\
      (forall h b, ((b + 1) * 2 ^ h <= length ds)%nat -> view (bt_storage t) (index_of h b) = Some (index_of h b, mth H (block h b ds))) /\
      (forall k, (forall h b, ((b + 1) * 2 ^ h <= length ds)%nat -> k <> index_of h b) -> view (bt_storage t) k = view s0 k)) \/
     (exists e, r = Err (BStorageError e) /\ ~ Infallible st)).
Proof. exact @C111_binary_lemma. Qed.
Print Assumptions C111_binary.

Example C111_binary_example : Lawful FaultyMap faulty_view /\ sha256 [] = empty_sum /\
  tries (bt_try sha256 Debug FaultyMap) leaves4 (lost_third, smap_new) b_second /\
  length (snd b_first) = 3%nat /\ length (snd b_second) = 3%nat /\
  match bt_push_all sha256 Debug FaultyMap leaves4 (bt_new b_second) with
  | (t, Val (Ok tt)) => (length (snd (bt_storage t)) =? 7)%nat
  | _ => false end = true.
Proof. exact C111_binary_witness. Qed.

(** Sum trees: the storage holds what the writes of the calls make of its content before the first try. *)
Theorem C111_sum : forall H pr St E (st : StorageT St bytes32 MNode E) view, Lawful st view -> H [] = empty_sum ->
  forall os s0 s1, fees_fit pr (pushed os) -> Z.of_nat (length (pushed os)) <= 2 ^ 64 -> tries (mt_try H pr st) os s0 s1 ->
  exists t r, mt_run H pr st os (mt_new s1) = (t, Val r) /\
    ((r = Ok (sum_answers H wrapped_fee [] os) /\
      forall k, option_map fields (view (mt_storage t) k) =
        SpecSumDisk.written H wrapped_fee (writes [] os) (fun k => option_map fields (view s0 k)) k) \/
     ((exists e, r = Err e) /\ ~ Infallible st)).
Proof. exact @C111_sum_lemma. Qed.
Print Assumptions C111_sum.

Example C111_sum_example : Lawful FaultyMMap fmview /\ sha256 [] = empty_sum /\ fees_fit Debug (pushed sum_calls) /\
  Z.of_nat (length (pushed sum_calls)) <= 2 ^ 64 /\
  tries (mt_try sha256 Debug FaultyMMap) sum_calls (lost_third, smap_new) m_second /\
  length (snd m_first) = 3%nat /\ length (snd m_second) = 3%nat /\
  match mt_run sha256 Debug FaultyMMap sum_calls (mt_new m_second) with
  | (t, Val (Ok [(3, _); (6, _)])) => sum_disk_ok 5 (Build_MTree (snd (mt_storage t)) (mt_head t))
  | _ => false end = true.
Proof. exact C111_sum_witness. Qed.

(** Sparse trees: a delete of a key that is written later finds the entry of the earlier try and removes another key.  Here
    the first run is right and the second one is not, without any failure. *)
Theorem C111_sparse_refuted : exists os s1 t0 t, clean [] [] os /\ hash_ok sha256 (map op_key os) (maps [] os) /\
  sp_run sha256 Debug SStorageMap os (sp_new smap_new) = (t0, Val (Ok tt)) /\ s1 = sp_storage t0 /\
  tries (sp_try sha256 Debug SStorageMap) os smap_new s1 /\
  sp_run sha256 Debug SStorageMap os (sp_new s1) = (t, Val (Ok tt)) /\
  sp_root sha256 t0 = kv_root sha256 (final os) /\ sp_root sha256 t <> kv_root sha256 (final os).
Proof. exact C111_refuted_lemma. Qed.
Print Assumptions C111_sparse_refuted.

(** If every delete concerns a key that the map has at that moment or that none of the calls writes, the root is right and the
    storage holds exactly what a single run on the empty storage leaves (the replay of C89). *)
Theorem C111_sparse_partial : forall H pr St E (st : StorageT St bytes32 SPrimitive E) view, Lawful st view ->
  forall os s0 s1, (forall k, view s0 k = None) -> clean [] (SpecSparse.written os) os -> hash_ok H (map op_key os) (maps [] os) ->
  tries (sp_try H pr st) os s0 s1 ->
  exists t r, sp_run H pr st os (sp_new s1) = (t, Val r) /\
    ((r = Ok tt /\ sp_root H t = kv_root H (final os) /\ forall k, view (sp_storage t) k = snd (replay H os) k) \/
     (exists e, r = Err e /\ storage_error e /\ ~ Infallible st)).
Proof. exact @C111_partial_lemma. Qed.
Print Assumptions C111_sparse_partial.

Example C111_sparse_example : Lawful FaultySMap fsview /\ (forall k, fsview (lost_fourth, smap_new) k = None) /\
  clean [] (SpecSparse.written again) again /\ hash_ok sha256 (map op_key again) (maps [] again) /\
  tries (sp_try sha256 Debug FaultySMap) again (lost_fourth, smap_new) s_second /\
  length (snd s_first) = 4%nat /\ length (snd s_second) = 3%nat /\ final again = [(kC, vc); (kB, vb)] /\
  match sp_run sha256 Debug FaultySMap again (sp_new s_second) with
  | (t, Val (Ok tt)) => (length (snd (sp_storage t)) =? 6)%nat
  | _ => false end = true.
Proof. exact C111_sparse_witness. Qed.
