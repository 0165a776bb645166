(** WitnessStart.v -- concrete cases for starting over. *)
From Verif Require Import Base Sha256 Storage ModelCommon ModelBinary ModelSparse ModelSum SpecBinary SpecSum SpecSumDisk SpecSparse SpecAnyRun SpecDisk
  Runs RunsSum RunsSparse RunsStart SparseTheorems SumDisk WitnessBinary WitnessSum WitnessSumDisk WitnessSparse WitnessStore.
Open Scope list_scope.

(** The first try fails at its third call of the storage, although the entry is stored; the second
    one is given up after two leaves. *)
Definition lost_third : list fault := [NoFault; NoFault; FaultLost].
Definition leaves4 : list (list byte) := firstn 4 leaves7.
Definition b_first : faulty_state := bt_try sha256 Debug FaultyMap leaves4 (lost_third, smap_new).
Definition b_second : faulty_state := bt_try sha256 Debug FaultyMap (firstn 2 leaves4) b_first.
Lemma b_tries : tries (bt_try sha256 Debug FaultyMap) leaves4 (lost_third, smap_new) b_second.
Proof.
  apply (tries_more _ _ (firstn 2 leaves4) (skipn 2 leaves4)); [|reflexivity].
  apply (tries_more _ _ leaves4 []); [constructor|reflexivity].
Qed.
Lemma C111_binary_witness : Lawful FaultyMap faulty_view /\ sha256 [] = empty_sum /\
  tries (bt_try sha256 Debug FaultyMap) leaves4 (lost_third, smap_new) b_second /\
  length (snd b_first) = 3%nat /\ length (snd b_second) = 3%nat /\
  match bt_push_all sha256 Debug FaultyMap leaves4 (bt_new b_second) with
  | (t, Val (Ok tt)) => (length (snd (bt_storage t)) =? 7)%nat
  | _ => false end = true.
Proof.
  split; [exact FaultyMap_lawful|]. split; [exact sha256_empty|]. split; [exact b_tries|].
  split; [vm_compute; reflexivity|]. split; vm_compute; reflexivity.
Qed.

Definition m_first : faulty_state := mt_try sha256 Debug FaultyMMap sum_calls (lost_third, smap_new).
Definition m_second : faulty_state := mt_try sha256 Debug FaultyMMap (firstn 1 sum_calls) m_first.
Lemma m_tries : tries (mt_try sha256 Debug FaultyMMap) sum_calls (lost_third, smap_new) m_second.
Proof.
  apply (tries_more _ _ (firstn 1 sum_calls) (skipn 1 sum_calls)); [|reflexivity].
  apply (tries_more _ _ sum_calls []); [constructor|reflexivity].
Qed.
Lemma C111_sum_witness : Lawful FaultyMMap fmview /\ sha256 [] = empty_sum /\ fees_fit Debug (pushed sum_calls) /\
  Z.of_nat (length (pushed sum_calls)) <= 2 ^ 64 /\
  tries (mt_try sha256 Debug FaultyMMap) sum_calls (lost_third, smap_new) m_second /\
  length (snd m_first) = 3%nat /\ length (snd m_second) = 3%nat /\
  match mt_run sha256 Debug FaultyMMap sum_calls (mt_new m_second) with
  | (t, Val (Ok [(3, _); (6, _)])) => sum_disk_ok 5 (Build_MTree (snd (mt_storage t)) (mt_head t))
  | _ => false end = true.
Proof.
  split; [exact FaultyMMap_lawful|]. split; [exact sha256_empty|]. split; [apply C91_witness|]. split; [cbn; lia|]. split; [exact m_tries|].
  split; [vm_compute; reflexivity|]. split; vm_compute; reflexivity.
Qed.

(** The first try fails in the second update, the second one is given up after the delete. *)
Definition again : list sp_op := [Update kA va; Update kB vb; Delete kA; Update kC vc].
Definition lost_fourth : list fault := [NoFault; NoFault; NoFault; FaultLost].
Definition s_first : faulty_state := sp_try sha256 Debug FaultySMap again (lost_fourth, smap_new).
Definition s_second : faulty_state := sp_try sha256 Debug FaultySMap (firstn 3 again) s_first.
Lemma s_tries : tries (sp_try sha256 Debug FaultySMap) again (lost_fourth, smap_new) s_second.
Proof.
  apply (tries_more _ _ (firstn 3 again) (skipn 3 again)); [|reflexivity].
  apply (tries_more _ _ again []); [constructor|reflexivity].
Qed.
Lemma C111_sparse_witness : Lawful FaultySMap fsview /\ (forall k, fsview (lost_fourth, smap_new) k = None) /\
  clean [] (SpecSparse.written again) again /\ hash_ok sha256 (map op_key again) (maps [] again) /\
  tries (sp_try sha256 Debug FaultySMap) again (lost_fourth, smap_new) s_second /\
  length (snd s_first) = 4%nat /\ length (snd s_second) = 3%nat /\ final again = [(kC, vc); (kB, vb)] /\
  match sp_run sha256 Debug FaultySMap again (sp_new s_second) with
  | (t, Val (Ok tt)) => (length (snd (sp_storage t)) =? 6)%nat
  | _ => false end = true.
Proof.
  split; [exact FaultySMap_lawful|]. split; [reflexivity|]. split; [apply cleanb_ok; reflexivity|].
  split; [apply (listed_ok _ _ _ digests_used_ok); vm_compute; reflexivity|]. split; [exact s_tries|].
  split; [vm_compute; reflexivity|]. split; [vm_compute; reflexivity|]. split; [apply kv_eqb_eq; vm_compute; reflexivity|]. vm_compute. reflexivity.
Qed.

(** A delete of a key that is written later: the second time the entry is there. *)
Definition late : list sp_op := [Update kB vb; Delete kA; Update kA va].
Lemma C111_refuted_lemma : exists os s1 t0 t, clean [] [] os /\ hash_ok sha256 (map op_key os) (maps [] os) /\
  sp_run sha256 Debug SStorageMap os (sp_new smap_new) = (t0, Val (Ok tt)) /\ s1 = sp_storage t0 /\
  tries (sp_try sha256 Debug SStorageMap) os smap_new s1 /\
  sp_run sha256 Debug SStorageMap os (sp_new s1) = (t, Val (Ok tt)) /\
  sp_root sha256 t0 = kv_root sha256 (final os) /\ sp_root sha256 t <> kv_root sha256 (final os).
Proof.
  set (s1 := sp_try sha256 Debug SStorageMap late smap_new).
  exists late, s1, (fst (sp_run sha256 Debug SStorageMap late (sp_new smap_new))), (fst (sp_run sha256 Debug SStorageMap late (sp_new s1))).
  assert (Q : let x := sp_run sha256 Debug SStorageMap late (sp_new smap_new) in let y := sp_run sha256 Debug SStorageMap late (sp_new s1) in
    let r := kv_root sha256 (final late) in
    (match snd x with Val (Ok _) => true | _ => false end &&
     match snd y with Val (Ok _) => true | _ => false end && b32_eqb (sp_root sha256 (fst x)) r && negb (b32_eqb (sp_root sha256 (fst y)) r)) = true)
    by (vm_compute; reflexivity).
  cbv zeta in Q. apply andb_prop in Q. destruct Q as [Q Q4]. apply andb_prop in Q. destruct Q as [Q Q3]. apply andb_prop in Q. destruct Q as [Q1 Q2].
  split; [apply cleanb_ok; reflexivity|]. split; [apply (listed_ok _ _ _ digests_used_ok); vm_compute; reflexivity|].
  split; [apply was_ok; exact Q1|]. split; [reflexivity|].
  split; [apply (tries_more _ _ late []); [constructor|reflexivity]|]. split; [apply was_ok; exact Q2|].
  split; [apply b32_eqb_eq; exact Q3|apply negb_neq; exact Q4].
Qed.
