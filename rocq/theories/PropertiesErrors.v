(** PropertiesErrors.v -- errors of the storage are passed on at once: any storage (no law is
    assumed), any tree value. *)
From Verif Require Import Base Sha256 Storage ModelCommon ModelBinary ModelSparse ModelSum SpecCalls SpecErrors Runs RunsSparse
  WitnessBinary WitnessSparse WitnessStore WitnessAny WitnessAlike ErrorsProofs WitnessErrors.

(** Push, prove and load of a binary tree. *)
Theorem C112_binary : forall H pr St E (st : StorageT St Z BPrimitive E) (t : BTree (list (event Z BPrimitive E) * St)),
  (forall d, reports b_log (passed_on b_is) (bt_push H pr (Logged st) d) t) /\
  (forall i, reports b_log (passed_on b_is) (bt_prove H pr (Logged st) i) t) /\
  (forall n ls, reports fst (passed_on b_is) (bt_load pr (Logged st) n) ls).
Proof. exact @C112_binary_lemma. Qed.
Print Assumptions C112_binary.

(** The fourth push joins twice; the first join fails.  The read of the second peak fails. *)
Example C112_binary_example :
  (let '(t, _) := bt_push_all sha256 Debug (Logged FaultyMap) (firstn 3 leaves7) (bt_new ([], (ok 5 ++ [Fault], smap_new))) in
   let '(t', r) := bt_push sha256 Debug (Logged FaultyMap) [x61] t in
   r = Val (Err (BStorageError None)) /\ length (b_log t) = 4%nat /\
   map (fun x => (match fst x with Put k _ => k | _ => -1 end, snd x)) (skipn 4 (b_log t')) = [(6, None); (5, Some None)]) /\
  (let '(ls, r) := bt_load Debug (Logged FaultyMap) 7 ([], (ok 1 ++ [Fault], bt_storage (tree leaves7))) in
   match r with Val (Err (BStorageError None)) => true | _ => false end = true /\ fst ls = [(Get 3, None); (Get 9, Some None)]).
Proof. exact C112_binary_witness. Qed.

(** Push and root of a sum tree. *)
Theorem C112_sum : forall H pr St E (st : StorageT St bytes32 MNode E) (t : MTree (list (event bytes32 MNode E) * St)),
  (forall fee d, reports m_log (passed_on m_is) (mt_push H pr (Logged st) fee d) t) /\
  reports m_log (passed_on m_is) (mt_root H pr (Logged st)) t.
Proof. exact @C112_sum_lemma. Qed.
Print Assumptions C112_sum.

Example C112_sum_example :
  let '(t, _) := mt_push sha256 Debug (Logged MFaultyMap) 1 [x01] (mt_new ([], (ok 2 ++ [Fault], smap_new))) in
  let '(t', r) := mt_push sha256 Debug (Logged MFaultyMap) 2 [x02] t in
  r = Val (Err None) /\ map snd (m_log t') = [None; None; Some None].
Proof. exact C112_sum_witness. Qed.

(** Update, delete and load of a sparse tree. *)
Theorem C112_sparse : forall H pr St E (st : StorageT St bytes32 SPrimitive E) (t : SpTree (list (event bytes32 SPrimitive E) * St)),
  (forall k v, reports s_log passed_on_late (sp_update H pr (Logged st) k v) t) /\
  (forall k, reports s_log passed_on_late (sp_delete H pr (Logged st) k) t) /\
  (forall r ls, reports fst (passed_on s_is) (sp_load (Logged st) r) ls).
Proof. exact @C112_sparse_lemma. Qed.
Print Assumptions C112_sparse.

(** The child on the path is not there, then the read of the other child fails; the read of the
    child on the path fails, then the other child is read; the second write fails. *)
Example C112_sparse_example :
  (let '(t, r) := sp_update sha256 Debug (Logged FaultySMap) kC va (hollow (ok 3 ++ [Fault])) in
   r = Val (Err (SChildErr (ChildNotFound kA))) /\ tags (s_log t) = [(4, true); (4, true); (1, true); (2, false)]) /\
  (let '(t, r) := sp_update sha256 Debug (Logged FaultySMap) kC va (hollow (ok 2 ++ [Fault])) in
   r = Val (Err (SChildErr (ChildErr (SNStorageError None)))) /\ tags (s_log t) = [(4, true); (4, true); (1, false); (2, true)]) /\
  (let '(t, r) := sp_update sha256 Debug (Logged FaultySMap) kC va (hollow (ok 1 ++ [Fault])) in
   r = Val (Err (SStorageError None)) /\ tags (s_log t) = [(4, true); (4, false)]).
Proof. exact C112_sparse_witness. Qed.
