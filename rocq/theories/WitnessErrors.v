(** WitnessErrors.v -- calls on storages that fail. *)
From Verif Require Import Base Sha256 Storage ModelCommon ModelBinary ModelSparse ModelSum SpecCalls SpecErrors Runs RunsSparse
  WitnessBinary WitnessSparse WitnessStore WitnessAny WitnessAlike.

(** The fourth push joins twice; the first join fails.  The read of the second peak fails. *)
Lemma C112_binary_witness :
  (let '(t, _) := bt_push_all sha256 Debug (Logged FaultyMap) (firstn 3 leaves7) (bt_new ([], (ok 5 ++ [Fault], smap_new))) in
   let '(t', r) := bt_push sha256 Debug (Logged FaultyMap) [x61] t in
   r = Val (Err (BStorageError None)) /\ length (b_log t) = 4%nat /\
   map (fun x => (match fst x with Put k _ => k | _ => -1 end, snd x)) (skipn 4 (b_log t')) = [(6, None); (5, Some None)]) /\
  (let '(ls, r) := bt_load Debug (Logged FaultyMap) 7 ([], (ok 1 ++ [Fault], bt_storage (tree leaves7))) in
   match r with Val (Err (BStorageError None)) => true | _ => false end = true /\ fst ls = [(Get 3, None); (Get 9, Some None)]).
Proof. vm_compute. repeat split. Qed.

Lemma C112_sum_witness :
  let '(t, _) := mt_push sha256 Debug (Logged MFaultyMap) 1 [x01] (mt_new ([], (ok 2 ++ [Fault], smap_new))) in
  let '(t', r) := mt_push sha256 Debug (Logged MFaultyMap) 2 [x02] t in
  r = Val (Err None) /\ map snd (m_log t') = [None; None; Some None].
Proof. vm_compute. repeat split. Qed.

(** A tree value over an empty storage: its children are missing. *)
Definition hollow (fs : list fault) : SpTree (list (event bytes32 SPrimitive (option Empty_set)) * faulty_state (S := SScratch)) :=
  Build_SpTree {| sn_height := 256; sn_prefix := PNode; sn_bytes_lo := kA; sn_bytes_hi := kB |} ([], (fs, smap_new)).
Definition tags (l : list (event bytes32 SPrimitive (option Empty_set))) : list (Z * bool) :=
  map (fun x => (match fst x with Get k => if b32_eqb k kA then 1 else if b32_eqb k kB then 2 else 3 | Put _ _ => 4 | Del _ => 5 end,
                 match snd x with None => true | Some _ => false end)) l.
(** The child on the path is not there, then the read of the other child fails; the read of the
    child on the path fails, then the other child is read; the second write fails. *)
Lemma C112_sparse_witness :
  (let '(t, r) := sp_update sha256 Debug (Logged FaultySMap) kC va (hollow (ok 3 ++ [Fault])) in
   r = Val (Err (SChildErr (ChildNotFound kA))) /\ tags (s_log t) = [(4, true); (4, true); (1, true); (2, false)]) /\
  (let '(t, r) := sp_update sha256 Debug (Logged FaultySMap) kC va (hollow (ok 2 ++ [Fault])) in
   r = Val (Err (SChildErr (ChildErr (SNStorageError None)))) /\ tags (s_log t) = [(4, true); (4, true); (1, false); (2, true)]) /\
  (let '(t, r) := sp_update sha256 Debug (Logged FaultySMap) kC va (hollow (ok 1 ++ [Fault])) in
   r = Val (Err (SStorageError None)) /\ tags (s_log t) = [(4, true); (4, false)]).
Proof. vm_compute. repeat split. Qed.
