(** WitnessAny.v -- concrete histories with stale deletes and failures. *)
From Verif Require Import Base Sha256 Storage ModelCommon ModelSparse SpecBits SpecBinary SpecSparse SpecAnyRun RunsSparse
  SparseAnyRun WitnessSparse.

Lemma fail_ok : hash_ok sha256 [kA; kB; kC] fail_outcomes.
Proof. apply (listed_ok _ _ _ digests_used_ok). vm_compute. reflexivity. Qed.

(** One key; the update of a second key fails after its own entry is written; deleting the
    second key then answers Ok and removes the first. *)
Lemma C73_witness : hash_ok sha256 (map op_key ghost) (possible [] ghost) /\
  may [] [] (combine ghost [true; false; true]) [] /\
  match sp_run_all sha256 Debug FaultySMap ghost (sp_new (fail_script, smap_new)) with
  | (t, Val [Ok tt; Err (SStorageError None); Ok tt]) => b32_eqb (sp_root sha256 t) zero32
  | _ => false end = true.
Proof.
  split; [|split; [|vm_compute; reflexivity]].
  - apply (within_ok _ _ _ _ fail_ok). vm_compute. reflexivity.
  - cbn [combine ghost may]. exists [(kA, va)]. split; [left; reflexivity|]. exists [(kA, va)]. split; [left; reflexivity|].
    exists []. split; [|reflexivity]. right. left. vm_compute. reflexivity.
Qed.

Lemma C59_witness : clean [] [] [Update kA va] /\
  hash_ok sha256 (map op_key [Update kA va] ++ [kB])
    (maps [] [Update kA va] ++ [mset kB vb (final [Update kA va]); without_landing kB (final [Update kA va])]) /\
  match sp_run sha256 Debug FaultySMap [Update kA va] (sp_new (fail_script, smap_new)) with
  | (t, Val (Ok tt)) => match sp_update sha256 Debug FaultySMap kB vb t with
                        | (t', Val (Err _)) => b32_eqb (sp_root sha256 t') (kv_root sha256 [(kA, va)]) | _ => false end
  | _ => false end = true.
Proof.
  split; [split; exact Logic.I|]. split; [apply (within_ok _ _ _ _ twice_ok); vm_compute; reflexivity|vm_compute; reflexivity].
Qed.

(** The key 0 and another key in the left half, a key in the right half that is deleted
    twice: the second delete removes the entry of the key 0, which then cannot be deleted. *)
Definition k0 : bytes32 := Eval vm_compute in key x00.
Lemma k0_zero : k0 = zero32.
Proof. apply b32_eqb_eq. reflexivity. Qed.
Definition zero_hist : list sp_op := [Update k0 va; Update kA vb; Update kB vc; Delete kB; Delete kB].
Definition zero_map : kvmap := [(kA, vb); (k0, va)].
Definition zero_outcomes : list kvmap :=
  [[]; [(k0, va)]; [(kA, vb)]; [(kB, vc)]; [(kA, vb); (k0, va)]; [(kB, vc); (k0, va)]; [(kB, vc); (kA, vb)]; [(kB, vc); (kA, vb); (k0, va)]].
Definition zero_digests : table := Eval vm_compute in table_for zero_outcomes [].
Lemma zero_digests_ok : table_okb zero_digests = true.
Proof. vm_compute. reflexivity. Qed.
Lemma C74_refuted_lemma : exists os k m t t',
  sp_run sha256 Debug SStorageMap os (sp_new smap_new) = (t, Val (Ok tt)) /\
  final os = m /\ In k (keys m) /\ sp_root sha256 t = kv_root sha256 m /\
  hash_ok sha256 (map op_key os ++ [k]) (possible [] (os ++ [Delete k])) /\
  sp_delete sha256 Debug SStorageMap k t = (t', Val (Ok tt)) /\ sp_root sha256 t' = kv_root sha256 m /\
  kv_root sha256 m <> kv_root sha256 (mdel k m).
Proof.
  exists zero_hist, k0, zero_map.
  destruct (ran _ _ (sp_run sha256 Debug SStorageMap zero_hist (sp_new smap_new)) (fun t =>
    b32_eqb (sp_root sha256 t) (kv_root sha256 zero_map) &&
    match sp_delete sha256 Debug SStorageMap k0 t with
    | (t', Val (Ok tt)) => b32_eqb (sp_root sha256 t') (kv_root sha256 zero_map)
    | _ => false end)) as (t & R & Q); [vm_compute; reflexivity|].
  apply andb_prop in Q. destruct Q as [Q1 Q2].
  exists t. destruct (sp_delete sha256 Debug SStorageMap k0 t) as [t' [[[]|e]| |]] eqn:D1; try discriminate Q2.
  exists t'. split; [exact R|]. split; [apply kv_eqb_eq; vm_compute; reflexivity|]. split; [right; left; reflexivity|].
  split; [apply b32_eqb_eq; exact Q1|]. split; [apply (listed_ok _ _ _ zero_digests_ok); vm_compute; reflexivity|]. split; [reflexivity|].
  split; [apply b32_eqb_eq; exact Q2|]. apply negb_neq. vm_compute. reflexivity.
Qed.

Lemma C74_witness : kB <> zero32 /\
  hash_ok sha256 (map op_key [Update kA va; Update kB vb] ++ [kB]) (possible [] ([Update kA va; Update kB vb] ++ [Delete kB])) /\
  may [] [] (combine [Update kA va; Update kB vb] [true; true]) [(kB, vb); (kA, va)] /\ In kB (keys [(kB, vb); (kA, va)]).
Proof.
  split; [apply negb_neq; reflexivity|]. split; [|split].
  - apply (within_ok _ _ _ _ fail_ok). vm_compute. reflexivity.
  - cbn [combine may]. exists [(kA, va)]. split; [left; reflexivity|]. exists [(kB, vb); (kA, va)]. split; [left; vm_compute; reflexivity|reflexivity].
  - left. reflexivity.
Qed.
