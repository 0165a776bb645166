(** WitnessStore.v -- concrete contents of a sparse tree's storage. *)
From Verif Require Import Base Sha256 Storage ModelCommon ModelSparse SpecBits SpecBinary SpecSparse SpecStore RunsSparse
  RunsSparseRecover WitnessSparse.

Definition entryb (p : option SPrimitive) (h : Z) (b : byte) (lo hi : bytes32) : bool :=
  match p with
  | Some (h', b', lo', hi') => (h' =? h) && Byte.eqb b' b && b32_eqb lo' lo && b32_eqb hi' hi
  | None => false
  end.

(** Two keys, a delete that fails half way and an update that cannot read its path.  The
    user entry of the deleted key, the root and the leaf of the other key are stored, the
    leaf of the deleted key is not; loading a user key gives a tree of that leaf. *)
Lemma C70_witness :
  match sp_run_all sha256 Debug FaultySMap fail_delete (sp_new (fail_delete_script, smap_new)) with
  | (t, Val [Ok tt; Ok tt; Err _; Err _]) =>
      let v := fsview (sp_storage t) in
      entryb (v kB) 0 x00 kB (sha256 vb) && entryb (v hA) 0 x00 kA (sha256 va) && entryb (v (sp_root sha256 t)) 256 x01 hA hB &&
      match v hB with None => true | _ => false end &&
      match sp_load FaultySMap kB (sp_storage t) with
      | (_, Val (Ok t2)) => b32_eqb (sp_root sha256 t2) (entry_hash sha256 x00 kB (sha256 vb)) | _ => false end &&
      match sp_load FaultySMap (sp_root sha256 t) (sp_storage t) with
      | (_, Val (Ok t2)) => b32_eqb (sp_root sha256 t2) (sp_root sha256 t) | _ => false end
  | _ => false
  end = true.
Proof. vm_compute. reflexivity. Qed.

(** The nodes of a tree of two keys that share their first two bits. *)
Lemma C71_witness : clean [] [] hist /\ hash_ok sha256 (map op_key hist) (maps [] hist) /\
  digests sha256 (final hist) = [(kA, sha256 vd); (kC, sha256 vc)] /\
  match sp_run sha256 Debug SStorageMap hist (sp_new smap_new) with
  | (t, Val (Ok tt)) =>
      let v := sview (sp_storage t) in
      let lA := entry_hash sha256 x00 kA (sha256 vd) in
      let lC := entry_hash sha256 x00 kC (sha256 vc) in
      let n2 := entry_hash sha256 x01 lA lC in
      let n1 := entry_hash sha256 x01 n2 zero32 in
      let n0 := entry_hash sha256 x01 n1 zero32 in
      entryb (v n0) 256 x01 n1 zero32 && entryb (v n1) 255 x01 n2 zero32 && entryb (v n2) 254 x01 lA lC &&
      entryb (v lA) 0 x00 kA (sha256 vd) && entryb (v lC) 0 x00 kC (sha256 vc) &&
      entryb (v kA) 0 x00 kA (sha256 vd) && entryb (v kC) 0 x00 kC (sha256 vc)
  | _ => false
  end = true.
Proof.
  split; [apply cleanb_ok; reflexivity|]. split; [apply (within_ok _ _ _ _ hist_ok); reflexivity|].
  split; [|vm_compute; reflexivity].
  replace (final hist) with [(kA, vd); (kC, vc)] by (symmetry; apply kv_eqb_eq; vm_compute; reflexivity). reflexivity.
Qed.

(** * Recovery *)
Lemma in_maps : forall m ms, existsb (kv_eqb m) ms = true -> In m ms.
Proof. intros m ms Q. apply existsb_exists in Q. destruct Q as (m' & I & Q). apply kv_eqb_eq in Q. subst. exact I. Qed.
Lemma was_ok : forall A B (x : A * out (result B unit)),
  match snd x with Val (Ok _) => true | _ => false end = true -> x = (fst x, Val (Ok tt)).
Proof. intros A B [t [[[]|e]| |]] Q; try discriminate Q. reflexivity. Qed.
Lemma was_fault : forall A (x : A * out (result (SError (option Empty_set)) unit)),
  match snd x with Val (Err (SStorageError None)) => true | _ => false end = true -> x = (fst x, Val (Err (SStorageError None))).
Proof. intros A [t [[|[|[[]|]| |]]| |]] Q; try discriminate Q. reflexivity. Qed.
Definition loaded {A B} (t0 : A) (x : A * out (result B (SpTree A))) : SpTree A :=
  match snd x with Val (Ok t) => t | _ => sp_new t0 end.
Lemma was_loaded : forall A B (x : A * out (result B (SpTree A))) t0,
  match snd x with Val (Ok _) => true | _ => false end = true -> x = (fst x, Val (Ok (loaded t0 x))).
Proof. intros A B [t [[t1|e]| |]] t0 Q; try discriminate Q. reflexivity. Qed.

Lemma not_shared : forall H k m m0, existsb (b32_eqb k) (keys m0) = false -> ~ shares H k m m0.
Proof.
  intros H k m m0 Q (h & _ & I0). unfold digests in I0. apply in_map_iff in I0. destruct I0 as (e & Q1 & Ie).
  assert (X : existsb (b32_eqb k) (keys m0) = true); [|congruence].
  apply existsb_exists. exists (fst e). split; [apply in_map; exact Ie|]. apply b32_eqb_eq. congruence.
Qed.

(** Two updates, a delete that fails half way, a reload of the root before the lost entry,
    an update, a new tree on the same storage, and a reload of the root left for it. *)
Lemma C72_witness : hash_ok sha256 [kA; kB; kC] fail_outcomes /\
  exists t, sp_recovers sha256 Debug FaultySMap fsview [kA; kB; kC] fail_outcomes
    [[]; [(kC, vc); (kA, va)]; [(kA, va)]; []] [(kC, vc); (kA, va)] [kC; kB; kA] t.
Proof.
  split; [apply (listed_ok _ _ _ digests_used_ok); vm_compute; reflexivity|].
  set (s0 := (fail_delete_script, smap_new) : faulty_state (S := SScratch)).
  set (t1 := fst (sp_update sha256 Debug FaultySMap kA va (sp_new s0))).
  set (t2 := fst (sp_update sha256 Debug FaultySMap kB vb t1)).
  set (t3 := fst (sp_delete sha256 Debug FaultySMap kB t2)).
  set (t4 := loaded s0 (sp_load FaultySMap (kv_root sha256 [(kA, va)]) (sp_storage t3))).
  set (t5 := fst (sp_update sha256 Debug FaultySMap kC vc t4)).
  set (t6 := sp_new (sp_storage t5)).
  set (t7 := loaded s0 (sp_load FaultySMap (kv_root sha256 [(kC, vc); (kA, va)]) (sp_storage t6))).
  exists t7.
  assert (R0 : sp_recovers sha256 Debug FaultySMap fsview [kA; kB; kC] fail_outcomes [[]] [] [] (sp_new s0)) by (apply spr_new; intros k; reflexivity).
  assert (R1 : sp_recovers sha256 Debug FaultySMap fsview [kA; kB; kC] fail_outcomes [[(kA, va)]; []] [(kA, va)] [kA] t1).
  { eapply (spr_update _ _ _ _ _ _ _ _ _ _ kA va t1 _ R0); [discriminate|apply inb; reflexivity|apply in_maps; reflexivity| |].
    - apply was_ok. vm_compute. reflexivity.
    - intros m0 [<-|I0]; [right; split; [left; reflexivity|reflexivity]|left; exact I0]. }
  assert (R2 : sp_recovers sha256 Debug FaultySMap fsview [kA; kB; kC] fail_outcomes [[(kB, vb); (kA, va)]; [(kA, va)]; []] [(kB, vb); (kA, va)] [kB; kA] t2).
  { eapply (spr_update _ _ _ _ _ _ _ _ _ _ kB vb t2 _ R1); [discriminate|apply inb; reflexivity|apply in_maps; reflexivity| |].
    - apply was_ok. vm_compute. reflexivity.
    - intros m0 [<-|I0]; [right; split; [left; reflexivity|reflexivity]|left; exact I0]. }
  assert (R3 : sp_recovers sha256 Debug FaultySMap fsview [kA; kB; kC] fail_outcomes [[(kA, va)]; []] [(kB, vb); (kA, va)] [kB; kA] t3).
  { eapply (spr_failed_delete _ _ _ _ _ _ _ _ _ _ kB t3 _ _ R2); [apply inb; reflexivity|apply inb; reflexivity|apply in_maps; reflexivity| |].
    - apply was_fault. vm_compute. reflexivity.
    - intros m0 [<-|[<-|[]]]; (split; [cbn [In]; tauto|apply not_shared; reflexivity]). }
  assert (R4 : sp_recovers sha256 Debug FaultySMap fsview [kA; kB; kC] fail_outcomes [[(kA, va)]; []] [(kA, va)] [kB; kA] t4).
  { eapply (spr_load _ _ _ _ _ _ _ _ _ _ [(kA, va)] t4 R3); [left; reflexivity|discriminate|].
    eapply sp_reload_now. apply was_loaded. vm_compute. reflexivity. }
  assert (R5 : sp_recovers sha256 Debug FaultySMap fsview [kA; kB; kC] fail_outcomes [[(kC, vc); (kA, va)]; [(kA, va)]; []] [(kC, vc); (kA, va)] [kC; kB; kA] t5).
  { eapply (spr_update _ _ _ _ _ _ _ _ _ _ kC vc t5 _ R4); [discriminate|apply inb; reflexivity|apply in_maps; reflexivity| |].
    - apply was_ok. vm_compute. reflexivity.
    - intros m0 [<-|I0]; [right; split; [left; reflexivity|reflexivity]|left; exact I0]. }
  assert (R6 : sp_recovers sha256 Debug FaultySMap fsview [kA; kB; kC] fail_outcomes [[]; [(kC, vc); (kA, va)]; [(kA, va)]; []] [] [kC; kB; kA] t6) by exact (spr_fresh _ _ _ _ _ _ _ _ _ _ R5).
  eapply (spr_load _ _ _ _ _ _ _ _ _ _ [(kC, vc); (kA, va)] t7 R6); [right; left; reflexivity|discriminate|].
  eapply sp_reload_now. apply was_loaded. vm_compute. reflexivity.
Qed.

(** A successful delete; the leaf of the deleted entry was there before. *)
Lemma C75_witness : hash_ok sha256 [kA; kB; kC] fail_outcomes /\
  exists t t', sp_recovers sha256 Debug SStorageMap sview [kA; kB; kC] fail_outcomes
      [[(kB, vb); (kA, va)]; [(kA, va)]; []] [(kB, vb); (kA, va)] [kB; kA] t /\
    sp_delete sha256 Debug SStorageMap kB t = (t', Val (Ok tt)) /\
    entryb (sview (sp_storage t) (entry_hash sha256 x00 kB (sha256 vb))) 0 x00 kB (sha256 vb) = true.
Proof.
  split; [apply (listed_ok _ _ _ digests_used_ok); vm_compute; reflexivity|].
  set (t1 := fst (sp_update sha256 Debug SStorageMap kA va (sp_new smap_new))).
  set (t2 := fst (sp_update sha256 Debug SStorageMap kB vb t1)).
  exists t2, (fst (sp_delete sha256 Debug SStorageMap kB t2)).
  assert (R0 : sp_recovers sha256 Debug SStorageMap sview [kA; kB; kC] fail_outcomes [[]] [] [] (sp_new smap_new)) by (apply spr_new; intros k; reflexivity).
  assert (R1 : sp_recovers sha256 Debug SStorageMap sview [kA; kB; kC] fail_outcomes [[(kA, va)]; []] [(kA, va)] [kA] t1).
  { eapply (spr_update _ _ _ _ _ _ _ _ _ _ kA va t1 _ R0); [discriminate|apply inb; reflexivity|apply in_maps; reflexivity| |].
    - apply was_ok. vm_compute. reflexivity.
    - intros m0 [<-|I0]; [right; split; [left; reflexivity|reflexivity]|left; exact I0]. }
  split; [|split; [apply was_ok; vm_compute; reflexivity|vm_compute; reflexivity]].
  eapply (spr_update _ _ _ _ _ _ _ _ _ _ kB vb t2 _ R1); [discriminate|apply inb; reflexivity|apply in_maps; reflexivity| |].
  - apply was_ok. vm_compute. reflexivity.
  - intros m0 [<-|I0]; [right; split; [left; reflexivity|reflexivity]|left; exact I0].
Qed.
