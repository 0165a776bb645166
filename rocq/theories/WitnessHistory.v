(** WitnessHistory.v -- a history with a stale delete, for PropertiesHistory.v. *)
From Verif Require Import Base Sha256 Storage ModelCommon ModelSparse SpecBits SpecBinary SpecSparse SpecAnyRun SpecDisk RunsSparse
  SparseTheorems WitnessSparse.

(** The second delete of [kB] removes the entry of [kA]. *)
Definition stale : list sp_op := [Update kA va; Update kB vb; Delete kB; Delete kB; Update kC vc].
Definition stale_maps : list kvmap :=
  [[]; [(kA, va)]; [(kB, vb); (kA, va)]; [(kC, vc)]; [(kB, va); (kC, vc)]; [(kB, vb); (kC, vc)]].
Lemma stale_ok : hash_ok sha256 [kA; kB; kC; kD] stale_maps.
Proof. apply (listed_ok _ _ _ digests_used_ok). vm_compute. reflexivity. Qed.
Lemma stale_left : fst (replay sha256 stale) = [(kC, vc)].
Proof. apply kv_eqb_eq. vm_compute. reflexivity. Qed.

Lemma history_witness : ~ clean [] [] stale /\ fst (replay sha256 stale) = [(kC, vc)] /\ final stale = [(kC, vc); (kA, va)] /\
  hash_ok sha256 (kD :: map op_key stale) (trail sha256 nothing stale) /\ ~ In kD (written stale) /\
  exists t, sp_run sha256 Debug SStorageMap stale (sp_new smap_new) = (t, Val (Ok tt)).
Proof.
  split; [|split; [exact stale_left|split; [vm_compute; reflexivity|split; [apply (within_ok _ _ _ _ stale_ok); vm_compute; reflexivity|split]]]].
  - intros (_ & _ & _ & [Q|Q] & _).
    + apply inb in Q. vm_compute in Q. discriminate Q.
    + apply Q. left. reflexivity.
  - intros Q. apply inb in Q. vm_compute in Q. discriminate Q.
  - destruct (ran _ _ (sp_run sha256 Debug SStorageMap stale (sp_new smap_new)) (fun _ => true)) as (t & R & _); [vm_compute; reflexivity|]. exists t. exact R.
Qed.
Lemma C32_any_witness : hash_ok sha256 (kB :: map op_key stale) (trail sha256 nothing (stale ++ [Update kB va; Update kB vb])) /\
  hash_ok sha256 (kB :: map op_key stale) (trail sha256 nothing (stale ++ [Update kB vb])) /\ ~ In kB (keys (fst (replay sha256 stale))).
Proof.
  split; [apply (within_ok _ _ _ _ stale_ok); vm_compute; reflexivity|]. split; [apply (within_ok _ _ _ _ stale_ok); vm_compute; reflexivity|].
  rewrite stale_left. intros Q. apply inb in Q. vm_compute in Q. discriminate Q.
Qed.
Lemma C38_any_witness : let us1 := [Update kB vb] in let us2 := [Update kB va] in let us3 := [Update kB va] in
  let m := fst (replay sha256 stale) in let m1 := fold_left apply_op us1 m in
  (forall o, In o (us1 ++ us2 ++ us3) -> is_update o) /\ m1 <> [] /\
  hash_ok sha256 (map op_key (stale ++ us1 ++ us2 ++ us3)) (trail sha256 nothing stale ++ maps m (us1 ++ us2) ++ maps m1 us3) /\
  hash_ok sha256 (map op_key (stale ++ us1 ++ us2)) (trail sha256 nothing stale ++ outcomes m (us1 ++ us2)).
Proof.
  cbv zeta. rewrite stale_left. split; [intros o [<-|[<-|[<-|[]]]]; exact Logic.I|]. split; [discriminate|].
  split; apply (within_ok _ _ _ _ stale_ok); vm_compute; reflexivity.
Qed.
