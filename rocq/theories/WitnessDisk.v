(** WitnessDisk.v -- concrete contents of the storage of a sparse tree. *)
From Verif Require Import Base Sha256 Storage ModelCommon ModelSparse SpecBits SpecBinary SpecSparse SpecAnyRun SpecDisk RunsSparse
  SparseTheorems WitnessSparse WitnessStore WitnessAny WitnessLost.

(** Two keys; the second is deleted twice, the second time the first goes. *)
Definition agrees (x y : option entry) : bool :=
  match x, y with
  | None, None => true
  | Some (h, b, lo, hi), _ => entryb y h b lo hi
  | _, _ => false
  end.
Lemma C89_witness : hash_ok sha256 (map op_key twice) (trail sha256 nothing twice) /\
  fst (replay sha256 twice) = [] /\
  match sp_run sha256 Debug SStorageMap twice (sp_new smap_new) with
  | (t, Val (Ok tt)) =>
      let d := snd (replay sha256 twice) in
      forallb (fun k => agrees (sview (sp_storage t) k) (d k)) [kA; kB; hA; hB; two_root; zero32] &&
      agrees (d kA) (Some (0, x00, kA, sha256 va)) && agrees (d kB) (Some (0, x00, kB, sha256 vb)) &&
      agrees (d hA) None && agrees (d hB) None && agrees (d two_root) None
  | _ => false end = true.
Proof.
  split; [apply (within_ok _ _ _ _ twice_ok); vm_compute; reflexivity|]. split; [apply kv_eqb_eq; vm_compute; reflexivity|].
  vm_compute. reflexivity.
Qed.

(** Everything is deleted; the entries of the keys and nodes of older trees stay. *)
Definition gone : list sp_op := [Update kA va; Update kB vb; Update kA vc; Delete kA; Delete kB].
Definition gone_check (t : SpTree SScratch) : bool :=
  b32_eqb (sp_root sha256 t) zero32 &&
  agrees (Some (0, x00, kA, sha256 vc)) (sview (sp_storage t) kA) && agrees (Some (256, x01, hA, hB)) (sview (sp_storage t) two_root).
Lemma gone_run : exists t, sp_run sha256 Debug SStorageMap gone (sp_new smap_new) = (t, Val (Ok tt)) /\ gone_check t = true.
Proof. apply (ran _ _ (sp_run sha256 Debug SStorageMap gone (sp_new smap_new)) gone_check). vm_compute. reflexivity. Qed.
Lemma C90_refuted_lemma : exists os t k n, clean [] [] os /\ final os = [] /\
  hash_ok sha256 (map op_key os) (maps [] os) /\
  sp_run sha256 Debug SStorageMap os (sp_new smap_new) = (t, Val (Ok tt)) /\ sp_root sha256 t = zero32 /\
  In (Delete k) os /\ sview (sp_storage t) k <> None /\
  In n (map (fun m => kv_root sha256 m) (maps [] os)) /\ n <> zero32 /\ sview (sp_storage t) n <> None.
Proof.
  exists gone. destruct gone_run as (t & R & Q). exists t, kA, two_root. unfold gone_check in Q.
  apply andb_prop in Q. destruct Q as [Q Q3]. apply andb_prop in Q. destruct Q as [Q1 Q2].
  split; [apply cleanb_ok; reflexivity|]. split; [apply kv_eqb_eq; vm_compute; reflexivity|].
  split; [apply (listed_ok _ _ _ digests_used_ok); vm_compute; reflexivity|]. split; [exact R|]. split; [apply b32_eqb_eq; exact Q1|].
  split; [right; right; right; left; reflexivity|].
  split; [intros C; rewrite C in Q2; discriminate Q2|].
  split; [right; right; left; apply b32_eqb_eq; vm_compute; reflexivity|].
  split; [apply negb_neq; vm_compute; reflexivity|].
  intros C; rewrite C in Q3; discriminate Q3.
Qed.

Lemma C90_witness : clean [] [] gone /\ hash_ok sha256 (map op_key gone) (maps [] gone) /\
  last_write kA gone = Some vc /\ last_write kD gone = None /\
  match sp_run sha256 Debug SStorageMap gone (sp_new smap_new) with
  | (t, Val (Ok tt)) => agrees (Some (0, x00, kA, sha256 vc)) (sview (sp_storage t) kA)
  | _ => false end = true.
Proof.
  split; [apply cleanb_ok; reflexivity|]. split; [apply (listed_ok _ _ _ digests_used_ok); vm_compute; reflexivity|].
  split; [reflexivity|]. split; [reflexivity|].
  destruct gone_run as (t & R & Q). rewrite R. unfold gone_check in Q. apply andb_prop in Q. destruct Q as [Q _]. apply andb_prop in Q. apply Q.
Qed.
