(** WitnessForks.v -- concrete cases for the theorems of PropertiesForks.v. *)
From Verif Require Import Base Sha256 Storage ModelCommon ModelSparse SpecBinary SpecSparse SpecForks RunsSparse RunsForks
  StorageProofs WitnessSparse.

(** Two trees with one entry each, in one storage; the key of the second is deleted in the first. *)
Definition apart : list (nat * list sp_op) :=
  [(9%nat, [Update kB vb]); (9%nat, [Update kA va]); (0%nat, [Delete kA])].

Lemma C93_refuted_lemma : forall pr, exists s' r1 r2 r3,
  sessions sha256 pr SStorageMap [] apart smap_new = (s', Val [Ok r1; Ok r2; Ok r3]) /\
  r1 = kv_root sha256 [(kB, vb)] /\ r2 = kv_root sha256 [(kA, va)] /\
  fold_left apply_op [Delete kA] [(kB, vb)] = [(kB, vb)] /\ r3 = zero32 /\ r3 <> r1.
Proof.
  intros pr.
  assert (A : exists s' r1 r2 r3, sessions sha256 pr SStorageMap [] apart smap_new = (s', Val [Ok r1; Ok r2; Ok r3]) /\
    b32_eqb r1 (kv_root sha256 [(kB, vb)]) && b32_eqb r2 (kv_root sha256 [(kA, va)]) && b32_eqb r3 zero32 && negb (b32_eqb r3 r1) = true).
  { destruct pr as [[] [] []]; eexists _, _, _, _; (split; [vm_compute; reflexivity|]); vm_compute; reflexivity. }
  destruct A as (s' & r1 & r2 & r3 & R & Q). exists s', r1, r2, r3.
  apply andb_true_iff in Q. destruct Q as [Q Q4]. apply andb_true_iff in Q. destruct Q as [Q Q3]. apply andb_true_iff in Q. destruct Q as [Q1 Q2].
  apply b32_eqb_eq in Q1, Q2, Q3. split; [exact R|]. split; [exact Q1|]. split; [exact Q2|]. split; [vm_compute; reflexivity|].
  split; [exact Q3|]. intros C. apply b32_eqb_eq in C. rewrite C in Q4. discriminate Q4.
Qed.

(** A version with one entry, two different changes of it, and the first of these opened again. *)
Definition tree_of_versions : list (nat * list sp_op) :=
  [(9%nat, [Update kA va]); (0%nat, [Update kB vb]); (0%nat, [Update kA vc]); (1%nat, [])].

Lemma tree_of_versions_updates : only_updates tree_of_versions.
Proof.
  intros a o Ia Io. cbn in Ia. repeat (destruct Ia as [<-|Ia]; [cbn in Io; repeat (destruct Io as [<-|Io]; [exact Logic.I|]); contradiction|]).
  contradiction.
Qed.

Lemma C93_witness : only_updates tree_of_versions /\
  hash_ok sha256 (act_keys tree_of_versions) (trunk [] tree_of_versions) /\
  versions [] tree_of_versions =
    [[(kA, va)]; [(kB, vb); (kA, va)]; [(kA, vc)]; [(kB, vb); (kA, va)]].
Proof.
  split; [exact tree_of_versions_updates|]. split; [apply (listed_ok _ _ _ digests_used_ok); vm_compute; reflexivity|]. vm_compute. reflexivity.
Qed.

(** The second session fails; the third one starts from the version of the first. *)
Definition failing : list (nat * list sp_op) :=
  [(9%nat, [Update kA va]); (0%nat, [Update kA vc]); (0%nat, [Update kB vb])].

Lemma failing_updates : only_updates failing.
Proof.
  intros a o Ia Io. cbn in Ia. repeat (destruct Ia as [<-|Ia]; [cbn in Io; repeat (destruct Io as [<-|Io]; [exact Logic.I|]); contradiction|]).
  contradiction.
Qed.

Lemma C93_failing_witness : only_updates failing /\ hash_ok sha256 (act_keys failing) (branches [] failing) /\
  exists s' r1 e r3,
  sessions sha256 Debug FaultySMap [] failing ([NoFault; NoFault; NoFault; NoFault; Fault], smap_new) = (s', Val [Ok r1; Err e; Ok r3]) /\
  r3 = kv_root sha256 [(kB, vb); (kA, va)].
Proof.
  split; [exact failing_updates|]. split; [apply (listed_ok _ _ _ digests_used_ok); vm_compute; reflexivity|].
  assert (A : exists s' r1 e r3,
    sessions sha256 Debug FaultySMap [] failing ([NoFault; NoFault; NoFault; NoFault; Fault], smap_new) = (s', Val [Ok r1; Err e; Ok r3]) /\
    b32_eqb r3 (kv_root sha256 [(kB, vb); (kA, va)]) = true).
  { eexists _, _, _, _; (split; [vm_compute; reflexivity|]); vm_compute; reflexivity. }
  destruct A as (s' & r1 & e & r3 & R & Q). apply b32_eqb_eq in Q. exists s', r1, e, r3. auto.
Qed.
