(** WitnessShort.v -- concrete numbers of calls. *)
From Verif Require Import Base Sha256 Storage ModelCommon ModelSparse SpecBits SpecBinary SpecSparse SpecAnyRun SpecDisk SpecCalls SpecShort
  RunsSparse SparseTheorems WitnessSparse.

Definition apartb (c : nat) (k : bytes32) (m : kvmap) : bool :=
  forallb (fun k' => b32_eqb k' k || existsb (fun i => negb (Bool.eqb (kbit k' i) (kbit k i))) (seq 0 c)) (keys m).
Lemma apartb_ok : forall c k m, apartb c k m = true -> apart c k m.
Proof.
  intros c k m A k' I N. unfold apartb in A. rewrite forallb_forall in A. specialize (A k' I).
  destruct (b32_eqb k' k) eqn:Q; [apply b32_eqb_eq in Q; contradiction|]. cbn [orb] in A.
  apply existsb_exists in A. destruct A as (i & Ii & D). apply in_seq in Ii. exists i. split; [apply Ii|].
  intros E. rewrite E, Bool.eqb_reflx in D. discriminate.
Qed.
Definition nearb (c : nat) (k : bytes32) (m : kvmap) : bool :=
  existsb (fun k' => negb (b32_eqb k' k) && forallb (fun i => Bool.eqb (kbit k' i) (kbit k i)) (seq 0 c)) (keys m).
Lemma just_ok : forall c k m, apartb (S c) k m = true -> nearb c k m = true -> just (S c) k m.
Proof.
  intros c k m B A. split; [apply apartb_ok; exact B|]. apply existsb_exists in A. destruct A as (k' & I & A). apply andb_prop in A. destruct A as [N A].
  exists k'. split; [exact I|]. split.
  - intros ->. rewrite b32_eqb_refl in N. discriminate.
  - intros i L. rewrite forallb_forall in A. apply Bool.eqb_prop. apply A. apply in_seq. split; [apply Nat.le_0_l|exact L].
Qed.

(** The keys 0001..., 1001..., 0011...: three bits tell the third key apart, one bit the second. *)
Definition first_two : list sp_op := [Update kA va; Update kB vb].
Definition first_three : list sp_op := [Update kA va; Update kB vb; Update kC vc].
Definition tally_of (os : list sp_op) (o : sp_op) : option (nat * nat * nat) :=
  match sp_run sha256 Debug (Logged SStorageMap) os (sp_new ([], smap_new)) with
  | (t, Val (Ok tt)) =>
      match sp_apply sha256 Debug (Logged SStorageMap) o t with
      | (t', Val (Ok tt)) => let l := skipn (length (fst (sp_storage t))) (fst (sp_storage t')) in
                             Some (n_reads l, n_writes l, n_removals l)
      | _ => None
      end
  | _ => None
  end.
Lemma C114_witness :
  hash_ok sha256 (map op_key (first_two ++ [Update kC vc])) (trail sha256 nothing (first_two ++ [Update kC vc])) /\
  just 3 kC (fst (replay sha256 first_two)) /\
  tally_of first_two (Update kC vc) = Some (2, 5, 0)%nat /\
  hash_ok sha256 (map op_key (first_three ++ [Delete kB])) (trail sha256 nothing (first_three ++ [Delete kB])) /\
  just 1 kB (fst (replay sha256 first_three)) /\
  tally_of first_three (Delete kB) = Some (3, 1, 2)%nat /\
  tally_of first_three (Delete kA) = Some (6, 1, 4)%nat /\
  clean [] [] (first_three ++ [Delete kB]) /\
  hash_ok sha256 (map op_key (first_three ++ [Delete kB])) (maps [] (first_three ++ [Delete kB])) /\ just 1 kB (final first_three).
Proof.
  split; [apply (within_ok _ _ _ _ hist_ok); vm_compute; reflexivity|].
  split; [apply just_ok; vm_compute; reflexivity|].
  split; [vm_compute; reflexivity|]. split; [apply (within_ok _ _ _ _ hist_ok); vm_compute; reflexivity|].
  split; [apply just_ok; vm_compute; reflexivity|]. split; [vm_compute; reflexivity|]. split; [vm_compute; reflexivity|].
  split; [apply cleanb_ok; reflexivity|]. split; [apply (within_ok _ _ _ _ hist_ok); vm_compute; reflexivity|].
  apply just_ok; vm_compute; reflexivity.
Qed.
