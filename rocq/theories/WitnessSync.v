(** WitnessSync.v -- concrete cases for the theorems of PropertiesSync.v. *)
From Verif Require Import Base Sha256 Storage ModelCommon ModelSparse SpecBits SpecBinary SpecSparse SpecAnyRun SpecDisk SpecCalls SpecSync
  RunsSparse RunsSync SyncProofs WitnessSparse WitnessStore WitnessLost WitnessDisk.

(** The nodes of the map of A and B, the entry of the key B, an entry under the zero key that no
    tree would write and a node of another tree. *)
Definition synced : SScratch :=
  [(hA, (0, x00, kA, sha256 va)); (two_root, (256, x01, hA, hB)); (kB, (0, x00, kB, sha256 vb));
   (zero32, (77, x05, kA, kB)); (hB, (0, x00, kB, sha256 vb)); (kD, (12, x01, kD, hA))].
Definition synced_map : kvmap := [(kA, va); (kB, vb)].
Definition synced_ops : list sp_op := [Update kC vc; Delete kB; Delete kA].

Definition holds_nodesb (d : disk) (m : kvmap) : bool :=
  forallb (fun x : bytes32 * option entry => match snd x with Some e => agrees (Some e) (d (fst x)) | None => true end)
    (flat_map (fun k => path_in sha256 k m) (keys m)).
Definition no_conflictb (d : disk) (ks : list bytes32) (ms : list kvmap) : bool :=
  forallb (fun m => forallb (fun x : bytes32 * option entry =>
      match snd x, d (fst x) with Some e, Some e' => agrees (Some e) (Some e') | _, _ => true end)
    (flat_map (fun k => path_in sha256 k m) (keys m))) ms &&
  forallb (fun k => match d k with Some (0, b, k', _) => Byte.eqb b x00 && b32_eqb k' k | Some _ => false | None => true end) ks.
Lemma agrees_eq : forall e o, agrees (Some e) o = true -> o = Some e.
Proof.
  intros [[[h b] lo] hi] [[[[h' b'] lo'] hi']|] Q; [|discriminate]. cbn [agrees entryb] in Q.
  apply andb_prop in Q. destruct Q as [Q Q4]. apply andb_prop in Q. destruct Q as [Q Q3]. apply andb_prop in Q. destruct Q as [Q1 Q2].
  apply Z.eqb_eq in Q1. apply Byte.byte_dec_bl in Q2. apply b32_eqb_eq in Q3, Q4. subst. reflexivity.
Qed.
Lemma holds_nodesb_ok : forall d m, NoDup (keys m) -> holds_nodesb d m = true -> holds_nodes sha256 d m.
Proof.
  intros d m N Q h e No. unfold holds_nodesb in Q. rewrite forallb_forall in Q.
  specialize (Q _ (node_listed sha256 m h e N No)). cbn [fst snd] in Q. apply agrees_eq. exact Q.
Qed.
Lemma no_conflictb_ok : forall d ks ms, (forall m, In m ms -> NoDup (keys m)) -> no_conflictb d ks ms = true -> no_conflict sha256 d ks ms.
Proof.
  intros d ks ms N Q. unfold no_conflictb in Q. apply andb_prop in Q. destruct Q as [Q1 Q2]. rewrite forallb_forall in Q1, Q2. split.
  - intros m h e Im No. specialize (Q1 m Im). rewrite forallb_forall in Q1.
    specialize (Q1 _ (node_listed sha256 m h e (N m Im) No)). cbn [fst snd] in Q1.
    destruct (d h) as [e'|]; [right|left; reflexivity]. apply agrees_eq in Q1. exact Q1.
  - intros k Ik. specialize (Q2 k Ik). destruct (d k) as [[[[h b] k'] x]|]; [right|left; reflexivity].
    destruct h; try discriminate. apply andb_prop in Q2. destruct Q2 as [A B].
    apply Byte.byte_dec_bl in A. apply b32_eqb_eq in B. subst. eauto.
Qed.
Lemma synced_nodup : NoDup (keys synced_map).
Proof. constructor; [|constructor; [intros []|constructor]]. intros [C|[]]. apply b32_eqb_eq in C. discriminate C. Qed.

Lemma C98_witness : synced_map <> [] /\ NoDup (keys synced_map) /\
  hash_ok sha256 (map op_key synced_ops) (trail sha256 (synced_map, sview synced) synced_ops) /\
  holds_nodes sha256 (sview synced) synced_map /\
  no_conflict sha256 (sview synced) (map op_key synced_ops) (trail sha256 (synced_map, sview synced) synced_ops) /\
  fst (fold_left (replay_op sha256) synced_ops (synced_map, sview synced)) = [(kC, vc); (kA, va)] /\
  sview synced zero32 = Some (77, x05, kA, kB).
Proof.
  split; [discriminate|]. split; [exact synced_nodup|]. split; [apply (listed_ok _ _ _ digests_used_ok); vm_compute; reflexivity|].
  split; [apply holds_nodesb_ok; [exact synced_nodup|vm_compute; reflexivity]|].
  split; [apply no_conflictb_ok; [apply (trail_nodup sha256); exact synced_nodup|vm_compute; reflexivity]|].
  split; [apply kv_eqb_eq; vm_compute; reflexivity|reflexivity].
Qed.

(** No entry is stored under the key A: deleting A answers Ok and leaves it in the tree. *)
Lemma C98_refuted_lemma : forall pr, exists t t', sp_load SStorageMap (kv_root sha256 synced_map) synced = (synced, Val (Ok t)) /\
  holds_nodes sha256 (sview synced) synced_map /\ lookup kA synced_map = Some va /\
  sp_run sha256 pr SStorageMap [Delete kA] t = (t', Val (Ok tt)) /\
  sp_root sha256 t' = kv_root sha256 synced_map /\ kv_root sha256 synced_map <> kv_root sha256 (mdel kA synced_map).
Proof.
  intros pr.
  assert (Q : exists t, sp_load SStorageMap (kv_root sha256 synced_map) synced = (synced, Val (Ok t)) /\
    b32_eqb (sp_root sha256 t) (kv_root sha256 synced_map) && negb (b32_eqb (kv_root sha256 synced_map) (kv_root sha256 (mdel kA synced_map))) = true /\
    sp_run sha256 pr SStorageMap [Delete kA] t = (t, Val (Ok tt))).
  { eexists. split; [vm_compute; reflexivity|]. split; [vm_compute; reflexivity|]. destruct pr as [[] [] []]; vm_compute; reflexivity. }
  destruct Q as (t & L & Q & R). apply andb_prop in Q. destruct Q as [Q1 Q2]. exists t, t.
  split; [exact L|]. split; [apply C98_witness|]. split; [reflexivity|]. split; [exact R|].
  split; [apply b32_eqb_eq; exact Q1|apply negb_neq; exact Q2].
Qed.

Definition new_ops : list sp_op := [Update kA vc; Delete kC; Update kB vb; Delete kB].
Lemma C98_new_witness :
  hash_ok sha256 (map op_key new_ops) (trail sha256 ([], sview synced) new_ops) /\
  no_conflict sha256 (sview synced) (map op_key new_ops) (trail sha256 ([], sview synced) new_ops) /\
  fst (fold_left (replay_op sha256) new_ops ([], sview synced)) = [(kA, vc)].
Proof.
  split; [apply (listed_ok _ _ _ digests_used_ok); vm_compute; reflexivity|].
  split; [apply no_conflictb_ok; [apply (trail_nodup sha256); apply NoDup_nil|vm_compute; reflexivity]|].
  apply kv_eqb_eq. vm_compute. reflexivity.
Qed.

Definition clean_ops : list sp_op := [Delete kB; Update kC vc; Delete kC].
Lemma C98_clean_witness : NoDup (keys synced_map) /\ hash_ok sha256 (map op_key clean_ops) (maps synced_map clean_ops) /\
  (forall k, In k (map op_key clean_ops) -> In k (keys synced_map) -> sview synced k <> None) /\
  (forall k, In k (map op_key clean_ops) -> sview synced k <> None -> In k [kB]) /\ clean synced_map [kB] clean_ops /\
  fold_left apply_op clean_ops synced_map = [(kA, va)].
Proof.
  split; [exact synced_nodup|]. split; [apply (listed_ok _ _ _ digests_used_ok); vm_compute; reflexivity|].
  split; [|split; [|split; [apply cleanb_ok; reflexivity|apply kv_eqb_eq; vm_compute; reflexivity]]].
  - intros k Ik Im. cbn in Ik. destruct Ik as [<-|[<-|[<-|[]]]]; [vm_compute; discriminate| |];
      (exfalso; cbn in Im; destruct Im as [C|[C|[]]]; apply b32_eqb_eq in C; discriminate C).
  - intros k Ik N. cbn in Ik. destruct Ik as [<-|[<-|[<-|[]]]]; [left; reflexivity| |]; (exfalso; apply N; vm_compute; reflexivity).
Qed.

Lemma C98_calls_witness : match sp_load (Logged SStorageMap) (kv_root sha256 synced_map) ([], synced) with
  | (_, Val (Ok _)) => true | _ => false end = true /\
  length (script sha256 (synced_map, sview synced) synced_ops) = 14%nat.
Proof. split; vm_compute; reflexivity. Qed.
