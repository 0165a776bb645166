(** WitnessLost.v -- concrete trees whose storage lost or damaged entries. *)
From Verif Require Import Base Sha256 Storage ModelCommon ModelSparse SpecBits SpecBinary SpecSparse SpecAnyRun SpecLost RunsSparse RunsLost
  StorageProofs SparseLost WitnessSparse WitnessAny.

(** Two keys; the root node is stored with height 255 instead of 256. *)
Definition two : list sp_op := [Update kA va; Update kB vb].
Definition two_tree : SpTree SScratch := Eval vm_compute in fst (sp_run sha256 Debug SStorageMap two (sp_new smap_new)).
Definition two_root : bytes32 := Eval vm_compute in sp_root sha256 two_tree.
Definition two_storage : SScratch := Eval vm_compute in sp_storage two_tree.
Definition bent (s : SScratch) : SScratch :=
  match sview s two_root with Some (_, b, lo, hi) => (two_root, (255, b, lo, hi)) :: s | None => s end.

Lemma bent_entries : forall k, sview (bent two_storage) k = sview two_storage k \/
  exists b lo hi, k = entry_hash sha256 b lo hi /\ sview (bent two_storage) k = Some (255, b, lo, hi).
Proof.
  intros k. destruct (b32_eqb k two_root) eqn:Q.
  - right. apply b32_eqb_eq in Q. subst k. destruct (sview two_storage two_root) as [[[[h b] lo] hi]|] eqn:S; [|vm_compute in S; discriminate S].
    exists b, lo, hi. split.
    + assert (X : match sview two_storage two_root with Some (_, b, lo, hi) => b32_eqb two_root (entry_hash sha256 b lo hi) | None => false end = true) by (vm_compute; reflexivity).
      rewrite S in X. apply b32_eqb_eq. exact X.
    + unfold bent. rewrite S. unfold sview. cbn [smap_lookup]. rewrite b32_eqb_refl. reflexivity.
  - left. unfold bent. destruct (sview two_storage two_root) as [[[[h b] lo] hi]|]; [|reflexivity].
    unfold sview. cbn [smap_lookup]. rewrite Q. reflexivity.
Qed.

(** The entry of the key [kB] is lost. *)
Definition without_kB : SScratch := smap_erase b32_eqb two_storage kB.
Lemma without_kB_entries : forall k, sview without_kB k = sview two_storage k \/ sview without_kB k = None.
Proof.
  intros k. unfold without_kB, sview. rewrite (StorageProofs.smap_lookup_erase b32_eqb b32_eqb_eq).
  destruct (b32_eqb k kB); auto.
Qed.
Lemma two_run : sp_run sha256 Debug SStorageMap two (sp_new smap_new) = (two_tree, Val (Ok tt)).
Proof. vm_compute. reflexivity. Qed.
Lemma two_storage_eq : sp_storage two_tree = two_storage.
Proof. vm_compute. reflexivity. Qed.

Lemma C88_refuted_lemma : exists os k v t,
  sp_run sha256 Debug SStorageMap os (sp_new smap_new) = (t, Val (Ok tt)) /\ In k (keys (final os)) /\
  (exists s t1 t2,
     (forall k', sview s k' = sview (sp_storage t) k' \/
        exists h b lo hi, k' = entry_hash sha256 b lo hi /\ sview s k' = Some (h, b, lo, hi)) /\
     sp_load SStorageMap (sp_root sha256 t) s = (s, Val (Ok t1)) /\ sp_root sha256 t1 = sp_root sha256 t /\
     sp_delete sha256 Debug SStorageMap k t1 = (t2, Val (Ok tt)) /\ sp_root sha256 t2 <> kv_root sha256 (mdel k (final os)) /\
     snd (sp_update sha256 Debug SStorageMap k v t1) = Panic) /\
  (exists s t2,
     (forall k', sview s k' = sview (sp_storage t) k' \/ sview s k' = None) /\
     sp_delete sha256 Debug SStorageMap k (Build_SpTree (sp_root_node t) s) = (t2, Val (Ok tt)) /\
     sp_root sha256 t2 <> kv_root sha256 (mdel k (final os))).
Proof.
  exists two, kB, vd, two_tree. split; [exact two_run|]. split; [left; reflexivity|]. split.
  - destruct (sp_load SStorageMap (sp_root sha256 two_tree) (bent two_storage)) as [s [[t1|e]| |]] eqn:L; try (vm_compute in L; discriminate L).
    assert (Es : s = bent two_storage).
    { assert (Q : fst (sp_load SStorageMap (sp_root sha256 two_tree) (bent two_storage)) = bent two_storage).
      { unfold sp_load, bind_try, bind, sst_get. cbn. destruct (smap_lookup b32_eqb (bent two_storage) (sp_root sha256 two_tree)) as [p|]; [|reflexivity].
        destruct (snode_try_from p); reflexivity. }
      rewrite L in Q. exact Q. }
    rewrite Es in L.
    assert (Q : match snd (sp_load SStorageMap (sp_root sha256 two_tree) (bent two_storage)) with
      | Val (Ok t1) => b32_eqb (sp_root sha256 t1) (sp_root sha256 two_tree) &&
          match sp_delete sha256 Debug SStorageMap kB t1 with
          | (t2, Val (Ok tt)) => negb (b32_eqb (sp_root sha256 t2) (kv_root sha256 (mdel kB (final two)))) | _ => false end &&
          match snd (sp_update sha256 Debug SStorageMap kB vd t1) with Panic => true | _ => false end
      | _ => false end = true) by (vm_compute; reflexivity).
    rewrite L in Q. cbn [snd] in Q. apply andb_prop in Q. destruct Q as [Q Q3]. apply andb_prop in Q. destruct Q as [Q1 Q2].
    destruct (sp_delete sha256 Debug SStorageMap kB t1) as [t2 [[[]|e]| |]] eqn:D; try discriminate Q2.
    exists (bent two_storage), t1, t2. rewrite two_storage_eq. split; [|split; [exact L|split; [apply b32_eqb_eq; exact Q1|split; [exact D|split]]]].
    + intros k'. destruct (bent_entries k') as [X|(b & lo & hi & X)]; [left; exact X|right; eauto].
    + intros C. rewrite C, b32_eqb_refl in Q2. discriminate Q2.
    + destruct (snd (sp_update sha256 Debug SStorageMap kB vd t1)); try discriminate Q3. reflexivity.
  - assert (Q : match sp_delete sha256 Debug SStorageMap kB (Build_SpTree (sp_root_node two_tree) without_kB) with
      | (t2, Val (Ok tt)) => negb (b32_eqb (sp_root sha256 t2) (kv_root sha256 (mdel kB (final two)))) | _ => false end = true) by (vm_compute; reflexivity).
    destruct (sp_delete sha256 Debug SStorageMap kB (Build_SpTree (sp_root_node two_tree) without_kB)) as [t2 [[[]|e]| |]] eqn:D; try discriminate Q.
    exists without_kB, t2. rewrite two_storage_eq. split; [exact without_kB_entries|]. split; [exact D|].
    intros C. rewrite C, b32_eqb_refl in Q. discriminate Q.
Qed.

(** Two keys; the leaf of [kA] and the entry of [kB] are lost: an update beside [kA] reports the
    missing node, a delete of [kB] does nothing. *)
Definition torn : SScratch := Eval vm_compute in smap_erase b32_eqb (smap_erase b32_eqb two_storage hA) kB.
Lemma torn_eq : torn = smap_erase b32_eqb (smap_erase b32_eqb two_storage hA) kB.
Proof. vm_compute. reflexivity. Qed.
Lemma torn_entries : forall k, sview torn k = sview two_storage k \/ sview torn k = None.
Proof.
  intros k. rewrite torn_eq. unfold sview. rewrite !(smap_lookup_erase b32_eqb b32_eqb_eq).
  destruct (b32_eqb k kB); auto. destruct (b32_eqb k hA); auto.
Qed.
Definition torn_obs : list (sp_op * result (SError Empty_set) unit) :=
  [(Update kA va, Ok tt); (Update kB vb, Ok tt); (Update kC vc, Err (SChildErr (ChildNotFound hA))); (Delete kB, Ok tt)].
Definition one_tree : SpTree SScratch := Eval vm_compute in fst (sp_apply sha256 Debug SStorageMap (Update kA va) (sp_new smap_new)).
Definition torn_tree : SpTree SScratch :=
  Eval vm_compute in fst (sp_apply sha256 Debug SStorageMap (Update kC vc) (Build_SpTree (sp_root_node two_tree) torn)).
Lemma C88_witness :
  hash_ok sha256 (map op_key (map fst torn_obs)) (possible [] (map fst torn_obs)) /\
  lost_run sha256 Debug SStorageMap sview (sp_new smap_new) torn_obs torn_tree /\
  sp_root sha256 torn_tree = kv_root sha256 [(kB, vb); (kA, va)] /\
  may_lost [] [] (seen torn_obs) [(kB, vb); (kA, va)].
Proof.
  split; [|split; [|split]].
  - apply (within_ok _ _ _ _ fail_ok). vm_compute. reflexivity.
  - unfold torn_obs. apply LR_call with one_tree; [vm_compute; reflexivity|]. apply LR_call with two_tree; [vm_compute; reflexivity|].
    apply LR_lose with torn; [rewrite two_storage_eq; exact torn_entries|].
    apply LR_call with torn_tree; [vm_compute; reflexivity|]. apply LR_call with torn_tree; [vm_compute; reflexivity|]. apply LR_end.
  - apply b32_eqb_eq. vm_compute. reflexivity.
  - cbn [torn_obs seen map fst snd is_ok may_lost]. exists [(kA, va)]. split; [left; reflexivity|].
    exists [(kB, vb); (kA, va)]. split; [left; reflexivity|]. exists [(kB, vb); (kA, va)]. split; [left; reflexivity|].
    exists [(kB, vb); (kA, va)]. split; [|reflexivity]. vm_compute. left. reflexivity.
Qed.
