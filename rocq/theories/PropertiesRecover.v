(** PropertiesRecover.v -- property theorems about crashes of a push and recovery. *)
From Verif Require Import Base Sha256 Storage ModelCommon ModelBinary SpecBinary SpecPosition Runs
  RunsRecover RecoverProofs WitnessBinary WitnessRecover.

(** Any history of pushes, proofs, crashed pushes followed by reloads, and reloads of
    earlier states, on a storage that may fail at any call. *)
Theorem C67_crash_recovery : forall H pr St E (st : StorageT St Z BPrimitive E) view,
  Lawful st view -> H [] = empty_sum ->
  forall ds t, recovers H pr st ds t ->
  bt_leaves_count t = Z.of_nat (length ds) /\ bt_root H pr t = Val (mth H ds) /\
  behaves_as H pr st ds t /\
  forall d t' e, bt_push H pr st d t = (t', Val (Err e)) ->
    ~ Infallible st /\
    exists s' r, bt_load pr st (Z.of_nat (length ds)) (bt_storage t') = (s', Val r) /\
      ok_or_fault st r (fun t2 => recovers H pr st ds t2).
Proof. exact @C67_lemma. Qed.
Print Assumptions C67_crash_recovery.

Example C67_example : exists t t' t2,
  bt_push_all sha256 Debug FaultyMap [[x61]] (bt_new (ok 2 ++ [FaultLost; Fault], smap_new)) = (t, Val (Ok tt)) /\
  bt_push sha256 Debug FaultyMap [x62] t = (t', Val (Err (BStorageError None))) /\
  recovers sha256 Debug FaultyMap [[x61]] t2 /\
  snd (bt_push sha256 Debug FaultyMap [x62] t2) = Val (Ok tt).
Proof. exact C67_witness. Qed.

(** C68 is false: retrying a failed push on the same tree object can succeed with a root
    that covers the new leaf only; proofs on the object after the failure panic. *)
Theorem C68_retry_refuted : forall pr, exists t t' t2,
  bt_push_all sha256 pr FaultyMap [[x61]] (bt_new (ok 2 ++ [Fault], smap_new)) = (t, Val (Ok tt)) /\
  bt_push sha256 pr FaultyMap [x62] t = (t', Val (Err (BStorageError None))) /\
  bt_push sha256 pr FaultyMap [x62] t' = (t2, Val (Ok tt)) /\
  bt_leaves_count t2 = 1 + 1 /\
  bt_root sha256 pr t2 = Val (mth sha256 [[x62]]) /\
  bt_root sha256 pr t2 <> Val (mth sha256 [[x61]; [x62]]) /\
  snd (bt_prove sha256 pr FaultyMap 0 t') = Panic.
Proof. exact C68_refuted_lemma. Qed.
Print Assumptions C68_retry_refuted.

(** What a failed push does to the tree object: nothing (it can be retried), or all
    subtrees are lost; the latter only if the number of leaves is odd. *)
Theorem C68_retry_partial : forall H pr St E (st : StorageT St Z BPrimitive E) view,
  Lawful st view -> H [] = empty_sum ->
  forall ds t d t' e, recovers H pr st ds t ->
  bt_push H pr st d t = (t', Val (Err e)) ->
  bt_leaves_count t' = Z.of_nat (length ds) /\
  ((bt_root H pr t' = Val (mth H ds) /\ behaves_as H pr st ds t') \/
   (Nat.odd (length ds) = true /\ bt_root H pr t' = Val (mth H []) /\
    forall i, (i < length ds)%nat -> exists t2 o, bt_prove H pr st (Z.of_nat i) t' = (t2, o) /\
      (o = Panic \/ (~ Infallible st /\ exists e, o = Val (Err (BStorageError e)))))).
Proof. exact @C68_partial_lemma. Qed.
Print Assumptions C68_retry_partial.

(** Two leaves, the first write of the third push fails: the tree is unchanged. *)
Example C68_example :
  snd (bt_push_all sha256 Debug FaultyMap (firstn 2 leaves7) (bt_new (ok 3 ++ [Fault], smap_new))) = Val (Ok tt) /\
  snd (bt_push sha256 Debug FaultyMap [x61] (ftree (ok 3 ++ [Fault]) (firstn 2 leaves7))) =
    Val (Err (BStorageError None)).
Proof. exact C11_witness. Qed.

(** C69 is false: after two failed pushes of different leaves, loading with the count
    increased by one can answer a tree that belongs to neither; its own proof of the last
    leaf has the leaf of one attempt and the root of the other. *)
Theorem C69_load_next_refuted : forall pr, exists t t1 s1 t2 t3 s3 t4,
  bt_push_all sha256 pr FaultyMap [[x61]] (bt_new (ok 2 ++ [FaultLost] ++ ok 2 ++ [Fault], smap_new)) = (t, Val (Ok tt)) /\
  bt_push sha256 pr FaultyMap [x62] t = (t1, Val (Err (BStorageError None))) /\
  bt_load pr FaultyMap 1 (bt_storage t1) = (s1, Val (Ok t2)) /\
  bt_push sha256 pr FaultyMap [x63] t2 = (t3, Val (Err (BStorageError None))) /\
  bt_load pr FaultyMap 2 (bt_storage t3) = (s3, Val (Ok t4)) /\
  bt_root sha256 pr t4 = Val (mth sha256 [[x61]; [x62]]) /\
  bt_root sha256 pr t4 <> Val (mth sha256 [[x61]; [x63]]) /\
  exists t5 p, bt_prove sha256 pr FaultyMap 1 t4 = (t5, Val (Ok (mth sha256 [[x61]; [x62]], p))) /\
    nth_error p 0 = Some (hash_leaf sha256 [x63]).
Proof. exact C69_refuted_lemma. Qed.
Print Assumptions C69_load_next_refuted.

(** It holds for the first failure of a tree built in an empty storage: the new tree (all
    writes were applied), or the entry of the last peak is missing and reported. *)
Theorem C69_load_next_partial : forall H pr St E (st : StorageT St Z BPrimitive E) view,
  Lawful st view -> H [] = empty_sum ->
  forall ds s0 t d t' e, (forall k, view s0 k = None) ->
  Z.of_nat (length ds + 1) < leaf_limit pr ->
  bt_push_all H pr st ds (bt_new s0) = (t, Val (Ok tt)) ->
  bt_push H pr st d t = (t', Val (Err e)) ->
  exists s' r, bt_load pr st (Z.of_nat (length ds + 1)) (bt_storage t') = (s', Val r) /\
  ((exists t2, r = Ok t2 /\ bt_root H pr t2 = Val (mth H (ds ++ [d])) /\ behaves_as H pr st (ds ++ [d]) t2) \/
   (exists h b, is_peak (length ds + 1) h b /\ ((b + 1) * 2 ^ h = length ds + 1)%nat /\
      r = Err (BLoadError (index_of h b)) /\ view (bt_storage t') (index_of h b) = None) \/
   (~ Infallible st /\ exists e', r = Err (BStorageError e'))).
Proof. exact @C69_partial_lemma. Qed.
Print Assumptions C69_load_next_partial.

Example C69_example : forall f, f = Fault \/ f = FaultLost ->
  snd (bt_push_all sha256 Debug FaultyMap (firstn 3 leaves7) (bt_new (ok 6 ++ [f], smap_new))) = Val (Ok tt) /\
  snd (bt_push sha256 Debug FaultyMap [x61] (ftree (ok 6 ++ [f]) (firstn 3 leaves7))) = Val (Err (BStorageError None)) /\
  match snd (bt_load Debug FaultyMap 4 (bt_storage (fst (bt_push sha256 Debug FaultyMap [x61] (ftree (ok 6 ++ [f]) (firstn 3 leaves7)))))) with
  | Val (Ok _) => f = FaultLost | Val (Err (BLoadError k)) => f = Fault /\ k = 3 | _ => False end.
Proof. exact C69_witness. Qed.
