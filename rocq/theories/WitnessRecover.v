(** WitnessRecover.v -- concrete crashes, recoveries and counterexamples. *)
From Verif Require Import Base Sha256 Storage ModelCommon ModelBinary SpecBinary SpecPosition
  StorageProofs Runs RunsRecover BinaryMain WitnessBinary.

(** One leaf; the join of the second push fails after being applied; the first load fails
    as well; the second load answers, and the leaf is pushed again. *)
Lemma C67_witness : exists t t' t2,
  bt_push_all sha256 Debug FaultyMap [[x61]] (bt_new (ok 2 ++ [FaultLost; Fault], smap_new)) = (t, Val (Ok tt)) /\
  bt_push sha256 Debug FaultyMap [x62] t = (t', Val (Err (BStorageError None))) /\
  recovers sha256 Debug FaultyMap [[x61]] t2 /\
  snd (bt_push sha256 Debug FaultyMap [x62] t2) = Val (Ok tt).
Proof.
  eexists _, _. set (s0 := (ok 2 ++ [FaultLost; Fault], @smap_new Z BPrimitive)).
  assert (R : recovers sha256 Debug FaultyMap ([] ++ [[x61]]) (fst (bt_push sha256 Debug FaultyMap [x61] (bt_new s0)))).
  { eapply rec_push with (t := bt_new s0); [apply rec_new|reflexivity|vm_compute; reflexivity]. }
  eexists. split; [vm_compute; reflexivity|]. split; [vm_compute; reflexivity|]. split.
  - eapply rec_crash with (d := [x62]); [exact R|vm_compute; reflexivity|].
    eapply reload_again; [vm_compute; reflexivity|]. eapply reload_now. vm_compute; reflexivity.
  - vm_compute; reflexivity.
Qed.

(** One leaf; the second push fails at its join and is retried on the same object: it
    answers Ok, the tree counts two leaves and its root is that of the second leaf alone. *)
Lemma C68_refuted_lemma : forall pr, exists t t' t2,
  bt_push_all sha256 pr FaultyMap [[x61]] (bt_new (ok 2 ++ [Fault], smap_new)) = (t, Val (Ok tt)) /\
  bt_push sha256 pr FaultyMap [x62] t = (t', Val (Err (BStorageError None))) /\
  bt_push sha256 pr FaultyMap [x62] t' = (t2, Val (Ok tt)) /\
  bt_leaves_count t2 = 1 + 1 /\
  bt_root sha256 pr t2 = Val (mth sha256 [[x62]]) /\
  bt_root sha256 pr t2 <> Val (mth sha256 [[x61]; [x62]]) /\
  snd (bt_prove sha256 pr FaultyMap 0 t') = Panic.
Proof.
  intros pr.
  assert (A : exists t t' t2,
    bt_push_all sha256 pr FaultyMap [[x61]] (bt_new (ok 2 ++ [Fault], smap_new)) = (t, Val (Ok tt)) /\
    bt_push sha256 pr FaultyMap [x62] t = (t', Val (Err (BStorageError None))) /\
    bt_push sha256 pr FaultyMap [x62] t' = (t2, Val (Ok tt)) /\
    bt_leaves_count t2 = 1 + 1 /\
    match bt_root sha256 pr t2 with Val r => b32_eqb r (mth sha256 [[x62]]) | _ => false end = true /\
    snd (bt_prove sha256 pr FaultyMap 0 t') = Panic).
  { destruct pr as [[] [] []]; eexists _, _, _; (split; [vm_compute; reflexivity|]);
      (split; [vm_compute; reflexivity|]); (split; [vm_compute; reflexivity|]);
      (split; [vm_compute; reflexivity|]); split; vm_compute; reflexivity. }
  destruct A as (t & t' & t2 & A1 & A2 & A3 & A4 & A5 & A6). apply by_eqb in A5.
  exists t, t', t2. split; [exact A1|]. split; [exact A2|]. split; [exact A3|]. split; [exact A4|].
  split; [exact A5|]. split; [|exact A6]. rewrite A5. intros C. apply Val_inj in C.
  apply b32_eqb_eq in C. revert C. apply not_true_iff_false. vm_compute; reflexivity.
Qed.

(** A push of one leaf that fails with its last write applied, recovery, and a push of
    another leaf that fails before its last write: loading two leaves then succeeds, with
    the root of the first attempt and the leaf of the second. *)
Lemma C69_refuted_lemma : forall pr, exists t t1 s1 t2 t3 s3 t4,
  bt_push_all sha256 pr FaultyMap [[x61]] (bt_new (ok 2 ++ [FaultLost] ++ ok 2 ++ [Fault], smap_new)) = (t, Val (Ok tt)) /\
  bt_push sha256 pr FaultyMap [x62] t = (t1, Val (Err (BStorageError None))) /\
  bt_load pr FaultyMap 1 (bt_storage t1) = (s1, Val (Ok t2)) /\
  bt_push sha256 pr FaultyMap [x63] t2 = (t3, Val (Err (BStorageError None))) /\
  bt_load pr FaultyMap 2 (bt_storage t3) = (s3, Val (Ok t4)) /\
  bt_root sha256 pr t4 = Val (mth sha256 [[x61]; [x62]]) /\
  bt_root sha256 pr t4 <> Val (mth sha256 [[x61]; [x63]]) /\
  exists t5 p, bt_prove sha256 pr FaultyMap 1 t4 = (t5, Val (Ok (mth sha256 [[x61]; [x62]], p))) /\
    nth_error p 0 = Some (hash_leaf sha256 [x63]).
Proof.
  intros pr.
  assert (A : exists t t1 s1 t2 t3 s3 t4 t5 r p,
    bt_push_all sha256 pr FaultyMap [[x61]] (bt_new (ok 2 ++ [FaultLost] ++ ok 2 ++ [Fault], smap_new)) = (t, Val (Ok tt)) /\
    bt_push sha256 pr FaultyMap [x62] t = (t1, Val (Err (BStorageError None))) /\
    bt_load pr FaultyMap 1 (bt_storage t1) = (s1, Val (Ok t2)) /\
    bt_push sha256 pr FaultyMap [x63] t2 = (t3, Val (Err (BStorageError None))) /\
    bt_load pr FaultyMap 2 (bt_storage t3) = (s3, Val (Ok t4)) /\
    bt_prove sha256 pr FaultyMap 1 t4 = (t5, Val (Ok (r, p))) /\
    match bt_root sha256 pr t4 with Val r => b32_eqb r (mth sha256 [[x61]; [x62]]) | _ => false end = true /\
    b32_eqb r (mth sha256 [[x61]; [x62]]) = true /\
    match nth_error p 0 with Some h => b32_eqb h (hash_leaf sha256 [x63]) | _ => false end = true).
  { destruct pr as [[] [] []]; eexists _, _, _, _, _, _, _, _, _, _; (split; [vm_compute; reflexivity|]);
      (split; [vm_compute; reflexivity|]); (split; [vm_compute; reflexivity|]);
      (split; [vm_compute; reflexivity|]); (split; [vm_compute; reflexivity|]);
      (split; [vm_compute; reflexivity|]); (split; [vm_compute; reflexivity|]); split; vm_compute; reflexivity. }
  destruct A as (t & t1 & s1 & t2 & t3 & s3 & t4 & t5 & r & p & A1 & A2 & A3 & A4 & A5 & A6 & A7 & A8 & A9).
  apply by_eqb in A7. apply b32_eqb_eq in A8. rewrite A8 in A6.
  exists t, t1, s1, t2, t3, s3, t4. split; [exact A1|]. split; [exact A2|]. split; [exact A3|]. split; [exact A4|].
  split; [exact A5|]. split; [exact A7|]. split.
  - rewrite A7. intros C. apply Val_inj in C.
    apply b32_eqb_eq in C. revert C. apply not_true_iff_false. vm_compute; reflexivity.
  - exists t5, p. split; [exact A6|].
    assert (G : forall o h, match o with Some h' => b32_eqb h' h | None => false end = true -> o = Some h).
    { intros [h'|] h E0; [|discriminate E0]. f_equal. apply b32_eqb_eq. exact E0. }
    apply G. exact A9.
Qed.

(** Three leaves from an empty storage; the last of the three writes of the fourth push
    fails, applied or not. *)
Lemma C69_witness : forall f, f = Fault \/ f = FaultLost ->
  snd (bt_push_all sha256 Debug FaultyMap (firstn 3 leaves7) (bt_new (ok 6 ++ [f], smap_new))) = Val (Ok tt) /\
  snd (bt_push sha256 Debug FaultyMap [x61] (ftree (ok 6 ++ [f]) (firstn 3 leaves7))) = Val (Err (BStorageError None)) /\
  match snd (bt_load Debug FaultyMap 4 (bt_storage (fst (bt_push sha256 Debug FaultyMap [x61] (ftree (ok 6 ++ [f]) (firstn 3 leaves7)))))) with
  | Val (Ok _) => f = FaultLost | Val (Err (BLoadError k)) => f = Fault /\ k = 3 | _ => False end.
Proof.
  intros f [->| ->]; (split; [vm_compute; reflexivity|]); split; vm_compute; try reflexivity; split; reflexivity.
Qed.
