(** WitnessBinaryAny.v -- concrete cases for the theorems of PropertiesBinaryAny.v. *)
From Verif Require Import Base Sha256 Storage ModelCommon ModelBinary SpecBinary SpecPosition SpecBinaryAny
  Runs RunsCalls RunsRecover WitnessBinary.

(** One leaf, a push that loses the subtrees, two more pushes and a root request. *)
Definition carry_on : list bt_call := [CPush [x61]; CPush [x62]; CPush [x62]; CPush [x63]; CRoot].

(** Comparing answers by computation. *)
Definition answers_eqb (o : out (list (bt_answer (option Empty_set)))) (root : bytes32) : bool :=
  match o with
  | Val [APush (Ok tt); APush (Err (BStorageError None)); APush (Ok tt); APush (Ok tt); ARoot r] => b32_eqb r root
  | _ => false
  end.
Lemma answers_eq : forall o root, answers_eqb o root = true ->
  o = Val [APush (Ok tt); APush (Err (BStorageError None)); APush (Ok tt); APush (Ok tt); ARoot root].
Proof.
  intros o root Ho. unfold answers_eqb in Ho.
  repeat match type of Ho with context [match ?x with _ => _ end] => destruct x; try discriminate Ho end.
  apply b32_eqb_eq in Ho. subst. reflexivity.
Qed.

Definition start : BTree (faulty_state (S := Scratch)) := bt_new (ok 2 ++ [Fault], smap_new).
Definition after (pr : profile) : BTree (faulty_state (S := Scratch)) := fst (bt_calls sha256 pr FaultyMap carry_on start).

Lemma carry_on_run : forall pr, bt_calls sha256 pr FaultyMap carry_on start =
  (after pr, Val [APush (Ok tt); APush (Err (BStorageError None)); APush (Ok tt); APush (Ok tt);
              ARoot (mth sha256 [[x62]; [x63]])]).
Proof.
  intros pr. rewrite (surjective_pairing (bt_calls sha256 pr FaultyMap carry_on start)). unfold after. apply f_equal2; [reflexivity|].
  apply answers_eq. destruct pr as [[] [] []]; vm_compute; reflexivity.
Qed.

Lemma C85_witness : exists t' t2,
  bt_calls sha256 Debug FaultyMap carry_on (bt_new (ok 2 ++ [Fault], smap_new)) =
    (t', Val [APush (Ok tt); APush (Err (BStorageError None)); APush (Ok tt); APush (Ok tt);
              ARoot (mth sha256 [[x62]; [x63]])]) /\
  bt_calls sha256 Debug FaultyMap [CPush [x61]; CPush [x62]; CRoot; CProve 0; CRoot] (bt_new (ok 2 ++ [Fault], smap_new)) =
    (t2, Panic).
Proof. eexists _, _. split; [exact (carry_on_run Debug)|]. vm_compute; reflexivity. Qed.

Lemma C86_refuted_lemma : forall pr, exists t' s' t2,
  bt_calls sha256 pr FaultyMap carry_on (bt_new (ok 2 ++ [Fault], smap_new)) =
    (t', Val [APush (Ok tt); APush (Err (BStorageError None)); APush (Ok tt); APush (Ok tt);
              ARoot (mth sha256 [[x62]; [x63]])]) /\
  bt_leaves_count t' = 2 + 1 /\
  bt_load pr FaultyMap (2 + 1) (bt_storage t') = (s', Val (Ok t2)) /\
  bt_root sha256 pr t2 = Val (mth sha256 [[x62]; [x63]; [x63]]) /\
  mth sha256 [[x62]; [x63]; [x63]] <> mth sha256 [[x62]; [x63]] /\
  mth sha256 [[x62]; [x63]; [x63]] <> mth sha256 [[x61]; [x62]; [x63]].
Proof.
  intros pr. exists (after pr).
  assert (A : exists s' t2, bt_load pr FaultyMap (2 + 1) (bt_storage (after pr)) = (s', Val (Ok t2)) /\
    match bt_root sha256 pr t2 with Val r => b32_eqb r (mth sha256 [[x62]; [x63]; [x63]]) | _ => false end = true).
  { destruct pr as [[] [] []]; eexists _, _; (split; [vm_compute; reflexivity|]); vm_compute; reflexivity. }
  destruct A as (s' & t2 & A1 & A2). apply by_eqb in A2. exists s', t2.
  split; [exact (carry_on_run pr)|]. split; [destruct pr as [[] [] []]; vm_compute; reflexivity|]. split; [exact A1|]. split; [exact A2|].
  split; intros C; apply b32_eqb_eq in C; revert C; apply not_true_iff_false; vm_compute; reflexivity.
Qed.

(** The same calls after the first push, on a tree of one leaf: loading one leaf still works. *)
Lemma C86_witness : exists t t' o s' t2,
  recovers sha256 Debug FaultyMap [[x61]] t /\
  bt_calls sha256 Debug FaultyMap (tl carry_on) t = (t', Val o) /\ length o = 4%nat /\
  bt_load Debug FaultyMap 1 (bt_storage t') = (s', Val (Ok t2)) /\
  bt_root sha256 Debug t2 = Val (mth sha256 [[x61]]).
Proof.
  assert (R : recovers sha256 Debug FaultyMap ([] ++ [[x61]]) (fst (bt_push sha256 Debug FaultyMap [x61] start))).
  { eapply rec_push with (t := start); [apply rec_new|reflexivity|vm_compute; reflexivity]. }
  exists (fst (bt_push sha256 Debug FaultyMap [x61] start)).
  assert (A : exists t' o s' t2, bt_calls sha256 Debug FaultyMap (tl carry_on) (fst (bt_push sha256 Debug FaultyMap [x61] start)) = (t', Val o) /\
    length o = 4%nat /\
    bt_load Debug FaultyMap 1 (bt_storage t') = (s', Val (Ok t2)) /\
    match bt_root sha256 Debug t2 with Val r => b32_eqb r (mth sha256 [[x61]]) | _ => false end = true).
  { eexists _, _, _, _. split; [vm_compute; reflexivity|]. split; [reflexivity|]. split; [vm_compute; reflexivity|]. vm_compute; reflexivity. }
  destruct A as (t' & o & s' & t2 & A1 & A2 & A3 & A4). apply by_eqb in A4. exists t', o, s', t2. auto.
Qed.
