(** PropertiesBinaryAny.v -- property theorems about binary trees that are used on after a failed push. *)
From Verif Require Import Base Sha256 Storage ModelCommon ModelBinary SpecBinary SpecPosition SpecBinaryAny
  Runs RunsCalls RunsRecover BinaryAny WitnessBinary WitnessBinaryAny.

(** Any calls, on any storage.  A run ends early only at a proof request on a tree that lost its
    subtrees. *)
Theorem C85_history : forall H pr St E (st : StorageT St Z BPrimitive E), H [] = empty_sum ->
  forall cs s0, indices_ok cs -> Z.of_nat (length cs) < leaf_limit pr ->
  exists t' cs1 rs ds' n', bin_history H [] 0 cs1 rs ds' n' /\ bt_leaves_count t' = Z.of_nat n' /\
    ((cs = cs1 /\ bt_calls H pr st cs (bt_new s0) = (t', Val rs)) \/
     (exists i cs2, cs = cs1 ++ CProve i :: cs2 /\ ds' = [] /\ i < Z.of_nat n' /\
        bt_calls H pr st cs (bt_new s0) = (t', Panic))).
Proof. exact @C85_lemma. Qed.
Print Assumptions C85_history.

Example C85_example : exists t' t2,
  bt_calls sha256 Debug FaultyMap carry_on (bt_new (ok 2 ++ [Fault], smap_new)) =
    (t', Val [APush (Ok tt); APush (Err (BStorageError None)); APush (Ok tt); APush (Ok tt);
              ARoot (mth sha256 [[x62]; [x63]])]) /\
  bt_calls sha256 Debug FaultyMap [CPush [x61]; CPush [x62]; CRoot; CProve 0; CRoot] (bt_new (ok 2 ++ [Fault], smap_new)) =
    (t2, Panic).
Proof. exact C85_witness. Qed.

(** C86 is false: the leaves a, b, c are pushed, the push of b fails and is repeated on the same
    object.  The tree counts three leaves and answers the root of b, c; loading three leaves
    from its storage answers a tree with the root of b, c, c. *)
Theorem C86_carry_on_refuted : forall pr, exists t' s' t2,
  bt_calls sha256 pr FaultyMap carry_on (bt_new (ok 2 ++ [Fault], smap_new)) =
    (t', Val [APush (Ok tt); APush (Err (BStorageError None)); APush (Ok tt); APush (Ok tt);
              ARoot (mth sha256 [[x62]; [x63]])]) /\
  bt_leaves_count t' = 2 + 1 /\
  bt_load pr FaultyMap (2 + 1) (bt_storage t') = (s', Val (Ok t2)) /\
  bt_root sha256 pr t2 = Val (mth sha256 [[x62]; [x63]; [x63]]) /\
  mth sha256 [[x62]; [x63]; [x63]] <> mth sha256 [[x62]; [x63]] /\
  mth sha256 [[x62]; [x63]; [x63]] <> mth sha256 [[x61]; [x62]; [x63]].
Proof. exact C86_refuted_lemma. Qed.
Print Assumptions C86_carry_on_refuted.

(** What holds: no calls, failing or not, panicking or not, damage an earlier state.  Every
    number of leaves up to the one at the start can still be loaded. *)
Theorem C86_carry_on_partial : forall H pr St E (st : StorageT St Z BPrimitive E) view,
  Lawful st view -> forall ds t cs t' o m, H [] = empty_sum -> recovers H pr st ds t ->
  Z.of_nat (length ds + length cs) < leaf_limit pr -> bt_calls H pr st cs t = (t', o) -> (m <= length ds)%nat ->
  exists s' r, bt_load pr st (Z.of_nat m) (bt_storage t') = (s', Val r) /\
    ok_or_fault st r (fun t2 => bt_root H pr t2 = Val (mth H (firstn m ds)) /\ behaves_as H pr st (firstn m ds) t2).
Proof. exact @C86_lemma. Qed.
Print Assumptions C86_carry_on_partial.

Example C86_example : exists t t' o s' t2,
  recovers sha256 Debug FaultyMap [[x61]] t /\
  bt_calls sha256 Debug FaultyMap (tl carry_on) t = (t', Val o) /\ length o = 4%nat /\
  bt_load Debug FaultyMap 1 (bt_storage t') = (s', Val (Ok t2)) /\
  bt_root sha256 Debug t2 = Val (mth sha256 [[x61]]).
Proof. exact C86_witness. Qed.
