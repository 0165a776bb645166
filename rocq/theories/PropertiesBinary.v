(** PropertiesBinary.v -- C01 to C18 and C58: the binary Merkle tree, its proofs and the proof
    verifier.  [H] is any hash function, [pr] the build profile, [st] any storage obeying
    the laws of Storage.v.  [H [] = empty_sum] says that the constant used by the crate for
    the empty tree is the hash of the empty string; it holds for SHA-256 (C57). *)
From Verif Require Import Base Sha256 Storage ModelCommon ModelBinary ModelVerify SpecBinary SpecPosition
  SpecVerify Runs BinaryMain BinaryLimits BinaryExtra BindingProofs RefTree WitnessBinary.

Theorem C01_root_is_mth : forall H pr St E (st : StorageT St Z BPrimitive E) view,
  Lawful st view -> H [] = empty_sum ->
  forall ds s0, Infallible st -> Z.of_nat (length ds) <= 2 ^ 63 ->
  exists t, bt_push_all H pr st ds (bt_new s0) = (t, Val (Ok tt)) /\
            bt_root H pr t = Val (mth H ds).
Proof. exact @C01_lemma. Qed.
Print Assumptions C01_root_is_mth.

Example C01_example :
  Lawful BStorageMap (smap_lookup Z.eqb) /\ Infallible BStorageMap /\ sha256 [] = empty_sum /\
  Z.of_nat (length leaves7) < leaf_limit Debug /\
  bt_push_all sha256 Debug BStorageMap leaves7 (bt_new smap_new) = (tree leaves7, Val (Ok tt)).
Proof. exact leaves7_ok. Qed.
Example C01_example_root : bt_root sha256 Debug (tree leaves7) = Val (mth sha256 leaves7).
Proof. exact C01_witness. Qed.

Theorem C02_prove_is_audit_path : forall H pr St E (st : StorageT St Z BPrimitive E) view,
  Lawful st view ->
  forall ds s0, Infallible st -> Z.of_nat (length ds) < leaf_limit pr ->
  exists t, bt_push_all H pr st ds (bt_new s0) = (t, Val (Ok tt)) /\
  forall i d, nth_error ds i = Some d ->
  bt_root H pr t = Val (mth H ds) /\
  exists t', bt_prove H pr st (Z.of_nat i) t =
               (t', Val (Ok (mth H ds, hash_leaf H d :: audit_path H i ds))).
Proof. exact @C02_lemma. Qed.
Print Assumptions C02_prove_is_audit_path.

Example C02_example : nth_error leaves7 4 = Some [x00; x01] /\
  map b32 proof4 = map b32 (hash_leaf sha256 [x00; x01] :: audit_path sha256 4 leaves7) /\ length proof4 = 4%nat.
Proof. exact C02_witness. Qed.

(** [pv] is the build profile of the verifier. *)
Theorem C03_proofs_verify : forall H pr pv St E (st : StorageT St Z BPrimitive E) view,
  Lawful st view ->
  forall ds s0, Infallible st -> Z.of_nat (length ds) < leaf_limit pr ->
  exists t, bt_push_all H pr st ds (bt_new s0) = (t, Val (Ok tt)) /\
  forall i, 0 <= i < Z.of_nat (length ds) ->
  exists t' root proof, bt_prove H pr st i t = (t', Val (Ok (root, proof))) /\
    bt_root H pr t = Val root /\
    verify H pv root proof i (Z.of_nat (length ds)) = Val true.
Proof. exact @C03_lemma. Qed.
Print Assumptions C03_proofs_verify.

Example C03_example : verify sha256 Debug (mth sha256 leaves7) proof4 4 7 = Val true.
Proof. exact C03_witness. Qed.

(** [mth_inputs H ds] are the byte strings hashed for the root, [climb_inputs] those hashed by
    the verifier from the leaf hash up. *)
Theorem C04_verify_sound : forall H pr pv St E (st : StorageT St Z BPrimitive E) view,
  Lawful st view -> H [] = empty_sum ->
  forall ds s0 t root proof i d, Infallible st -> Z.of_nat (length ds) < 2 ^ 63 ->
  bt_push_all H pr st ds (bt_new s0) = (t, Val (Ok tt)) -> bt_root H pr t = Val root ->
  0 <= i ->
  verify H pv root (hash_leaf H d :: proof) i (Z.of_nat (length ds)) = Val true ->
  nth_error ds (Z.to_nat i) = Some d \/
  has_collision H (mth_inputs H ds ++ (x00 :: d) ::
    climb_inputs H (hash_leaf H d) (directions (Z.to_nat i) (length ds) (length proof)) proof).
Proof. exact @C04_lemma. Qed.
Print Assumptions C04_verify_sound.

(** The right data is accepted; wrong data or a wrong index is not. *)
Example C04_example :
  verify sha256 Debug (mth sha256 leaves7) (hash_leaf sha256 [x00; x01] :: tl proof4) 4 7 = Val true /\
  verify sha256 Debug (mth sha256 leaves7) (hash_leaf sha256 [x00; x02] :: tl proof4) 4 7 = Val false /\
  verify sha256 Debug (mth sha256 leaves7) (hash_leaf sha256 [x00; x01] :: tl proof4) 5 7 = Val false.
Proof. exact C04_witness. Qed.
(** That the first entry is a leaf hash must be checked by the caller: the verifier accepts the
    root itself as the leaf entry of the last of three leaves. *)
Example C04_needs_leaf_hash : forall H pr, (forall ds, length ds = 3%nat ->
  verify H pr (mth H ds) [mth H ds] 2 3 = Val true).
Proof. exact C04_need. Qed.

(** C05 holds for every index but 2^64-1. *)
Theorem C05_prove_out_of_range_partial : forall H pr St E (st : StorageT St Z BPrimitive E),
  forall (t : BTree St) i, 0 <= bt_leaves_count t <= i -> i < 2 ^ 64 - 1 ->
  bt_prove H pr st i t = (t, Val (Err (BInvalidProofIndex i))).
Proof. exact @C05_partial_lemma. Qed.
Print Assumptions C05_prove_out_of_range_partial.

Example C05_example : bt_prove sha256 Debug BStorageMap 7 (tree leaves7) =
  (tree leaves7, Val (Err (BInvalidProofIndex 7))).
Proof. exact C05_witness. Qed.

(** At 2^64-1 builds with overflow checks panic on every tree, the others answer another error. *)
Theorem C05_prove_out_of_range_refuted :
  (forall pr (t : BTree Scratch), overflow_checks pr = true -> bt_prove sha256 pr BStorageMap (2 ^ 64 - 1) t = (t, Panic)) /\
  (forall pr, overflow_checks pr = false -> exists t, bt_push_all sha256 pr BStorageMap leaves7 (bt_new smap_new) = (t, Val (Ok tt)) /\
   exists t', bt_prove sha256 pr BStorageMap (2 ^ 64 - 1) t = (t', Val (Err (BLoadError (2 ^ 64 - 1))))).
Proof. exact C05_refuted_lemma. Qed.
Print Assumptions C05_prove_out_of_range_refuted.

(** [behaves_as ds t]: root, proofs and out-of-range answers of [t] are those of the leaves
    [ds], now and after any further pushes (Runs.v). *)
Theorem C06_load_reproduces : forall H pr St E (st : StorageT St Z BPrimitive E) view,
  Lawful st view -> H [] = empty_sum ->
  forall ds s0 t, Infallible st -> Z.of_nat (length ds) < leaf_limit pr ->
  bt_push_all H pr st ds (bt_new s0) = (t, Val (Ok tt)) ->
  exists s' t2, bt_load pr st (Z.of_nat (length ds)) (bt_storage t) = (s', Val (Ok t2)) /\
    bt_head t2 = bt_head t /\ bt_leaves_count t2 = bt_leaves_count t /\ bt_storage t2 = s' /\
    (forall k, view s' k = view (bt_storage t) k) /\
    behaves_as H pr st ds t /\ behaves_as H pr st ds t2.
Proof. exact @C06_lemma. Qed.
Print Assumptions C06_load_reproduces.

Theorem C07_load_history : forall H pr St E (st : StorageT St Z BPrimitive E) view,
  Lawful st view -> H [] = empty_sum ->
  forall ds s0 t m, Infallible st -> Z.of_nat (length ds) <= 2 ^ 63 ->
  bt_push_all H pr st ds (bt_new s0) = (t, Val (Ok tt)) ->
  (m <= length ds)%nat -> Z.of_nat m < leaf_limit pr ->
  exists s' t2, bt_load pr st (Z.of_nat m) (bt_storage t) = (s', Val (Ok t2)) /\
    (forall k, view s' k = view (bt_storage t) k) /\
    behaves_as H pr st (firstn m ds) t2.
Proof. exact @C07_lemma. Qed.
Print Assumptions C07_load_history.

(** Loading 5 of 7 leaves (for C06 and C07). *)
Example C07_example :
  match snd (bt_load Debug BStorageMap 5 (bt_storage (tree leaves7))) with
  | Val (Ok t) => bt_root sha256 Debug t
  | _ => Panic
  end = Val (mth sha256 (firstn 5 leaves7)).
Proof. exact C07_witness. Qed.

Theorem C08_load_exact : forall pr St E (st : StorageT St Z BPrimitive E) view,
  Lawful st view ->
  forall n s, Infallible st -> Z.of_nat n < leaf_limit pr ->
  exists s', (forall k, view s' k = view s k) /\
  ((exists t, bt_load pr st (Z.of_nat n) s = (s', Val (Ok t)) /\
     bt_leaves_count t = Z.of_nat n /\
     forall h b, is_peak n h b -> view s (index_of h b) <> None) \/
   (exists h b, bt_load pr st (Z.of_nat n) s = (s', Val (Err (BLoadError (index_of h b)))) /\
     is_peak n h b /\ view s (index_of h b) = None /\
     forall h' b', is_peak n h' b' -> (h < h')%nat -> view s (index_of h' b') <> None)).
Proof. exact @C08_lemma. Qed.
Print Assumptions C08_load_exact.

Example C08_example : is_peak 7 1 2 /\
  snd (bt_load Debug BStorageMap 7 (fst (smap_remove Z.eqb 9 (bt_storage (tree leaves7))))) =
    Val (Err (BLoadError 9)).
Proof. exact C08_witness. Qed.

Theorem C09_root_binding : forall H pr St E (st : StorageT St Z BPrimitive E) view,
  Lawful st view -> H [] = empty_sum ->
  forall ds ds' s0 s0' t t' root, Infallible st ->
  Z.of_nat (length ds) <= 2 ^ 63 -> Z.of_nat (length ds') <= 2 ^ 63 ->
  bt_push_all H pr st ds (bt_new s0) = (t, Val (Ok tt)) -> bt_root H pr t = Val root ->
  bt_push_all H pr st ds' (bt_new s0') = (t', Val (Ok tt)) -> bt_root H pr t' = Val root ->
  ds = ds' \/ has_collision H (mth_inputs H ds ++ mth_inputs H ds').
Proof. exact @C09_lemma. Qed.
Print Assumptions C09_root_binding.

(** The same for the specification, without limits. *)
Theorem C09_mth_binding : forall H ds ds', mth H ds = mth H ds' ->
  ds = ds' \/ has_collision H (mth_inputs H ds ++ mth_inputs H ds').
Proof. exact mth_binding. Qed.
Print Assumptions C09_mth_binding.

Theorem C10_failed_push_reloadable : forall H pr St E (st : StorageT St Z BPrimitive E) view,
  Lawful st view -> H [] = empty_sum ->
  forall ds s0 t d t' e, Z.of_nat (length ds) < leaf_limit pr ->
  bt_push_all H pr st ds (bt_new s0) = (t, Val (Ok tt)) ->
  bt_push H pr st d t = (t', Val (Err e)) ->
  exists s' r, bt_load pr st (Z.of_nat (length ds)) (bt_storage t') = (s', Val r) /\
    ok_or_fault st r (fun t2 => behaves_as H pr st ds t2).
Proof. exact @C10_lemma. Qed.
Print Assumptions C10_failed_push_reloadable.

(** A fault in the middle of a push; the failing write was applied. *)
Example C10_example : Lawful FaultyMap faulty_view.
Proof. exact FaultyMap_lawful. Qed.
Example C10_example_run :
  snd (bt_push_all sha256 Debug FaultyMap (firstn 3 leaves7) (bt_new (ok 5 ++ [FaultLost], smap_new))) = Val (Ok tt) /\
  snd (bt_push sha256 Debug FaultyMap [x61] (ftree (ok 5 ++ [FaultLost]) (firstn 3 leaves7))) =
    Val (Err (BStorageError None)).
Proof. exact C10_witness. Qed.

(** C11 is false: after a failed push the tree can have lost all its leaves. *)
Theorem C11_failed_push_keeps_tree_refuted : forall pr, exists t t',
  bt_push_all sha256 pr FaultyMap [[x61]] (bt_new (ok 2 ++ [Fault], smap_new)) = (t, Val (Ok tt)) /\
  bt_push sha256 pr FaultyMap [x62] t = (t', Val (Err (BStorageError None))) /\
  bt_root sha256 pr t = Val (mth sha256 [[x61]]) /\
  bt_root sha256 pr t' = Val (mth sha256 []) /\
  bt_root sha256 pr t' <> bt_root sha256 pr t.
Proof. exact C11_refuted_lemma. Qed.
Print Assumptions C11_failed_push_keeps_tree_refuted.

(** It holds when the number of leaves is even (the push makes no join). *)
Theorem C11_failed_push_keeps_tree_partial : forall H St E (st : StorageT St Z BPrimitive E) view,
  Lawful st view ->
  forall pr ds s0 t d t' e, Nat.even (length ds) = true ->
  Z.of_nat (length ds) < 2 ^ 63 ->
  bt_push_all H pr st ds (bt_new s0) = (t, Val (Ok tt)) ->
  bt_push H pr st d t = (t', Val (Err e)) ->
  bt_root H pr t' = bt_root H pr t /\ bt_leaves_count t' = bt_leaves_count t.
Proof. exact @C11_partial_lemma. Qed.
Print Assumptions C11_failed_push_keeps_tree_partial.

Example C11_example :
  snd (bt_push_all sha256 Debug FaultyMap (firstn 2 leaves7) (bt_new (ok 3 ++ [Fault], smap_new))) = Val (Ok tt) /\
  snd (bt_push sha256 Debug FaultyMap [x61] (ftree (ok 3 ++ [Fault]) (firstn 2 leaves7))) =
    Val (Err (BStorageError None)).
Proof. exact C11_witness. Qed.

Theorem C12_storage_exact : forall H pr St E (st : StorageT St Z BPrimitive E) view,
  Lawful st view ->
  forall ds s0 t, (forall k, view s0 k = None) -> Z.of_nat (length ds) <= 2 ^ 63 ->
  bt_push_all H pr st ds (bt_new s0) = (t, Val (Ok tt)) ->
  forall k p, view (bt_storage t) k = Some p <->
  exists h b, ((b + 1) * 2 ^ h <= length ds)%nat /\ k = index_of h b /\
              p = (index_of h b, mth H (block h b ds)).
Proof. exact @C12_lemma. Qed.
Print Assumptions C12_storage_exact.

Example C12_example :
  map fst (bt_storage (tree leaves7)) = [12; 9; 10; 8; 3; 5; 6; 4; 1; 2; 0] /\
  forall k, smap_lookup Z.eqb (bt_storage (bt_new (@smap_new Z BPrimitive))) k = None.
Proof. exact C12_witness. Qed.

(** Also when the push fails half way. *)
Theorem C13_append_only : forall H pr St E (st : StorageT St Z BPrimitive E) view,
  Lawful st view ->
  forall ds s0 t d t' r, (forall k, view s0 k = None) ->
  Z.of_nat (length ds) < 2 ^ 63 ->
  bt_push_all H pr st ds (bt_new s0) = (t, Val (Ok tt)) ->
  bt_push H pr st d t = (t', Val r) ->
  forall k p, view (bt_storage t) k = Some p -> view (bt_storage t') k = Some p.
Proof. exact @C13_lemma. Qed.
Print Assumptions C13_append_only.

(** [root] takes no storage and returns no tree in the model, as its Rust type says. *)
Theorem C14_prove_read_only : forall H pr St E (st : StorageT St Z BPrimitive E) view,
  Lawful st view ->
  forall i (t t' : BTree St) o, bt_prove H pr st i t = (t', o) ->
  bt_head t' = bt_head t /\ bt_leaves_count t' = bt_leaves_count t /\
  forall k, view (bt_storage t') k = view (bt_storage t) k.
Proof. exact @C14_lemma. Qed.
Print Assumptions C14_prove_read_only.

Theorem C15_in_memory : forall H pr ds, H [] = empty_sum -> Z.of_nat (length ds) < leaf_limit pr ->
  exists t, bim_push_all H pr ds bim_new = (t, Val tt) /\
    bim_root H pr t = (t, Val (mth H ds)) /\
    (forall i d, nth_error ds i = Some d -> exists t',
       bim_prove H pr (Z.of_nat i) t = (t', Val (Some (mth H ds, hash_leaf H d :: audit_path H i ds)))) /\
    (forall i, Z.of_nat (length ds) <= i < 2 ^ 64 - 1 -> bim_prove H pr i t = (t, Val None)).
Proof. exact C15_lemma. Qed.
Print Assumptions C15_in_memory.

Example C15_example : Z.of_nat (length leaves7) < leaf_limit Debug /\
  match snd (bim_prove sha256 Debug 4 (fst (bim_push_all sha256 Debug leaves7 bim_new))) with
  | Val (Some (_, p)) => length p = 4%nat | _ => False end.
Proof. exact C15_witness. Qed.

(** The storage was replaced by [s], whose entries are some of those of the tree's storage. *)
Theorem C16_prove_on_damaged_storage : forall H pr St E (st : StorageT St Z BPrimitive E) view,
  Lawful st view ->
  forall ds s0 t s, Z.of_nat (length ds) < leaf_limit pr ->
  bt_push_all H pr st ds (bt_new s0) = (t, Val (Ok tt)) ->
  (forall k p, view s k = Some p -> view (bt_storage t) k = Some p) ->
  forall i d, nth_error ds i = Some d ->
  exists t' r, bt_prove H pr st (Z.of_nat i) (Build_BTree s (bt_head t) (bt_leaves_count t)) = (t', Val r) /\
    (r = Ok (mth H ds, hash_leaf H d :: audit_path H i ds) \/
     (exists k, r = Err (BLoadError k) /\
        exists h b, ((b + 1) * 2 ^ h <= length ds)%nat /\ view s (index_of h b) = None /\
                    (k = index_of h b \/ h = O /\ k = Z.of_nat b)) \/
     (exists e, r = Err (BStorageError e) /\ ~ Infallible st)).
Proof. exact @C16_lemma. Qed.
Print Assumptions C16_prove_on_damaged_storage.

Example C16_example :
  snd (bt_prove sha256 Debug BStorageMap 3 lossy) = Val (Err (BLoadError 4)) /\
  match snd (bt_prove sha256 Debug BStorageMap 6 lossy) with
  | Val (Ok (_, p)) => length p = 3%nat | _ => False end.
Proof. exact C16_witness. Qed.

Theorem C17_proof_length : forall H pr St E (st : StorageT St Z BPrimitive E) view,
  Lawful st view ->
  forall ds s0 t i t' root proof, Infallible st -> Z.of_nat (length ds) < leaf_limit pr ->
  bt_push_all H pr st ds (bt_new s0) = (t, Val (Ok tt)) -> 0 <= i < 2 ^ 64 - 1 ->
  bt_prove H pr st i t = (t', Val (Ok (root, proof))) ->
  Z.of_nat (length proof) <= 1 + Z.log2_up (Z.of_nat (length ds)).
Proof. exact @C17_lemma. Qed.
Print Assumptions C17_proof_length.

(** C18 is false in builds with overflow checks from 2^62 leaves on. *)
Theorem C18_load_never_panics_refuted :
  exists n, 0 <= n < 2 ^ 64 /\
  forall pr (s : Scratch), overflow_checks pr = true -> bt_load pr BStorageMap n s = (s, Panic).
Proof. exact C18_refuted_lemma. Qed.
Print Assumptions C18_load_never_panics_refuted.

Theorem C18_load_never_panics_partial : forall pr St E (st : StorageT St Z BPrimitive E) view,
  Lawful st view ->
  forall n s, 0 <= n < leaf_limit pr -> exists s' r, bt_load pr st n s = (s', Val r).
Proof. exact C18_partial_lemma. Qed.
Print Assumptions C18_load_never_panics_partial.

(** The bound is sharp in builds with overflow checks: no larger count can be loaded, from any storage. *)
Theorem C18_load_debug_limit : forall St E (st : StorageT St Z BPrimitive E) pr n s,
  overflow_checks pr = true -> 2 ^ 62 <= n < 2 ^ 64 -> bt_load pr st n s = (s, Panic).
Proof. exact @load_debug_panics. Qed.
Print Assumptions C18_load_debug_limit.

(** In builds without overflow checks, beyond the limit, load can return a wrong tree: 2^63 leaves from an
    empty storage. *)
Theorem C08_load_exact_release_limit_refuted : forall pr, overflow_checks pr = false -> exists t,
  bt_load pr BStorageMap (2 ^ 63) (@smap_new Z BPrimitive) = (smap_new, Val (Ok t)) /\
  bt_leaves_count t = 2 ^ 63 /\ bt_head t = [].
Proof. exact load_release_wrong. Qed.
Print Assumptions C08_load_exact_release_limit_refuted.

(** The streaming reference tree of the test helpers, given the index in advance, answers as the
    library does.  [pr'] is its build profile. *)
Theorem C58_reference_agrees : forall H pr pr' St E (st : StorageT St Z BPrimitive E) view, Lawful st view ->
  forall ds s0, Infallible st -> Z.of_nat (length ds) < leaf_limit pr ->
  exists t, bt_push_all H pr st ds (bt_new s0) = (t, Val (Ok tt)) /\
  forall i, (i < length ds)%nat -> exists rt t' root proof,
    rt_build H pr' (Z.of_nat i) ds = Val rt /\
    bt_prove H pr st (Z.of_nat i) t = (t', Val (Ok (root, proof))) /\ bt_root H pr t = Val root /\
    rt_prove H pr' rt = Val (root, proof) /\ rt_root H pr' rt = Val root.
Proof. exact C58_lemma. Qed.
Print Assumptions C58_reference_agrees.

(** On its own, for up to 2^64 - 1 leaves and any index: an index out of range gives an empty
    proof. *)
Theorem C58_reference_exact : forall H pr ds i, (ds = [] -> H [] = empty_sum) -> Z.of_nat (length ds) < 2 ^ 64 ->
  exists t, rt_build H pr (Z.of_nat i) ds = Val t /\ rt_root H pr t = Val (mth H ds) /\
  rt_prove H pr t = Val (mth H ds, match nth_error ds i with Some d => hash_leaf H d :: audit_path H i ds | None => [] end).
Proof. exact ref_prove. Qed.
Print Assumptions C58_reference_exact.

Example C58_example : (4 < length leaves7)%nat /\
  match rt_build sha256 Debug 4 leaves7 with
  | Val t => match rt_prove sha256 Debug t with Val (r, p) => forallb (fun x => b32_eqb (fst x) (snd x)) (combine p proof4) && (length p =? length proof4)%nat | _ => false end
  | _ => false end = true.
Proof. exact C58_witness. Qed.
