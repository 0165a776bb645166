(** PropertiesUntrusted.v -- property theorems about binary trees loaded from a storage of unknown content. *)
From Verif Require Import Base Sha256 Storage ModelCommon ModelBinary SpecBinary SpecPosition SpecBinaryAny
  SpecUntrusted Runs RunsCalls UntrustedProofs WitnessBinary WitnessUntrusted.

(** C92 is false: the positions inside the entries are not bound by the root.  An entry for the
    leaf a that claims position 1 gives the right root of one leaf, and a wrong root after two
    pushes. *)
Theorem C92_untrusted_load_refuted : forall pr, exists s' t t' root,
  bt_load pr BStorageMap 1 misplaced = (s', Val (Ok t)) /\ bt_root sha256 pr t = Val (mth sha256 [[x61]]) /\
  bt_calls sha256 pr BStorageMap [CPush [x62]; CPush [x63]; CRoot] t = (t', Val [APush (Ok tt); APush (Ok tt); ARoot root]) /\
  root <> mth sha256 [[x61]; [x62]; [x63]].
Proof. exact C92_refuted_lemma. Qed.
Print Assumptions C92_untrusted_load_refuted.

(** What holds: if every entry names its own key as its position, the root fixes all that later
    pushes use.  Further calls are answered as by the tree of the leaves (C85). *)
Theorem C92_untrusted_load_partial : forall H St E pr (st : StorageT St Z BPrimitive E) view,
  Lawful st view -> H [] = empty_sum -> forall ds s s' t cs, in_place view s ->
  bt_load pr st (Z.of_nat (length ds)) s = (s', Val (Ok t)) -> bt_root H pr t = Val (mth H ds) ->
  indices_ok cs -> Z.of_nat (length ds + length cs) < leaf_limit pr ->
  has_collision H (mth_inputs H ds ++ joins H (stored_hashes view (length ds) s)) \/
  exists t' cs1 rs ds' n', bin_history H ds (length ds) cs1 rs ds' n' /\ bt_leaves_count t' = Z.of_nat n' /\
    ((cs = cs1 /\ bt_calls H pr st cs t = (t', Val rs)) \/
     (exists i cs2, cs = cs1 ++ CProve i :: cs2 /\ ds' = [] /\ i < Z.of_nat n' /\
        bt_calls H pr st cs t = (t', Panic))).
Proof. exact @C92_lemma. Qed.
Print Assumptions C92_untrusted_load_partial.

Example C92_example :
  Lawful BStorageMap (smap_lookup Z.eqb) /\ in_place (smap_lookup Z.eqb) partly /\
  ~ has_collision sha256 (mth_inputs sha256 abc ++ joins sha256 (stored_hashes (smap_lookup Z.eqb) (length abc) partly)) /\
  length (joins sha256 (stored_hashes (smap_lookup Z.eqb) (length abc) partly)) = 1%nat /\
  exists s' t t', bt_load Debug BStorageMap (Z.of_nat (length abc)) partly = (s', Val (Ok t)) /\
    bt_root sha256 Debug t = Val (mth sha256 abc) /\
    bt_calls sha256 Debug BStorageMap [CPush [x64]; CRoot; CProve 1] t =
      (t', Val [APush (Ok tt); ARoot (mth sha256 (abc ++ [[x64]]));
                AProve (Err (BLoadError 0))]).
Proof. exact C92_witness. Qed.
