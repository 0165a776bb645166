(** PropertiesParts.v -- property theorems about the common parts of proofs. *)
From Verif Require Import Base Sha256 Storage ModelCommon ModelBinary SpecBinary Runs PartsProofs WitnessBinary WitnessParts.

(** [block h b ds] are the [2^h] leaves from number [b * 2^h] on.  The first [h + 1] elements of the
    proof of a leaf are its proof in the tree of its block alone, now and after any further pushes;
    the others are the same for all leaves of the block. *)
Theorem C108_proof_parts : forall H pr St E (st : StorageT St Z BPrimitive E) view, Lawful st view -> Infallible st ->
  forall ds es s0, Z.of_nat (length (ds ++ es)) < leaf_limit pr ->
  exists t1 t2, bt_push_all H pr st ds (bt_new s0) = (t1, Val (Ok tt)) /\ bt_push_all H pr st es t1 = (t2, Val (Ok tt)) /\
  forall h b, ((b + 1) * 2 ^ h <= length ds)%nat ->
  exists t0 q1 q2, bt_push_all H pr st (block h b ds) (bt_new s0) = (t0, Val (Ok tt)) /\
  forall i, (i < 2 ^ h)%nat -> exists p t0' t1' t2', length p = (h + 1)%nat /\
    bt_prove H pr st (Z.of_nat i) t0 = (t0', Val (Ok (mth H (block h b ds), p))) /\
    bt_prove H pr st (Z.of_nat (b * 2 ^ h + i)) t1 = (t1', Val (Ok (mth H ds, p ++ q1))) /\
    bt_prove H pr st (Z.of_nat (b * 2 ^ h + i)) t2 = (t2', Val (Ok (mth H (ds ++ es), p ++ q2))).
Proof. exact @C108_lemma. Qed.
Print Assumptions C108_proof_parts.

Example C108_example : Infallible BStorageMap /\ Z.of_nat (length (three_leaves ++ [[x0d]])) < leaf_limit Debug /\
  ((0 + 1) * 2 ^ 1 <= length three_leaves)%nat /\
  (let t1 := pushed_on three_leaves (bt_new smap_new) in
   let t2 := pushed_on [[x0d]] t1 in
   let t0 := pushed_on (block 1 0 three_leaves) (bt_new smap_new) in
   forallb (fun i => b32s_eqb (proof_in t1 i) (proof_in t0 i ++ [hash_leaf sha256 [x0c]]) &&
                     b32s_eqb (proof_in t2 i) (proof_in t0 i ++ [hash_node sha256 (hash_leaf sha256 [x0c]) (hash_leaf sha256 [x0d])]) &&
                     (Z.of_nat (length (proof_in t0 i)) =? 2)) [0; 1]) = true.
Proof. exact C108_witness. Qed.
