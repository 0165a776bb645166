(** WitnessParts.v -- a concrete case of proofs with common parts. *)
From Verif Require Import Base Sha256 Storage ModelCommon ModelBinary SpecBinary Runs StorageProofs BinaryMain WitnessBinary.

Definition three_leaves : list (list byte) := [[x0a]; [x0b]; [x0c]].
Definition pushed_on (ds : list (list byte)) (t : BTree Scratch) : BTree Scratch := fst (bt_push_all sha256 Debug BStorageMap ds t).
Definition proof_in (t : BTree Scratch) (i : Z) : list bytes32 :=
  match snd (bt_prove sha256 Debug BStorageMap i t) with Val (Ok (_, p)) => p | _ => [] end.
Fixpoint b32s_eqb (a b : list bytes32) : bool :=
  match a, b with [], [] => true | x :: a', y :: b' => b32_eqb x y && b32s_eqb a' b' | _, _ => false end.

(** The proofs of the leaves 0 and 1 in the tree of their block, of three leaves and of four. *)
Lemma C108_witness : Infallible BStorageMap /\ Z.of_nat (length (three_leaves ++ [[x0d]])) < leaf_limit Debug /\
  ((0 + 1) * 2 ^ 1 <= length three_leaves)%nat /\
  (let t1 := pushed_on three_leaves (bt_new smap_new) in
   let t2 := pushed_on [[x0d]] t1 in
   let t0 := pushed_on (block 1 0 three_leaves) (bt_new smap_new) in
   forallb (fun i => b32s_eqb (proof_in t1 i) (proof_in t0 i ++ [hash_leaf sha256 [x0c]]) &&
                     b32s_eqb (proof_in t2 i) (proof_in t0 i ++ [hash_node sha256 (hash_leaf sha256 [x0c]) (hash_leaf sha256 [x0d])]) &&
                     (Z.of_nat (length (proof_in t0 i)) =? 2)) [0; 1]) = true.
Proof.
  split; [apply StorageMap_infallible|]. split; [vm_compute; reflexivity|]. split; [cbn; lia|]. vm_compute. reflexivity.
Qed.
