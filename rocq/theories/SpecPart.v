(** SpecPart.v -- a part of the storage of a sparse tree.  Independent of the model. *)
From Verif Require Import Base SpecBits SpecSparse.

(** The part [v] of a storage has the path of [k] through the tree of [m]: the root, and both
    children of every node on the path. *)
Definition has_path {A} (H : list byte -> bytes32) (k : bytes32) (m : kvmap) (v : bytes32 -> option A) : Prop :=
  (m <> [] -> v (kv_root H m) <> None) /\ forall h, near_path H k (digests H m) h -> v h <> None.
