(** SpecBinary.v -- specification of binary Merkle trees, independent of the model:
    the Merkle tree hash and the audit path of RFC 6962, section 2.1, over lists of
    leaf data.  [H] is the hash function. *)
From Verif Require Import Base.

(** The largest power of two smaller than [n], for [n >= 2]. *)
Definition split_point (n : nat) : nat := 2 ^ Nat.log2 (n - 1).

Section Spec.
Variable H : list byte -> bytes32.

Definition hash_leaf (d : list byte) : bytes32 := H (x00 :: d).
Definition hash_node (l r : bytes32) : bytes32 := H (x01 :: b32 l ++ b32 r).

(** MTH({}) = Hash(), MTH({d}) = Hash(0x00 || d),
    MTH(D[n]) = Hash(0x01 || MTH(D[0:k]) || MTH(D[k:n])).
    The recursion is bounded by the length of the list; [mth_fuel] never runs out
    (see [mth_unfold] in SpecBinaryFacts.v, the defining equations). *)
Fixpoint mth_fuel (fuel : nat) (ds : list (list byte)) : bytes32 :=
  match ds with
  | [] => H []
  | [d] => hash_leaf d
  | _ :: _ :: _ =>
      match fuel with
      | O => H []
      | S f =>
          let k := split_point (length ds) in
          hash_node (mth_fuel f (firstn k ds)) (mth_fuel f (skipn k ds))
      end
  end.
Definition mth (ds : list (list byte)) : bytes32 := mth_fuel (length ds) ds.

(** PATH(m, D[n]): the audit path of leaf [m], from the leaf to the root. *)
Fixpoint audit_path_fuel (fuel : nat) (m : nat) (ds : list (list byte)) : list bytes32 :=
  match ds with
  | [] => []
  | [_] => []
  | _ :: _ :: _ =>
      match fuel with
      | O => []
      | S f =>
          let k := split_point (length ds) in
          if Nat.ltb m k
          then audit_path_fuel f m (firstn k ds) ++ [mth (skipn k ds)]
          else audit_path_fuel f (m - k) (skipn k ds) ++ [mth (firstn k ds)]
      end
  end.
Definition audit_path (m : nat) (ds : list (list byte)) : list bytes32 :=
  audit_path_fuel (length ds) m ds.

(** All byte strings hashed when computing [mth ds]. *)
Fixpoint mth_inputs_fuel (fuel : nat) (ds : list (list byte)) : list (list byte) :=
  match ds with
  | [] => [[]]
  | [d] => [x00 :: d]
  | _ :: _ :: _ =>
      match fuel with
      | O => []
      | S f =>
          let k := split_point (length ds) in
          (x01 :: b32 (mth (firstn k ds)) ++ b32 (mth (skipn k ds)))
            :: mth_inputs_fuel f (firstn k ds) ++ mth_inputs_fuel f (skipn k ds)
      end
  end.
Definition mth_inputs (ds : list (list byte)) : list (list byte) :=
  mth_inputs_fuel (length ds) ds.
End Spec.

(** [H] has no collision among the inputs in [l]. *)
Definition collision_free (H : list byte -> bytes32) (l : list (list byte)) : Prop :=
  forall x y, In x l -> In y l -> H x = H y -> x = y.

(** Two different inputs in [l] collide under [H]. *)
Definition has_collision (H : list byte -> bytes32) (l : list (list byte)) : Prop :=
  exists x y, In x l /\ In y l /\ x <> y /\ H x = H y.

(** * Positions as pairs: block [b] of [2^h] leaves.  Its in-order index is
    [(2 b + 1) * 2^h - 1]. *)
Definition index_of (h b : nat) : Z := (2 * Z.of_nat b + 1) * 2 ^ Z.of_nat h - 1.

(** The leaves of block [b] of height [h]. *)
Definition block {A : Type} (h b : nat) (ds : list A) : list A :=
  firstn (2 ^ h) (skipn (b * 2 ^ h) ds).
