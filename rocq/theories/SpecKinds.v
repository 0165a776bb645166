(** SpecKinds.v -- comparing trees of different kinds: specification.  Independent of the model. *)
From Verif Require Import Base SpecBits SpecBinary SpecSparse SpecSum.

(** The order of keys as bit strings (and as big-endian numbers): at the first difference the bits are 0 and 1. *)
Definition key_before (k k' : bytes32) : Prop :=
  exists n, firstn n (bits_of k) = firstn n (bits_of k') /\ kbit k n = false /\ kbit k' n = true.

(** An entry as the data of a leaf of a binary tree: the key, then the digest of the data. *)
Definition entry_data (H : list byte -> bytes32) (e : bytes32 * list byte) : list byte := b32 (fst e) ++ b32 (H (snd e)).
(** A leaf of a sum tree likewise: the fee, then the data. *)
Definition fee_data (l : leaf) : list byte := u64_to_be_bytes (fst l) ++ snd l.

(** Some input in the list is hashed to 32 zero bytes. *)
Definition zero_hash (H : list byte -> bytes32) (l : list (list byte)) : Prop := exists x, In x l /\ H x = zero32.

(** The sparse tree of [l], at depth [d] with [n] bits to go, has the shape of the binary tree of its entries: no empty subtree
    beside another one, and in every subtree the keys with the next bit 0 are as many as the leaves of the left subtree of the
    binary tree. *)
Fixpoint binary_shaped {V} (n d : nat) (l : list (bytes32 * V)) : Prop :=
  match l with
  | [] => False
  | [_] => True
  | _ :: _ :: _ =>
      match n with
      | O => False
      | S n' => length (with_bit d false l) = split_point (length l) /\
                binary_shaped n' (S d) (with_bit d false l) /\ binary_shaped n' (S d) (with_bit d true l)
      end
  end.
