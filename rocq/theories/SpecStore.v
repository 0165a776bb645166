(** SpecStore.v -- what the entries of a sparse tree's storage may be.  Independent of the
    model: entries are (height, prefix byte, two 32-byte fields). *)
From Verif Require Import Base SpecBits SpecBinary SpecSparse.

Section Spec.
Variable H : list byte -> bytes32.

(** Under [key] there is a leaf of an attempted update, stored under its key or its hash, or
    an internal node stored under its hash. *)
Definition authentic (os : list sp_op) (key : bytes32) (entry : Z * byte * bytes32 * bytes32) : Prop :=
  match entry with
  | (height, b, lo, hi) =>
      (b = x00 /\ height = 0 /\ (exists v, In (Update lo v) os /\ v <> [] /\ hi = H v) /\
       (key = lo \/ key = entry_hash H x00 lo hi)) \/
      (b = x01 /\ key = entry_hash H x01 lo hi)
  end.

(** The entry of the subtree of [l] on the path of [k] at depth [d]. *)
Definition tree_entry (d : nat) (k : bytes32) (l : list (bytes32 * bytes32)) (entry : Z * byte * bytes32 * bytes32) : Prop :=
  match agree d k l with
  | [] => False
  | [(k', h)] => entry = (0, x00, k', h)
  | _ :: _ :: _ =>
      (d < 256)%nat /\
      entry = (256 - Z.of_nat d, x01, smt H (256 - S d) (S d) (with_bit d false (agree d k l)),
                                      smt H (256 - S d) (S d) (with_bit d true (agree d k l)))
  end.
End Spec.
