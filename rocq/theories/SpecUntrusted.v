(** SpecUntrusted.v -- binary trees loaded from a storage of unknown content: specification. *)
From Verif Require Import Base ModelBinary SpecBinary SpecPosition.

(** Every entry says that it belongs to the key it is stored under. *)
Definition in_place {S : Type} (view : S -> Z -> option BPrimitive) (s : S) : Prop :=
  forall k p, view s k = Some p -> fst p = k.

(** The hashes stored for the maximal complete blocks of a tree of [n] leaves, smallest first.
    (2^n > n: no block is left out.) *)
Definition stored_hashes {S : Type} (view : S -> Z -> option BPrimitive) (n : nat) (s : S) : list bytes32 :=
  rev (flat_map (fun p => match view s (index_of_pair p) with Some x => [snd x] | None => [] end) (peaks n n)).

(** What is hashed when the hashes [x :: xs], smallest first, are joined to a root. *)
Fixpoint join_inputs (H : list byte -> bytes32) (x : bytes32) (xs : list bytes32) : list (list byte) :=
  match xs with
  | [] => []
  | y :: ys => (x01 :: b32 y ++ b32 x) :: join_inputs H (H (x01 :: b32 y ++ b32 x)) ys
  end.
Definition joins (H : list byte -> bytes32) (xs : list bytes32) : list (list byte) :=
  match xs with
  | [] => []
  | x :: xs => join_inputs H x xs
  end.
