(** SpecPosition.v -- specification of paths in a tree of positions, independent of
    the model.  A node is a pair (h, b): block number [b] of [2^h] leaves; its
    in-order index is [index_of h b] (SpecBinary.v).  The children of (h+1, b) are
    (h, 2b) and (h, 2b+1); the ancestor at height h of leaf i is (h, i / 2^h). *)
From Verif Require Import Base SpecBinary.
Local Open Scope nat_scope.

Definition ancestor (i h : nat) : nat := i / 2 ^ h.
(** The other child of the same parent. *)
Definition sib (b : nat) : nat := if Nat.odd b then b - 1 else b + 1.

(** The path from a node of height [h] (excluded) down to leaf [i], each node with
    its sibling. *)
Fixpoint path_below (h i : nat) : list (Z * Z) :=
  match h with
  | O => []
  | S h' => (index_of h' (ancestor i h'), index_of h' (sib (ancestor i h'))) :: path_below h' i
  end.

(** In a tree of [n] leaves the node (h, b) exists if it is a leaf below [n], or if its
    right half contains a leaf below [n] (otherwise it would have a single child). *)
Definition node_exists (n h b : nat) : bool :=
  match h with
  | O => b <? n
  | S h' => (2 * b + 1) * 2 ^ h' <? n
  end.

(** The existing node with the same leaves as (h, b): (h, b) itself if it exists, else
    the one representing its left child. *)
Fixpoint represent (n h b : nat) : nat * nat :=
  if node_exists n h b then (h, b)
  else match h with
       | O => (O, b)
       | S h' => represent n h' (2 * b)
       end.

Definition index_of_pair (x : nat * nat) : Z := index_of (fst x) (snd x).

(** The existing ancestors of leaf [i] among the nodes of height at most [h], from the
    top; each one with the existing node that represents [side], the sibling of the
    highest ancestor below the previous entry. *)
Fixpoint tree_path (n h i : nat) (side : nat * nat) : list (Z * Z) :=
  if node_exists n h (ancestor i h) then
    (index_of h (ancestor i h), index_of_pair (represent n (fst side) (snd side)))
      :: match h with
         | O => []
         | S h' => tree_path n h' i (h', sib (ancestor i h'))
         end
  else match h with
       | O => []
       | S h' => tree_path n h' i side
       end.

(** The peaks of a tree of [n] leaves among the nodes of height below [h], from left to
    right: the maximal complete blocks, one for each set bit of [n]. *)
Fixpoint peaks (h n : nat) : list (nat * nat) :=
  match h with
  | O => []
  | S h' => if Nat.odd (ancestor n h') then (h', ancestor n h' - 1) :: peaks h' n
            else peaks h' n
  end.

(** (h, b) is a peak of [n] leaves: complete, but the block twice its size is not. *)
Definition is_peak (n h b : nat) : Prop :=
  (b + 1) * 2 ^ h <= n < (b / 2 + 1) * 2 ^ S h.
