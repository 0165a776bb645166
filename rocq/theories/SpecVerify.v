(** SpecVerify.v -- specification of proof checking, independent of the model: walking
    from a leaf hash up to a root, with one sibling per step. *)
From Verif Require Import Base SpecBinary SpecPosition.
Local Open Scope nat_scope.

(** All leaves of block (h, b) are below [n]. *)
Definition complete (n h b : nat) : bool := (b + 1) * 2 ^ h <=? n.

(** Is the node reached after [h] steps from leaf [i] a right child?  Inside complete
    blocks the bits of [i] decide; the first step out of the largest complete block goes
    up from the left, unless that block ends the tree; all further steps from the right. *)
Definition dir_at (i n h : nat) : bool :=
  if complete n (S h) (ancestor i (S h)) then Nat.odd (ancestor i h)
  else if complete n h (ancestor i h) then (ancestor i h + 1) * 2 ^ h =? n
  else true.
Definition directions (i n len : nat) : list bool := map (dir_at i n) (seq 0 len).

Section Climb.
Variable H : list byte -> bytes32.

(** The byte string hashed in one step. *)
Definition step_input (right : bool) (cur sib : bytes32) : list byte :=
  if right then x01 :: b32 sib ++ b32 cur else x01 :: b32 cur ++ b32 sib.

(** The hash reached from [cur] with the given directions and siblings. *)
Fixpoint climb (cur : bytes32) (dirs : list bool) (sibs : list bytes32) : bytes32 :=
  match dirs, sibs with
  | d :: dirs', s :: sibs' => climb (H (step_input d cur s)) dirs' sibs'
  | _, _ => cur
  end.
(** The byte strings hashed on the way. *)
Fixpoint climb_inputs (cur : bytes32) (dirs : list bool) (sibs : list bytes32) : list (list byte) :=
  match dirs, sibs with
  | d :: dirs', s :: sibs' => step_input d cur s :: climb_inputs (H (step_input d cur s)) dirs' sibs'
  | _, _ => []
  end.
End Climb.
