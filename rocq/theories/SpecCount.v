(** SpecCount.v -- counting the calls a tree makes to its storage.  [Counted st] is the storage
    [st] with three counters; it is not code of the repository. *)
From Verif Require Import Base Storage SpecSum.

Record counts : Type := { gets : nat; inserts : nat; removes : nat }.
Definition no_calls : counts := {| gets := 0; inserts := 0; removes := 0 |}.

Section Counted.
Context {S K V E : Type}.
Variable st : StorageT S K V E.

(** Every call is counted, whether it succeeds or fails. *)
Definition Counted : StorageT (counts * S) K V E :=
  {| s_get := fun k cs => let '(c, s) := cs in let '(s', r) := s_get st k s in
       (({| gets := Datatypes.S (gets c); inserts := inserts c; removes := removes c |}, s'), r);
     s_insert := fun k v cs => let '(c, s) := cs in let '(s', r) := s_insert st k v s in
       (({| gets := gets c; inserts := Datatypes.S (inserts c); removes := removes c |}, s'), r);
     s_remove := fun k cs => let '(c, s) := cs in let '(s', r) := s_remove st k s in
       (({| gets := gets c; inserts := inserts c; removes := Datatypes.S (removes c) |}, s'), r) |}.
End Counted.

(** The number of one bits of [n]. *)
Fixpoint ones_pos (p : positive) : nat :=
  match p with xH => 1 | xO q => ones_pos q | xI q => 1 + ones_pos q end.
Definition ones (n : nat) : nat := match N.of_nat n with N0 => 0 | Npos p => ones_pos p end.

(** [c'] is [c] and at most [g] gets, [i] inserts and [r] removes. *)
Definition at_most (g i r : nat) (c c' : counts) : Prop :=
  (gets c <= gets c' <= gets c + g)%nat /\ (inserts c <= inserts c' <= inserts c + i)%nat /\
  (removes c <= removes c' <= removes c + r)%nat.

(** The number of inserts made by a sequence of operations on a sum tree with [n] leaves. *)
Fixpoint sum_inserts (n : nat) (os : list sum_op) : nat :=
  match os with
  | [] => 0
  | Push _ :: os' => (2 + ones n - ones (n + 1)) + sum_inserts (n + 1) os'
  | Root :: os' => (ones n - 1) + sum_inserts n os'
  end.
