(** SpecShort.v -- what the keys have to do with the number of calls to the storage.
    Independent of the model. *)
From Verif Require Import Base SpecBits SpecSparse SpecCalls.

(** Every other key of [m] differs from [k] in one of the first [c] bits. *)
Definition apart (c : nat) (k : bytes32) (m : kvmap) : Prop :=
  forall k', In k' (keys m) -> k' <> k -> exists i, (i < c)%nat /\ kbit k' i <> kbit k i.
(** [c] is the least such number: a key of [m] agrees with [k] on the bits before the last one. *)
Definition just (c : nat) (k : bytes32) (m : kvmap) : Prop :=
  apart c k m /\
  match c with
  | O => True
  | S b => exists k', In k' (keys m) /\ k' <> k /\ forall i, (i < b)%nat -> kbit k' i = kbit k i
  end.

Section Tally.
Context {K V E : Type}.
Definition n_reads (l : list (event K V E)) : nat :=
  length (filter (fun x => match fst x with Get _ => true | _ => false end) l).
Definition n_writes (l : list (event K V E)) : nat :=
  length (filter (fun x => match fst x with Put _ _ => true | _ => false end) l).
Definition n_removals (l : list (event K V E)) : nat :=
  length (filter (fun x => match fst x with Del _ => true | _ => false end) l).

(** The calls of an update, and of a delete, by the number of bits that tell the key apart. *)
Definition short (o : sp_op) (c : nat) (l : list (event K V E)) : Prop :=
  match o with
  | Update _ (_ :: _) => (n_reads l <= 2 * c /\ n_writes l <= 2 + c /\ n_removals l = 0)%nat
  | Update _ [] | Delete _ => (n_reads l <= 1 + 2 * c /\ n_writes l <= c /\ n_removals l <= 1 + c)%nat
  end.
End Tally.
