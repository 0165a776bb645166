(** SpecMemory.v -- vocabulary for the memory a tree uses. *)
From Verif Require Import Base RunsCalls.

(** The number of pushes among the calls. *)
Fixpoint push_count (cs : list bt_call) : nat :=
  match cs with [] => O | CPush _ :: cs' => S (push_count cs') | _ :: cs' => push_count cs' end.

