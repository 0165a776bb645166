(** RunsRecover.v -- histories of a binary tree on a storage that may fail at any time:
    pushes, proofs, crashes in the middle of a push followed by a reload, reloads for no
    reason and reloads of an earlier state.  No code of the crate is modelled here. *)
From Verif Require Import Base Storage ModelCommon ModelBinary SpecBinary Runs.

Section Recover.
Variable H : list byte -> bytes32.
Variable pr : profile.
Context {S E : Type}.
Variable st : StorageT S Z BPrimitive E.

(** [load] is called until it answers with a tree. *)
Inductive reloads (n : Z) : S -> BTree S -> Prop :=
| reload_now : forall s s' t, bt_load pr st n s = (s', Val (Ok t)) -> reloads n s t
| reload_again : forall s s' e t, bt_load pr st n s = (s', Val (Err e)) -> reloads n s' t -> reloads n s t.

(** [recovers ds t]: [t] is the tree object in use after a history in which the pushes of
    [ds] (and no others) count as done.  The user remembers only the number of leaves. *)
Inductive recovers : list (list byte) -> BTree S -> Prop :=
| rec_new : forall s, recovers [] (bt_new s)
| rec_push : forall ds t d t', recovers ds t -> Z.of_nat (length ds + 1) < leaf_limit pr ->
    bt_push H pr st d t = (t', Val (Ok tt)) -> recovers (ds ++ [d]) t'
| rec_prove : forall ds t i t' o, recovers ds t -> bt_prove H pr st i t = (t', o) -> recovers ds t'
| rec_crash : forall ds t d t' e t2, recovers ds t -> bt_push H pr st d t = (t', Val (Err e)) ->
    reloads (Z.of_nat (length ds)) (bt_storage t') t2 -> recovers ds t2
| rec_reload : forall ds t m t2, recovers ds t -> (m <= length ds)%nat ->
    reloads (Z.of_nat m) (bt_storage t) t2 -> recovers (firstn m ds) t2.
End Recover.
