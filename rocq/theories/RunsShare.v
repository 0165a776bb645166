(** RunsShare.v -- several objects of the binary tree at work on one storage.  No code of the
    crate is modelled here. *)
From Verif Require Import Base Storage ModelCommon ModelBinary SpecBinary Runs.

(** A tree object without its storage, and put back on a storage. *)
Definition bare {S} (t : BTree S) : BTree unit := Build_BTree tt (bt_head t) (bt_leaves_count t).
Definition put_on {S} (s : S) (o : BTree unit) : BTree S := Build_BTree s (bt_head o) (bt_leaves_count o).

Section Share.
Variable H : list byte -> bytes32.
Variable pr : profile.
Context {S E : Type}.
Variable st : StorageT S Z BPrimitive E.
Variable log : list (list byte).

(** [shared top os s]: the objects [os], each with the number of leaves it holds, were at work on
    the storage, which is now [s]; the longest held [top] leaves.  Every object pushes the leaves
    of [log] in order, but no object waits for another: the same leaf may be pushed by several
    objects, early or late.  An object stays in the list when it is used: it stands for all
    objects that were in this state at some time. *)
Inductive shared : nat -> list (nat * BTree unit) -> S -> Prop :=
| sh_start : forall s, shared 0 [] s
| sh_new : forall top os s, shared top os s -> shared top ((0%nat, bare (bt_new s)) :: os) s
| sh_load : forall top os s m s' t, shared top os s -> (m <= top)%nat ->
    bt_load pr st (Z.of_nat m) s = (s', Val (Ok t)) -> shared top ((m, bare t) :: os) s'
| sh_load_any : forall top os s n s' r, shared top os s -> bt_load pr st n s = (s', r) -> shared top os s'
| sh_push : forall top os s n o d t', shared top os s -> In (n, o) os -> nth_error log n = Some d ->
    Z.of_nat (n + 1) < leaf_limit pr -> bt_push H pr st d (put_on s o) = (t', Val (Ok tt)) ->
    shared (Nat.max top (n + 1)) ((n + 1, bare t')%nat :: os) (bt_storage t')
| sh_push_fail : forall top os s n o d t' e, shared top os s -> In (n, o) os -> nth_error log n = Some d ->
    bt_push H pr st d (put_on s o) = (t', Val (Err e)) -> shared top os (bt_storage t')
| sh_prove : forall top os s n o i t' r, shared top os s -> In (n, o) os ->
    bt_prove H pr st i (put_on s o) = (t', r) -> shared top os (bt_storage t').
End Share.
