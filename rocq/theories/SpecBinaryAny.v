(** SpecBinaryAny.v -- what a binary tree may answer when its storage fails and its user carries
    on with the same tree object: specification. *)
From Verif Require Import Base ModelCommon ModelBinary SpecBinary RunsCalls.

(** The indices of the requested proofs are u64 values, except the largest one. *)
Definition indices_ok (cs : list bt_call) : Prop :=
  Forall (fun c => match c with CProve i => 0 <= i < 2 ^ 64 - 1 | _ => True end) cs.

Section Spec.
Variable H : list byte -> bytes32.
Notation mth := (mth H).

(** [bin_history ds n cs rs ds' n']: a tree of the leaves [ds] that counts [n] leaves may answer
    the calls [cs] with [rs]; it is then a tree of [ds'] that counts [n'] leaves.  A failed push
    leaves the tree as it was or, if it is a tree of an odd number of leaves, empty; its count stays
    the same.  Roots are always the root of the leaves of the tree. *)
Inductive bin_history {E : Type} :
  list (list byte) -> nat -> list bt_call -> list (bt_answer E) -> list (list byte) -> nat -> Prop :=
| BH_end : forall ds n, bin_history ds n [] [] ds n
| BH_push : forall ds n d cs rs ds' n', bin_history (ds ++ [d]) (n + 1) cs rs ds' n' ->
    bin_history ds n (CPush d :: cs) (APush (Ok tt) :: rs) ds' n'
| BH_failed : forall ds n d e cs rs ds' n', bin_history ds n cs rs ds' n' ->
    bin_history ds n (CPush d :: cs) (APush (Err (BStorageError e)) :: rs) ds' n'
| BH_lost : forall ds n d e cs rs ds' n', Nat.Odd (length ds) -> bin_history [] n cs rs ds' n' ->
    bin_history ds n (CPush d :: cs) (APush (Err (BStorageError e)) :: rs) ds' n'
| BH_root : forall ds n cs rs ds' n', bin_history ds n cs rs ds' n' ->
    bin_history ds n (CRoot :: cs) (ARoot (mth ds) :: rs) ds' n'
| BH_proof : forall ds n i p cs rs ds' n', i < Z.of_nat n -> ds <> [] -> bin_history ds n cs rs ds' n' ->
    bin_history ds n (CProve i :: cs) (AProve (Ok (mth ds, p)) :: rs) ds' n'
| BH_no_proof : forall ds n i e cs rs ds' n', i < Z.of_nat n -> bin_history ds n cs rs ds' n' ->
    bin_history ds n (CProve i :: cs) (AProve (Err e) :: rs) ds' n'
| BH_no_index : forall ds n i cs rs ds' n', Z.of_nat n <= i -> bin_history ds n cs rs ds' n' ->
    bin_history ds n (CProve i :: cs) (AProve (Err (BInvalidProofIndex i)) :: rs) ds' n'.
End Spec.
