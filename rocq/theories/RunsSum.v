(** RunsSum.v -- running a sequence of pushes and root requests on the sum tree, stopping at
    the first error; the answers of the root requests are collected. *)
From Verif Require Import Base Storage ModelSum SpecSum.

Section Run.
Variable H : list byte -> bytes32.
Variable pr : profile.
Context {S E : Type}.
Variable st : StorageT S bytes32 MNode E.

Fixpoint mt_run (os : list sum_op) : M (MTree S) (result E (list (Z * bytes32))) :=
  match os with
  | [] => ret (Ok [])
  | Push l :: os' => _ <-? mt_push H pr st (fst l) (snd l) ;; mt_run os'
  | Root :: os' => r <-? mt_root H pr st ;; rs <-? mt_run os' ;; ret (Ok (r :: rs))
  end.
End Run.
