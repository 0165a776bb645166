(** RunsForks.v -- several sparse trees in one storage, one after the other (no code of the
    repository: these are the callers). *)
From Verif Require Import Base Storage ModelCommon ModelSparse SpecSparse RunsSparse.

Section Forks.
Variable H : list byte -> bytes32.
Variable pr : profile.
Context {S E : Type}.
Variable st : StorageT S bytes32 SPrimitive E.

(** Open the tree with the given root, a new one for the zero root; make calls on it up to the
    first error; answer its root. *)
Definition session (root : bytes32) (os : list sp_op) : M S (result (SError E) bytes32) := fun s =>
  match (if b32_eqb root zero32 then (s, Val (Ok (sp_new s))) else sp_load st root s) with
  | (s', Val (Err e)) => (s', Val (Err e))
  | (s', Val (Ok t)) =>
      match sp_run H pr st os t with
      | (t', Val (Ok _)) => (sp_storage t', Val (Ok (sp_root H t')))
      | (t', Val (Err e)) => (sp_storage t', Val (Err e))
      | (t', Panic) => (sp_storage t', Panic)
      | (t', Fuel) => (sp_storage t', Fuel)
      end
  | (s', Panic) => (s', Panic)
  | (s', Fuel) => (s', Fuel)
  end.

(** Sessions: each one starts from one of the roots answered so far, given by its number, or from
    an empty tree if there is no such number. *)
Fixpoint sessions (roots : list bytes32) (acts : list (nat * list sp_op)) : M S (list (result (SError E) bytes32)) :=
  match acts with
  | [] => ret []
  | (i, os) :: acts' =>
      r <- session (nth i roots zero32) os ;;
      rs <- sessions (match r with Ok x => roots ++ [x] | Err _ => roots end) acts' ;;
      ret (r :: rs)
  end.
End Forks.
