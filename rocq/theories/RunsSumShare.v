(** RunsSumShare.v -- several objects of the sum tree at work on one storage (no code of the
    repository: these are the callers). *)
From Verif Require Import Base Storage ModelCommon ModelSum SpecBinary SpecSum RunsSum RunsCalls.

Section Share.
Variable H : list byte -> bytes32.
Variable pr : profile.
Context {S E : Type}.
Variable st : StorageT S bytes32 MNode E.

(** An object is its list of subtrees; all share the storage. *)
Definition sum_set (objs : nat -> list MNode) (i : nat) (h : list MNode) : nat -> list MNode :=
  fun j => if Nat.eqb j i then h else objs j.
Definition sum_act (objs : nat -> list MNode) (i : nat) (o : sum_op) : M S ((nat -> list MNode) * result E (option (Z * bytes32))) :=
  fun s => match mt_do H pr st o (Build_MTree s (objs i)) with
           | (t, Val a) => (mt_storage t, Val (sum_set objs i (mt_head t), a))
           | (t, Panic) => (mt_storage t, Panic)
           | (t, Fuel) => (mt_storage t, Fuel)
           end.
Fixpoint sum_crowd (objs : nat -> list MNode) (os : list (nat * sum_op)) : M S (list (result E (option (Z * bytes32)))) :=
  match os with
  | [] => ret []
  | (i, o) :: os' =>
      x <- sum_act objs i o ;;
      rs <- sum_crowd (fst x) os' ;;
      ret (snd x :: rs)
  end.
End Share.

Definition fresh_objects : nat -> list MNode := fun _ => [].
