(** RunsCrowd.v -- several objects of the sparse tree at work on one storage at the same time (no
    code of the repository: these are the callers). *)
From Verif Require Import Base Storage ModelCommon ModelSparse SpecSparse RunsSparse.

Fixpoint set_at {A} (i : nat) (x : A) (l : list A) : list A :=
  match l, i with
  | [], _ => []
  | _ :: l', O => x :: l'
  | y :: l', Datatypes.S i' => y :: set_at i' x l'
  end.

Section Crowd.
Variable H : list byte -> bytes32.
Variable pr : profile.
Context {S E : Type}.
Variable st : StorageT S bytes32 SPrimitive E.

(** An object is its root node; all share the storage.  One action on object number [i] (a new
    object if there is none): a call, or opening another object with its root.  An object in its
    new state gets a new number; the old number stands for an object left in the old state.  After
    an error the object is what the call has left. *)
Definition act (ns : list SNode) (i : nat) (a : option sp_op) : M S (list SNode * result (SError E) bytes32) := fun s =>
  let t := Build_SpTree (nth i ns snode_placeholder) s in
  match a with
  | Some o =>
      match sp_apply H pr st o t with
      | (t1, Val (Ok _)) => (sp_storage t1, Val (ns ++ [sp_root_node t1], Ok (sp_root H t1)))
      | (t1, Val (Err e)) => (sp_storage t1, Val (set_at i (sp_root_node t1) ns, Err e))
      | (t1, Panic) => (sp_storage t1, Panic)
      | (t1, Fuel) => (sp_storage t1, Fuel)
      end
  | None =>
      match (if b32_eqb (sp_root H t) zero32 then (s, Val (Ok (sp_new s))) else sp_load st (sp_root H t) s) with
      | (s1, Val (Ok t1)) => (s1, Val (ns ++ [sp_root_node t1], Ok (sp_root H t1)))
      | (s1, Val (Err e)) => (s1, Val (ns, Err e))
      | (s1, Panic) => (s1, Panic)
      | (s1, Fuel) => (s1, Fuel)
      end
  end.

Fixpoint crowd (ns : list SNode) (acts : list (nat * option sp_op)) : M S (list (result (SError E) bytes32)) :=
  match acts with
  | [] => ret []
  | (i, a) :: acts' =>
      x <- act ns i a ;;
      rs <- crowd (fst x) acts' ;;
      ret (snd x :: rs)
  end.
End Crowd.

(** The same actions as sessions of C103: each starts from the version of its object. *)
Definition one_call (x : nat * option sp_op) : nat * list sp_op :=
  (fst x, match snd x with Some o => [o] | None => [] end).
