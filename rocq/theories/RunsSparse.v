(** RunsSparse.v -- sequences of calls on a sparse tree (no code of the repository: these are
    the callers). *)
From Verif Require Import Base Storage ModelCommon ModelSparse SpecSparse.

Section Runs.
Variable H : list byte -> bytes32.
Variable pr : profile.
Context {S E : Type}.
Variable st : StorageT S bytes32 SPrimitive E.

Definition sp_apply (o : sp_op) : M (SpTree S) (result (SError E) unit) :=
  match o with
  | Update k v => sp_update H pr st k v
  | Delete k => sp_delete H pr st k
  end.

(** Stop at the first error. *)
Fixpoint sp_run (os : list sp_op) : M (SpTree S) (result (SError E) unit) :=
  match os with
  | [] => ret (Ok tt)
  | o :: os' => _ <-? sp_apply o ;; sp_run os'
  end.

(** Carry on after errors; the answers of all calls. *)
Fixpoint sp_run_all (os : list sp_op) : M (SpTree S) (list (result (SError E) unit)) :=
  match os with
  | [] => ret []
  | o :: os' => r <- sp_apply o ;; rs <- sp_run_all os' ;; ret (r :: rs)
  end.
End Runs.

(** The answers of calls as flags. *)
Definition is_ok {A B} (r : result A B) : bool := match r with Ok _ => true | Err _ => false end.
Definition flags {A B} (os : list sp_op) (rs : list (result A B)) : list (sp_op * bool) := combine os (map is_ok rs).

(** The error was reported by the storage. *)
Definition storage_error {E} (e : SError E) : Prop :=
  (exists e', e = SStorageError e') \/ exists e', e = SChildErr (ChildErr (SNStorageError e')).

(** What reading the child stored under [k] gives. *)
Definition child_read (H : list byte -> bytes32) {St E} (st : StorageT St bytes32 SPrimitive E) (k : bytes32) (s : St) (s' : St) (res : result (SChildError E) SNode) : Prop :=
  (k = zero32 /\ s' = s /\ exists n, res = Ok n /\ snode_hash H n = zero32 /\ snode_is_leaf n = true) \/
  (k <> zero32 /\ exists g, s_get st k s = (s', g) /\
    match g with
    | Err e => res = Err (ChildErr (SNStorageError e))
    | Ok None => res = Err (ChildNotFound k)
    | Ok (Some (h, b, lo, hi)) =>
        (b <> x00 /\ b <> x01 /\ res = Err (ChildErr (SNDeserializeError (DPrefixError (InvalidPrefix b))))) \/
        ((b = x00 \/ b = x01) /\ exists n, res = Ok n /\ sprim_of_node n = (h, b, lo, hi))
    end).

(** A history on the in-memory tree. *)
Fixpoint sim_run (H : list byte -> bytes32) (pr : profile) (os : list sp_op) : M (SpTree SScratch) unit :=
  match os with
  | [] => ret tt
  | Update k v :: os' => _ <- sim_update H pr k v ;; sim_run H pr os'
  | Delete k :: os' => _ <- sim_delete H pr k ;; sim_run H pr os'
  end.
