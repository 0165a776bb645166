(** SpecSumCalls.v -- the calls a Merkle sum tree makes to its storage, one by one, also when
    some of them fail.  Independent of the model. *)
From Verif Require Import Base Storage SpecBinary SpecSum SpecSumDisk SpecCalls.

(** A log with each value written replaced by the fields it consists of. *)
Definition call_map {K V W} (f : V -> W) (c : call K V) : call K W :=
  match c with Get k => Get k | Put k v => Put k (f v) | Del k => Del k end.
Definition log_map {K V W E} (f : V -> W) (l : list (event K V E)) : list (event K W E) :=
  map (fun x => (call_map f (fst x), snd x)) l.

Definition mcall : Type := call bytes32 sum_entry.

Section Calls.
Variable H : list byte -> bytes32.
Notation mst := (mst H wrapped_fee).

(** The nodes over the given lists of leaves are written, each under its hash. *)
Definition puts (W : list (list leaf)) : list mcall := map (fun ls => Put (mst ls) (entry_of H wrapped_fee ls)) W.

(** [sum_log ds os rs l ds']: a tree of the leaves [ds] answers the calls [os] with [rs], calls
    its storage as in [l], and is then the tree of [ds'].  Nothing is called after a failure.  If
    the first write of a push fails the tree is as it was; if a later one fails it is empty. *)
Inductive sum_log {E : Type} : list leaf -> list sum_op -> list (result E (option (Z * bytes32))) ->
  list (event bytes32 sum_entry E) -> list leaf -> Prop :=
| SL_end : forall ds, sum_log ds [] [] [] ds
| SL_push : forall ds x os rs l ds', sum_log (ds ++ [x]) os rs l ds' ->
    sum_log ds (Push x :: os) (Ok None :: rs) (map done (puts (push_writes (ds ++ [x]))) ++ l) ds'
| SL_push_err : forall ds x os rs l1 before failed e l ds',
    cut_short (puts (push_writes (ds ++ [x]))) l1 before failed e [] ->
    sum_log (match before with [] => ds | _ => [] end) os rs l ds' ->
    sum_log ds (Push x :: os) (Err e :: rs) (l1 ++ l) ds'
| SL_root : forall ds os rs l ds', sum_log ds os rs l ds' ->
    sum_log ds (Root :: os) (Ok (Some (wrapped_fee ds, mst ds)) :: rs) (map done (puts (root_writes ds)) ++ l) ds'
| SL_root_err : forall ds os rs l1 before failed e l ds',
    cut_short (puts (root_writes ds)) l1 before failed e [] -> sum_log ds os rs l ds' ->
    sum_log ds (Root :: os) (Err e :: rs) (l1 ++ l) ds'.
End Calls.
