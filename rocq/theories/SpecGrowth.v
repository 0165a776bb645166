(** SpecGrowth.v -- the number of entries of a storage.  Independent of the model. *)
From Verif Require Import Base SpecSum SpecSparse.

(** [f] and [f'] are the contents of a storage before and after: at most [n] keys are new. *)
Definition grown {K V} (n : nat) (f f' : K -> option V) : Prop :=
  exists ks, (length ks <= n)%nat /\ forall k, f' k <> None -> f k <> None \/ In k ks.

(** The storage has exactly [n] entries. *)
Definition entries {K V} (n : nat) (f : K -> option V) : Prop :=
  exists ks, length ks = n /\ NoDup ks /\ forall k, f k <> None <-> In k ks.

(** Updates that write, and the other calls, of a history of a sparse tree. *)
Definition writing (o : sp_op) : bool := match o with Update _ (_ :: _) => true | _ => false end.
Definition update_count (os : list sp_op) : nat := length (filter writing os).
Definition delete_count (os : list sp_op) : nat := length (filter (fun o => negb (writing o)) os).
Definition root_count (os : list sum_op) : nat := length (filter (fun o => match o with Root => true | Push _ => false end) os).
