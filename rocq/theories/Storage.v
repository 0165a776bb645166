(** Storage.v -- the storage interface used by the trees, the laws a storage is
    assumed to satisfy, and two concrete storages.

    The trait is external (crate fuel-storage, re-exported in
    /repo/src/storage.rs:5); the methods used by this crate are [get]
    ([StorageInspect]), [insert] and [remove] ([StorageMutate]).  All three thread
    a storage state, so a storage may change internally even on a read. *)
From Verif Require Import Base.

Record StorageT (S K V E : Type) : Type := {
  s_get    : K -> S -> S * result E (option V);
  s_insert : K -> V -> S -> S * result E (option V);
  s_remove : K -> S -> S * result E (option V)
}.
Arguments s_get {S K V E} _ _ _.
Arguments s_insert {S K V E} _ _ _ _.
Arguments s_remove {S K V E} _ _ _.

(** What it means to be a storage.  [view s k] is the value held under [k].
    - a successful [get] answers with the held value; no [get] changes the content;
    - a successful write changes exactly the entry of its key and answers with the
      previous value;
    - a failing write either changed nothing or was applied (the acknowledgement
      was lost): nothing else may change. *)
Record Lawful {S K V E} (st : StorageT S K V E) (view : S -> K -> option V) : Prop := {
  law_get_view : forall k s s' r, s_get st k s = (s', r) -> forall k', view s' k' = view s k';
  law_get_ok : forall k s s' v, s_get st k s = (s', Ok v) -> v = view s k;
  law_insert_ok : forall k v s s' p, s_insert st k v s = (s', Ok p) ->
    p = view s k /\ view s' k = Some v /\ forall k', k' <> k -> view s' k' = view s k';
  law_insert_err : forall k v s s' e, s_insert st k v s = (s', Err e) ->
    (forall k', view s' k' = view s k') \/
    (view s' k = Some v /\ forall k', k' <> k -> view s' k' = view s k');
  law_remove_ok : forall k s s' p, s_remove st k s = (s', Ok p) ->
    p = view s k /\ view s' k = None /\ forall k', k' <> k -> view s' k' = view s k';
  law_remove_err : forall k s s' e, s_remove st k s = (s', Err e) ->
    (forall k', view s' k' = view s k') \/
    (view s' k = None /\ forall k', k' <> k -> view s' k' = view s k')
}.

(** No operation of the storage ever returns an error. *)
Definition Infallible {S K V E} (st : StorageT S K V E) : Prop :=
  (forall k s, exists s' v, s_get st k s = (s', Ok v)) /\
  (forall k v s, exists s' p, s_insert st k v s = (s', Ok p)) /\
  (forall k s, exists s' p, s_remove st k s = (s', Ok p)).

(** * StorageMap, /repo/src/common/storage_map.rs:6-67
    [hashbrown::HashMap] (external) is modelled as an association list searched
    from the front. *)
Section StorageMap.
Context {K V : Type}.
Variable keqb : K -> K -> bool.

Definition smap := list (K * V).

(** storage_map.rs:18-22 *)
Definition smap_new : smap := [].

Fixpoint smap_lookup (m : smap) (k : K) : option V :=
  match m with
  | [] => None
  | (k', v) :: m' => if keqb k k' then Some v else smap_lookup m' k
  end.

Fixpoint smap_erase (m : smap) (k : K) : smap :=
  match m with
  | [] => []
  | (k', v) :: m' => if keqb k k' then smap_erase m' k else (k', v) :: smap_erase m' k
  end.

(** storage_map.rs:33-37 *)
Definition smap_get (k : K) (m : smap) : smap * result Empty_set (option V) :=
  (m, Ok (smap_lookup m k)).

(** storage_map.rs:39-42 *)
Definition smap_contains_key (k : K) (m : smap) : smap * result Empty_set bool :=
  (m, Ok (match smap_lookup m k with Some _ => true | None => false end)).

(** storage_map.rs:52-61: removes first, then inserts, answers the removed value *)
Definition smap_insert (k : K) (v : V) (m : smap) : smap * result Empty_set (option V) :=
  let previous := smap_lookup m k in
  ((k, v) :: smap_erase m k, Ok previous).

(** storage_map.rs:63-66 *)
Definition smap_remove (k : K) (m : smap) : smap * result Empty_set (option V) :=
  (smap_erase m k, Ok (smap_lookup m k)).

Definition StorageMap : StorageT smap K V Empty_set :=
  {| s_get := smap_get; s_insert := smap_insert; s_remove := smap_remove |}.
End StorageMap.

(** * A storage with injected faults (not in the repository; it plays the role of a
    user's database).  The n-th operation fails as the n-th entry of the script
    says; [FaultLost] fails after applying the write. *)
Inductive fault := NoFault | Fault | FaultLost.

Section Faulty.
Context {S K V E : Type}.
Variable st : StorageT S K V E.

Definition faulty_state : Type := (list fault * S)%type.

Definition faulty_op {A} (f : S -> S * result E A) (fs : faulty_state)
  : faulty_state * result (option E) A :=
  match fs with
  | ([], s) =>
      let '(s', r) := f s in
      (([], s'), match r with Ok a => Ok a | Err e => Err (Some e) end)
  | (NoFault :: sc, s) =>
      let '(s', r) := f s in
      ((sc, s'), match r with Ok a => Ok a | Err e => Err (Some e) end)
  | (Fault :: sc, s) => ((sc, s), Err None)
  | (FaultLost :: sc, s) => let '(s', _) := f s in ((sc, s'), Err None)
  end.

Definition Faulty : StorageT faulty_state K V (option E) :=
  {| s_get := fun k => faulty_op (s_get st k);
     s_insert := fun k v => faulty_op (s_insert st k v);
     s_remove := fun k => faulty_op (s_remove st k) |}.
End Faulty.
