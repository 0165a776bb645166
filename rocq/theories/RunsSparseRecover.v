(** RunsSparseRecover.v -- histories of a sparse tree on a storage that may fail at any time:
    updates, failed updates, deletes, crashes followed by a reload and reloads of earlier
    roots.  No code of the crate is modelled here. *)
From Verif Require Import Base Storage ModelCommon ModelSparse SpecSparse RunsSparse.

Section Recover.
Variable H : list byte -> bytes32.
Variable pr : profile.
Context {S E : Type}.
Variable st : StorageT S bytes32 SPrimitive E.
Variable view : S -> bytes32 -> option SPrimitive.
(** The keys used and the maps aimed at (the hypothesis on the hash is about these). *)
Variable ks : list bytes32.
Variable ms : list kvmap.

(** [load] is called until it answers with a tree. *)
Inductive sp_reloads (r : bytes32) : S -> SpTree S -> Prop :=
| sp_reload_now : forall s s' t, sp_load st r s = (s', Val (Ok t)) -> sp_reloads r s t
| sp_reload_again : forall s s' e t, sp_load st r s = (s', Val (Err e)) -> sp_reloads r s' t -> sp_reloads r s t.

(** The entry of [k] in [m] is also in [m0]. *)
Definition shares (k : bytes32) (m m0 : kvmap) : Prop :=
  exists h, In (k, h) (digests H m) /\ In (k, h) (digests H m0).

(** [sp_recovers saved m w t]: [t] is the tree object in use after a history in which the
    calls that count as done give the map [m]; the keys of [w] have been passed to
    non-empty updates; the maps of [saved] can be gone back to.
    - The result of a call is saved when the call answered Ok and the map it started from
      was saved.
    - A delete, successful or not, makes the saved maps unusable that hold the deleted entry. *)
Inductive sp_recovers : list kvmap -> kvmap -> list bytes32 -> SpTree S -> Prop :=
| spr_new : forall s0, (forall k, view s0 k = None) -> sp_recovers [[]] [] [] (sp_new s0)
| spr_fresh : forall saved m w t, sp_recovers saved m w t -> sp_recovers ([] :: saved) [] w (sp_new (sp_storage t))
| spr_update : forall saved m w t k v t' saved', sp_recovers saved m w t -> v <> [] -> In k ks -> In (mset k v m) ms ->
    sp_update H pr st k v t = (t', Val (Ok tt)) ->
    (forall m0, In m0 saved' -> In m0 saved \/ (In m saved /\ m0 = mset k v m)) ->
    sp_recovers saved' (mset k v m) (k :: w) t'
| spr_failed_update : forall saved m w t k v t' e, sp_recovers saved m w t -> v <> [] -> In k ks -> In (mset k v m) ms ->
    sp_update H pr st k v t = (t', Val (Err e)) -> sp_recovers saved m (k :: w) t'
| spr_delete : forall saved m w t k t' saved', sp_recovers saved m w t -> In k (keys m) -> In k ks -> In (mdel k m) ms ->
    sp_delete H pr st k t = (t', Val (Ok tt)) ->
    (forall m0, In m0 saved' -> (In m0 saved /\ ~ shares k m m0) \/ (In m saved /\ m0 = mdel k m)) ->
    sp_recovers saved' (mdel k m) w t'
| spr_failed_delete : forall saved m w t k t' e saved', sp_recovers saved m w t -> In k (keys m) -> In k ks -> In (mdel k m) ms ->
    sp_delete H pr st k t = (t', Val (Err e)) ->
    (forall m0, In m0 saved' -> In m0 saved /\ ~ shares k m m0) ->
    sp_recovers saved' m w t'
| spr_delete_absent : forall saved m w t k t' r, sp_recovers saved m w t -> ~ In k (keys m) -> ~ In k w -> In k ks ->
    sp_delete H pr st k t = (t', Val r) -> sp_recovers saved m w t'
| spr_load : forall saved m w t m0 t2, sp_recovers saved m w t -> In m0 saved -> m0 <> [] ->
    sp_reloads (kv_root H m0) (sp_storage t) t2 -> sp_recovers saved m0 w t2.
End Recover.
