(** RunsOpen.v -- sparse trees on one storage, opened from any root met before and used in turns
    (no code of the repository: these are the callers). *)
From Verif Require Import Base Storage ModelCommon ModelSparse SpecSparse SpecOpen RunsSparse.

Section Open.
Variable H : list byte -> bytes32.
Variable pr : profile.
Context {St E : Type}.
Variable st : StorageT St bytes32 SPrimitive E.
Variable view : St -> bytes32 -> option SPrimitive.

(** [open_run ns t evs roots t']: the events lead from [t] to [t'], with the root [roots] after
    each of them; [ns] are the root nodes of the trees met before.  A load that fails leaves the
    tree in use.  A tree met before can be taken up again at any time. *)
Inductive open_run : list SNode -> SpTree St -> list (event (SError E)) -> list bytes32 -> SpTree St -> Prop :=
| OR_end : forall ns t, open_run ns t [] [] t
| OR_call : forall ns t o t1 r evs roots t', sp_apply H pr st o t = (t1, Val r) ->
    open_run (ns ++ [sp_root_node t1]) t1 evs roots t' ->
    open_run ns t (Called o r :: evs) (sp_root H t1 :: roots) t'
| OR_start : forall ns t t1 evs roots t', t1 = sp_new (sp_storage t) ->
    open_run (ns ++ [sp_root_node t1]) t1 evs roots t' ->
    open_run ns t (Started :: evs) (sp_root H t1 :: roots) t'
| OR_open : forall ns t j s t1 evs roots t', snode_hash H (nth j ns snode_placeholder) <> zero32 ->
    sp_load st (snode_hash H (nth j ns snode_placeholder)) (sp_storage t) = (s, Val (Ok t1)) ->
    open_run (ns ++ [sp_root_node t1]) t1 evs roots t' ->
    open_run ns t (Opened j (Ok tt) :: evs) (sp_root H t1 :: roots) t'
| OR_refused : forall ns t j s e t1 evs roots t', snode_hash H (nth j ns snode_placeholder) <> zero32 ->
    sp_load st (snode_hash H (nth j ns snode_placeholder)) (sp_storage t) = (s, Val (Err e)) -> t1 = Build_SpTree (sp_root_node t) s ->
    open_run (ns ++ [sp_root_node t1]) t1 evs roots t' ->
    open_run ns t (Opened j (Err e) :: evs) (sp_root H t1 :: roots) t'
| OR_resume : forall ns t j t1 evs roots t', t1 = Build_SpTree (nth j ns snode_placeholder) (sp_storage t) ->
    open_run (ns ++ [sp_root_node t1]) t1 evs roots t' ->
    open_run ns t (Resumed j :: evs) (sp_root H t1 :: roots) t'
| OR_lose : forall ns t s t1 evs roots t', (forall k, view s k = view (sp_storage t) k \/ view s k = None) ->
    t1 = Build_SpTree (sp_root_node t) s ->
    open_run (ns ++ [sp_root_node t1]) t1 evs roots t' ->
    open_run ns t (Lost :: evs) (sp_root H t1 :: roots) t'.
End Open.
