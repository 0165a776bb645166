(** RunsLost.v -- runs of a sparse tree whose storage loses entries between the calls. *)
From Verif Require Import Base Storage ModelCommon ModelSparse SpecSparse RunsSparse.

Section Lost.
Variable H : list byte -> bytes32.
Variable pr : profile.
Context {St E : Type}.
Variable st : StorageT St bytes32 SPrimitive E.
Variable view : St -> bytes32 -> option SPrimitive.

(** [lost_run t obs t']: calls with their answers, losses of any entries, and loads of the
    root of the tree in use (not the empty one) lead from [t] to [t']. *)
Inductive lost_run : SpTree St -> list (sp_op * result (SError E) unit) -> SpTree St -> Prop :=
| LR_end : forall t, lost_run t [] t
| LR_call : forall t o t1 r obs t', sp_apply H pr st o t = (t1, Val r) -> lost_run t1 obs t' ->
    lost_run t ((o, r) :: obs) t'
| LR_lose : forall t s obs t', (forall k, view s k = view (sp_storage t) k \/ view s k = None) ->
    lost_run (Build_SpTree (sp_root_node t) s) obs t' -> lost_run t obs t'
| LR_load : forall t s t1 obs t', sp_root H t <> zero32 ->
    sp_load st (sp_root H t) (sp_storage t) = (s, Val (Ok t1)) -> lost_run t1 obs t' -> lost_run t obs t'.

Definition seen (obs : list (sp_op * result (SError E) unit)) : list (sp_op * bool) :=
  map (fun x => (fst x, is_ok (snd x))) obs.
End Lost.
