(** SpecErrors.v -- what a call does when its storage fails.  The calls of the storage are seen
    with [Logged]; nothing is assumed of the storage. *)
From Verif Require Import Base Storage ModelCommon ModelBinary ModelSparse ModelSum SpecCalls.

Definition succeeded {K V E} (l : list (event K V E)) : Prop := Forall (fun x => snd x = None) l.

(** The calls made by [f] on [s] and its answer satisfy [P]. *)
Definition reports {St K V E A} (log : St -> list (event K V E)) (P : list (event K V E) -> out A -> Prop)
    (f : M St A) (s : St) : Prop :=
  exists l, log (fst (f s)) = log s ++ l /\ P l (snd (f s)).

(** Either all calls of the storage succeeded and the answer is no error of the storage (or a
    panic), or the last call of the storage is the only one that failed and its error is the
    answer. *)
Definition passed_on {K V E Er A} (is : E -> Er -> Prop) (l : list (event K V E)) (o : out (result Er A)) : Prop :=
  o <> Fuel /\
  ((succeeded l /\ (forall er e, o = Val (Err er) -> ~ is e er)) \/
   (exists before c e er, l = before ++ [(c, Some e)] /\ succeeded before /\ o = Val (Err er) /\ is e er)).

Definition b_is {E} (e : E) (er : BError E) : Prop := er = BStorageError e.
Definition m_is {E} (e er : E) : Prop := er = e.
Definition s_is {E} (e : E) (er : SError E) : Prop :=
  er = SStorageError e \/ er = SChildErr (ChildErr (SNStorageError e)).
(** The answer to a read that found no entry under [k] or a wrong one. *)
Definition bad_entry {E} (k : bytes32) (er : SError E) : Prop :=
  er = SChildErr (ChildNotFound k) \/ exists d, er = SChildErr (ChildErr (SNDeserializeError d)).

(** The walk of a sparse tree reads ahead: a failed read may be followed by up to two further
    reads, and the failed read may itself be one made ahead after a read that found no entry or a
    wrong one; then that is answered. *)
Definition passed_on_late {E A} (l : list (event bytes32 SPrimitive E)) (o : out (result (SError E) A)) : Prop :=
  o <> Fuel /\
  ((succeeded l /\ (forall er e, o = Val (Err er) -> ~ s_is e er)) \/
   (exists before c e later er, l = before ++ (c, Some e) :: later /\ succeeded before /\ o = Val (Err er) /\
      ((later = [] /\ er = SStorageError e) \/
       (is_get c /\ Forall (fun x => is_get (fst x)) later /\ (length later <= 2)%nat /\
        er = SChildErr (ChildErr (SNStorageError e))) \/
       (is_get c /\ Forall (fun x => is_get (fst x)) later /\
        exists before' k between, before = before' ++ done (Get k) :: between /\ Forall (fun x => is_get (fst x)) between /\
          (length between + length later <= 1)%nat /\ bad_entry k er)))).

Definition b_log {K V E St} (t : BTree (list (event K V E) * St)) : list (event K V E) := fst (bt_storage t).
Definition m_log {K V E St} (t : MTree (list (event K V E) * St)) : list (event K V E) := fst (mt_storage t).
Definition s_log {K V E St} (t : SpTree (list (event K V E) * St)) : list (event K V E) := fst (sp_storage t).
