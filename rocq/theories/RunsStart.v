(** RunsStart.v -- tries that were given up (no code of the repository). *)
From Verif Require Import Base Storage ModelCommon ModelBinary ModelSparse ModelSum SpecBinary SpecSum SpecSparse Runs RunsSum RunsSparse.

(** The calls [l] have been tried any number of times: each try carries out a beginning of [l]. *)
Inductive tries {A S : Type} (run : list A -> S -> S) (l : list A) : S -> S -> Prop :=
| tries_none : forall s, tries run l s s
| tries_more : forall es rest s s1, tries run l s s1 -> l = es ++ rest -> tries run l s (run es s1).

(** The storage after a new tree object has made the calls, up to the first error. *)
Definition bt_try (H : list byte -> bytes32) (pr : profile) {St E : Type} (st : StorageT St Z BPrimitive E)
    (ds : list (list byte)) (s : St) : St := bt_storage (fst (bt_push_all H pr st ds (bt_new s))).
Definition mt_try (H : list byte -> bytes32) (pr : profile) {St E : Type} (st : StorageT St bytes32 MNode E)
    (os : list sum_op) (s : St) : St := mt_storage (fst (mt_run H pr st os (mt_new s))).
Definition sp_try (H : list byte -> bytes32) (pr : profile) {St E : Type} (st : StorageT St bytes32 SPrimitive E)
    (os : list sp_op) (s : St) : St := sp_storage (fst (sp_run H pr st os (sp_new s))).
