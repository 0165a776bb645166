(** RunsSync.v -- further calls on a tree that holds the first and lives on a storage that holds
    the second component of [x] (no code of the repository). *)
From Verif Require Import Base Storage ModelCommon ModelSparse SpecSparse SpecAnyRun SpecDisk RunsSparse.

(** The calls lead to the map and to the storage content of the replay, or one of them is
    answered with an error of the storage. *)
Definition goes_on (H : list byte -> bytes32) (pr : profile) {St E : Type} (st : StorageT St bytes32 SPrimitive E)
    (view : St -> bytes32 -> option SPrimitive) (os : list sp_op) (x : kvmap * disk) (t : SpTree St) : Prop :=
  exists t' r, sp_run H pr st os t = (t', Val r) /\
    ((r = Ok tt /\ sp_root H t' = kv_root H (fst (fold_left (replay_op H) os x)) /\
      forall k, view (sp_storage t') k = snd (fold_left (replay_op H) os x) k) \/
     (exists e, r = Err e /\ storage_error e /\ ~ Infallible st)).
