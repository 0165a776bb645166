(** WitnessRef.v -- concrete cases for the theorems of PropertiesRef.v. *)
From Verif Require Import Base Sha256 ModelCommon ModelBinary ModelVerify SpecBinary RunsRef SpecRef WitnessBinary.

(** Without an index, with an index set twice, and with an index set too late. *)
Definition unset : list rt_call := [RCount; RPush [x61]; RRoot; RPush [x62]; RPush [x63]; RCount].
Definition set_twice : list rt_call := [RSetIndex 7; RRoot; RSetIndex 2; RPush [x61]; RPush [x62]; RPush [x63]; RRoot].
Definition set_late : list rt_call := [RPush [x61]; RSetIndex 1; RPush [x62]].

Lemma C94_witness : sha256 [] = empty_sum /\ ref_indices_ok unset /\ ref_indices_ok set_twice /\ ref_indices_ok set_late /\
  ref_answers sha256 [] 0 unset =
    Some ([ANumber 0; ANone; AData (mth sha256 [[x61]]); ANone; ANone; ANumber 3], [[x61]; [x62]; [x63]], 0) /\
  ref_answers sha256 [] 0 set_twice =
    Some ([ANone; AData (mth sha256 []); ANone; ANone; ANone; ANone; AData (mth sha256 [[x61]; [x62]; [x63]])], [[x61]; [x62]; [x63]], 2) /\
  ref_answers sha256 [] 0 set_late = None /\ rt_calls sha256 Debug set_late rt_new = Panic.
Proof.
  split; [exact sha256_empty|].
  split; [repeat (constructor; try exact Logic.I)|]. split; [repeat (constructor; try exact Logic.I; try lia)|].
  split; [repeat (constructor; try exact Logic.I; try lia)|]. split; [reflexivity|]. split; [reflexivity|]. split; [reflexivity|].
  vm_compute. reflexivity.
Qed.
