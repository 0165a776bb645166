(** PropertiesRef.v -- property theorems about the reference tree of the test helpers. *)
From Verif Require Import Base Sha256 ModelCommon ModelBinary ModelVerify SpecBinary RunsRef SpecRef RefCalls WitnessRef.

(** Any calls on a new tree, then prove. *)
Theorem C94_reference_calls : forall H pr, H [] = empty_sum -> forall cs, ref_indices_ok cs -> Z.of_nat (length cs) < 2 ^ 64 ->
  match ref_answers H [] 0 cs with
  | None => rt_calls H pr cs rt_new = Panic
  | Some (rs, ds, i) => exists t, rt_calls H pr cs rt_new = Val (t, rs) /\
      rt_prove H pr t = Val (mth H ds, match nth_error ds (Z.to_nat i) with
                                       | Some d => hash_leaf H d :: audit_path H (Z.to_nat i) ds
                                       | None => [] end)
  end.
Proof. exact @C94_lemma. Qed.
Print Assumptions C94_reference_calls.

Example C94_example : sha256 [] = empty_sum /\ ref_indices_ok unset /\ ref_indices_ok set_twice /\ ref_indices_ok set_late /\
  ref_answers sha256 [] 0 unset =
    Some ([ANumber 0; ANone; AData (mth sha256 [[x61]]); ANone; ANone; ANumber 3], [[x61]; [x62]; [x63]], 0) /\
  ref_answers sha256 [] 0 set_twice =
    Some ([ANone; AData (mth sha256 []); ANone; ANone; ANone; ANone; AData (mth sha256 [[x61]; [x62]; [x63]])], [[x61]; [x62]; [x63]], 2) /\
  ref_answers sha256 [] 0 set_late = None /\ rt_calls sha256 Debug set_late rt_new = Panic.
Proof. exact C94_witness. Qed.
