(** PropertiesSumCalls.v -- C100: the calls a sum tree makes to its storage. *)
From Verif Require Import Base Sha256 Storage ModelCommon ModelSum SpecBinary SpecSum SpecSumDisk SpecCalls SpecSumCalls RunsSum RunsCalls
  SumDisk SumCalls WitnessSum WitnessSumDisk WitnessSumCalls.

(** Pushes and root requests carried on after errors, on any storage, lawful or not: the answers,
    the calls with their outcomes and the leaves of the tree go together as in [sum_log]. *)
Theorem C100_sum_calls : forall H, H [] = empty_sum ->
  forall pr St E (st : StorageT St bytes32 MNode E) os s0,
  fees_fit pr (pushed os) -> Z.of_nat (length (pushed os)) <= 2 ^ 64 ->
  exists t rs ds, mt_run_all H pr (Logged st) os (mt_new ([], s0)) = (t, Val rs) /\
    sum_log H [] os rs (log_map fields (fst (mt_storage t))) ds.
Proof. exact @C100_lemma. Qed.
Print Assumptions C100_sum_calls.

Example C100_example : fees_fit Debug (pushed log_ops) /\
  match log_run with
  | (t, Val [Ok None; Err None; Ok None; Err None; Ok None; Ok None; Ok (Some (f, _))]) =>
      let l := log_map fields (fst (mt_storage t)) in
      (f =? 8) && mcalls_eqb (map fst l) (puts sha256 log_expected) &&
      match map snd l with [None; None; Some None; None; Some None; None; None; None; None] => true | _ => false end
  | _ => false
  end = true.
Proof. exact C100_witness. Qed.
