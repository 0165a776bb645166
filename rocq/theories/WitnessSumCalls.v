(** WitnessSumCalls.v -- the calls of a concrete sum tree, with failures. *)
From Verif Require Import Base Sha256 Storage ModelCommon ModelSum SpecBinary SpecSum SpecSumDisk SpecCalls SpecSumCalls RunsSum RunsCalls
  StorageProofs SumMain SumDisk WitnessBinary WitnessSum WitnessSumDisk.

(** Six pushes and a root request; the second write of the second push fails, the tree is empty
    then; the first write of the fourth push fails, the tree is as it was. *)
Definition log_ops : list sum_op := [Push la; Push lb; Push lc; Push la; Push lb; Push lc; Root].
Definition log_script : list fault := [NoFault; NoFault; Fault; NoFault; Fault].
Definition log_run := mt_run_all sha256 Debug (Logged FaultyMMap) log_ops (mt_new ([], (log_script, smap_new))).

Definition mcall_eqb (a b : mcall) : bool :=
  match a, b with Put k v, Put k' v' => b32_eqb k k' && sum_entry_eqb (Some v) (Some v') | _, _ => false end.
Fixpoint mcalls_eqb (a b : list mcall) : bool :=
  match a, b with [], [] => true | x :: a', y :: b' => mcall_eqb x y && mcalls_eqb a' b' | _, _ => false end.

Definition log_expected : list (list leaf) :=
  [[la]; [lb]; [la; lb]; [lc]; [la]; [lb]; [lc; lb]; [lc]; [lc; lb; lc]].

Lemma C100_witness : fees_fit Debug (pushed log_ops) /\
  match log_run with
  | (t, Val [Ok None; Err None; Ok None; Err None; Ok None; Ok None; Ok (Some (f, _))]) =>
      let l := log_map fields (fst (mt_storage t)) in
      (f =? 8) && mcalls_eqb (map fst l) (puts sha256 log_expected) &&
      match map snd l with [None; None; Some None; None; Some None; None; None; None; None] => true | _ => false end
  | _ => false
  end = true.
Proof.
  split; [split; [repeat constructor; cbn; lia|right; reflexivity]|]. vm_compute; reflexivity.
Qed.
