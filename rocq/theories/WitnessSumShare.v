(** WitnessSumShare.v -- two sum trees on one storage, one of which is lost by a failure. *)
From Verif Require Import Base Sha256 Storage ModelCommon ModelSum SpecBinary SpecSum SpecSumAny SpecSumShare RunsSum RunsCalls RunsSumShare
  SumAny BindingProofs WitnessSum WitnessSumAny.
From Coq Require Import Arith.

(** Both objects push in turns; the join of the second one is written but reported as failed. *)
Definition two_sums : list (nat * sum_op) :=
  [(0%nat, Push la); (1%nat, Push lc); (0%nat, Push lb); (1%nat, Push la); (0%nat, Root); (1%nat, Root)].
Definition two_sums_script : list fault := repeat NoFault 5 ++ [FaultLost].
Definition two_sums_run := sum_crowd sha256 Debug FaultyMMap fresh_objects two_sums (two_sums_script, smap_new).

Lemma two_sums_fit : (forall i, fees_fit Debug (pushed (calls_on i two_sums))) /\
  (forall i, Z.of_nat (length (pushed (calls_on i two_sums))) <= 2 ^ 64).
Proof.
  assert (C : forall i, calls_on i two_sums = [Push la; Push lb; Root] \/ calls_on i two_sums = [Push lc; Push la; Root] \/ calls_on i two_sums = []).
  { intros [|[|i]]; [left|right; left|right; right]; reflexivity. }
  split; intros i; destruct (C i) as [-> |[-> | ->]]; try (split; [repeat constructor; cbn; lia|right; reflexivity]); cbn; lia.
Qed.

Lemma C107_witness : Lawful FaultyMMap fmview /\ (forall k, fmview (two_sums_script, smap_new) k = None) /\
  (forall i, fees_fit Debug (pushed (calls_on i two_sums))) /\ (forall i, Z.of_nat (length (pushed (calls_on i two_sums))) <= 2 ^ 64) /\
  ~ has_collision sha256 (object_inputs sha256 two_sums) /\
  match two_sums_run with
  | (s, Val [Ok None; Ok None; Ok None; Err None; Ok (Some (f, r)); Ok (Some (g, q))]) =>
      match fmview s r, fmview s (mst sha256 wrapped_fee [lc; la]) with
      | Some v, Some w => (f =? 11) && b32_eqb r (mst sha256 wrapped_fee [la; lb]) && (g =? 0) && b32_eqb q empty_sum &&
                          (mn_fee v =? 11) && (mn_fee w =? 12)
      | _, _ => false
      end
  | _ => false
  end = true.
Proof.
  split; [exact FaultyMMap_lawful|]. split; [intros k; reflexivity|]. split; [apply two_sums_fit|]. split; [apply two_sums_fit|].
  split; [apply no_collisions_ok; vm_compute; reflexivity|]. vm_compute; reflexivity.
Qed.
