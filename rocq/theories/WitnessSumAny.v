(** WitnessSumAny.v -- a concrete history of a sum tree with failures. *)
From Verif Require Import Base Sha256 Storage ModelCommon ModelSum SpecBinary SpecSum SpecSumAny RunsSum RunsCalls
  SumAny BindingProofs WitnessSum.

Definition la : leaf := (5, [x61]).
Definition lb : leaf := (6, [x62]).
Definition lc : leaf := (7, [x63]).
(** The join of the second push is written but reported as failed: the tree is lost; a later push
    fails at once and changes nothing. *)
Definition lost_ops : list sum_op := [Push la; Push lb; Root; Push lc; Push la; Root].
Definition lost_script : list fault := [NoFault; NoFault; FaultLost; NoFault; Fault].
Definition lost_run := mt_run_all sha256 Debug FaultyMMap lost_ops (mt_new (lost_script, smap_new)).

Lemma C79_history_witness : fees_fit Debug (pushed lost_ops) /\
  match lost_run with
  | (t, Val [Ok None; Err None; Ok (Some (f, r)); Ok None; Err None; Ok (Some (g, q))]) =>
      (f =? 0) && b32_eqb r (mst sha256 wrapped_fee []) && (g =? 7) && b32_eqb q (mst sha256 wrapped_fee [lc])
  | _ => false
  end = true.
Proof.
  split; [split; [repeat constructor; cbn; lia|right; reflexivity]|]. vm_compute; reflexivity.
Qed.

Definition lost3 : list sum_op := [Push la; Push lb; Push lc].
Lemma C79_storage_witness : Lawful FaultyMMap fmview /\ (forall k, fmview (lost_script, smap_new) k = None) /\
  ~ has_collision sha256 (sublist_inputs sha256 (pushed lost3)) /\
  In [la; lb] (sublists (pushed lost3)) /\
  fees_fit Debug (pushed lost3) /\
  match mt_run_all sha256 Debug FaultyMMap lost3 (mt_new (lost_script, smap_new)) with
  | (t, Val [Ok None; Err None; Ok None]) =>
      match fmview (mt_storage t) (mst sha256 wrapped_fee [la; lb]), fmview (mt_storage t) (mst sha256 wrapped_fee [la]),
            fmview (mt_storage t) (mst sha256 wrapped_fee [lc]) with
      | Some v, Some w, Some u => (mn_height v =? 1) && (mn_fee v =? 11) && (mn_height w =? 0) && (mn_fee w =? 5) && (mn_fee u =? 7)
      | _, _, _ => false
      end
  | _ => false
  end = true.
Proof.
  split; [exact FaultyMMap_lawful|]. split; [intros k; reflexivity|].
  split; [apply no_collisions_ok; vm_compute; reflexivity|].
  split; [cbn; tauto|]. split; [split; [repeat constructor; cbn; lia|right; reflexivity]|]. vm_compute; reflexivity.
Qed.
