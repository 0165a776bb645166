(** WitnessSumDisk.v -- concrete storage contents of sum trees. *)
From Verif Require Import Base Sha256 Storage ModelCommon ModelSum SpecBinary SpecSum SpecSumDisk RunsSum
  StorageProofs SumMain SumDisk WitnessBinary WitnessSum.

Definition la : leaf := (1, [x61]).
Definition lb : leaf := (2, [x62]).
Definition lc : leaf := (3, [x63]).
(** A root request after two leaves and one after three. *)
Definition sum_calls : list sum_op := [Push la; Push lb; Root; Push lc; Root].

Definition oeqb (a b : option bytes32) : bool :=
  match a, b with Some x, Some y => b32_eqb x y | None, None => true | _, _ => false end.
Definition sum_entry_eqb (a b : option sum_entry) : bool :=
  match a, b with
  | Some (h, x, f, l, r), Some (h', x', f', l', r') => (h =? h') && b32_eqb x x' && (f =? f') && oeqb l l' && oeqb r r'
  | None, None => true
  | _, _ => false
  end.
Notation hm := (mst sha256 wrapped_fee).

Definition sum_disk_ok (n : nat) (t : MTree MScratch) : bool :=
  forallb (fun k => sum_entry_eqb (option_map fields (mview (mt_storage t) k))
                      (written sha256 wrapped_fee (firstn n (writes [] sum_calls)) (fun _ => None) k))
    [hm [la]; hm [la; lb]; hm [la; lb; lc]; hm [lb; lc]].

Lemma C91_witness : fees_fit Debug (pushed sum_calls) /\ writes [] sum_calls = [[la]; [lb]; [la; lb]; [lc]; [la; lb; lc]] /\
  match mt_run sha256 Debug MStorageMap sum_calls (mt_new smap_new) with
  | (t, Val (Ok [(3, _); (6, _)])) => sum_disk_ok 5 t &&
      sum_entry_eqb (option_map fields (mview (mt_storage t) (hm [la; lb; lc])))
        (Some (2, hm [la; lb; lc], 6, Some (hm [la; lb]), Some (hm [lc])))
  | _ => false end = true.
Proof.
  split. { change (pushed sum_calls) with [la; lb; lc]. split; [repeat apply Forall_cons; try apply Forall_nil; cbn; lia|right; reflexivity]. }
  split; [reflexivity|]. vm_compute. reflexivity.
Qed.

Lemma C91_failing_witness :
  match mt_run sha256 Debug FaultyMMap sum_calls (mt_new ([NoFault; NoFault; FaultLost], smap_new)) with
  | (t, Val (Err None)) => sum_disk_ok 3 (Build_MTree (snd (mt_storage t)) (mt_head t))
  | _ => false end = true /\
  match mt_run sha256 Debug FaultyMMap sum_calls (mt_new ([NoFault; NoFault; Fault], smap_new)) with
  | (t, Val (Err None)) => sum_disk_ok 2 (Build_MTree (snd (mt_storage t)) (mt_head t))
  | _ => false end = true.
Proof. split; vm_compute; reflexivity. Qed.

Lemma C91_tree_witness : subtree [la; lb; lc] [la; lb] /\ subtree [la; lb; lc] [lc] /\ ~ subtree [la; lb; lc] [lb; lc] /\
  ~ has_collision sha256 (prefix_inputs sha256 wrapped_fee (pushed sum_calls)).
Proof.
  split; [apply subtree_left; [cbn; lia|apply subtree_self]|].
  split; [apply subtree_right; [cbn; lia|apply subtree_self]|].
  split.
  - intros T. apply (C91_tree_lemma [la; lb; lc] [lb; lc]) in T; [|discriminate]. cbn in T.
    repeat destruct T as [T|T]; try discriminate T. exact T.
  - apply no_collisions_ok. vm_compute. reflexivity.
Qed.
