(** WitnessCrowd.v -- concrete cases of sparse tree objects at work on one storage at the same time. *)
From Verif Require Import Base Sha256 Storage ModelCommon ModelSparse SpecBits SpecBinary SpecSparse SpecForks SpecShared RunsSparse RunsForks RunsCrowd
  StorageProofs WitnessSparse WitnessShared.

(** Two objects, one with the key A and one with the key C, get the key B in turns; the first state
    of the first one is opened again; the second one deletes C, the first one changes A. *)
Definition in_turns : list (nat * option sp_op) :=
  [(9%nat, Some (Update kA va)); (9%nat, Some (Update kC vc)); (0%nat, Some (Update kB vb)); (1%nat, Some (Update kB vb));
   (0%nat, None); (3%nat, Some (Delete kC)); (2%nat, Some (Update kA vc))].
Lemma C106_witness : fair sha256 [] [] (map one_call in_turns) (fine (map one_call in_turns)) /\
  hash_ok sha256 (act_keys (map one_call in_turns)) (trunk [] (map one_call in_turns)) /\
  versions [] (map one_call in_turns) =
    [[(kA, va)]; [(kC, vc)]; [(kB, vb); (kA, va)]; [(kB, vb); (kC, vc)]; [(kA, va)]; [(kB, vb)]; [(kA, vc); (kB, vb)]] /\
  usable sha256 [] (map one_call in_turns) =
    [Some [(kA, va)]; None; Some [(kB, vb); (kA, va)]; None; Some [(kA, va)]; Some [(kB, vb)]; Some [(kA, vc); (kB, vb)]].
Proof.
  split; [apply fairb_ok; vm_compute; reflexivity|]. split; [apply (listed_ok _ _ _ digests_used_ok); vm_compute; reflexivity|].
  split; vm_compute; reflexivity.
Qed.

(** A delete of one object fails although the storage carried it out; the other object goes on. *)
Definition disturbed : list (nat * option sp_op) :=
  [(9%nat, Some (Update kA va)); (9%nat, Some (Update kC vc)); (0%nat, Some (Update kB vb)); (1%nat, Some (Delete kC)); (2%nat, Some (Update kA vc))].
Definition late_fault : list fault := repeat NoFault 8 ++ [FaultLost].
Lemma C106_failing_witness : exists s' rs r5,
  crowd sha256 Debug FaultySMap [] disturbed (late_fault, smap_new) = (s', Val rs) /\
  fair sha256 [] [] (map one_call disturbed) rs /\
  hash_ok sha256 (act_keys (map one_call disturbed)) (passed [] (map one_call disturbed) rs) /\
  map is_ok rs = [true; true; true; false; true] /\ nth_error rs 4 = Some (Ok r5) /\ r5 = kv_root sha256 [(kA, vc); (kB, vb)].
Proof.
  assert (A : exists s' rs (r5 : bytes32), crowd sha256 Debug FaultySMap [] disturbed (late_fault, smap_new) = (s', Val rs) /\
    fairb sha256 [] [] (map one_call disturbed) rs = true /\
    listed digests_used (act_keys (map one_call disturbed)) (passed [] (map one_call disturbed) rs) = true /\
    map is_ok rs = [true; true; true; false; true] /\ nth_error rs 4 = Some (Ok r5) /\ b32_eqb r5 (kv_root sha256 [(kA, vc); (kB, vb)]) = true).
  { eexists _, _, _; (split; [vm_compute; reflexivity|]); repeat (split; [vm_compute; reflexivity|]); vm_compute; reflexivity. }
  destruct A as (s' & rs & r5 & R & F & Ho & Q & N & Q5). apply b32_eqb_eq in Q5. exists s', rs, r5.
  split; [exact R|]. split; [apply fairb_ok; exact F|]. split; [apply (listed_ok _ _ _ digests_used_ok); exact Ho|]. auto.
Qed.

(** Fair whichever of the calls fail. *)
Definition steady : list (nat * option sp_op) :=
  [(9%nat, Some (Update kA va)); (9%nat, Some (Update kC vc)); (0%nat, Some (Update kB vb)); (0%nat, None)].
Lemma C106_steady_witness : (forall rs : list (result unit unit), length rs = length steady -> fair sha256 [] [] (map one_call steady) rs) /\
  hash_ok sha256 (act_keys (map one_call steady)) (branches [] (map one_call steady)).
Proof.
  split; [|apply (listed_ok _ _ _ digests_used_ok); vm_compute; reflexivity]. intros rs Lr.
  destruct rs as [|r0 [|r1 [|r2 [|r3 [|]]]]]; try discriminate Lr.
  apply fairb_ok. destruct r0, r1, r2, r3; vm_compute; reflexivity.
Qed.
