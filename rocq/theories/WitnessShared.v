(** WitnessShared.v -- concrete cases for the theorems of PropertiesShared.v. *)
From Verif Require Import Base Sha256 Storage ModelCommon ModelSparse SpecBinary SpecSparse SpecForks SpecShared RunsSparse RunsForks
  StorageProofs WitnessSparse.

Fixpoint fairb {A B} (H : list byte -> bytes32) (vs : list (option kvmap)) (w : list bytes32) (acts : list (nat * list sp_op))
  (rs : list (result A B)) : bool :=
  match acts, rs with
  | (i, os) :: acts', r :: rs' =>
      match nth i vs (Some []) with
      | Some m => cleanb m w os &&
          fairb H (map (spoil H m os) vs ++ match r with Ok _ => [Some (fold_left apply_op os m)] | Err _ => [] end)
            (written os ++ w) acts' rs'
      | None => false
      end
  | _, _ => true
  end.
Lemma fairb_ok : forall A B H acts vs w (rs : list (result A B)), fairb H vs w acts rs = true -> fair H vs w acts rs.
Proof.
  induction acts as [|[i os] acts IH]; intros vs w rs Q; [exact Logic.I|]. destruct rs as [|r rs]; [exact Logic.I|].
  cbn [fairb fair] in *. destruct (nth i vs (Some [])) as [m|]; [|discriminate]. apply andb_true_iff in Q. destruct Q as [Q1 Q2].
  exists m. split; [reflexivity|]. split; [apply cleanb_ok; exact Q1|]. apply IH. exact Q2.
Qed.

(** All maps of the cases below. *)
Definition shared_maps : list kvmap :=
  [[]; [(kA, va)]; [(kA, vc)]; [(kB, vb)]; [(kC, vc)]; [(kB, vb); (kA, va)]; [(kA, vc); (kB, vb)]; [(kC, vc); (kB, vb)];
   [(kC, vc); (kB, vb); (kA, va)]].
Lemma shared_ok : hash_ok sha256 [kA; kB; kC] shared_maps.
Proof. apply (listed_ok _ _ _ digests_used_ok). vm_compute. reflexivity. Qed.

(** Two entries; then the first one changed; then deleted from the changed map.  The first version
    is still usable, the second one is not. *)
Definition pruned : list (nat * list sp_op) :=
  [(9%nat, [Update kA va; Update kB vb]); (0%nat, [Update kA vc]); (1%nat, [Delete kA]); (0%nat, [Update kC vc])].

Lemma C103_pruned_witness : fair sha256 [] [] pruned (fine pruned) /\
  hash_ok sha256 (act_keys pruned) (trunk [] pruned) /\
  versions [] pruned = [[(kB, vb); (kA, va)]; [(kA, vc); (kB, vb)]; [(kB, vb)]; [(kC, vc); (kB, vb); (kA, va)]] /\
  usable sha256 [] pruned = [Some [(kB, vb); (kA, va)]; None; Some [(kB, vb)]; Some [(kC, vc); (kB, vb); (kA, va)]].
Proof.
  split; [apply fairb_ok; vm_compute; reflexivity|]. split; [apply (within_ok _ _ _ _ shared_ok); vm_compute; reflexivity|].
  split; vm_compute; reflexivity.
Qed.

(** Now the entry is deleted from the first version as well: the last one has it too. *)
Lemma C103_spoiled_witness : fair sha256 [] [] pruned (fine pruned) /\
  In (Some [(kB, vb); (kA, va)]) (usable sha256 [] pruned) /\ In kA (keys [(kB, vb); (kA, va)]) /\
  hash_ok sha256 (kA :: act_keys pruned) (mdel kA [(kB, vb); (kA, va)] :: trunk [] pruned) /\
  shared sha256 kA [(kB, vb); (kA, va)] [(kC, vc); (kB, vb); (kA, va)] = true.
Proof.
  split; [exact (proj1 C103_pruned_witness)|]. split; [rewrite (proj2 (proj2 (proj2 C103_pruned_witness))); left; reflexivity|].
  split; [right; left; reflexivity|]. split; [apply (within_ok _ _ _ _ shared_ok); vm_compute; reflexivity|]. vm_compute. reflexivity.
Qed.

(** A delete fails although the storage carried it out: the version it started from is lost, the
    other one is not. *)
Definition broken : list (nat * list sp_op) :=
  [(9%nat, [Update kA va]); (0%nat, [Update kA vc]); (1%nat, [Delete kA]); (0%nat, [Update kB vb])].
Definition lost_answer : list fault := [NoFault; NoFault; NoFault; NoFault; NoFault; NoFault; NoFault; FaultLost].

Lemma C103_broken_witness : exists s' rs r4,
  sessions sha256 Debug FaultySMap [] broken (lost_answer, smap_new) = (s', Val rs) /\
  fair sha256 [] [] broken rs /\ hash_ok sha256 (act_keys broken) (passed [] broken rs) /\
  map is_ok rs = [true; true; false; true] /\ nth_error rs 3 = Some (Ok r4) /\ r4 = kv_root sha256 [(kB, vb); (kA, va)].
Proof.
  assert (A : exists s' rs (r4 : bytes32), sessions sha256 Debug FaultySMap [] broken (lost_answer, smap_new) = (s', Val rs) /\
    fairb sha256 [] [] broken rs = true /\ within [kA; kB; kC] (act_keys broken) shared_maps (passed [] broken rs) = true /\
    map is_ok rs = [true; true; false; true] /\ nth_error rs 3 = Some (Ok r4) /\ b32_eqb r4 (kv_root sha256 [(kB, vb); (kA, va)]) = true).
  { eexists _, _, _; (split; [vm_compute; reflexivity|]); repeat (split; [vm_compute; reflexivity|]); vm_compute; reflexivity. }
  destruct A as (s' & rs & r4 & R & F & Ho & Q & N & Q4). apply b32_eqb_eq in Q4. exists s', rs, r4.
  split; [exact R|]. split; [apply fairb_ok; exact F|]. split; [apply (within_ok _ _ _ _ shared_ok); exact Ho|]. auto.
Qed.

(** Fair whichever of the sessions fail. *)
Definition sturdy : list (nat * list sp_op) :=
  [(9%nat, [Update kA va; Update kB vb; Delete kA]); (0%nat, [Update kC vc; Delete kC])].
Lemma C103_sturdy_witness : (forall rs : list (result unit unit), length rs = length sturdy -> fair sha256 [] [] sturdy rs) /\
  hash_ok sha256 (act_keys sturdy) (branches [] sturdy).
Proof.
  split; [|apply (within_ok _ _ _ _ shared_ok); vm_compute; reflexivity]. intros rs Lr. destruct rs as [|r0 [|r1 [|]]]; try discriminate Lr.
  apply fairb_ok. destruct r0, r1; vm_compute; reflexivity.
Qed.
