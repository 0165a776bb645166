(** WitnessPart.v -- concrete updates on a storage with the paths of two keys only. *)
From Verif Require Import Base Sha256 Storage ModelCommon ModelSparse SpecBits SpecBinary SpecSparse SpecAnyRun SpecDisk SpecPart
  RunsSparse SparseTheorems WitnessSparse WitnessShort WitnessNeed.

Definition near_list (k : bytes32) (l : list (bytes32 * bytes32)) : list bytes32 :=
  flat_map (fun d => flat_map (fun b : bool =>
    match agree d k l with
    | _ :: _ :: _ => match with_bit d b (agree d k l) with [] => [] | x => [smt sha256 (256 - S d) (S d) x] end
    | _ => []
    end) [true; false]) (seq 0 256).
Lemma near_list_ok : forall k l h, near_path sha256 k l h -> In h (near_list k l).
Proof.
  intros k l h (d & b & Ld & L2 & NE & Eh). unfold near_list. apply in_flat_map. exists d. split.
  - apply in_seq. split; [apply Nat.le_0_l|exact Ld].
  - apply in_flat_map. exists b. split; [destruct b; [left|right; left]; reflexivity|].
    destruct (agree d k l) as [|x [|y r]]; [apply PeanoNat.Nat.nle_succ_0 in L2; destruct L2|apply le_S_n, PeanoNat.Nat.nle_succ_0 in L2; destruct L2|].
    destruct (with_bit d b (x :: y :: r)); [contradiction|]. left. symmetry. exact Eh.
Qed.
Definition has_pathb (k : bytes32) (m : kvmap) (v : bytes32 -> option SPrimitive) : bool :=
  forallb (fun h => match v h with Some _ => true | None => false end) (kv_root sha256 m :: near_list k (digests sha256 m)).
Lemma has_pathb_ok : forall k m v, has_pathb k m v = true -> has_path sha256 k m v.
Proof.
  intros k m v Q. unfold has_pathb in Q. rewrite forallb_forall in Q. split.
  - intros _ Z. specialize (Q _ (or_introl eq_refl)). rewrite Z in Q. discriminate.
  - intros h N Z. specialize (Q h (or_intror (near_list_ok _ _ _ N))). rewrite Z in Q. discriminate.
Qed.

(** The second key gets a new value, a new key comes beside it, and the second key its old value
    again.  The leaves of the two other keys and the entries of all keys are lost. *)
Definition later : list sp_op := [Update kB vd; Update kD va; Update kB vb].
Definition part_maps : list kvmap := trail sha256 nothing first_three ++ maps (fst (replay sha256 first_three)) later.
Definition part_table : table := Eval vm_compute in table_for part_maps [].
Lemma part_ok : hash_ok sha256 (map op_key (first_three ++ later)) part_maps.
Proof. apply (listed_ok part_table); vm_compute; reflexivity. Qed.
Definition leafB : bytes32 := Eval vm_compute in sha256 (smt_leaf_input kB (sha256 vb)).
Definition part_of (hs : list bytes32) : list (bytes32 * SPrimitive) :=
  fold_left (smap_erase b32_eqb) hs (sp_storage (fst (sp_run sha256 Debug SStorageMap first_three (sp_new smap_new)))).
Definition part : list (bytes32 * SPrimitive) := part_of [leafA; leafC; kA; kB; kC].
Definition later_on (s : list (bytes32 * SPrimitive)) : option (result (SError Empty_set) unit * bool) :=
  match sp_run sha256 Debug SStorageMap first_three (sp_new smap_new) with
  | (t, Val (Ok tt)) =>
      match sp_run sha256 Debug SStorageMap later (Build_SpTree (sp_root_node t) s) with
      | (t', Val r) => Some (r, b32_eqb (sp_root sha256 t') (kv_root sha256 (fold_left apply_op later (final first_three))))
      | _ => None
      end
  | _ => None
  end.
Lemma C116_witness :
  hash_ok sha256 (map op_key (first_three ++ later)) (trail sha256 nothing first_three ++ maps (fst (replay sha256 first_three)) later) /\
  (forall o, In o later -> has_path sha256 (op_key o) (fst (replay sha256 first_three)) (sview part)) /\
  (sview part leafA = None /\ sview part leafC = None /\ sview part kA = None) /\
  later_on part = Some (Ok tt, true) /\
  later_on (part_of [leafB]) = Some (Err (SChildErr (ChildNotFound leafB)), false).
Proof.
  split; [exact part_ok|]. split.
  - intros o [<-|[<-|[<-|[]]]]; apply has_pathb_ok; vm_compute; reflexivity.
  - split; [split; [vm_compute; reflexivity|]; split; vm_compute; reflexivity|]. split; vm_compute; reflexivity.
Qed.

Definition loaded_later : option (bool * result (SError Empty_set) unit * bool) :=
  match sp_load SStorageMap (kv_root sha256 (final first_three)) part with
  | (_, Val (Ok t)) =>
      match sp_run sha256 Debug SStorageMap later t with
      | (t', Val r) => Some (b32_eqb (sp_root sha256 t) (kv_root sha256 (final first_three)), r,
                             b32_eqb (sp_root sha256 t') (kv_root sha256 (fold_left apply_op later (final first_three))))
      | _ => None
      end
  | _ => None
  end.
Lemma C116_load_witness : fst (replay sha256 first_three) = final first_three /\ loaded_later = Some (true, Ok tt, true).
Proof. split; [apply kv_eqb_eq; vm_compute; reflexivity|vm_compute; reflexivity]. Qed.
