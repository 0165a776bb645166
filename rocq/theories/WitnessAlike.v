(** WitnessAlike.v -- storages that are different but answer alike. *)
From Verif Require Import Base Sha256 Storage ModelCommon ModelBinary ModelSparse ModelSum SpecSum SpecSparse SpecCount SpecAlike RunsCalls RunsSparse
  WitnessBinary WitnessSparse.

(** A storage that forgets the previous value of a write. *)
Definition mute {S E V} (x : S * result E (option V)) : S * result E (option V) :=
  (fst x, match snd x with Ok _ => Ok None | Err e => Err e end).
Definition Mute {S K V E} (st : StorageT S K V E) : StorageT S K V E :=
  {| s_get := s_get st; s_insert := fun k v s => mute (s_insert st k v s); s_remove := fun k s => mute (s_remove st k s) |}.

(** The same storage with its calls counted and its write answers muted. *)
Definition same_inner {S} (cs : counts * S) (s : S) : Prop := snd cs = s.

Lemma counted_gets : forall S K V E (st : StorageT S K V E), gets_alike same_inner (Counted st) (Mute st).
Proof. intros S K V E st k [c s] s2 <-. cbn. destruct (s_get st k s). split; reflexivity. Qed.
Lemma counted_inserts : forall S K V E (st : StorageT S K V E), inserts_alike same_inner (Counted st) (Mute st).
Proof. intros S K V E st k v [c s] s2 <-. cbn. destruct (s_insert st k v s) as [s' [o|e]]; (split; [reflexivity|]); [exact I|reflexivity]. Qed.
Lemma counted_removes : forall S K V E (st : StorageT S K V E), removes_alike same_inner (Counted st) (Mute st).
Proof. intros S K V E st k [c s] s2 <-. cbn. destruct (s_remove st k s) as [s' [o|e]]; (split; [reflexivity|]); [exact I|reflexivity]. Qed.

Definition a_calls : list bt_call := [CPush [x01]; CPush [x02]; CRoot; CProve 0; CPush [x03]; CProve 7].
Definition a_script : list fault := [NoFault; FaultLost; NoFault; NoFault].
Definition b0 : faulty_state (S := Scratch) := (a_script, smap_new).
Lemma C77_binary_witness :
  gets_alike same_inner (Counted FaultyMap) (Mute FaultyMap) /\ inserts_alike same_inner (Counted FaultyMap) (Mute FaultyMap) /\
  bt_alike same_inner (bt_new (no_calls, b0)) (bt_new b0) /\
  match snd (bt_calls sha256 Debug (Mute FaultyMap) a_calls (bt_new b0)) with
  | Val [APush (Ok tt); APush (Err _); ARoot _; AProve (Ok (_, [_])); APush (Ok tt); AProve (Err _)] => true | _ => false end = true.
Proof.
  split; [apply counted_gets|]. split; [apply counted_inserts|]. split; [split; auto; split; reflexivity|]. vm_compute; reflexivity.
Qed.
Definition s0 : faulty_state (S := SScratch) := (fail_delete_script, smap_new).
Lemma C77_sparse_witness :
  gets_alike same_inner (Counted FaultySMap) (Mute FaultySMap) /\ inserts_alike same_inner (Counted FaultySMap) (Mute FaultySMap) /\
  removes_alike same_inner (Counted FaultySMap) (Mute FaultySMap) /\
  sp_alike same_inner (sp_new (no_calls, s0)) (sp_new s0) /\
  match snd (sp_run_all sha256 Debug (Mute FaultySMap) fail_delete (sp_new s0)) with
  | Val [Ok tt; Ok tt; Err _; Err _] => true | _ => false end = true.
Proof.
  split; [apply counted_gets|]. split; [apply counted_inserts|]. split; [apply counted_removes|]. split; [split; reflexivity|]. vm_compute; reflexivity.
Qed.
Definition MFaultyMap : StorageT (faulty_state (S := smap)) bytes32 MNode (option Empty_set) := Faulty (StorageMap b32_eqb).
Definition m0 : faulty_state (S := smap (K := bytes32) (V := MNode)) := (a_script, smap_new).
Lemma C77_sum_witness :
  inserts_alike same_inner (Counted MFaultyMap) (Mute MFaultyMap) /\
  mt_alike same_inner (mt_new (no_calls, m0)) (mt_new m0) /\
  match snd (mt_run_all sha256 Debug (Mute MFaultyMap) [Push (1, [x01]); Push (2, [x02]); Root; Push (3, [x03]); Root] (mt_new m0)) with
  | Val [Ok None; Err _; Ok (Some _); Ok None; Ok (Some _)] => true | _ => false end = true.
Proof.
  split; [apply counted_inserts|]. split; [split; reflexivity|]. vm_compute; reflexivity.
Qed.
