(** PropertiesAlike.v -- a tree sees its storage only through the answers it gets: on two storages
    that answer alike ([R] relates their states), trees that are alike give the same answers in
    every sequence of calls and stay alike.  No law of storages, no hash assumption. *)
From Verif Require Import Base Sha256 Storage ModelCommon ModelBinary ModelSparse ModelSum SpecSum SpecSparse SpecCount SpecAlike RunsCalls RunsSparse
  WitnessBinary WitnessSparse SparseSim TreeSim WitnessAlike.

(** The binary tree.  It never removes, so removes may differ. *)
Theorem C77_binary : forall H pr S1 S2 E (R : S1 -> S2 -> Prop)
  (st1 : StorageT S1 Z BPrimitive E) (st2 : StorageT S2 Z BPrimitive E),
  gets_alike R st1 st2 -> inserts_alike R st1 st2 ->
  (forall cs t1 t2, bt_alike R t1 t2 ->
     runs_alike (bt_alike R) (bt_calls H pr st1 cs t1) (bt_calls H pr st2 cs t2)) /\
  (forall n s1 s2, R s1 s2 -> loads_alike R (bt_alike R) (bt_load pr st1 n s1) (bt_load pr st2 n s2)).
Proof. exact @C77_binary_lemma. Qed.
Print Assumptions C77_binary.

Example C77_binary_example :
  gets_alike same_inner (Counted FaultyMap) (Mute FaultyMap) /\ inserts_alike same_inner (Counted FaultyMap) (Mute FaultyMap) /\
  bt_alike same_inner (bt_new (no_calls, b0)) (bt_new b0) /\
  match snd (bt_calls sha256 Debug (Mute FaultyMap) a_calls (bt_new b0)) with
  | Val [APush (Ok tt); APush (Err _); ARoot _; AProve (Ok (_, [_])); APush (Ok tt); AProve (Err _)] => true | _ => false end = true.
Proof. exact C77_binary_witness. Qed.

(** The sparse tree. *)
Theorem C77_sparse : forall H pr S1 S2 E (R : S1 -> S2 -> Prop)
  (st1 : StorageT S1 bytes32 SPrimitive E) (st2 : StorageT S2 bytes32 SPrimitive E),
  gets_alike R st1 st2 -> inserts_alike R st1 st2 -> removes_alike R st1 st2 ->
  (forall os t1 t2, sp_alike R t1 t2 ->
     runs_alike (sp_alike R) (sp_run_all H pr st1 os t1) (sp_run_all H pr st2 os t2)) /\
  (forall r s1 s2, R s1 s2 -> loads_alike R (sp_alike R) (sp_load st1 r s1) (sp_load st2 r s2)).
Proof. exact @C77_sparse_lemma. Qed.
Print Assumptions C77_sparse.

Example C77_sparse_example :
  gets_alike same_inner (Counted FaultySMap) (Mute FaultySMap) /\ inserts_alike same_inner (Counted FaultySMap) (Mute FaultySMap) /\
  removes_alike same_inner (Counted FaultySMap) (Mute FaultySMap) /\
  sp_alike same_inner (sp_new (no_calls, s0)) (sp_new s0) /\
  match snd (sp_run_all sha256 Debug (Mute FaultySMap) fail_delete (sp_new s0)) with
  | Val [Ok tt; Ok tt; Err _; Err _] => true | _ => false end = true.
Proof. exact C77_sparse_witness. Qed.

(** The sum tree.  It only ever inserts, so reads and removes may differ. *)
Theorem C77_sum : forall H pr S1 S2 E (R : S1 -> S2 -> Prop)
  (st1 : StorageT S1 bytes32 MNode E) (st2 : StorageT S2 bytes32 MNode E),
  inserts_alike R st1 st2 ->
  forall os t1 t2, mt_alike R t1 t2 ->
  runs_alike (mt_alike R) (mt_run_all H pr st1 os t1) (mt_run_all H pr st2 os t2).
Proof. exact @C77_sum_lemma. Qed.
Print Assumptions C77_sum.

Example C77_sum_example :
  inserts_alike same_inner (Counted MFaultyMap) (Mute MFaultyMap) /\
  mt_alike same_inner (mt_new (no_calls, m0)) (mt_new m0) /\
  match snd (mt_run_all sha256 Debug (Mute MFaultyMap) [Push (1, [x01]); Push (2, [x02]); Root; Push (3, [x03]); Root] (mt_new m0)) with
  | Val [Ok None; Err _; Ok (Some _); Ok None; Ok (Some _)] => true | _ => false end = true.
Proof. exact C77_sum_witness. Qed.
