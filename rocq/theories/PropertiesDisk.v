(** PropertiesDisk.v -- property theorems about the exact content of the storage of a sparse tree. *)
From Verif Require Import Base Sha256 Storage ModelCommon ModelSparse SpecBits SpecBinary SpecSparse SpecAnyRun SpecDisk RunsSparse
  SparseDisk WitnessSparse WitnessStore WitnessLost WitnessDisk.

(** Any updates and deletes: the map and the content of the storage are those of the replay. *)
Theorem C89_storage_exact : forall H pr St E (st : StorageT St bytes32 SPrimitive E) view,
  Lawful st view ->
  forall os s0, (forall k, view s0 k = None) -> hash_ok H (map op_key os) (trail H nothing os) ->
  exists t r, sp_run H pr st os (sp_new s0) = (t, Val r) /\
    ((r = Ok tt /\ sp_root H t = kv_root H (fst (replay H os)) /\ forall k, view (sp_storage t) k = snd (replay H os) k) \/
     (exists e, r = Err e /\ storage_error e /\ ~ Infallible st)).
Proof. exact @C89_lemma. Qed.
Print Assumptions C89_storage_exact.

(** Where deletes only target keys that are present or were never written, the replayed map is
    the map of the calls. *)
Theorem C89_clean : forall H os, clean [] [] os -> hash_ok H (map op_key os) (maps [] os) ->
  fst (replay H os) = final os /\ trail H nothing os = maps [] os.
Proof. exact @C89_clean_lemma. Qed.
Print Assumptions C89_clean.

Example C89_example : hash_ok sha256 (map op_key twice) (trail sha256 nothing twice) /\
  fst (replay sha256 twice) = [] /\
  match sp_run sha256 Debug SStorageMap twice (sp_new smap_new) with
  | (t, Val (Ok tt)) =>
      let d := snd (replay sha256 twice) in
      forallb (fun k => agrees (sview (sp_storage t) k) (d k)) [kA; kB; hA; hB; two_root; zero32] &&
      agrees (d kA) (Some (0, x00, kA, sha256 va)) && agrees (d kB) (Some (0, x00, kB, sha256 vb)) &&
      agrees (d hA) None && agrees (d hB) None && agrees (d two_root) None
  | _ => false end = true.
Proof. exact C89_witness. Qed.

(** C90 as stated is false: keys and nodes stay in the storage of an emptied tree. *)
Theorem C90_nothing_left_refuted : exists os t k n, clean [] [] os /\ final os = [] /\
  hash_ok sha256 (map op_key os) (maps [] os) /\
  sp_run sha256 Debug SStorageMap os (sp_new smap_new) = (t, Val (Ok tt)) /\ sp_root sha256 t = zero32 /\
  In (Delete k) os /\ sview (sp_storage t) k <> None /\
  In n (map (fun m => kv_root sha256 m) (maps [] os)) /\ n <> zero32 /\ sview (sp_storage t) n <> None.
Proof. exact C90_refuted_lemma. Qed.
Print Assumptions C90_nothing_left_refuted.

(** What holds: under a key there is the leaf of its last update, deleted or not; everything
    else is a node of a tree passed through, under its hash. *)
Theorem C90_nothing_left_partial : forall H pr St E (st : StorageT St bytes32 SPrimitive E) view, Lawful st view ->
  forall os s0 t, (forall k, view s0 k = None) -> clean [] [] os -> hash_ok H (map op_key os) (maps [] os) ->
  sp_run H pr st os (sp_new s0) = (t, Val (Ok tt)) ->
  (forall k, In k (map op_key os) ->
     view (sp_storage t) k = match last_write k os with Some v => Some (0, x00, k, H v) | None => None end) /\
  (forall h e, ~ In h (map op_key os) -> view (sp_storage t) h = Some e ->
     exists m k, In m (maps [] os) /\ In (h, Some e) (path_in H k m)).
Proof. exact @C90_lemma. Qed.
Print Assumptions C90_nothing_left_partial.

Example C90_example : clean [] [] gone /\ hash_ok sha256 (map op_key gone) (maps [] gone) /\
  last_write kA gone = Some vc /\ last_write kD gone = None /\
  match sp_run sha256 Debug SStorageMap gone (sp_new smap_new) with
  | (t, Val (Ok tt)) => agrees (Some (0, x00, kA, sha256 vc)) (sview (sp_storage t) kA)
  | _ => false end = true.
Proof. exact C90_witness. Qed.
