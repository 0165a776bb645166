(** PropertiesCalls.v -- property theorems about the calls trees make to their storage. *)
From Verif Require Import Base Sha256 Storage ModelCommon ModelSparse ModelBinary SpecBits SpecBinary SpecPosition SpecSparse SpecAnyRun
  SpecDisk SpecCalls Runs RunsSparse SparseCalls BinaryCalls WitnessBinary WitnessSparse WitnessStore WitnessLost WitnessDisk WitnessCalls.

(** The sparse tree: the calls of the script, in order, each once; if one fails, those up to
    it, reads of the walk that were under way, and nothing else. *)
Theorem C96_sparse_calls : forall H pr St E (st : StorageT St bytes32 SPrimitive E) view, Lawful st view ->
  forall os s0, (forall k, view s0 k = None) -> hash_ok H (map op_key os) (trail H nothing os) ->
  exists t r, sp_run H pr (Logged st) os (sp_new ([], s0)) = (t, Val r) /\
    ((r = Ok tt /\ fst (sp_storage t) = map done (script H nothing os)) \/
     (exists before o rest l, os = before ++ o :: rest /\
        fst (sp_storage t) = map done (script H nothing before) ++ l /\
        sparse_stop (script_op H (replay H before) o) l r)).
Proof. exact @C96_lemma. Qed.
Print Assumptions C96_sparse_calls.

Example C96_example : hash_ok sha256 (map op_key twice) (trail sha256 nothing twice) /\
  scalls_eqb (script sha256 nothing twice) twice_calls = true /\
  match sp_run sha256 Debug (Logged SStorageMap) twice (sp_new ([], smap_new)) with
  | (t, Val (Ok tt)) => scalls_eqb (map fst (fst (sp_storage t))) twice_calls && smooth (fst (sp_storage t))
  | _ => false end = true.
Proof. exact C96_witness. Qed.

Example C96_fault_example : Lawful FaultySMap fsview /\
  match sp_run sha256 Debug (Logged FaultySMap) twice (sp_new ([], (ok 6 ++ [Fault], smap_new))) with
  | (t, Val (Err (SChildErr (ChildErr (SNStorageError None))))) =>
      scalls_eqb (map fst (fst (sp_storage t))) (firstn 8 twice_calls) && smooth (firstn 6 (fst (sp_storage t))) &&
      match map snd (skipn 6 (fst (sp_storage t))) with [Some None; None] => true | _ => false end
  | _ => false end = true.
Proof. exact C96_fault_witness. Qed.

(** Pushes on any storage, lawful or not. *)
Theorem C97_push_calls : forall pr St E (st : StorageT St Z BPrimitive E) H ds s0, Z.of_nat (length ds) <= 2 ^ 63 ->
  exists t r, bt_push_all H pr (Logged st) ds (bt_new ([], s0)) = (t, Val r) /\
    ((r = Ok tt /\ fst (bt_storage t) = map done (push_scripts H [] ds)) \/
     (exists before d rest l e, ds = before ++ d :: rest /\ r = Err (BStorageError e) /\
        fst (bt_storage t) = map done (push_scripts H [] before) ++ l /\ stopped (push_script H before d) l e)).
Proof. exact @C97_push_lemma. Qed.
Print Assumptions C97_push_calls.

Example C97_push_example :
  map (fun c => match c with Put k _ => k | _ => -1 end) (push_scripts sha256 [] leaves7) = [0; 2; 1; 4; 6; 5; 3; 8; 10; 9; 12] /\
  (let '(t, r) := bt_push_all sha256 Debug (Logged FaultyMap) leaves7 (bt_new ([], (ok 6 ++ [Fault], smap_new))) in
   r = Val (Err (BStorageError None)) /\
   map (fun x => (match fst x with Put k _ => k | _ => -1 end, snd x)) (fst (bt_storage t)) =
     [(0, None); (2, None); (1, None); (4, None); (6, None); (5, None); (3, Some None)]).
Proof. exact C97_push_witness. Qed.

(** Loads from any storage. *)
Theorem C97_load_calls : forall pr St E (st : StorageT St Z BPrimitive E) n L s, Z.of_nat n < leaf_limit pr ->
  exists s' r l, bt_load pr (Logged st) (Z.of_nat n) (L, s) = ((L ++ l, s'), Val r) /\
    ((exists t, r = Ok t /\ l = map done (load_script n)) \/
     (exists e, r = Err (BStorageError e) /\ stopped (load_script n) l e) \/
     (exists before k, r = Err (BLoadError k) /\ missed (load_script n) l before k)).
Proof. exact @C97_load_lemma. Qed.
Print Assumptions C97_load_calls.

Example C97_load_example :
  load_script 7 = [Get 3; Get 9; Get 12] /\
  loaded [] (bt_storage (tree leaves7)) = map done (load_script 7) /\
  loaded [] (fst (smap_remove Z.eqb 9 (bt_storage (tree leaves7)))) = [done (Get 3); done (Get 9)].
Proof. exact C97_load_witness. Qed.

(** Proofs on a tree built by pushes, whatever has become of its storage since. *)
Theorem C97_prove_calls : forall pr St E (st : StorageT St Z BPrimitive E) H ds s0 t i, Z.of_nat (length ds) < leaf_limit pr ->
  bt_push_all H pr (Logged st) ds (bt_new ([], s0)) = (t, Val (Ok tt)) -> (i < length ds)%nat ->
  forall L s, let u := Build_BTree (L, s) (bt_head t) (bt_leaves_count t) in
  exists s' r l, bt_prove H pr (Logged st) (Z.of_nat i) u = (Build_BTree (L ++ l, s') (bt_head t) (bt_leaves_count t), Val r) /\
    ((exists x, r = Ok x /\ l = map done (prove_script (length ds) i)) \/
     (exists e, r = Err (BStorageError e) /\ stopped (prove_script (length ds) i) l e) \/
     (exists before k, r = Err (BLoadError (match before with [] => Z.of_nat i | _ => k end)) /\
        missed (prove_script (length ds) i) l before k)).
Proof. exact @C97_prove_lemma. Qed.
Print Assumptions C97_prove_calls.

Example C97_prove_example :
  prove_script 7 3 = [Get 6; Get 4; Get 1; Get 11] /\ prove_script 7 6 = [Get 12; Get 9; Get 3] /\
  proved (bt_storage (tree leaves7)) = map done (prove_script 7 3) /\
  proved (fst (smap_remove Z.eqb 1 (bt_storage (tree leaves7)))) = [done (Get 6); done (Get 4); done (Get 1)] /\
  match bt_push_all sha256 Debug (Logged BStorageMap) leaves7 (bt_new ([], smap_new)) with
  | (t, Val (Ok tt)) => bt_leaves_count t =? 7 | _ => false end = true.
Proof. exact C97_prove_witness. Qed.
