(** PropertiesOpen.v -- property theorems about sparse trees on one storage, opened from any root met before and used in turns. *)
From Verif Require Import Base Sha256 Storage ModelText ModelCommon ModelSparse SpecBits SpecBinary SpecSparse SpecAnyRun SpecLost SpecOpen RunsSparse RunsOpen
  OpenProofs WitnessSparse WitnessOpen.

(** Any calls, failures of the storage, losses of entries, new trees, loads of any root met before
    and returns to any tree met before, in any order.  Each root met is that of a map the answers allow ([explains]); the
    entries of these maps come from updates that answered Ok. *)
Theorem C104_roots_explained : forall H pr St E (st : StorageT St bytes32 SPrimitive E) view,
  Lawful st view ->
  forall s0 evs roots t, (forall k, view s0 k = None) -> open_run H pr st view [snode_placeholder] (sp_new s0) evs roots t ->
  hash_ok H (map op_key (calls_of evs)) (possible [] (calls_of evs)) ->
  (exists ms, explains false [] [[]] [] evs ms /\ roots = map (kv_root H) ms /\
     forall m k v, In m ms -> In (k, v) m -> In (Called (Update k v) (Ok tt)) evs) /\
  (forall o e, In (Called o (Err e)) evs -> (storage_error e /\ ~ Infallible st) \/ exists h, e = SChildErr (ChildNotFound h)) /\
  (forall j e, In (Opened j (Err e)) evs -> (exists e', e = SStorageError e' /\ ~ Infallible st) \/ exists r, e = SLoadError (hex_encode (b32 r))).
Proof. exact @C104_lemma. Qed.
Print Assumptions C104_roots_explained.

(** The next call, and the next load of any root met, answer too; an error other than one of the
    storage names a node that is missing. *)
Theorem C104_next_answers : forall H pr St E (st : StorageT St bytes32 SPrimitive E) view,
  Lawful st view ->
  forall s0 evs roots t, (forall k, view s0 k = None) -> open_run H pr st view [snode_placeholder] (sp_new s0) evs roots t ->
  (forall o, hash_ok H (map op_key (calls_of evs ++ [o])) (possible [] (calls_of evs ++ [o])) ->
     exists t' r, sp_apply H pr st o t = (t', Val r) /\
       (r = Ok tt \/ (exists e, r = Err e /\ storage_error e /\ ~ Infallible st) \/
        exists h, r = Err (SChildErr (ChildNotFound h)) /\ view (sp_storage t) h = None)) /\
  (forall root, hash_ok H (map op_key (calls_of evs)) (possible [] (calls_of evs)) -> In root roots -> root <> zero32 ->
     exists s' r, sp_load st root (sp_storage t) = (s', Val r) /\
       ((exists t1, r = Ok t1 /\ sp_root H t1 = root) \/ (exists e, r = Err (SStorageError e) /\ ~ Infallible st) \/
        (r = Err (SLoadError (hex_encode (b32 root))) /\ view (sp_storage t) root = None))).
Proof. exact @C104_next_lemma. Qed.
Print Assumptions C104_next_answers.

(** Two trees; a delete on the first uses an entry of the second and removes another key; then a
    leaf is lost, a load is refused, an update answered and another one refused; then the second
    tree is used again. *)
Example C104_example : exists evs roots t,
  open_run sha256 Debug SStorageMap sview [snode_placeholder] (sp_new smap_new) evs roots t /\
  hash_ok sha256 (map op_key (calls_of evs)) (possible [] (calls_of evs)) /\
  map outline evs = [Some true; Some true; None; Some true; Some true; Some true; None; Some false; Some true; Some false; Some true; Some true] /\
  forallb (fun p => b32_eqb (fst p) (kv_root sha256 (snd p))) (combine roots twisted_maps) = true /\ length roots = length twisted_maps.
Proof. exact C104_witness. Qed.
