(** WitnessCalls.v -- concrete calls of trees to their storage. *)
From Verif Require Import Base Sha256 Storage ModelCommon ModelSparse ModelBinary SpecBits SpecBinary SpecPosition SpecSparse SpecAnyRun
  SpecDisk SpecCalls Runs RunsSparse SparseTheorems WitnessBinary WitnessSparse WitnessStore WitnessAny WitnessLost WitnessDisk.

Definition scall_eqb (a b : scall) : bool :=
  match a, b with
  | Get k, Get k' | Del k, Del k' => b32_eqb k k'
  | Put k v, Put k' v' => b32_eqb k k' && agrees (Some v) (Some v')
  | _, _ => false
  end.
Fixpoint scalls_eqb (a b : list scall) : bool :=
  match a, b with
  | [], [] => true
  | x :: a', y :: b' => scall_eqb x y && scalls_eqb a' b'
  | _, _ => false
  end.
Definition smooth {K V X} (l : list (event K V X)) : bool :=
  forallb (fun e => match snd e with None => true | Some _ => false end) l.

(** Two updates, two deletes of the second key: twelve calls. *)
Definition twice_calls : list scall :=
  let a := (0, x00, kA, sha256 va) in let b := (0, x00, kB, sha256 vb) in
  [Put hA a; Put kA a;
   Put hB b; Put kB b; Put two_root (256, x01, hA, hB);
   Get kB; Get hB; Get hA; Del hB; Del two_root;
   Get kB; Del hA].
Lemma C96_witness : hash_ok sha256 (map op_key twice) (trail sha256 nothing twice) /\
  scalls_eqb (script sha256 nothing twice) twice_calls = true /\
  match sp_run sha256 Debug (Logged SStorageMap) twice (sp_new ([], smap_new)) with
  | (t, Val (Ok tt)) => scalls_eqb (map fst (fst (sp_storage t))) twice_calls && smooth (fst (sp_storage t))
  | _ => false end = true.
Proof.
  split; [apply (within_ok _ _ _ _ twice_ok); vm_compute; reflexivity|]. split; vm_compute; reflexivity.
Qed.
(** The read of the first child fails: the other child is read, nothing is written. *)
Lemma C96_fault_witness : Lawful FaultySMap fsview /\
  match sp_run sha256 Debug (Logged FaultySMap) twice (sp_new ([], (ok 6 ++ [Fault], smap_new))) with
  | (t, Val (Err (SChildErr (ChildErr (SNStorageError None))))) =>
      scalls_eqb (map fst (fst (sp_storage t))) (firstn 8 twice_calls) && smooth (firstn 6 (fst (sp_storage t))) &&
      match map snd (skipn 6 (fst (sp_storage t))) with [Some None; None] => true | _ => false end
  | _ => false end = true.
Proof. split; [exact FaultySMap_lawful|]. vm_compute. reflexivity. Qed.

(** Seven leaves; the third join fails. *)
Lemma C97_push_witness :
  map (fun c => match c with Put k _ => k | _ => -1 end) (push_scripts sha256 [] leaves7) = [0; 2; 1; 4; 6; 5; 3; 8; 10; 9; 12] /\
  (let '(t, r) := bt_push_all sha256 Debug (Logged FaultyMap) leaves7 (bt_new ([], (ok 6 ++ [Fault], smap_new))) in
   r = Val (Err (BStorageError None)) /\
   map (fun x => (match fst x with Put k _ => k | _ => -1 end, snd x)) (fst (bt_storage t)) =
     [(0, None); (2, None); (1, None); (4, None); (6, None); (5, None); (3, Some None)]).
Proof. split; [vm_compute; reflexivity|]. vm_compute. split; reflexivity. Qed.

(** The seven leaves loaded; the same from a storage that lost the second peak. *)
Definition loaded (L : list (event Z BPrimitive Empty_set)) (s : Scratch) : list (event Z BPrimitive Empty_set) :=
  fst (fst (bt_load Debug (Logged BStorageMap) 7 (L, s))).
Lemma C97_load_witness :
  load_script 7 = [Get 3; Get 9; Get 12] /\
  loaded [] (bt_storage (tree leaves7)) = map done (load_script 7) /\
  loaded [] (fst (smap_remove Z.eqb 9 (bt_storage (tree leaves7)))) = [done (Get 3); done (Get 9)].
Proof. split; [reflexivity|]. split; vm_compute; reflexivity. Qed.

(** A proof of leaf 3; the same where the block of the first two leaves is lost; the node 11
    over the last three leaves is not in the storage but asked for. *)
Definition proved (s : Scratch) : list (event Z BPrimitive Empty_set) :=
  fst (bt_storage (fst (bt_prove sha256 Debug (Logged BStorageMap) 3 (Build_BTree ([], s) (bt_head (tree leaves7)) 7)))).
Lemma C97_prove_witness :
  prove_script 7 3 = [Get 6; Get 4; Get 1; Get 11] /\ prove_script 7 6 = [Get 12; Get 9; Get 3] /\
  proved (bt_storage (tree leaves7)) = map done (prove_script 7 3) /\
  proved (fst (smap_remove Z.eqb 1 (bt_storage (tree leaves7)))) = [done (Get 6); done (Get 4); done (Get 1)] /\
  match bt_push_all sha256 Debug (Logged BStorageMap) leaves7 (bt_new ([], smap_new)) with
  | (t, Val (Ok tt)) => bt_leaves_count t =? 7 | _ => false end = true.
Proof. repeat split; vm_compute; reflexivity. Qed.
