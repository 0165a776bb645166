(** PropertiesProfile.v -- property theorems comparing builds.  C76: if every check of the build [c] is also
    made by the build [b], then on every input [b] panics or does exactly what [c] does (same
    answer, same state of tree and storage).  C99: builds making the same checks agree, whatever
    the width of usize. *)
From Verif Require Import Base Sha256 Storage ModelCommon ModelBinary ModelSparse ModelSum ModelVerify SpecSparse SpecSum Runs RunsSum RunsSparse
  WitnessBinary WitnessSparse WitnessSum SpecProfile ProfileProofs WidthProofs WitnessProfile.

(** Positions and the path iterators. *)
Theorem C76_positions : forall b c, at_least b c -> forall p q n d,
  out_refines (pos_from_leaf_index b p) (pos_from_leaf_index c p) /\
  out_refines (pos_sibling b p) (pos_sibling c p) /\
  out_refines (pos_parent b p) (pos_parent c p) /\
  out_refines (pos_uncle b p) (pos_uncle c p) /\
  out_refines (pos_child b p d) (pos_child c p d) /\
  out_refines (position_iter b p q) (position_iter c p q) /\
  out_refines (position_path b p q n) (position_path c p q n).
Proof. exact @C76_positions_lemma. Qed.
Print Assumptions C76_positions.

Example C76_positions_example : at_least Debug Release /\
  pos_sibling Debug (2 ^ 64 - 1) = Panic /\ pos_sibling Release (2 ^ 64 - 1) = Val (2 ^ 64 - 3) /\
  pos_sibling Debug 5 = Val 1 /\ pos_sibling Release 5 = Val 1.
Proof. exact C76_positions_witness. Qed.

(** The binary tree: any tree value, any storage (also a failing one), any index. *)
Theorem C76_binary : forall b c, at_least b c -> forall H St E (st : StorageT St Z BPrimitive E) (t : BTree St) s n i d ds,
  run_refines (bt_load b st n s) (bt_load c st n s) /\
  run_refines (bt_push H b st d t) (bt_push H c st d t) /\
  run_refines (bt_push_all H b st ds t) (bt_push_all H c st ds t) /\
  run_refines (bt_prove H b st i t) (bt_prove H c st i t) /\
  out_refines (bt_root H b t) (bt_root H c t).
Proof. exact @C76_binary_lemma. Qed.
Print Assumptions C76_binary.

Example C76_binary_example :
  match snd (bt_prove sha256 Debug BStorageMap (2 ^ 64 - 1) tree1), snd (bt_prove sha256 Release BStorageMap (2 ^ 64 - 1) tree1) with
  | Panic, Val (Err (BLoadError _)) => true | _, _ => false end = true /\
  match snd (bt_prove sha256 Debug BStorageMap 0 tree1) with Val (Ok (_, [_])) => true | _ => false end = true.
Proof. exact C76_binary_witness. Qed.

(** The sparse tree: any tree value, any storage, and whole histories.  If the widths of usize
    differ, the heights have to be u32 (in the code this is their type). *)
Theorem C76_sparse : forall b c, at_least b c ->
  forall H St E (st : StorageT St bytes32 SPrimitive E) (t : SpTree St) k v os,
  (usize_width b = usize_width c \/ u32_node (sp_root_node t) ->
     run_refines (sp_update H b st k v t) (sp_update H c st k v t) /\
     run_refines (sp_delete H b st k t) (sp_delete H c st k t)) /\
  (usize_width b = usize_width c \/ (exists good, Typed st good /\ typed_tree good t) ->
     run_refines (sp_run_all H b st os t) (sp_run_all H c st os t)).
Proof. exact @C76_sparse_lemma. Qed.
Print Assumptions C76_sparse.

Example C76_sparse_example :
  match snd (sp_update sha256 Debug SStorageMap kB vb tall), snd (sp_update sha256 Release SStorageMap kB vb tall) with
  | Panic, Val (Ok tt) => true | _, _ => false end = true /\
  match snd (sp_run_all sha256 Debug SStorageMap twice (sp_new smap_new)) with Val [Ok tt; Ok tt; Ok tt; Ok tt] => true | _ => false end = true.
Proof. exact C76_sparse_witness. Qed.

(** The sum tree: any tree value, any storage, and whole histories. *)
Theorem C76_sum : forall b c, at_least b c -> forall H St E (st : StorageT St bytes32 MNode E) (t : MTree St) f d os,
  run_refines (mt_push H b st f d t) (mt_push H c st f d t) /\
  run_refines (mt_root H b st t) (mt_root H c st t) /\
  run_refines (mt_run H b st os t) (mt_run H c st os t).
Proof. exact @C76_sum_lemma. Qed.
Print Assumptions C76_sum.

Example C76_sum_example :
  match snd (mt_run sha256 Debug (StorageMap b32_eqb) [fat; fat; Root] (mt_new smap_new)), snd (mt_run sha256 Release (StorageMap b32_eqb) [fat; fat; Root] (mt_new smap_new)) with
  | Panic, Val (Ok [(fee, _)]) => fee =? 2 ^ 64 - 2 | _, _ => false end = true /\
  match snd (mt_run sha256 Debug (StorageMap b32_eqb) [fat; Root] (mt_new smap_new)) with Val (Ok [(fee, _)]) => fee =? 2 ^ 64 - 1 | _ => false end = true.
Proof. exact C76_sum_witness. Qed.

(** The verifier and the reference tree of the test helpers. *)
Theorem C76_verify : forall b c, at_least b c -> forall H r ps i n t d,
  out_refines (verify H b r ps i n) (verify H c r ps i n) /\
  out_refines (rt_push H b d t) (rt_push H c d t) /\
  out_refines (rt_root H b t) (rt_root H c t) /\
  out_refines (rt_prove H b t) (rt_prove H c t).
Proof. exact @C76_verify_lemma. Qed.
Print Assumptions C76_verify.

Example C76_verify_example :
  match verify sha256 Debug kA (repeat kA 70) 0 (2 ^ 64 - 1), verify sha256 Release kA (repeat kA 70) 0 (2 ^ 64 - 1) with
  | Panic, Val false => true | _, _ => false end = true /\
  verify sha256 Debug kA [kA] 0 1 = Val true.
Proof. exact C76_verify_witness. Qed.

(** Positions and the path iterators. *)
Theorem C99_positions : forall b c, same_switches b c -> forall p q n d,
  pos_from_leaf_index b p = pos_from_leaf_index c p /\
  pos_sibling b p = pos_sibling c p /\ pos_parent b p = pos_parent c p /\ pos_uncle b p = pos_uncle c p /\
  pos_child b p d = pos_child c p d /\
  position_iter b p q = position_iter c p q /\ position_path b p q n = position_path c p q n.
Proof. exact @C99_positions_lemma. Qed.
Print Assumptions C99_positions.

Example C99_positions_example : same_switches Debug Debug32 /\
  match position_path Debug32 7 4 8 with Val l => length l =? 4 | _ => false end%nat = true /\
  usize_ovf Release (256 - 300) = Val (2 ^ 64 - 44) /\ usize_ovf Release32 (256 - 300) = Val (2 ^ 32 - 44).
Proof. exact C99_positions_witness. Qed.

(** The binary tree: any tree value, any storage. *)
Theorem C99_binary : forall b c, same_switches b c -> forall H St E (st : StorageT St Z BPrimitive E) (t : BTree St) s n i d,
  bt_load b st n s = bt_load c st n s /\ bt_push H b st d t = bt_push H c st d t /\
  bt_prove H b st i t = bt_prove H c st i t /\ bt_root H b t = bt_root H c t.
Proof. exact @C99_binary_lemma. Qed.
Print Assumptions C99_binary.

Example C99_binary_example : same_switches Debug Debug32 /\
  match snd (bt_prove sha256 Debug32 BStorageMap 0 tree1) with Val (Ok (_, [_])) => true | _ => false end = true.
Proof. exact C99_binary_witness. Qed.

(** One call of a sparse tree, whose root height is a u32; the storage is arbitrary. *)
Theorem C99_sparse : forall b c, same_switches b c ->
  forall H St E (st : StorageT St bytes32 SPrimitive E) (t : SpTree St) k v, u32_node (sp_root_node t) ->
  sp_update H b st k v t = sp_update H c st k v t /\ sp_delete H b st k t = sp_delete H c st k t.
Proof. exact @C99_sparse_lemma. Qed.
Print Assumptions C99_sparse.

Example C99_sparse_example : same_switches Release Release32 /\ u32_node (sp_root_node tall) /\
  match snd (sp_update sha256 Release32 SStorageMap kB vb tall) with Val (Ok tt) => true | _ => false end = true.
Proof. exact C99_sparse_witness. Qed.

(** Whole histories of a sparse tree: heights stay u32 and the builds agree. *)
Theorem C99_history : forall b c, same_switches b c ->
  forall H St E (st : StorageT St bytes32 SPrimitive E) good, Typed st good ->
  (forall s, good s -> typed_tree good (sp_new s)) /\
  (forall root s s' t, good s -> sp_load st root s = (s', Val (Ok t)) -> typed_tree good t) /\
  (forall os t, typed_tree good t ->
     sp_run_all H b st os t = sp_run_all H c st os t /\ typed_tree good (fst (sp_run_all H b st os t))).
Proof. exact @C99_history_lemma. Qed.
Print Assumptions C99_history.

Example C99_history_example : same_switches Debug Debug32 /\ Typed SStorageMap sgood /\ sgood smap_new /\
  match snd (sp_run_all sha256 Debug32 SStorageMap twice (sp_new smap_new)) with Val [Ok tt; Ok tt; Ok tt; Ok tt] => true | _ => false end = true.
Proof. exact C99_history_witness. Qed.

(** Every storage obeying the map laws whose entries have u32 heights is such a storage. *)
Theorem C99_lawful : forall St E (st : StorageT St bytes32 SPrimitive E) view, Lawful st view ->
  Typed st (fun s => forall k p, view s k = Some p -> u32_entry p).
Proof. exact @C99_lawful_lemma. Qed.
Print Assumptions C99_lawful.

(** The sum tree: any tree value, any storage. *)
Theorem C99_sum : forall b c, same_switches b c -> forall H St E (st : StorageT St bytes32 MNode E) (t : MTree St) f d,
  mt_push H b st f d t = mt_push H c st f d t /\ mt_root H b st t = mt_root H c st t.
Proof. exact @C99_sum_lemma. Qed.
Print Assumptions C99_sum.

Example C99_sum_example : same_switches Release Release32 /\
  match snd (mt_run sha256 Release32 (StorageMap b32_eqb) [fat; fat; Root] (mt_new smap_new)) with Val (Ok [(fee, _)]) => fee =? 2 ^ 64 - 2 | _ => false end = true.
Proof. exact C99_sum_witness. Qed.

(** The verifier and the reference tree. *)
Theorem C99_verify : forall b c, same_switches b c -> forall H r ps i n t d,
  verify H b r ps i n = verify H c r ps i n /\ rt_push H b d t = rt_push H c d t /\
  rt_root H b t = rt_root H c t /\ rt_prove H b t = rt_prove H c t.
Proof. exact @C99_verify_lemma. Qed.
Print Assumptions C99_verify.

Example C99_verify_example : same_switches Debug Debug32 /\ verify sha256 Debug32 kA [kA] 0 1 = Val true.
Proof. exact C99_verify_witness. Qed.
