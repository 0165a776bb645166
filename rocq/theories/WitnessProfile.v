(** WitnessProfile.v -- runs on which the build profiles differ, and runs on which they do not. *)
From Verif Require Import Base Sha256 Storage ModelCommon ModelBinary ModelSparse ModelSum ModelVerify SpecSparse SpecSum Runs RunsSum RunsSparse
  WitnessBinary WitnessSparse WitnessSum SpecProfile ProfileProofs WidthProofs.

Lemma dev_release : at_least Debug Release.
Proof. split; intros C; discriminate C. Qed.

Lemma C76_positions_witness : at_least Debug Release /\
  pos_sibling Debug (2 ^ 64 - 1) = Panic /\ pos_sibling Release (2 ^ 64 - 1) = Val (2 ^ 64 - 3) /\
  pos_sibling Debug 5 = Val 1 /\ pos_sibling Release 5 = Val 1.
Proof. split; [exact dev_release|]. vm_compute. auto. Qed.

Definition tree1 : BTree Scratch := fst (bt_push sha256 Debug BStorageMap [x01] bim_new).
Lemma C76_binary_witness :
  match snd (bt_prove sha256 Debug BStorageMap (2 ^ 64 - 1) tree1), snd (bt_prove sha256 Release BStorageMap (2 ^ 64 - 1) tree1) with
  | Panic, Val (Err (BLoadError _)) => true | _, _ => false end = true /\
  match snd (bt_prove sha256 Debug BStorageMap 0 tree1) with Val (Ok (_, [_])) => true | _ => false end = true.
Proof. split; vm_compute; reflexivity. Qed.

(** A loaded root of a height no tree of the library has: the debug assertion of [SNode::create_node] (or an overflow check) fires. *)
Definition tall : SpTree SScratch := Build_SpTree {| sn_height := 300; sn_prefix := PLeaf; sn_bytes_lo := kA; sn_bytes_hi := kB |} smap_new.
Lemma C76_sparse_witness :
  match snd (sp_update sha256 Debug SStorageMap kB vb tall), snd (sp_update sha256 Release SStorageMap kB vb tall) with
  | Panic, Val (Ok tt) => true | _, _ => false end = true /\
  match snd (sp_run_all sha256 Debug SStorageMap twice (sp_new smap_new)) with Val [Ok tt; Ok tt; Ok tt; Ok tt] => true | _ => false end = true.
Proof. split; vm_compute; reflexivity. Qed.

Definition fat : sum_op := Push (2 ^ 64 - 1, [x01]).
Lemma C76_sum_witness :
  match snd (mt_run sha256 Debug (StorageMap b32_eqb) [fat; fat; Root] (mt_new smap_new)), snd (mt_run sha256 Release (StorageMap b32_eqb) [fat; fat; Root] (mt_new smap_new)) with
  | Panic, Val (Ok [(fee, _)]) => fee =? 2 ^ 64 - 2 | _, _ => false end = true /\
  match snd (mt_run sha256 Debug (StorageMap b32_eqb) [fat; Root] (mt_new smap_new)) with Val (Ok [(fee, _)]) => fee =? 2 ^ 64 - 1 | _ => false end = true.
Proof. split; vm_compute; reflexivity. Qed.

Lemma C76_verify_witness :
  match verify sha256 Debug kA (repeat kA 70) 0 (2 ^ 64 - 1), verify sha256 Release kA (repeat kA 70) 0 (2 ^ 64 - 1) with
  | Panic, Val false => true | _, _ => false end = true /\
  verify sha256 Debug kA [kA] 0 1 = Val true.
Proof. split; vm_compute; reflexivity. Qed.

(** * Builds with a 32-bit usize *)
Definition Debug32 : profile := {| overflow_checks := true; debug_assertions := true; usize_width := Base.W32 |}.
Definition Release32 : profile := {| overflow_checks := false; debug_assertions := false; usize_width := Base.W32 |}.

Lemma same_debug : same_switches Debug Debug32.
Proof. split; reflexivity. Qed.
Lemma same_release : same_switches Release Release32.
Proof. split; reflexivity. Qed.

Lemma C99_positions_witness : same_switches Debug Debug32 /\
  match position_path Debug32 7 4 8 with Val l => length l =? 4 | _ => false end%nat = true /\
  usize_ovf Release (256 - 300) = Val (2 ^ 64 - 44) /\ usize_ovf Release32 (256 - 300) = Val (2 ^ 32 - 44).
Proof. split; [exact same_debug|]. split; [|split]; vm_compute; reflexivity. Qed.
Lemma C99_binary_witness : same_switches Debug Debug32 /\
  match snd (bt_prove sha256 Debug32 BStorageMap 0 tree1) with Val (Ok (_, [_])) => true | _ => false end = true.
Proof. split; [exact same_debug|]. vm_compute. reflexivity. Qed.
Lemma C99_sparse_witness : same_switches Release Release32 /\ u32_node (sp_root_node tall) /\
  match snd (sp_update sha256 Release32 SStorageMap kB vb tall) with Val (Ok tt) => true | _ => false end = true.
Proof. split; [exact same_release|]. split; [unfold u32_node; cbn; split; [discriminate|reflexivity]|]. vm_compute. reflexivity. Qed.

Definition sgood (s : SScratch) : Prop := forall k p, smap_lookup b32_eqb s k = Some p -> u32_entry p.
Lemma C99_history_witness : same_switches Debug Debug32 /\ Typed SStorageMap sgood /\ sgood smap_new /\
  match snd (sp_run_all sha256 Debug32 SStorageMap twice (sp_new smap_new)) with Val [Ok tt; Ok tt; Ok tt; Ok tt] => true | _ => false end = true.
Proof.
  split; [exact same_debug|]. split; [apply C99_lawful_lemma; exact SStorageMap_lawful|]. split; [intros k p V; discriminate V|].
  vm_compute. reflexivity.
Qed.
Lemma C99_sum_witness : same_switches Release Release32 /\
  match snd (mt_run sha256 Release32 (StorageMap b32_eqb) [fat; fat; Root] (mt_new smap_new)) with Val (Ok [(fee, _)]) => fee =? 2 ^ 64 - 2 | _ => false end = true.
Proof. split; [exact same_release|]. vm_compute. reflexivity. Qed.
Lemma C99_verify_witness : same_switches Debug Debug32 /\ verify sha256 Debug32 kA [kA] 0 1 = Val true.
Proof. split; [exact same_debug|]. vm_compute. reflexivity. Qed.
