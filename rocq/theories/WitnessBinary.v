(** WitnessBinary.v -- concrete runs with SHA-256 and StorageMap (or StorageMap with
    injected faults) that meet the hypotheses of the binary tree theorems, and
    counterexamples. *)
From Verif Require Import Base Sha256 Storage ModelCommon ModelBinary ModelVerify SpecBinary SpecPosition
  SpecVerify StorageProofs Runs BinaryMain BinaryLimits BinaryExtra VerifyProofs.

Lemma sha256_empty : sha256 [] = empty_sum.
Proof. apply bytes32_ext; vm_compute; reflexivity. Qed.

Lemma by_eqb : forall o m, match o with Val r => b32_eqb r m | _ => false end = true -> o = Val m.
Proof. intros [r| |] m E; try discriminate E. f_equal. apply b32_eqb_eq. exact E. Qed.

Lemma Val_inj : forall A (a b : A), Val a = Val b -> a = b.
Proof. intros A a b E. injection E as E. exact E. Qed.

(** StorageMap whose n-th operation fails as scripted. *)
Definition FaultyMap : StorageT (faulty_state (S := Scratch)) Z BPrimitive (option Empty_set) :=
  Faulty BStorageMap.
Definition faulty_view (s : faulty_state (S := Scratch)) : Z -> option BPrimitive := smap_lookup Z.eqb (snd s).
Lemma FaultyMap_lawful : Lawful FaultyMap faulty_view.
Proof. exact (Faulty_lawful _ _ BStorageMap_lawful). Qed.

Definition leaves7 : list (list byte) :=
  [[x61]; []; [x62; x63]; [x61]; [x00; x01]; [xff]; [x64; x64; x64]].
Definition tree (ds : list (list byte)) : BTree Scratch :=
  fst (bt_push_all sha256 Debug BStorageMap ds (bt_new smap_new)).
Definition ftree (script : list fault) (ds : list (list byte)) : BTree faulty_state :=
  fst (bt_push_all sha256 Debug FaultyMap ds (bt_new (script, smap_new))).

Lemma leaves7_ok :
  Lawful BStorageMap (smap_lookup Z.eqb) /\ Infallible BStorageMap /\ sha256 [] = empty_sum /\
  Z.of_nat (length leaves7) < leaf_limit Debug /\
  bt_push_all sha256 Debug BStorageMap leaves7 (bt_new smap_new) = (tree leaves7, Val (Ok tt)).
Proof.
  split; [exact BStorageMap_lawful|]. split; [exact BStorageMap_infallible|].
  split; [exact sha256_empty|]. split; [reflexivity|]. vm_compute; reflexivity.
Qed.

Lemma C01_witness : bt_root sha256 Debug (tree leaves7) = Val (mth sha256 leaves7).
Proof. apply by_eqb. vm_compute; reflexivity. Qed.

(** proof of leaf 4 of 7: the proof set has 4 entries and is accepted *)
Definition proof4 : list bytes32 :=
  match snd (bt_prove sha256 Debug BStorageMap 4 (tree leaves7)) with
  | Val (Ok (_, p)) => p | _ => [] end.
Lemma C02_witness : nth_error leaves7 4 = Some [x00; x01] /\
  map b32 proof4 = map b32 (hash_leaf sha256 [x00; x01] :: audit_path sha256 4 leaves7) /\ length proof4 = 4%nat.
Proof. split; [reflexivity|]. split; vm_compute; reflexivity. Qed.

Lemma C03_witness : verify sha256 Debug (mth sha256 leaves7) proof4 4 7 = Val true.
Proof. vm_compute; reflexivity. Qed.

Lemma C04_witness :
  verify sha256 Debug (mth sha256 leaves7) (hash_leaf sha256 [x00; x01] :: tl proof4) 4 7 = Val true /\
  verify sha256 Debug (mth sha256 leaves7) (hash_leaf sha256 [x00; x02] :: tl proof4) 4 7 = Val false /\
  verify sha256 Debug (mth sha256 leaves7) (hash_leaf sha256 [x00; x01] :: tl proof4) 5 7 = Val false.
Proof. split; [|split]; vm_compute; reflexivity. Qed.

(** The first entry must be known to be a leaf hash: the root itself, taken as the leaf
    entry of the last leaf of three, is accepted. *)
Lemma C04_need : forall H pr, (forall ds, length ds = 3%nat ->
  verify H pr (mth H ds) [mth H ds] 2 3 = Val true).
Proof.
  intros H pr ds _. generalize (mth H ds) as r. intros r. rewrite <- (b32_eqb_refl r).
  destruct pr as [[] [] []]; vm_compute; reflexivity.
Qed.

Lemma C05_witness : bt_prove sha256 Debug BStorageMap 7 (tree leaves7) =
  (tree leaves7, Val (Err (BInvalidProofIndex 7))).
Proof. apply C05_partial_lemma; vm_compute; (split; congruence) || reflexivity. Qed.

Lemma C05_refuted_lemma :
  (forall pr (t : BTree Scratch), overflow_checks pr = true -> bt_prove sha256 pr BStorageMap (2 ^ 64 - 1) t = (t, Panic)) /\
  (forall pr, overflow_checks pr = false -> exists t, bt_push_all sha256 pr BStorageMap leaves7 (bt_new smap_new) = (t, Val (Ok tt)) /\
   exists t', bt_prove sha256 pr BStorageMap (2 ^ 64 - 1) t = (t', Val (Err (BLoadError (2 ^ 64 - 1))))).
Proof.
  split; [apply prove_max_debug|]. intros pr Hc.
  destruct (C01_lemma sha256 pr BStorageMap _ BStorageMap_lawful sha256_empty leaves7 smap_new
              BStorageMap_infallible) as (t & E & _); [vm_compute; congruence|].
  exists t. split; [exact E|].
  eapply prove_max_release; [exact BStorageMap_lawful|exact Hc|exact BStorageMap_infallible| | |exact E].
  - reflexivity.
  - reflexivity.
Qed.

(** loading 5 of the 7 leaves *)
Lemma C07_witness :
  match snd (bt_load Debug BStorageMap 5 (bt_storage (tree leaves7))) with
  | Val (Ok t) => bt_root sha256 Debug t
  | _ => Panic
  end = Val (mth sha256 (firstn 5 leaves7)).
Proof. apply by_eqb. vm_compute; reflexivity. Qed.

(** the peak (1, 2) of 7 leaves is lost: in-order index 9 *)
Lemma C08_witness : is_peak 7 1 2 /\
  snd (bt_load Debug BStorageMap 7 (fst (smap_remove Z.eqb 9 (bt_storage (tree leaves7))))) =
    Val (Err (BLoadError 9)).
Proof. split; [unfold is_peak; cbn; lia|]. vm_compute; reflexivity. Qed.

Definition ok (n : nat) : list fault := repeat NoFault n.
(** three leaves need 4 writes; the write of the first join of the fourth push fails
    although it was applied *)
Lemma C10_witness :
  snd (bt_push_all sha256 Debug FaultyMap (firstn 3 leaves7) (bt_new (ok 5 ++ [FaultLost], smap_new))) = Val (Ok tt) /\
  snd (bt_push sha256 Debug FaultyMap [x61] (ftree (ok 5 ++ [FaultLost]) (firstn 3 leaves7))) =
    Val (Err (BStorageError None)).
Proof. split; vm_compute; reflexivity. Qed.

(** one leaf; the join of the second push fails: the tree has lost all its leaves *)
Lemma C11_refuted_lemma : forall pr, exists t t',
  bt_push_all sha256 pr FaultyMap [[x61]] (bt_new (ok 2 ++ [Fault], smap_new)) = (t, Val (Ok tt)) /\
  bt_push sha256 pr FaultyMap [x62] t = (t', Val (Err (BStorageError None))) /\
  bt_root sha256 pr t = Val (mth sha256 [[x61]]) /\
  bt_root sha256 pr t' = Val (mth sha256 []) /\
  bt_root sha256 pr t' <> bt_root sha256 pr t.
Proof.
  intros pr.
  assert (A : exists t t',
    bt_push_all sha256 pr FaultyMap [[x61]] (bt_new (ok 2 ++ [Fault], smap_new)) = (t, Val (Ok tt)) /\
    bt_push sha256 pr FaultyMap [x62] t = (t', Val (Err (BStorageError None))) /\
    match bt_root sha256 pr t with Val r => b32_eqb r (mth sha256 [[x61]]) | _ => false end = true /\
    match bt_root sha256 pr t' with Val r => b32_eqb r (mth sha256 []) | _ => false end = true).
  { destruct pr as [[] [] []]; eexists; eexists; (split; [vm_compute; reflexivity|]);
      (split; [vm_compute; reflexivity|]); split; vm_compute; reflexivity. }
  destruct A as (t & t' & A1 & A2 & A3 & A4). apply by_eqb in A3. apply by_eqb in A4.
  exists t, t'. split; [exact A1|]. split; [exact A2|]. split; [exact A3|]. split; [exact A4|]. rewrite A3, A4. intros E. apply Val_inj in E.
  apply b32_eqb_eq in E. revert E. apply not_true_iff_false. vm_compute; reflexivity.
Qed.

(** two leaves and the first write of the third push fails *)
Lemma C11_witness :
  snd (bt_push_all sha256 Debug FaultyMap (firstn 2 leaves7) (bt_new (ok 3 ++ [Fault], smap_new))) = Val (Ok tt) /\
  snd (bt_push sha256 Debug FaultyMap [x61] (ftree (ok 3 ++ [Fault]) (firstn 2 leaves7))) =
    Val (Err (BStorageError None)).
Proof. split; vm_compute; reflexivity. Qed.

(** 7 leaves: the entries are the 7 leaves, the 3 pairs and the block of 4 *)
Lemma C12_witness :
  map fst (bt_storage (tree leaves7)) = [12; 9; 10; 8; 3; 5; 6; 4; 1; 2; 0] /\
  forall k, smap_lookup Z.eqb (bt_storage (bt_new (@smap_new Z BPrimitive))) k = None.
Proof. split; [vm_compute; reflexivity|reflexivity]. Qed.

(** leaf 2 is lost: proofs of leaf 3 report it, proofs of leaf 6 do not need it *)
Definition lossy : BTree Scratch :=
  Build_BTree (fst (smap_remove Z.eqb 4 (bt_storage (tree leaves7)))) (bt_head (tree leaves7)) 7.
Lemma C16_witness :
  snd (bt_prove sha256 Debug BStorageMap 3 lossy) = Val (Err (BLoadError 4)) /\
  match snd (bt_prove sha256 Debug BStorageMap 6 lossy) with
  | Val (Ok (_, p)) => length p = 3%nat | _ => False end.
Proof. split; vm_compute; reflexivity. Qed.

Lemma C18_refuted_lemma :
  exists n, 0 <= n < 2 ^ 64 /\
  forall pr (s : Scratch), overflow_checks pr = true -> bt_load pr BStorageMap n s = (s, Panic).
Proof.
  exists (2 ^ 62). split; [lia|]. intros pr s Hc. apply load_debug_panics; [exact Hc|lia].
Qed.

(** Release builds: load(2^63) of an empty storage answers Ok. *)
Lemma load_release_wrong : forall pr, overflow_checks pr = false -> exists t,
  bt_load pr BStorageMap (2 ^ 63) (@smap_new Z BPrimitive) = (smap_new, Val (Ok t)) /\
  bt_leaves_count t = 2 ^ 63 /\ bt_head t = [].
Proof.
  intros [[] [] []] Hc; try discriminate Hc; eexists; (split; [vm_compute; reflexivity|]); split; reflexivity.
Qed.

Lemma C15_witness : Z.of_nat (length leaves7) < leaf_limit Debug /\
  match snd (bim_prove sha256 Debug 4 (fst (bim_push_all sha256 Debug leaves7 bim_new))) with
  | Val (Some (_, p)) => length p = 4%nat | _ => False end.
Proof. split; vm_compute; reflexivity. Qed.

Lemma C58_witness : (4 < length leaves7)%nat /\
  match rt_build sha256 Debug 4 leaves7 with
  | Val t => match rt_prove sha256 Debug t with Val (r, p) => forallb (fun x => b32_eqb (fst x) (snd x)) (combine p proof4) && (length p =? length proof4)%nat | _ => false end
  | _ => false end = true.
Proof. split; [cbn; lia|]. vm_compute. reflexivity. Qed.
