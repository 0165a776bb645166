(** KindsMain.v -- roots of trees of different kinds, as the calls answer them. *)
From Verif Require Import Base Storage ModelCommon ModelBinary ModelSparse ModelSum SpecBits SpecBinary SpecSparse SpecSum SpecKinds
  Runs RunsSum RunsSparse BinaryMain SumProofs SumMain SparseTheorems KindsProofs.
From Coq Require Import Sorting.Permutation Sorting.Sorted.

Section Main.
Variable H : list byte -> bytes32.
Variable pr : profile.

Lemma C109_binary_sparse_lemma : forall St E (st : StorageT St Z BPrimitive E) view St' E' (st' : StorageT St' bytes32 SPrimitive E') view',
  Lawful st view -> Infallible st -> Lawful st' view' -> Infallible st' -> H [] = empty_sum ->
  forall ds s0 os s0', Z.of_nat (length ds) <= 2 ^ 63 ->
  (forall k, view' s0' k = None) -> clean [] [] os -> hash_ok H (map op_key os) (maps [] os) ->
  exists t t' root,
    bt_push_all H pr st ds (bt_new s0) = (t, Val (Ok tt)) /\ bt_root H pr t = Val root /\
    sp_run H pr st' os (sp_new s0') = (t', Val (Ok tt)) /\
    ((exists es, Permutation es (final os) /\ StronglySorted (fun e e' => key_before (fst e) (fst e')) es /\ ds = map (entry_data H) es /\
       binary_shaped 256 0 (final os)) -> root = sp_root H t') /\
    (root = sp_root H t' ->
       (exists es, Permutation es (final os) /\ StronglySorted (fun e e' => key_before (fst e) (fst e')) es /\ ds = map (entry_data H) es /\
          binary_shaped 256 0 (final os)) \/
       has_collision H (mth_inputs H ds ++ kv_inputs H (final os)) \/ zero_hash H (mth_inputs H ds)).
Proof.
  intros St E st view St' E' st' view' L I L' I' HE ds s0 os s0' Hl Em Cl Ho.
  destruct (C01_lemma H pr st view L HE ds s0 I Hl) as (t & A & B).
  destruct (C29_lemma H pr st' view' L' I' os s0' Em Cl Ho) as (t' & C & D).
  exists t, t', (mth H ds). split; [exact A|]. split; [exact B|]. split; [exact C|]. rewrite D. split; [|apply binary_kv].
  intros (es & P & S & -> & Sh). exact (kv_binary H _ es P S Sh).
Qed.

Lemma sum_root_ok : forall St E (st : StorageT St bytes32 MNode E) view, Lawful st view -> Infallible st -> H [] = empty_sum ->
  forall ls s0, fees_fit pr ls -> Z.of_nat (length ls) <= 2 ^ 64 ->
  exists t, mt_run H pr st (map Push ls ++ [Root]) (mt_new s0) = (t, Val (Ok [(wrapped_fee ls, mst H wrapped_fee ls)])).
Proof.
  intros St E st view L I HE ls s0 F Hl.
  destruct (C52_lemma H pr st view L HE (map Push ls ++ [Root]) s0 I) as [t Et]; [rewrite pushed_app, pushed_pushes, app_nil_r; auto..|].
  exists t. rewrite Et, answers_app, pushed_pushes. cbn [sum_answers app].
  assert (N : forall ds, sum_answers H wrapped_fee ds (map Push ls) = []) by (clear; induction ls; intros ds; cbn; auto).
  rewrite N. reflexivity.
Qed.

Lemma C109_binary_sum_lemma : forall St E (st : StorageT St Z BPrimitive E) view St' E' (st' : StorageT St' bytes32 MNode E') view',
  Lawful st view -> Infallible st -> Lawful st' view' -> Infallible st' -> H [] = empty_sum ->
  forall ds s0 ls s0', Z.of_nat (length ds) <= 2 ^ 63 -> fees_fit pr ls -> Z.of_nat (length ls) <= 2 ^ 64 ->
  exists t t' root f root',
    bt_push_all H pr st ds (bt_new s0) = (t, Val (Ok tt)) /\ bt_root H pr t = Val root /\
    mt_run H pr st' (map Push ls ++ [Root]) (mt_new s0') = (t', Val (Ok [(f, root')])) /\
    ((ds = [] /\ ls = []) \/ (exists l, ls = [l] /\ ds = [fee_data l]) -> root = root') /\
    (root = root' -> (ds = [] /\ ls = []) \/ (exists l, ls = [l] /\ ds = [fee_data l]) \/
       has_collision H (mth_inputs H ds ++ mst_inputs H wrapped_fee ls)).
Proof.
  intros St E st view St' E' st' view' L I L' I' HE ds s0 ls s0' Hl F Hl'.
  destruct (C01_lemma H pr st view L HE ds s0 I Hl) as (t & A & B).
  destruct (sum_root_ok _ _ st' view' L' I' HE ls s0' F Hl') as (t' & C).
  exists t, t', (mth H ds), (wrapped_fee ls), (mst H wrapped_fee ls). split; [exact A|]. split; [exact B|]. split; [exact C|]. split; [|apply binary_mst].
  intros [[-> ->]|(l & -> & ->)]; reflexivity.
Qed.

Lemma C109_sum_sparse_lemma : forall St E (st : StorageT St bytes32 MNode E) view St' E' (st' : StorageT St' bytes32 SPrimitive E') view',
  Lawful st view -> Infallible st -> Lawful st' view' -> Infallible st' -> H [] = empty_sum ->
  forall ls s0 os s0', fees_fit pr ls -> Z.of_nat (length ls) <= 2 ^ 64 ->
  (forall k, view' s0' k = None) -> clean [] [] os -> hash_ok H (map op_key os) (maps [] os) ->
  exists t t' f root,
    mt_run H pr st (map Push ls ++ [Root]) (mt_new s0) = (t, Val (Ok [(f, root)])) /\
    sp_run H pr st' os (sp_new s0') = (t', Val (Ok tt)) /\
    ((exists l k v, ls = [l] /\ final os = [(k, v)] /\ fee_data l = entry_data H (k, v)) -> root = sp_root H t') /\
    (root = sp_root H t' ->
       (exists l k v, ls = [l] /\ final os = [(k, v)] /\ fee_data l = entry_data H (k, v)) \/
       has_collision H (mst_inputs H wrapped_fee ls ++ kv_inputs H (final os)) \/ zero_hash H (mst_inputs H wrapped_fee ls)).
Proof.
  intros St E st view St' E' st' view' L I L' I' HE ls s0 os s0' F Hl Em Cl Ho.
  destruct (sum_root_ok _ _ st view L I HE ls s0 F Hl) as (t & C).
  destruct (C29_lemma H pr st' view' L' I' os s0' Em Cl Ho) as (t' & A & D).
  exists t, t', (wrapped_fee ls), (mst H wrapped_fee ls). split; [exact C|]. split; [exact A|]. rewrite D. split; [|apply sum_kv].
  intros (l & k & v & -> & -> & Q). exact (kv_one H wrapped_fee l k v Q).
Qed.
End Main.
