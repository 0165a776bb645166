(** TestsProofs.v -- the randomised tests pass whatever is drawn. *)
From Verif Require Import Base Storage ModelCommon ModelBinary ModelVerify ModelTests SpecBinary Runs
  BinaryMain BinaryLimits BinaryExtra RefTree.
From Coq Require Import Arith ZifyBool ZifyNat ZifyN.
Arguments Z.of_nat : simpl never.
Arguments Z.pow : simpl never.

Section Tests.
Variable H : list byte -> bytes32.
Variable pr : profile.
Hypothesis empty_root : H [] = empty_sum.

Lemma push_reference_all : forall s t, push_reference H pr s t = rt_push_all H pr (map b32 s) t.
Proof.
  induction s as [|d s IH]; intros t; [reflexivity|]. cbn [push_reference map rt_push_all].
  destruct (rt_push H pr d t); cbn [obind]; auto.
Qed.

Lemma push_tested_all : forall s t t', bt_push_all H pr BStorageMap (map b32 s) t = (t', Val (Ok tt)) ->
  push_tested H pr s t = Val t'.
Proof.
  induction s as [|d s IH]; intros t t' E; cbn [push_tested map bt_push_all] in *.
  - injection E as ->. reflexivity.
  - unfold bind_try, bind in E. destruct (bt_push H pr BStorageMap d t) as [t1 [[u|e]| |]]; try discriminate E. apply IH. exact E.
Qed.

Lemma hashes_eqb_refl : forall l, hashes_eqb l l = true.
Proof. induction l as [|x l IH]; [reflexivity|]. cbn [hashes_eqb]. rewrite b32_eqb_refl, IH. reflexivity. Qed.

Lemma limit_64 : forall n, n < leaf_limit pr -> n < 2 ^ 64 /\ n <= 2 ^ 63.
Proof. intros n L. unfold leaf_limit in L. destruct (overflow_checks pr); lia. Qed.

Lemma roots_step : forall s, Z.of_nat (length s) < leaf_limit pr -> test_roots_step H pr s = Val tt.
Proof.
  intros s L. destruct (limit_64 _ L) as [L1 L2]. unfold test_roots_step. rewrite push_reference_all.
  destruct (ref_prove H pr (map b32 s) 0) as (rt & B & R & _); [auto|rewrite map_length; exact L1|].
  unfold rt_build, rt_set_proof_index in B. cbn [rt_new rt_head rt_leaves_count rt_proof_set obind] in B.
  change (Z.of_nat 0) with 0 in B. unfold rt_new. rewrite B. cbn [obind]. rewrite R. cbn [obind].
  destruct (C01_lemma H pr BStorageMap _ BStorageMap_lawful empty_root (map b32 s) smap_new BStorageMap_infallible) as (t & P & Rt);
    [rewrite map_length; exact L2|].
  assert (Q : push_tested H pr s (bt_new smap_new) = Val t) by (apply push_tested_all; exact P).
  rewrite Q. cbn [obind]. rewrite Rt. cbn [obind]. rewrite b32_eqb_refl. reflexivity.
Qed.

Lemma prove_step : forall s i, Z.of_nat (length s) < leaf_limit pr -> 0 <= i < Z.of_nat (length s) -> test_prove_step H pr s i = Val tt.
Proof.
  intros s i L Hi. destruct (limit_64 _ L) as [L1 L2]. unfold test_prove_step.
  destruct (ref_prove H pr (map b32 s) (Z.to_nat i)) as (rt & B & R & P); [auto|rewrite map_length; exact L1|].
  rewrite Z2Nat.id in B by lia. unfold rt_build in B.
  destruct (rt_set_proof_index i rt_new) as [rt0| |]; try discriminate B. cbn [obind] in *.
  rewrite push_reference_all, B. cbn [obind]. rewrite P. cbn [obind].
  destruct (C02_lemma H pr BStorageMap _ BStorageMap_lawful (map b32 s) smap_new BStorageMap_infallible) as (t & Pt & Pv);
    [rewrite map_length; exact L|].
  assert (Q : push_tested H pr s (bt_new smap_new) = Val t) by (apply push_tested_all; exact Pt).
  rewrite Q. cbn [obind].
  destruct (nth_error (map b32 s) (Z.to_nat i)) as [d|] eqn:En; [|apply nth_error_None in En; rewrite map_length in En; lia].
  destruct (Pv _ _ En) as (_ & t' & Pr). rewrite Z2Nat.id in Pr by lia. rewrite Pr. unfold proof_eqb.
  rewrite b32_eqb_refl, hashes_eqb_refl. reflexivity.
Qed.

Lemma load_step : forall s, Z.of_nat (length s) < leaf_limit pr -> test_load_step H pr s = Val tt.
Proof.
  intros s L. destruct (limit_64 _ L) as [L1 L2]. unfold test_load_step.
  destruct (C01_lemma H pr BStorageMap _ BStorageMap_lawful empty_root (map b32 s) smap_new BStorageMap_infallible) as (t & P & Rt);
    [rewrite map_length; exact L2|].
  assert (Q : push_tested H pr s (bt_new smap_new) = Val t) by (apply push_tested_all; exact P).
  rewrite Q. cbn [obind]. rewrite Rt. cbn [obind].
  destruct (C06_lemma H pr BStorageMap _ BStorageMap_lawful empty_root (map b32 s) smap_new t BStorageMap_infallible) as (s' & t2 & Ld & Hd & _); auto;
    [rewrite map_length; exact L|].
  rewrite map_length in Ld. rewrite Ld.
  assert (R2 : bt_root H pr t2 = bt_root H pr t) by (unfold bt_root, bt_root_node; rewrite Hd; reflexivity).
  rewrite R2, Rt. cbn [obind]. rewrite b32_eqb_refl. reflexivity.
Qed.

Lemma C95_lemma :
  (forall samples, Forall (fun s => Z.of_nat (length s) < leaf_limit pr) samples ->
     test_roots H pr samples = Val tt /\ test_load H pr samples = Val tt) /\
  (forall samples, Forall (fun x => Z.of_nat (length (fst x)) < leaf_limit pr /\ 0 <= snd x < Z.of_nat (length (fst x))) samples ->
     test_prove H pr samples = Val tt).
Proof.
  split.
  - induction 1 as [|s samples L _ [IH1 IH2]]; [split; reflexivity|]. cbn [test_roots test_load].
    rewrite roots_step, load_step by exact L. cbn [obind]. auto.
  - induction 1 as [|[s i] samples [L Hi] _ IH]; [reflexivity|]. cbn [test_prove fst snd] in *.
    rewrite prove_step by assumption. cbn [obind]. exact IH.
Qed.
End Tests.
