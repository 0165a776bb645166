(** BinaryExtra.v -- the in-memory binary tree; verifier statements about the library's
    own roots and proofs. *)
From Verif Require Import Base Storage ModelCommon ModelBinary ModelVerify SpecBinary SpecVerify
  StorageProofs Runs BinaryReadProofs BinaryMain BindingProofs VerifyProofs.

Lemma BStorageMap_lawful : Lawful BStorageMap (smap_lookup Z.eqb).
Proof. apply StorageMap_lawful. apply Z.eqb_eq. Qed.
Lemma BStorageMap_infallible : Infallible BStorageMap.
Proof. apply StorageMap_infallible. Qed.

Lemma bim_push_all_ok : forall H pr ds t t',
  bt_push_all H pr BStorageMap ds t = (t', Val (Ok tt)) -> bim_push_all H pr ds t = (t', Val tt).
Proof.
  intros H pr ds. induction ds as [|d ds IH]; intros t t' E; cbn [bt_push_all bim_push_all] in *.
  - inversion E; subst. reflexivity.
  - unfold bind_try, bind in E. unfold bim_push, bind.
    destruct (bt_push H pr BStorageMap d t) as [t1 [[[]|e]| |]]; try discriminate E.
    cbn. apply IH. exact E.
Qed.

Lemma C15_lemma : forall H pr ds, H [] = empty_sum -> Z.of_nat (length ds) < leaf_limit pr ->
  exists t, bim_push_all H pr ds bim_new = (t, Val tt) /\
    bim_root H pr t = (t, Val (mth H ds)) /\
    (forall i d, nth_error ds i = Some d -> exists t',
       bim_prove H pr (Z.of_nat i) t = (t', Val (Some (mth H ds, hash_leaf H d :: audit_path H i ds)))) /\
    (forall i, Z.of_nat (length ds) <= i < 2 ^ 64 - 1 -> bim_prove H pr i t = (t, Val None)).
Proof.
  intros H pr ds HE Hn.
  destruct (C02_lemma H pr BStorageMap _ BStorageMap_lawful ds smap_new BStorageMap_infallible Hn)
    as (t & Ep & P).
  destruct (C01_lemma H pr BStorageMap _ BStorageMap_lawful HE ds smap_new BStorageMap_infallible)
    as (t2 & Ep2 & R).
  { apply limit_max in Hn. apply Z.lt_le_incl. exact Hn. }
  rewrite Ep in Ep2. injection Ep2 as <-.
  exists t. split; [apply bim_push_all_ok; exact Ep|]. split; [|split].
  - unfold bim_root, bind, get_state, lift. rewrite R. reflexivity.
  - intros i d Ni. destruct (P i d Ni) as (_ & t' & Epr). exists t'.
    unfold bim_prove, bind. rewrite Epr. reflexivity.
  - intros i Hi. unfold bim_prove, bind.
    destruct (C06_lemma H pr BStorageMap _ BStorageMap_lawful HE ds smap_new t BStorageMap_infallible Hn Ep)
      as (s' & t2 & _ & _ & _ & _ & _ & B & _).
    destruct (B [] ltac:(rewrite app_nil_r; exact Hn)) as (t' & r & E & O). cbn in E. injection E as <- <-.
    destruct O as [(a & _ & _ & Pr)|(N & _)]; [|exfalso; apply N; exact BStorageMap_infallible].
    rewrite app_nil_r in Pr. destruct Pr as [_ Pr]. rewrite Pr by exact Hi. reflexivity.
Qed.

Section Verify.
Variable H : list byte -> bytes32.
Variable pr pv : profile.
Context {St E : Type}.
Variable st : StorageT St Z BPrimitive E.
Variable view : St -> Z -> option BPrimitive.
Hypothesis L : Lawful st view.
Hypothesis HE : H [] = empty_sum.

Lemma C03_lemma : forall ds s0, Infallible st -> Z.of_nat (length ds) < leaf_limit pr ->
  exists t, bt_push_all H pr st ds (bt_new s0) = (t, Val (Ok tt)) /\
  forall i, 0 <= i < Z.of_nat (length ds) ->
  exists t' root proof, bt_prove H pr st i t = (t', Val (Ok (root, proof))) /\
    bt_root H pr t = Val root /\
    verify H pv root proof i (Z.of_nat (length ds)) = Val true.
Proof.
  intros ds s0 Inf Hn. destruct (C02_lemma H pr st view L ds s0 Inf Hn) as (t & Ep & P).
  exists t. split; [exact Ep|]. intros i Hi.
  destruct (nth_error ds (Z.to_nat i)) as [d|] eqn:Ni.
  2:{ apply nth_error_None in Ni. lia. }
  destruct (P _ _ Ni) as (R & t' & Pr). rewrite Z2Nat.id in Pr by lia.
  exists t', (mth H ds), (hash_leaf H d :: audit_path H (Z.to_nat i) ds). split; [exact Pr|]. split; [exact R|].
  rewrite <- (Z2Nat.id i) by lia. rewrite Z2Nat.id at 1 by lia.
  apply verify_complete; [apply limit_max in Hn; exact Hn|]. exact Ni.
Qed.

Lemma C04_lemma : forall ds s0 t root proof i d, Infallible st -> Z.of_nat (length ds) < 2 ^ 63 ->
  bt_push_all H pr st ds (bt_new s0) = (t, Val (Ok tt)) -> bt_root H pr t = Val root ->
  0 <= i ->
  verify H pv root (hash_leaf H d :: proof) i (Z.of_nat (length ds)) = Val true ->
  nth_error ds (Z.to_nat i) = Some d \/
  has_collision H (mth_inputs H ds ++ (x00 :: d) ::
    climb_inputs H (hash_leaf H d) (directions (Z.to_nat i) (length ds) (length proof)) proof).
Proof.
  intros ds s0 t root proof i d Inf Hn Ep R Hi V.
  destruct (C01_lemma H pr st view L HE ds s0 Inf ltac:(lia)) as (t2 & Ep2 & R2).
  rewrite Ep in Ep2. injection Ep2 as <-. rewrite R in R2. injection R2 as ->.
  apply (verify_sound H pv); [exact Hn|]. rewrite Z2Nat.id by exact Hi. exact V.
Qed.

Lemma C09_lemma : forall ds ds' s0 s0' t t' root, Infallible st ->
  Z.of_nat (length ds) <= 2 ^ 63 -> Z.of_nat (length ds') <= 2 ^ 63 ->
  bt_push_all H pr st ds (bt_new s0) = (t, Val (Ok tt)) -> bt_root H pr t = Val root ->
  bt_push_all H pr st ds' (bt_new s0') = (t', Val (Ok tt)) -> bt_root H pr t' = Val root ->
  ds = ds' \/ has_collision H (mth_inputs H ds ++ mth_inputs H ds').
Proof.
  intros ds ds' s0 s0' t t' root Inf Hn Hn' Ep R Ep' R'.
  destruct (C01_lemma H pr st view L HE ds s0 Inf Hn) as (t2 & Ep2 & R2).
  rewrite Ep in Ep2. injection Ep2 as <-. rewrite R in R2. injection R2 as ->.
  destruct (C01_lemma H pr st view L HE ds' s0' Inf Hn') as (t3 & Ep3 & R3).
  rewrite Ep' in Ep3. injection Ep3 as <-. rewrite R' in R3. injection R3 as E3.
  apply mth_binding. exact E3.
Qed.
End Verify.

(** Within the limit, load never panics, on any storage. *)
Lemma C18_partial_lemma : forall pr St E (st : StorageT St Z BPrimitive E) view, Lawful st view ->
  forall n s, 0 <= n < leaf_limit pr -> exists s' r, bt_load pr st n s = (s', Val r).
Proof.
  intros pr St E st view L n s Hn.
  destruct (load_cases pr st view L (Z.to_nat n) s) as (s' & r & R & _).
  { apply count_ok_limit. lia. }
  rewrite Z2Nat.id in R by lia. eauto.
Qed.
