(** BinaryMain.v -- the statements about the binary tree, derived from the invariants. *)
From Verif Require Import Base Storage ModelCommon ModelBinary SpecBinary SpecBinaryFacts
  SpecPosition PositionProofs PathProofs HeadsProofs StorageProofs Runs BinaryProofs BinaryReadProofs.
From Coq Require Import Arith ZifyBool ZifyNat ZifyN.
Ltac Zify.zify_post_hook ::= Z.div_mod_to_equations.
Arguments Z.pow : simpl never.
Arguments Z.mul : simpl never.
Arguments Z.add : simpl never.
Arguments Z.sub : simpl never.
Arguments Z.of_nat : simpl never.
Arguments Nat.pow : simpl never.
Arguments Nat.mul : simpl never.
Arguments Nat.div : simpl never.
Arguments Nat.add : simpl never.

Lemma count_ok_limit : forall pr n, Z.of_nat n < leaf_limit pr -> count_ok pr n.
Proof. intros pr n Hn. unfold count_ok. unfold leaf_limit in Hn. destruct (overflow_checks pr); exact Hn. Qed.
Lemma limit_max : forall pr z, z < leaf_limit pr -> z < 2 ^ 63.
Proof. intros pr z Hz. unfold leaf_limit in Hz. destruct (overflow_checks pr); lia. Qed.

(** * Peaks *)
Lemma peaks_is_peak : forall n h k b, In (k, b) (peaks h n) <-> (k < h)%nat /\ is_peak n k b.
Proof.
  intros n h k b. induction h as [|h IH]; cbn [peaks].
  - split; [contradiction|lia].
  - pose proof (ancestor_le n h) as Lo. pose proof (ancestor_gt n h) as Hi.
    pose proof (pow2_pos h) as Hp. pose proof (pow2_S h) as HS. unfold is_peak in *.
    destruct (ancestor_cases n h) as [(E1 & _ & O)|(E1 & _ & O)]; rewrite O; rewrite E1 in *;
      set (a := ancestor n (S h)) in *.
    + rewrite IH. split; [intros [A B]; split; [lia|exact B]|]. intros [A B]. split; [|exact B].
      destruct (Nat.eq_dec k h) as [->|]; [exfalso|lia]. rewrite HS in B.
      assert (b < 2 * a)%nat by nia. assert (a < b / 2 + 1)%nat by nia. lia.
    + split.
      * intros [E|Hin].
        -- inversion E; subst. split; [lia|]. rewrite HS.
           replace ((2 * a + 1 - 1) / 2)%nat with a by lia.
           replace (2 * a + 1 - 1 + 1)%nat with (2 * a + 1)%nat by lia. nia.
        -- apply IH in Hin. lia.
      * intros [A B]. destruct (Nat.eq_dec k h) as [->|].
        -- left. f_equal. rewrite HS in B.
           assert (b < 2 * a + 1)%nat by nia. assert (a < b / 2 + 1)%nat by nia. lia.
        -- right. apply IH. split; [lia|exact B].
Qed.

Lemma peak_height_lt : forall n k b h, is_peak n k b -> (n < 2 ^ h)%nat -> (k < h)%nat.
Proof.
  intros n k b h [A _] Hn. destruct (le_lt_dec h k) as [C|]; auto.
  apply pow2_le in C. nia.
Qed.

Lemma peaks_sorted : forall n h ps1 k b ps2 k' b', peaks h n = ps1 ++ (k, b) :: ps2 ->
  In (k', b') (peaks h n) -> (In (k', b') ps1 <-> (k < k')%nat).
Proof.
  intros n h. induction h as [|h IH]; intros ps1 k b ps2 k' b' E Hin; cbn [peaks] in E, Hin.
  - destruct ps1; discriminate E.
  - destruct (Nat.odd (ancestor n h)); [|apply (IH _ _ _ _ _ _ E Hin)].
    destruct ps1 as [|p ps1]; cbn [app] in E; injection E as E1 E2.
    + split; [intros []|]. intros Hlt. exfalso. inversion E1; subst.
      destruct Hin as [Eq|Hin]; [injection Eq; lia|]. apply peaks_complete in Hin. lia.
    + subst p. destruct Hin as [Eq|Hin].
      * assert (Hk : In (k, b) (peaks h n)) by (rewrite E2; apply in_or_app; right; left; reflexivity).
        apply peaks_complete in Hk. inversion Eq; subst. split; [intros _; lia|intros _; left; reflexivity].
      * rewrite <- (IH _ _ _ _ _ _ E2 Hin). split.
        -- intros [Eq|A]; [|exact A]. inversion Eq; subst. apply peaks_complete in Hin. lia.
        -- intros A. right. exact A.
Qed.

Section Binary.
Variable H : list byte -> bytes32.
Variable pr : profile.
Context {St E : Type}.
Variable st : StorageT St Z BPrimitive E.
Variable view : St -> Z -> option BPrimitive.
Hypothesis L : Lawful st view.
Notation binv := (binv H view).

Lemma push_all_cases : forall es ds t, binv ds t -> Z.of_nat (length (ds ++ es)) <= max_leaves ->
  exists t' r, bt_push_all H pr st es t = (t', Val r) /\
    ok_or_fault st r (fun _ => binv (ds ++ es) t').
Proof.
  induction es as [|e es IH]; intros ds t Hi HN.
  - exists t, (Ok tt). rewrite app_nil_r. split; [reflexivity|]. left. eauto.
  - cbn [bt_push_all]. unfold bind_try, bind.
    assert (HN' : Z.of_nat (length ds + 1) <= max_leaves).
    { rewrite app_length in HN. cbn [length] in HN. lia. }
    destruct (push_ok H pr st view L ds e t Hi HN') as (t1 & r & Er & _ & C). rewrite Er.
    destruct C as [(-> & Hi')|((e' & ->) & C & _)].
    + replace (ds ++ e :: es) with ((ds ++ [e]) ++ es) in * by (rewrite <- app_assoc; reflexivity).
      apply IH; auto.
    + unfold ret. eexists t1, _. split; [reflexivity|]. right. split; eauto.
Qed.

Lemma push_all_binv : forall es ds t t', binv ds t -> Z.of_nat (length (ds ++ es)) <= max_leaves ->
  bt_push_all H pr st es t = (t', Val (Ok tt)) -> binv (ds ++ es) t'.
Proof.
  intros es ds t t' Hi HN Ep. destruct (push_all_cases es ds t Hi HN) as (t2 & r & Er & C).
  rewrite Ep in Er. inversion Er; subst. destruct C as [(a & _ & B)|(_ & e & Ee)]; [exact B|discriminate Ee].
Qed.

Lemma reach_binv : forall ds s0 t, Z.of_nat (length ds) <= max_leaves ->
  bt_push_all H pr st ds (bt_new s0) = (t, Val (Ok tt)) -> binv ds t.
Proof.
  intros ds s0 t HN Ep. apply (push_all_binv ds [] (bt_new s0)); auto. apply binv_new.
Qed.

Lemma prove_of_binv : forall ds t, binv ds t -> Z.of_nat (length ds) < leaf_limit pr ->
  proves_as H pr st ds t.
Proof.
  intros ds t Hi HN. pose proof (limit_max _ _ HN) as HM. split.
  - intros i d Hd.
    destruct (prove_cases H pr st view L ds t i d (binv_bsub _ _ _ _ Hi) (count_ok_limit _ _ HN) Hd)
      as (t' & r & Er & R & C).
    exists t', r. split; [exact Er|]. destruct C as [->|[(h & b & _ & M1 & M2)|(e & -> & F)]].
    + left. eauto.
    + rewrite (binv_store _ _ _ _ Hi h b M1) in M2. discriminate M2.
    + right. eauto.
  - intros i Hr. apply prove_out_of_range; [rewrite (binv_count _ _ _ _ Hi); lia|].
    unfold U64. lia.
Qed.

Hypothesis HE : H [] = empty_sum.

Lemma behaves_of_binv : forall ds t, binv ds t -> behaves_as H pr st ds t.
Proof.
  intros ds t Hi es HN. pose proof (limit_max _ _ HN) as HM.
  destruct (push_all_cases es ds t Hi ltac:(unfold max_leaves; lia)) as (t' & r & Er & C).
  exists t', r. split; [exact Er|]. destruct C as [([] & -> & B)|F]; [left|right; exact F].
  exists tt. split; [reflexivity|]. split.
  - apply root_is_mth; auto; [unfold max_leaves; lia|]. apply B.
  - apply prove_of_binv; auto.
Qed.

Lemma C01_lemma : forall ds s0, Infallible st -> Z.of_nat (length ds) <= 2 ^ 63 ->
  exists t, bt_push_all H pr st ds (bt_new s0) = (t, Val (Ok tt)) /\
            bt_root H pr t = Val (mth H ds).
Proof.
  intros ds s0 Inf HN.
  destruct (push_all_ok H pr st view L ds [] (bt_new s0) Inf (binv_new _ _ _) HN) as (t & Et & Hi).
  exists t. split; [exact Et|]. apply root_is_mth; auto. apply Hi.
Qed.
End Binary.

Section Binary2.
Variable H : list byte -> bytes32.
Variable pr : profile.
Context {St E : Type}.
Variable st : StorageT St Z BPrimitive E.
Variable view : St -> Z -> option BPrimitive.
Hypothesis L : Lawful st view.

Lemma C02_lemma : forall ds s0, Infallible st -> Z.of_nat (length ds) < leaf_limit pr ->
  exists t, bt_push_all H pr st ds (bt_new s0) = (t, Val (Ok tt)) /\
  forall i d, nth_error ds i = Some d ->
  bt_root H pr t = Val (mth H ds) /\
  exists t', bt_prove H pr st (Z.of_nat i) t =
               (t', Val (Ok (mth H ds, hash_leaf H d :: audit_path H i ds))).
Proof.
  intros ds s0 Inf HN. pose proof (limit_max _ _ HN) as HM.
  assert (HM' : Z.of_nat (length ds) <= max_leaves) by (unfold max_leaves; lia).
  destruct (push_all_ok H pr st view L ds [] (bt_new s0) Inf (binv_new _ _ _) HM') as (t & Et & Hi).
  exists t. split; [exact Et|]. intros i d Hd. cbn [app] in Hi. split.
  - apply root_ok_ne; auto; [apply Hi|]. intros ->. destruct i; discriminate Hd.
  - destruct (prove_ok H pr st view L ds t i d Inf Hi (count_ok_limit _ _ HN) Hd) as (t' & Ep & _).
    exists t'. exact Ep.
Qed.

Lemma C05_partial_lemma : forall (t : BTree St) i, 0 <= bt_leaves_count t <= i -> i < 2 ^ 64 - 1 ->
  bt_prove H pr st i t = (t, Val (Err (BInvalidProofIndex i))).
Proof. intros. apply prove_out_of_range; auto. Qed.

Hypothesis HE : H [] = empty_sum.

Lemma C06_lemma : forall ds s0 t, Infallible st -> Z.of_nat (length ds) < leaf_limit pr ->
  bt_push_all H pr st ds (bt_new s0) = (t, Val (Ok tt)) ->
  exists s' t2, bt_load pr st (Z.of_nat (length ds)) (bt_storage t) = (s', Val (Ok t2)) /\
    bt_head t2 = bt_head t /\ bt_leaves_count t2 = bt_leaves_count t /\ bt_storage t2 = s' /\
    (forall k, view s' k = view (bt_storage t) k) /\
    behaves_as H pr st ds t /\ behaves_as H pr st ds t2.
Proof.
  intros ds s0 t Inf HN Ep. pose proof (limit_max _ _ HN) as HM.
  assert (Hi : binv H view ds t).
  { eapply reach_binv; eauto. unfold max_leaves; lia. }
  destruct (load_full H pr st view L ds (bt_storage t) (binv_store _ _ _ _ Hi) (count_ok_limit _ _ HN))
    as (s' & r & Er & V & [(t2 & -> & B & Es)|(e & _ & F)]); [|contradiction].
  exists s', t2. destruct (binv_same_heads H view ds t2 t B Hi) as [A1 A2].
  repeat split; auto; eapply behaves_of_binv; eauto.
Qed.

Lemma firstn_le : forall m (ds : list (list byte)), (length (firstn m ds) <= length ds)%nat.
Proof. intros. rewrite firstn_length. lia. Qed.

Lemma C07_lemma : forall ds s0 t m, Infallible st -> Z.of_nat (length ds) <= 2 ^ 63 ->
  bt_push_all H pr st ds (bt_new s0) = (t, Val (Ok tt)) ->
  (m <= length ds)%nat -> Z.of_nat m < leaf_limit pr ->
  exists s' t2, bt_load pr st (Z.of_nat m) (bt_storage t) = (s', Val (Ok t2)) /\
    (forall k, view s' k = view (bt_storage t) k) /\
    behaves_as H pr st (firstn m ds) t2.
Proof.
  intros ds s0 t m Inf HN Ep Hm HL.
  assert (Hi : binv H view ds t).
  { eapply reach_binv; eauto. }
  assert (Lm : length (firstn m ds) = m) by (rewrite firstn_length; lia).
  destruct (load_full H pr st view L (firstn m ds) (bt_storage t))
    as (s' & r & Er & V & [(t2 & -> & B & Es)|(e & _ & F)]); [| | |contradiction].
  - apply store_full_firstn. apply Hi.
  - apply count_ok_limit. rewrite Lm. exact HL.
  - rewrite Lm in Er. exists s', t2. split; [exact Er|]. split; [exact V|].
    eapply behaves_of_binv; eauto.
Qed.

Lemma C10_lemma : forall ds s0 t d t' e, Z.of_nat (length ds) < leaf_limit pr ->
  bt_push_all H pr st ds (bt_new s0) = (t, Val (Ok tt)) ->
  bt_push H pr st d t = (t', Val (Err e)) ->
  exists s' r, bt_load pr st (Z.of_nat (length ds)) (bt_storage t') = (s', Val r) /\
    ok_or_fault st r (fun t2 => behaves_as H pr st ds t2).
Proof.
  intros ds s0 t d t' e HN Ep Ef. pose proof (limit_max _ _ HN) as HM.
  assert (Hi : binv H view ds t).
  { eapply reach_binv; eauto. unfold max_leaves; lia. }
  destruct (push_ok H pr st view L ds d t Hi ltac:(unfold max_leaves; lia)) as (t1 & r & Er & O & C).
  rewrite Ef in Er. inversion Er; subst.
  pose proof (only_new_full H view ds _ _ O (binv_store _ _ _ _ Hi)) as F.
  destruct (load_full H pr st view L ds _ F (count_ok_limit _ _ HN)) as (s' & r & El & V & C').
  exists s', r. split; [exact El|]. destruct C' as [(t2 & -> & B & _)|(e' & -> & I)].
  - left. exists t2. split; [reflexivity|]. eapply behaves_of_binv; eauto.
  - right. split; eauto.
Qed.
End Binary2.

Section Binary3.
Variable H : list byte -> bytes32.
Variable pr : profile.
Context {St E : Type}.
Variable st : StorageT St Z BPrimitive E.
Variable view : St -> Z -> option BPrimitive.
Hypothesis L : Lawful st view.

Lemma C08_lemma : forall n s, Infallible st -> Z.of_nat n < leaf_limit pr ->
  exists s', (forall k, view s' k = view s k) /\
  ((exists t, bt_load pr st (Z.of_nat n) s = (s', Val (Ok t)) /\
     bt_leaves_count t = Z.of_nat n /\
     forall h b, is_peak n h b -> view s (index_of h b) <> None) \/
   (exists h b, bt_load pr st (Z.of_nat n) s = (s', Val (Err (BLoadError (index_of h b)))) /\
     is_peak n h b /\ view s (index_of h b) = None /\
     forall h' b', is_peak n h' b' -> (h < h')%nat -> view s (index_of h' b') <> None)).
Proof.
  intros n s Inf HN.
  destruct (load_cases pr st view L n s (count_ok_limit _ _ HN)) as (s' & r & Er & V & C).
  assert (PK : forall h b, is_peak n h b -> In (h, b) (peaks (root_height n) n)).
  { intros h b Hp. apply peaks_is_peak. split; [|exact Hp].
    eapply peak_height_lt; eauto. pose proof (root_height_spec n). lia. }
  exists s'. split; [exact V|]. destruct C as [(prims & F2 & ->)|[(ps1 & [h b] & ps2 & Ep & -> & N & A)|(e & _ & F)]].
  - left. eexists. split; [exact Er|]. split; [reflexivity|]. intros h b Hp. apply PK in Hp.
    clear Er PK. revert Hp. induction F2 as [|[h1 b1] x ps xs Hx F2 IH]; [contradiction|].
    intros [Eq|Hin]; [|apply IH; exact Hin]. injection Eq as -> ->. cbn in Hx. unfold index_of_pair in Hx. cbn in Hx. congruence.
  - right. exists h, b. split; [exact Er|].
    assert (Hin : In (h, b) (peaks (root_height n) n)) by (rewrite Ep; apply in_or_app; right; left; reflexivity).
    split; [apply peaks_is_peak in Hin; tauto|]. split; [exact N|].
    intros h' b' Hp Hlt. apply (A (h', b')). apply (peaks_sorted n (root_height n) ps1 h b ps2); auto.
  - contradiction.
Qed.

(** * Exact storage content *)
Definition store_exact (ds : list (list byte)) (s : St) : Prop := forall k p,
  view s k = Some p <->
  exists h b, ((b + 1) * 2 ^ h <= length ds)%nat /\ k = index_of h b /\
              p = (index_of h b, mth H (block h b ds)).

Lemma push_exact : forall ds d t t', binv H view ds t -> Z.of_nat (length ds + 1) <= max_leaves ->
  bt_push H pr st d t = (t', Val (Ok tt)) -> store_exact ds (bt_storage t) ->
  binv H view (ds ++ [d]) t' /\ store_exact (ds ++ [d]) (bt_storage t') /\
  only_new view (length ds) (bt_storage t) (bt_storage t').
Proof.
  intros ds d t t' Hi HN Ep Ex.
  destruct (push_ok H pr st view L ds d t Hi HN) as (t1 & r & Er & O & C).
  rewrite Ep in Er. inversion Er; subst. destruct C as [(_ & Hi')|((e & Ee) & _)]; [|discriminate Ee].
  split; [exact Hi'|]. split; [|exact O].
  assert (Ll : length (ds ++ [d]) = (length ds + 1)%nat) by (rewrite app_length; reflexivity).
  intros k p. split.
  - intros V. assert (D : (exists h b, ((b + 1) * 2 ^ h = length ds + 1)%nat /\ k = index_of h b) \/
                          (forall h b, ((b + 1) * 2 ^ h = length ds + 1)%nat -> k <> index_of h b)).
    { destruct (Z_lt_dec k 0) as [Neg|NN].
      { right. intros h b _ ->. pose proof (index_of_nonneg h b). lia. }
      destruct (Z_lt_dec k (U64 - 1)) as [Lt|Ge].
      - destruct (index_of_exists k ltac:(lia)) as (h & b & _ & ->).
        destruct (Nat.eq_dec ((b + 1) * 2 ^ h) (length ds + 1)) as [Eq|Ne]; [left; eauto|right].
        intros h' b' E' C. apply index_of_inj in C. destruct C as [-> ->]. lia.
      - right. intros h b Eb ->. destruct (complete_bounds h b (length ds + 1) ltac:(lia) HN) as [B1 B2].
        assert (B3 : index_of h b <> U64 - 1).
        { intros C. unfold index_of in C.
          assert (Z.of_nat ((b + 1) * 2 ^ h) <= 2 ^ 63) by (unfold max_leaves in HN; lia).
          rewrite Nat2Z.inj_mul, P2_nat in H0. change U64 with (2 * 2 ^ 63) in C. pose proof (P2_pos h). nia. }
        lia. }
    destruct D as [(h & b & Eb & ->)|D].
    + rewrite (binv_store _ _ _ _ Hi' h b) in V by lia. inversion V; subst. exists h, b. repeat split; auto. lia.
    + rewrite (O k D) in V. apply Ex in V. destruct V as (h & b & Hb & -> & ->).
      exists h, b. repeat split; [lia|]. rewrite block_app by exact Hb. reflexivity.
  - intros (h & b & Hb & -> & ->). apply (binv_store _ _ _ _ Hi' h b). exact Hb.
Qed.

Lemma push_all_exact : forall es ds t t', binv H view ds t -> Z.of_nat (length (ds ++ es)) <= max_leaves ->
  bt_push_all H pr st es t = (t', Val (Ok tt)) -> store_exact ds (bt_storage t) ->
  binv H view (ds ++ es) t' /\ store_exact (ds ++ es) (bt_storage t').
Proof.
  induction es as [|e es IH]; intros ds t t' Hi HN Ep Ex.
  - cbn in Ep. inversion Ep; subst. rewrite app_nil_r. auto.
  - cbn [bt_push_all] in Ep. unfold bind_try, bind in Ep.
    destruct (bt_push H pr st e t) as [t1 [[[]|]| |]] eqn:E1; try discriminate Ep.
    assert (HN' : Z.of_nat (length ds + 1) <= max_leaves).
    { rewrite app_length in HN. cbn [length] in HN. lia. }
    destruct (push_exact ds e t t1 Hi HN' E1 Ex) as (A & B & _).
    replace (ds ++ e :: es) with ((ds ++ [e]) ++ es) in * by (rewrite <- app_assoc; reflexivity).
    eapply IH; eauto.
Qed.

Lemma exact_nil : forall s, (forall k, view s k = None) -> store_exact [] s.
Proof.
  intros s Hs k p. rewrite Hs. split; [discriminate|]. intros (h & b & Hb & _).
  cbn [length] in Hb. pose proof (pow2_pos h). nia.
Qed.

Lemma C12_lemma : forall ds s0 t, (forall k, view s0 k = None) -> Z.of_nat (length ds) <= 2 ^ 63 ->
  bt_push_all H pr st ds (bt_new s0) = (t, Val (Ok tt)) ->
  forall k p, view (bt_storage t) k = Some p <->
  exists h b, ((b + 1) * 2 ^ h <= length ds)%nat /\ k = index_of h b /\
              p = (index_of h b, mth H (block h b ds)).
Proof.
  intros ds s0 t Hs HN Ep.
  destruct (push_all_exact ds [] (bt_new s0) t (binv_new _ _ _) HN Ep (exact_nil s0 Hs)) as [_ B].
  exact B.
Qed.

Lemma C13_lemma : forall ds s0 t d t' r, (forall k, view s0 k = None) ->
  Z.of_nat (length ds) < 2 ^ 63 ->
  bt_push_all H pr st ds (bt_new s0) = (t, Val (Ok tt)) ->
  bt_push H pr st d t = (t', Val r) ->
  forall k p, view (bt_storage t) k = Some p -> view (bt_storage t') k = Some p.
Proof.
  intros ds s0 t d t' r Hs HN Ep Ed k p V.
  assert (HN' : Z.of_nat (length ds) <= max_leaves) by (unfold max_leaves; lia).
  destruct (push_all_exact ds [] (bt_new s0) t (binv_new _ _ _) HN' Ep (exact_nil s0 Hs)) as [A B].
  destruct (push_ok H pr st view L ds d t A ltac:(unfold max_leaves; lia)) as (t1 & r1 & Er & O & _).
  rewrite Ed in Er. inversion Er; subst. rewrite O; [exact V|].
  intros h b E1 ->. apply B in V. destruct V as (h' & b' & Hb & C & _). apply index_of_inj in C.
  destruct C as [<- <-]. cbn [app] in Hb. lia.
Qed.

Lemma C14_lemma : forall i (t t' : BTree St) o, bt_prove H pr st i t = (t', o) ->
  bt_head t' = bt_head t /\ bt_leaves_count t' = bt_leaves_count t /\
  forall k, view (bt_storage t') k = view (bt_storage t) k.
Proof. intros i t t' o Ep. exact (prove_read_only H pr st view L i t t' o Ep). Qed.

Lemma C16_lemma : forall ds s0 t s, Z.of_nat (length ds) < leaf_limit pr ->
  bt_push_all H pr st ds (bt_new s0) = (t, Val (Ok tt)) ->
  (forall k p, view s k = Some p -> view (bt_storage t) k = Some p) ->
  forall i d, nth_error ds i = Some d ->
  exists t' r, bt_prove H pr st (Z.of_nat i) (Build_BTree s (bt_head t) (bt_leaves_count t)) = (t', Val r) /\
    (r = Ok (mth H ds, hash_leaf H d :: audit_path H i ds) \/
     (exists k, r = Err (BLoadError k) /\
        exists h b, ((b + 1) * 2 ^ h <= length ds)%nat /\ view s (index_of h b) = None /\
                    (k = index_of h b \/ h = O /\ k = Z.of_nat b)) \/
     (exists e, r = Err (BStorageError e) /\ ~ Infallible st)).
Proof.
  intros ds s0 t s HN Ep Sub i d Hd. pose proof (limit_max _ _ HN) as HM.
  assert (Hi : binv H view ds t).
  { eapply reach_binv; eauto. unfold max_leaves; lia. }
  destruct (prove_cases H pr st view L ds (Build_BTree s (bt_head t) (bt_leaves_count t)) i d)
    as (t' & r & Er & R & C); auto.
  - constructor; cbn; try apply Hi. intros h b p Hb V. apply Sub in V.
    rewrite (binv_store _ _ _ _ Hi h b Hb) in V. congruence.
  - apply count_ok_limit; exact HN.
  - exists t', r. split; [exact Er|]. destruct C as [C|[(h & b & C & [M1 M2])|C]]; auto.
    right. left. destruct C as [->|[-> ->]]; eexists; (split; [reflexivity|]).
    + exists h, b. auto.
    + exists O, b. auto.
Qed.

Lemma C17_lemma : forall ds s0 t i t' root proof, Infallible st -> Z.of_nat (length ds) < leaf_limit pr ->
  bt_push_all H pr st ds (bt_new s0) = (t, Val (Ok tt)) -> 0 <= i < 2 ^ 64 - 1 ->
  bt_prove H pr st i t = (t', Val (Ok (root, proof))) ->
  Z.of_nat (length proof) <= 1 + Z.log2_up (Z.of_nat (length ds)).
Proof.
  intros ds s0 t i t' root proof Inf HN Ep Hi0 Epr. pose proof (limit_max _ _ HN) as HM.
  assert (Hi : binv H view ds t).
  { eapply reach_binv; eauto. unfold max_leaves; lia. }
  destruct (Z_lt_dec i (Z.of_nat (length ds))) as [Lt|Ge].
  - destruct (nth_error ds (Z.to_nat i)) as [d|] eqn:Hd.
    2:{ apply nth_error_None in Hd. lia. }
    destruct (prove_ok H pr st view L ds t (Z.to_nat i) d Inf Hi (count_ok_limit _ _ HN) Hd) as (t2 & E2 & _).
    rewrite Z2Nat.id in E2 by lia. rewrite Epr in E2. inversion E2; subst.
    cbn [length]. set (k := Z.to_nat (Z.log2_up (Z.of_nat (length ds)))).
    assert (length (audit_path H (Z.to_nat i) ds) <= k)%nat; [|unfold k in *; pose proof (Z.log2_up_nonneg (Z.of_nat (length ds))); lia].
    apply audit_path_length. apply nat_le_pow2. unfold k.
    rewrite Z2Nat.id by apply Z.log2_up_nonneg.
    destruct (Z.le_gt_cases (Z.of_nat (length ds)) 1) as [S1|S1].
    + pose proof (Z.pow_pos_nonneg 2 (Z.log2_up (Z.of_nat (length ds))) ltac:(lia) (Z.log2_up_nonneg _)). lia.
    + apply Z.log2_up_spec. exact S1.
  - exfalso. rewrite prove_out_of_range in Epr; [discriminate Epr| |unfold U64; lia].
    rewrite (binv_count _ _ _ _ Hi). lia.
Qed.
End Binary3.
