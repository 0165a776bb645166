(** SparseRecover.v -- recovery of the sparse tree. *)
From Verif Require Import Base Storage ModelCommon ModelSparse SpecBits SpecBinary SpecSparse SpecStore RunsSparse RunsSparseRecover
  BindingProofs BitsProofs CommonProofs SparseSpecFacts SparseNodes SparseProofs SparseOps SparseSteps SparseMain SparseTheorems SparseEntries.

Section R.
Variable H : list byte -> bytes32.
Variable pr : profile.
Context {St E : Type}.
Variable st : StorageT St bytes32 SPrimitive E.
Variable view : St -> bytes32 -> option SPrimitive.
Hypothesis Law : Lawful st view.
Notation V t := (view (sp_storage t)).

Section WithU.
Variable U : list (list byte).
Hypothesis HC : ~ has_collision H U.
Hypothesis HZ : forall x, In x U -> H x <> zero32.

(** The map [m0] can be loaded from a storage with contents [v]. *)
Definition kept (v : bytes32 -> option SPrimitive) (m0 : kvmap) : Prop :=
  NoDup (keys m0) /\ good H U (digests H m0) /\ stored H (digests H m0) v /\
  forall k, In k (keys m0) -> fresh H U k -> v k <> None.
Definition rinv (saved : list kvmap) (m : kvmap) (w : list bytes32) (t : SpTree St) : Prop :=
  winv H U view m w t /\ forall m0, In m0 saved -> kept (V t) m0.

Lemma kept_of : forall m w t, winv H U view m w t -> stored H (digests H m) (V t) -> kept (V t) m.
Proof. intros m w t [N C Has _] Sm. split; [exact N|]. split; [apply C|]. split; [exact Sm|]. exact Has. Qed.

Lemma digests_ne : forall m, m <> [] -> digests H m <> [].
Proof. intros [|e m] N; [congruence|discriminate]. Qed.

Lemma reloads_spec : forall m0 s t2, kept (view s) m0 -> m0 <> [] -> sp_reloads st (kv_root H m0) s t2 ->
  sp_root_node t2 = nd H [] (digests H m0) /\ forall k, V t2 k = view s k.
Proof.
  intros m0 s t2 K NE R. induction R as [s s' t Ld|s s' e t Ld R IH]; destruct K as (N & G & Sm & Has);
    destruct (load_ok H U st view Law (digests H m0) s G (digests_ne m0 NE) Sm) as (s1 & r1 & Q & Vs & C);
    rewrite T_kv in Q; rewrite Ld in Q; injection Q as <- <-.
  - destruct C as [C|[[e C] _]]; [|discriminate]. injection C as ->. split; [reflexivity|exact Vs].
  - assert (K' : kept (view s') m0).
    { split; [exact N|]. split; [exact G|]. split; [apply (stored_ext H _ (view s)); auto|]. intros k Ik F. rewrite Vs. auto. }
    destruct (IH K') as [A B]. split; [exact A|]. intros k. rewrite B. apply Vs.
Qed.

(** A delete of a present entry leaves alone the maps that do not hold it. *)
Lemma delete_keeps : forall k h m w t t' r m0, winv H U view m w t -> fresh H U k -> In (k, h) (digests H m) ->
  good H U (digests H (mdel k m)) -> sp_delete H pr st k t = (t', Val r) ->
  good H U m0 -> stored H m0 (V t) -> ~ In (k, h) m0 -> stored H m0 (V t').
Proof.
  intros k h m w t t' r m0 [N [Rn So G Us] Has _] Fr Ih G' De G0 S0 Nh.
  assert (Nd : NoDup (keys (digests H m))) by (rewrite keys_digests; exact N).
  assert (Ik : In k (keys m)) by (rewrite <- (keys_digests H); apply in_keys; eauto).
  destruct (lands_exists k (digests H m) Nd) as [D La].
  pose proof (cut_landing H k m D N La) as Ec. rewrite (landing_present H k m N Ik) in Ec.
  destruct (delete_ok H U HZ pr st view Law k (digests H m) D t La G ltac:(rewrite Ec; exact G') So Rn (Us k Logic.I Fr)) as (t1 & r1 & Q & C).
  rewrite De in Q. injection Q as <- <-.
  assert (Gen : forall L, (forall k', V t' k' = wr L (V t) k') -> (forall x, In x L -> del_write H k (digests H m) D x) -> stored H m0 (V t')).
  { intros L VL WL p NE. rewrite VL. destruct (wr_cases L (V t) (SparseSpecFacts.T H p m0)) as [(o & Io & ->)|[_ ->]]; [|apply S0; exact NE].
    destruct (WL _ Io) as [(i & Li & Q)|(i & Li & L2 & Q)].
    - exfalso. unfold rm in Q. assert (ET : SparseSpecFacts.T H p m0 = SparseSpecFacts.T H (P k i) (digests H m)) by congruence.
      destruct (T_same H U HC HZ _ _ _ _ G0 G ET) as (Sa & _ & _).
      assert (Ip : In (k, h) (sub p m0)) by (apply Sa; apply sub_in; split; [exact Ih|apply P_prefix]).
      apply sub_in in Ip. destruct Ip as [Ip _]. contradiction.
    - unfold SparseProofs.nw in Q. rewrite Ec in Q.
      assert (ET : SparseSpecFacts.T H p m0 = SparseSpecFacts.T H (P k i) (digests H (mdel k m))) by congruence.
      rewrite (nd_unique H U HC HZ _ _ _ _ G0 G' ET). congruence. }
  destruct C as [(_ & _ & Vs & _)|[(_ & _ & _ & _ & L & VL & WL)|(e & _ & _ & _ & L & VL & WL & _)]].
  - apply (stored_ext H m0 (V t)); auto.
  - apply (Gen _ VL). intros x Ix. apply in_app_or in Ix. destruct Ix as [Ix|Ix]; [|right; apply WL; exact Ix].
    left. apply in_map_iff in Ix. destruct Ix as (i & <- & Ii). apply down_in in Ii. exists i. split; [|reflexivity].
    apply Nat.lt_succ_r. exact Ii.
  - exact (Gen L VL WL).
Qed.

(** The same entry is lost by every map that holds it once a delete answered Ok. *)
Lemma delete_loses : forall k h m w t t', winv H U view m w t -> fresh H U k -> In (k, h) (digests H m) ->
  good H U (digests H (mdel k m)) -> sp_delete H pr st k t = (t', Val (Ok tt)) ->
  V t' (entry_hash H x00 k h) = None.
Proof.
  intros k h m w t t' [N [Rn So G Us] Has _] Fr Ih G' De.
  assert (Nd : NoDup (keys (digests H m))) by (rewrite keys_digests; exact N).
  assert (Ik : In k (keys m)) by (rewrite <- (keys_digests H); apply in_keys; eauto).
  destruct (lands_exists k (digests H m) Nd) as [D La].
  pose proof (cut_landing H k m D N La) as Ec. rewrite (landing_present H k m N Ik) in Ec.
  pose proof (lands_present k h (digests H m) D Nd La Ih) as S1.
  assert (Et : entry_hash H x00 k h = SparseSpecFacts.T H (P k D) (digests H m)).
  { rewrite <- (nd_hash H U HZ) by exact G. rewrite (nd_one H _ _ _ _ S1).
    symmetry. apply (node_hash_entry H 0). reflexivity. }
  rewrite Et.
  destruct (delete_ok H U HZ pr st view Law k (digests H m) D t La G ltac:(rewrite Ec; exact G') So Rn (Us k Logic.I Fr)) as (t1 & r1 & Q & C).
  rewrite De in Q. injection Q as <- <-.
  destruct C as [(_ & _ & _ & [Em|Vk])|[(_ & _ & _ & _ & L & VL & WL)|(e & Q & _)]]; [| |  |discriminate].
  - exfalso. destruct m; [destruct Ik|discriminate].
  - exfalso. exact (Has k Ik Fr Vk).
  - rewrite VL. match goal with |- wr ?l ?v ?x = None => destruct (wr_cases l v x) as [(o & Io & ->)|[X _]] end.
    + apply in_app_or in Io. destruct Io as [Io|Io].
      * apply in_map_iff in Io. destruct Io as (i & Q & _). unfold rm in Q. congruence.
      * exfalso. apply WL in Io. destruct Io as (i & Li & L2 & Q). unfold SparseProofs.nw in Q. rewrite Ec in Q, L2.
        assert (ET : SparseSpecFacts.T H (P k D) (digests H m) = SparseSpecFacts.T H (P k i) (digests H (mdel k m))) by congruence.
        destruct (T_same H U HC HZ _ _ _ _ G G' ET) as (_ & Ln & _). rewrite <- Ln, S1 in L2. cbn [length] in L2. lia.
    + exfalso. apply (X None). apply in_or_app. left. apply in_map_iff. exists D. split; [reflexivity|]. apply down_in. lia.
Qed.
End WithU.

Variable ks : list bytes32.
Variable ms : list kvmap.
Hypothesis Ok0 : hash_ok H ks ms.
Notation U := (universe H ms).

Lemma shares_in : forall k m m0, In k (keys m) -> ~ shares H k m m0 -> exists h, In (k, h) (digests H m) /\ ~ In (k, h) (digests H m0).
Proof.
  intros k m m0 Ik Ns. rewrite <- (keys_digests H) in Ik. apply in_keys in Ik. destruct Ik as [h Ih]. exists h. split; [exact Ih|].
  intros I0. apply Ns. exists h. auto.
Qed.

Lemma recovers_rinv : forall saved m w t, sp_recovers H pr st view ks ms saved m w t -> rinv U saved m w t.
Proof.
  destruct (setup H ks ms Ok0) as (HC & HZ & Fr & Gd).
  assert (K0 : forall v, kept U v []).
  { intros v. split; [constructor|]. split; [exact (good_nil H U)|]. split; [|intros k []].
    intros p NE. exfalso. apply NE. unfold SpecSparse.digests. cbn [map]. unfold sub. reflexivity. }
  (* a delete of a present key *)
  assert (Del : forall saved m w t k t' r, rinv U saved m w t -> In k (keys m) -> In k ks -> In (mdel k m) ms ->
    sp_delete H pr st k t = (t', Val r) ->
    ((r = Ok tt /\ winv H U view (mdel k m) w t' /\ (In m saved -> kept U (V t') (mdel k m))) \/
     (exists e, r = Err e /\ winv H U view m w t')) /\
    (forall m0, In m0 saved -> ~ shares H k m m0 -> kept U (V t') m0)).
  { intros saved m w t k t' r [W Sv] Ik Ik2 Im De.
    assert (G' : good H U (digests H (mdel k m))) by (apply Gd; [exact Im|apply mdel_nodup; apply W]).
    destruct (clean_delete H U HC HZ pr st view Law k m w t W (Fr k Ik2) (or_introl Ik) G') as (t1 & r1 & Q & C & Vf).
    rewrite De in Q. injection Q as <- <-. split.
    - destruct C as [(-> & W1 & S1)|(e & -> & W1 & _)]; [left|right; eauto].
      split; [reflexivity|]. split; [exact W1|]. intros Is. apply (kept_of U _ _ _ W1). apply S1. apply (Sv m Is).
    - intros m0 I0 Ns. destruct (shares_in k m m0 Ik Ns) as (h & Ih & Nh). destruct (Sv m0 I0) as (N0 & G0 & S0 & Us0).
      split; [exact N0|]. split; [exact G0|]. split.
      + exact (delete_keeps U HC HZ k h m w t t' r _ W (Fr k Ik2) Ih G' De G0 S0 Nh).
      + intros k' I' F'. rewrite Vf by exact F'. auto. }
  (* an update *)
  assert (Upd : forall saved m w t k v t' r, rinv U saved m w t -> v <> [] -> In k ks -> In (mset k v m) ms ->
    sp_update H pr st k v t = (t', Val r) ->
    ((r = Ok tt /\ winv H U view (mset k v m) (k :: w) t' /\ (In m saved -> kept U (V t') (mset k v m))) \/
     (exists e, r = Err e /\ winv H U view m (k :: w) t')) /\
    (forall m0, In m0 saved -> kept U (V t') m0)).
  { intros saved m w t k v t' r [W Sv] ND Ik Im Up.
    assert (G : good H U (digests H (apply_op m (Update k v)))).
    { destruct v; [congruence|]. apply Gd; [exact Im|]. apply mset_nodup. apply W. }
    destruct (op_step H U HC HZ pr st view Law (Update k v) m w t W (Fr k Ik) ltac:(destruct v; [congruence|exact Logic.I]) G) as (t1 & r1 & A1 & C & Kp).
    cbn [sp_apply] in A1. rewrite Up in A1. injection A1 as <- <-. destruct Kp as [Kp Ku]; [destruct v; [congruence|exact Logic.I]|].
    split.
    - destruct C as [(-> & W1 & S1)|(e & -> & W1 & _)]; [left|right]; destruct v as [|b v]; try congruence.
      + split; [reflexivity|]. split; [exact W1|]. intros Is. apply (kept_of U _ _ _ W1). apply S1. apply (Sv m Is).
      + exists e. split; [reflexivity|exact W1].
    - intros m0 I0. destruct (Sv m0 I0) as (N0 & G0 & S0 & H0). split; [exact N0|]. split; [exact G0|]. split; [apply Kp; auto|].
      intros k' I' F'. apply Ku; auto. }
  intros saved m w t R. induction R as [s0 Em|saved m w t R IH|saved m w t k v t' saved' R IH ND Ik Im Up Sd|saved m w t k v t' e R IH ND Ik Im Up
    |saved m w t k t' saved' R IH Ikm Ik Im De Sd|saved m w t k t' e saved' R IH Ikm Ik Im De Sd|saved m w t k t' r R IH Nk Nw Ik De|saved m w t m0 t2 R IH Im NE Rl].
  - destruct (winv_new H view U s0 Em) as (W & S0 & _). split; [exact W|]. intros m0 [<-|[]]. apply K0.
  - destruct IH as [[_ [_ So _ Us] _ Unw] Sv]. split.
    + constructor; [constructor| |intros k []|exact Unw].
      constructor; [symmetry; apply nd_nil; reflexivity|exact So|exact (good_nil H U)|exact Us].
    + intros m0 [<-|I0]; [apply K0|apply (Sv m0 I0)].
  - destruct (Upd saved m w t k v t' (Ok tt) IH ND Ik Im Up) as [[(_ & W1 & Kn)|(e & Q & _)] Ko]; [|discriminate].
    split; [exact W1|]. intros m0 I0. destruct (Sd m0 I0) as [I1|[I1 ->]]; auto.
  - destruct (Upd saved m w t k v t' (Err e) IH ND Ik Im Up) as [[(Q & _)|(e' & _ & W1)] Ko]; [discriminate|]. split; [exact W1|exact Ko].
  - destruct (Del saved m w t k t' (Ok tt) IH Ikm Ik Im De) as [[(_ & W1 & Kn)|(e & Q & _)] Ko]; [|discriminate].
    split; [exact W1|]. intros m0 I0. destruct (Sd m0 I0) as [[I1 Ns]|[I1 ->]]; auto.
  - destruct (Del saved m w t k t' (Err e) IH Ikm Ik Im De) as [[(Q & _)|(e' & _ & W1)] Ko]; [discriminate|].
    split; [exact W1|]. intros m0 I0. destruct (Sd m0 I0) as [I1 Ns]; auto.
  - destruct IH as [[N [Rn So G Us] Has Unw] Sv].
    destruct (delete_none H pr st view Law k t (Unw k (Fr k Ik) Nw)) as (t1 & r1 & Q & Rt & Vs & _).
    rewrite De in Q. injection Q as <- <-. split.
    + constructor; auto.
      * constructor; [congruence|apply (sound_ext H U (V t)); auto|exact G|]. intros k' K' F'. rewrite Vs. apply Us; assumption.
      * intros k' I' F'. rewrite Vs. auto.
      * intros k' F' N'. rewrite Vs. auto.
    + intros m0 I0. destruct (Sv m0 I0) as (N0 & G0 & S0 & H0). split; [exact N0|]. split; [exact G0|].
      split; [apply (stored_ext H _ (V t)); auto|]. intros k' I' F'. rewrite Vs. auto.
  - destruct IH as [W Sv]. pose proof (Sv m0 Im) as Km.
    destruct (reloads_spec U m0 _ t2 Km NE Rl) as [Rn Vs].
    assert (Kt : forall m1, kept U (V t) m1 -> kept U (V t2) m1).
    { intros m1 (N1 & G1 & S1 & H1). split; [exact N1|]. split; [exact G1|].
      split; [apply (stored_ext H _ (V t)); auto|]. intros k' I' F'. rewrite Vs. auto. }
    split; [|intros m1 I1; apply Kt; auto].
    destruct W as [_ [_ So _ Us] _ Unw]. constructor; [apply Km| |apply (Kt m0 Km)|].
    + constructor; [exact Rn|apply (sound_ext H U (V t)); auto|apply Km|]. intros k' K' F'. rewrite Vs. apply Us; assumption.
    + intros k' F' Nw. rewrite Vs. auto.
Qed.

Lemma C72_lemma : forall saved m w t, sp_recovers H pr st view ks ms saved m w t ->
  sp_root H t = kv_root H m /\
  (forall m0, In m0 saved -> m0 <> [] ->
     exists s' r, sp_load st (kv_root H m0) (sp_storage t) = (s', Val r) /\
       ((exists t2, r = Ok t2 /\ sp_root H t2 = kv_root H m0 /\ sp_recovers H pr st view ks ms saved m0 w t2) \/
        ((exists e, r = Err (SStorageError e)) /\ ~ Infallible st))) /\
  (forall o, clean m w [o] -> In (op_key o) ks -> In (apply_op m o) ms ->
     exists t' r, sp_apply H pr st o t = (t', Val r) /\
       ((r = Ok tt /\ sp_root H t' = kv_root H (apply_op m o)) \/
        (exists e, r = Err e /\ sp_root H t' = kv_root H m /\
           ((storage_error e /\ ~ Infallible st) \/ (~ In m saved /\ exists h, e = SChildErr (ChildNotFound h)))))).
Proof.
  intros saved m w t R. destruct (recovers_rinv saved m w t R) as [W Sv].
  destruct (setup H ks ms Ok0) as (HC & HZ & Fr & Gd).
  split; [apply (core_kv_root H view U HZ); apply W|]. split.
  - intros m0 Im NE. destruct (Sv m0 Im) as (N & G & Sm & Has).
    destruct (load_ok H U st view Law (digests H m0) (sp_storage t) G (digests_ne m0 NE) Sm) as (s1 & r1 & Q & Vs & C).
    rewrite T_kv in Q. exists s1, r1. split; [exact Q|]. destruct C as [->|C]; [left|right; exact C].
    eexists. split; [reflexivity|]. split.
    + unfold sp_root. cbn [sp_root_node]. rewrite (nd_hash H U HZ) by exact G. apply T_kv.
    + apply (spr_load H pr st view ks ms saved m w t m0 _ R Im NE). eapply sp_reload_now. exact Q.
  - intros o Cl Ik Im.
    assert (G : good H U (digests H (apply_op m o))) by (apply Gd; [exact Im|]; apply apply_nodup; apply W).
    assert (Co : clean_op m w o) by (destruct Cl as [Cl _]; destruct o as [k [|]|k]; exact Cl).
    destruct (op_step H U HC HZ pr st view Law o m w t W (Fr _ Ik) Co G) as (t1 & r1 & A1 & C & _).
    exists t1, r1. split; [exact A1|]. destruct C as [(-> & W1 & _)|(e & -> & W1 & Er)].
    + left. split; [reflexivity|]. apply (core_kv_root H view U HZ). apply W1.
    + right. exists e. split; [reflexivity|]. split; [apply (core_kv_root H view U HZ); apply W1|].
      destruct Er as [Er|X]; [left; exact Er|right]. split.
      * intros Is. revert X. apply stored_not_missing. apply (Sv m Is).
      * destruct X as (p & -> & _). eauto.
Qed.

(** What a delete takes away. *)
Lemma C75_lemma : forall saved m w t k v t', sp_recovers H pr st view ks ms saved m w t ->
  In (k, v) m -> In k ks -> In (mdel k m) ms ->
  sp_delete H pr st k t = (t', Val (Ok tt)) ->
  view (sp_storage t') (entry_hash H x00 k (H v)) = None.
Proof.
  intros saved m w t k v t' R Iv Ik Im De. destruct (recovers_rinv saved m w t R) as [W Sv].
  destruct (setup H ks ms Ok0) as (HC & HZ & Fr & Gd).
  apply (delete_loses U HC HZ k (H v) m w t t' W (Fr k Ik)); auto.
  - unfold SpecSparse.digests. apply in_map_iff. exists (k, v). auto.
  - apply Gd; [exact Im|]. apply mdel_nodup. apply W.
Qed.
End R.
