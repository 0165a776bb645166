(** SharedProofs.v -- sparse trees that share a storage: a delete spoils exactly the versions that
    have the deleted entry. *)
From Verif Require Import Base Storage ModelCommon ModelSparse SpecBinary SpecSparse SpecForks SpecShared SpecDisk SpecSync RunsSparse RunsForks
  StorageProofs SparseSpecFacts SparseNodes SparseProofs SparseOps SparseSteps SparseMain SparseTheorems ForkProofs SyncProofs.
From Coq Require Import Arith ZifyBool ZifyNat ZifyN.

Lemma lookup_in : forall A k (v : A) m, lookup k m = Some v -> In (k, v) m.
Proof.
  induction m as [|[k' v'] m IH]; cbn [lookup]; [discriminate|].
  destruct (b32_eqb k' k) eqn:Q; intros E0.
  - apply b32_eqb_eq in Q. left. congruence.
  - right. auto.
Qed.
Lemma in_lookup : forall A k (v : A) m, NoDup (keys m) -> In (k, v) m -> lookup k m = Some v.
Proof.
  induction m as [|[k' v'] m IH]; intros N I0; [contradiction|]. cbn [lookup keys map fst] in *. inversion N as [|? ? Nk N']; subst.
  destruct I0 as [E0|I0].
  - injection E0 as -> ->. rewrite b32_eqb_refl. reflexivity.
  - destruct (b32_eqb k' k) eqn:Q; [|auto]. exfalso. apply b32_eqb_eq in Q. subst k'. apply Nk. apply in_map_iff. exists (k, v). auto.
Qed.

Section Shared.
Variable H : list byte -> bytes32.
Variable pr : profile.
Context {St E : Type}.
Variable st : StorageT St bytes32 SPrimitive E.
Variable view : St -> bytes32 -> option SPrimitive.
Hypothesis Law : Lawful st view.
Notation V t := (view (sp_storage t)).

Section WithU.
Variable U : list (list byte).
Hypothesis HC : ~ has_collision H U.
Hypothesis HZ : forall x, In x U -> H x <> zero32.
Notation prim := (sprim_of_node).

(** Nodes of maps without the deleted entry stay. *)
Lemma delete_keep : forall k h m D t t' r, core H U anyk view m t -> fresh H U k -> lands k m D -> good H U (cut (P k D) m) ->
  In (k, h) m -> sp_delete H pr st k t = (t', Val r) ->
  forall m2, good H U m2 -> ~ In (k, h) m2 -> stored H m2 (V t) -> stored H m2 (V t').
Proof.
  intros k h m D t t' r [Rn So G Us] Fr La G' Ik R m2 G2 N2 S2.
  destruct (delete_ok H U HZ pr st view Law k m D t La G G' So Rn (Us k Logic.I Fr)) as (t1 & r1 & Q & C).
  rewrite R in Q. injection Q as <- <-.
  assert (WV : forall L, (forall w, In w L -> del_write H k m D w) -> (forall k', V t' k' = wr L (V t) k') -> stored H m2 (V t')).
  { intros L WL VL p NE. rewrite VL.
    destruct (wr_cases L (V t) (T H p m2)) as [(o & Io & ->)|[_ ->]]; [|apply S2; exact NE].
    destruct (WL _ Io) as [(i & Li & Q)|(i & Li & L2 & Q)].
    - exfalso. unfold rm in Q. destruct (T_same H U HC HZ (P k i) p m m2 G G2 ltac:(congruence)) as (Sa & _).
      apply N2. assert (I1 : In (k, h) (sub (P k i) m)) by (apply sub_in; split; [exact Ik|apply P_prefix]).
      apply Sa in I1. apply sub_in in I1. tauto.
    - unfold SparseProofs.nw in Q. assert (ET : T H p m2 = T H (P k i) (cut (P k D) m)) by congruence.
      rewrite (nd_unique H U HC HZ p (P k i) m2 _ G2 G' ET). congruence. }
  destruct C as [(_ & _ & Vs & _)|[(_ & _ & _ & _ & L & VL & WL)|(e & _ & _ & _ & L & VL & WL & _)]].
  - apply (stored_ext H m2 (V t)); [|exact S2]. intros k'. symmetry. apply Vs.
  - apply (WV _) with (2 := VL). intros w Iw. apply in_app_or in Iw. destruct Iw as [Iw|Iw]; [|right; apply WL; exact Iw].
    left. apply in_map_iff in Iw. destruct Iw as (i & <- & Ii). apply down_in in Ii. exists i. split; [lia|reflexivity].
  - apply (WV L WL VL).
Qed.

(** The leaf of the deleted entry goes. *)
Lemma delete_gone : forall k h m D t t', core H U anyk view m t -> fresh H U k -> lands k m D -> good H U (cut (P k D) m) ->
  In (k, h) m -> V t k <> None -> sp_delete H pr st k t = (t', Val (Ok tt)) -> V t' (T H (P k D) m) = None.
Proof.
  intros k h m D t t' [Rn So G Us] Fr La G' Ik Vk R.
  destruct (delete_ok H U HZ pr st view Law k m D t La G G' So Rn (Us k Logic.I Fr)) as (t1 & r1 & Q & C).
  rewrite R in Q. injection Q as <- <-.
  destruct C as [(_ & _ & _ & [->|C])|[(_ & _ & _ & _ & L & VL & WL)|(e & C & _)]]; [destruct Ik|contradiction| |discriminate].
  rewrite VL. destruct (wr_cases (map (rm H k m) (down (S D)) ++ L) (V t) (T H (P k D) m)) as [(o & Io & ->)|[N _]].
  - apply in_app_or in Io. destruct Io as [Io|Io].
    + apply in_map_iff in Io. destruct Io as (i & Q & _). unfold rm in Q. congruence.
    + exfalso. apply WL in Io. destruct Io as (i & Li & L2 & Q). unfold SparseProofs.nw in Q.
      destruct (T_same H U HC HZ (P k D) (P k i) m _ G G' ltac:(congruence)) as (_ & Ln & _).
      destruct La as (_ & _ & LE). lia.
  - exfalso. apply (N None). apply in_or_app. left. apply in_map_iff. exists D. split; [reflexivity|]. apply down_in. lia.
Qed.

Lemma in_digests : forall m k h, In (k, h) (digests H m) -> exists v, In (k, v) m /\ h = H v.
Proof. intros m k h I0. unfold digests in I0. apply in_map_iff in I0. destruct I0 as ([k1 v] & Q & I1). cbn [fst snd] in Q. exists v. split; congruence. Qed.

Lemma not_shared : forall k m m2 v, NoDup (keys m) -> NoDup (keys m2) -> In (k, v) m -> shared H k m m2 = false ->
  ~ In (k, H v) (digests H m2).
Proof.
  intros k m m2 v N N2 I0 Sh C. apply in_digests in C. destruct C as (v2 & I2 & Eh).
  unfold shared in Sh. rewrite (in_lookup _ _ _ _ N I0), (in_lookup _ _ _ _ N2 I2), Eh, b32_eqb_refl in Sh. discriminate.
Qed.

(** One call and the other versions. *)
Lemma op_keep : forall o m w t t' r, winv H U view m w t -> fresh H U (op_key o) -> clean_op m w o ->
  good H U (digests H (apply_op m o)) -> sp_apply H pr st o t = (t', Val r) ->
  (forall k, fresh H U k -> V t k <> None -> V t' k <> None) /\
  (forall m2, NoDup (keys m2) -> good H U (digests H m2) -> hits H m o m2 = false ->
    stored H (digests H m2) (V t) -> stored H (digests H m2) (V t')).
Proof.
  intros o m w t t' r W Fr Cl G' R.
  assert (Del : forall k, op_key o = k -> sp_delete H pr st k t = (t', Val r) -> apply_op m o = mdel k m ->
    In k (keys m) \/ ~ In k w ->
    (forall k, fresh H U k -> V t k <> None -> V t' k <> None) /\
    (forall m2, NoDup (keys m2) -> good H U (digests H m2) -> shared H k m m2 = false ->
      stored H (digests H m2) (V t) -> stored H (digests H m2) (V t'))).
  { intros k <- Rd Em Cl'. rewrite Em in G'.
    destruct (clean_delete H U HC HZ pr st view Law (op_key o) m w t W Fr Cl' G') as (t1 & r1 & Q & _ & Vf).
    rewrite Rd in Q. injection Q as <- <-.
    split; [intros k' F' N; rewrite Vf by exact F'; exact N|].
    intros m2 N2 G2 Sh S2. destruct (existsb (b32_eqb (op_key o)) (keys m)) eqn:Ex.
    - apply existsb_exists in Ex. destruct Ex as (k' & Ik & Ek). apply b32_eqb_eq in Ek. subst k'.
      destruct W as [N C Has Unw].
      destruct (lands_exists (op_key o) (digests H m)) as [D La]; [rewrite keys_digests; exact N|].
      pose proof (cut_landing H (op_key o) m D N La) as Ec. rewrite (landing_present H (op_key o) m N Ik) in Ec.
      apply in_keys in Ik. destruct Ik as [v Iv].
      assert (Iv' : In (op_key o, H v) (digests H m)) by (unfold digests; apply in_map_iff; exists (op_key o, v); auto).
      apply (delete_keep (op_key o) (H v) (digests H m) D t t' r C Fr La ltac:(rewrite Ec; exact G') Iv' Rd (digests H m2) G2); [|exact S2].
      apply (not_shared (op_key o) m m2 v); auto.
    - assert (Nk : ~ In (op_key o) (keys m)).
      { intros Ik. assert (existsb (b32_eqb (op_key o)) (keys m) = true) by (apply existsb_exists; exists (op_key o); split; [exact Ik|apply b32_eqb_refl]). congruence. }
      assert (Vk : V t (op_key o) = None) by (apply (wi_unwritten _ _ _ _ _ _ W); [exact Fr|tauto]).
      destruct (delete_none H pr st view Law (op_key o) t Vk) as (t1 & r1 & Q & _ & Vs & _). rewrite Rd in Q. injection Q as <- <-.
      apply (stored_ext H _ (V t)); [|exact S2]. intros k'. symmetry. apply Vs. }
  destruct o as [k [|b v]|k].
  - cbn [sp_apply] in R. rewrite update_nil in R. apply (Del k); auto.
  - clear Del. destruct W as [N C Has Unw]. cbn [sp_apply op_key apply_op hits] in *. rewrite digests_mset in G'.
    destruct (update_step H U anyk HC HZ pr st view Law k (b :: v) (digests H m) t ltac:(discriminate) C G' Logic.I Fr) as (t1 & r1 & Q & _ & Vo & Vk & Keep).
    rewrite R in Q. injection Q as <- <-. split; [|auto].
    intros k' F' Nn. destruct (b32_eq_dec k' k) as [->|Ne]; [apply Vk; exact Nn|rewrite Vo by auto; exact Nn].
  - cbn [sp_apply] in R. apply (Del k); auto.
Qed.

Lemma winv_sub : forall m w w' t, winv H U view m w t -> (forall k, In k w -> In k w') -> winv H U view m w' t.
Proof. intros m w w' t [A B C D] X. constructor; auto. Qed.

(** The calls of a session. *)
Lemma run_shared : forall os m w t, winv H U view m w t -> stored H (digests H m) (V t) ->
  (forall o, In o os -> fresh H U (op_key o)) ->
  (forall m0, In m0 (maps m os) -> NoDup (keys m0) -> good H U (digests H m0)) -> clean m w os ->
  exists t' r, sp_run H pr st os t = (t', Val r) /\
    (forall k, fresh H U k -> V t k <> None -> V t' k <> None) /\
    (forall m2, NoDup (keys m2) -> good H U (digests H m2) -> spoils H m os m2 = false ->
      stored H (digests H m2) (V t) -> stored H (digests H m2) (V t')) /\
    ((r = Ok tt /\ winv H U view (fold_left apply_op os m) (written os ++ w) t' /\
      stored H (digests H (fold_left apply_op os m)) (V t')) \/
     (exists e m1, r = Err e /\ storage_error e /\ ~ Infallible st /\ winv H U view m1 (written os ++ w) t')).
Proof.
  induction os as [|o os IH]; intros m w t W Sm Fr Gm Cl.
  - exists t, (Ok tt). split; [reflexivity|]. cbn [fold_left written map concat app spoils]. auto 8.
  - cbn [clean] in Cl. destruct Cl as [Co Cl]. cbn [sp_run maps fold_left spoils] in *. unfold bind_try, bind.
    pose proof (apply_nodup o m (wi_nodup _ _ _ m w t W)) as Nd.
    assert (Go : good H U (digests H (apply_op m o))).
    { apply Gm; auto. right. destruct os; left; reflexivity. }
    assert (Co' : clean_op m w o) by (destruct o as [? [|]|]; exact Co).
    assert (Ws : forall k, In k (op_writes o ++ w) -> In k (written (o :: os) ++ w)).
    { intros k. unfold written. cbn [map concat]. rewrite !in_app_iff. tauto. }
    destruct (op_step H U HC HZ pr st view Law o m w t W (Fr o (or_introl eq_refl)) Co' Go) as (t1 & r1 & A1 & R & _).
    destruct (op_keep o m w t t1 r1 W (Fr o (or_introl eq_refl)) Co' Go A1) as [U1 K1]. rewrite A1.
    destruct R as [(-> & W1 & S1)|(e & -> & W1 & [[X F]|X])].
    + destruct (IH (apply_op m o) (op_writes o ++ w) t1 W1 (S1 Sm)) as (t' & r & -> & U2 & K2 & R').
      * intros o' Io. apply Fr. right. exact Io.
      * intros m0 I0. apply Gm. right. exact I0.
      * exact Cl.
      * assert (Wx : forall k, In k (written os ++ op_writes o ++ w) -> In k (written (o :: os) ++ w)).
        { intros k. unfold written. cbn [map concat]. rewrite !in_app_iff. tauto. }
        exists t', r. split; [reflexivity|]. split; [auto|]. split.
        { intros m2 N2 G2 Sp S2. apply orb_false_iff in Sp. destruct Sp as [Sp1 Sp2]. auto. }
        destruct R' as [(-> & W' & S')|(e & m1 & -> & X & F & W')]; [left|right].
        -- split; [reflexivity|]. split; [|exact S']. apply (winv_sub _ _ _ _ W' Wx).
        -- exists e, m1. split; [reflexivity|]. split; [exact X|]. split; [exact F|]. apply (winv_sub _ _ _ _ W' Wx).
    + exists t1, (Err e). split; [reflexivity|]. split; [exact U1|]. split.
      { intros m2 N2 G2 Sp S2. apply orb_false_iff in Sp. destruct Sp as [Sp1 Sp2]. auto. }
      right. exists e, m. split; [reflexivity|]. split; [exact X|]. split; [exact F|]. apply (winv_sub _ _ _ _ W1 Ws).
    + exfalso. exact (stored_not_missing H _ _ _ Sm X).
Qed.

(** The storage holds all nodes of the usable versions. *)
Record keeps_all (vs : list (option kvmap)) (w : list bytes32) (s : St) : Prop := {
  ka_sound : sound H U (view s);
  ka_users : users H U anyk (view s);
  ka_unwritten : forall k, fresh H U k -> ~ In k w -> view s k = None;
  ka_stored : forall m, In (Some m) vs -> NoDup (keys m) /\ good H U (digests H m) /\ stored H (digests H m) (view s) /\
    forall k, In k (keys m) -> fresh H U k -> view s k <> None
}.

Lemma keeps_ext : forall vs w s s', (forall k, view s' k = view s k) -> keeps_all vs w s -> keeps_all vs w s'.
Proof.
  intros vs w s s' X [So Us Un Sm]. constructor.
  - apply (sound_ext H U (view s)); auto.
  - intros k Kk F. rewrite X. apply Us; assumption.
  - intros k F N. rewrite X. auto.
  - intros m Im. destruct (Sm m Im) as (A & B & C & D). split; [exact A|]. split; [exact B|]. split.
    + apply (stored_ext H _ (view s)); auto.
    + intros k Ik F. rewrite X. auto.
Qed.

(** Opening a tree. *)
Lemma open_ok : forall m0 s, good H U (digests H m0) -> stored H (digests H m0) (view s) -> sound H U (view s) -> users H U anyk (view s) ->
  exists s1 o, (if b32_eqb (kv_root H m0) zero32 then (s, Val (Ok (sp_new s))) else sp_load st (kv_root H m0) s) = (s1, Val o) /\
    (forall k, view s1 k = view s k) /\
    ((exists t, o = Ok t /\ core H U anyk view (digests H m0) t /\ sp_storage t = s1) \/
     (exists e, o = Err (SStorageError e) /\ ~ Infallible st)).
Proof.
  intros m0 s G0 S0 So Us. assert (Z0 : kv_root H [] = zero32) by reflexivity.
destruct m0 as [|e m1] eqn:Em.
    - rewrite Z0, b32_eqb_refl. exists s, (Ok (sp_new s)). split; [reflexivity|]. split; [reflexivity|]. left.
      exists (sp_new s). split; [reflexivity|]. split; [|reflexivity].
      constructor; cbn [sp_new sp_root_node sp_storage]; [reflexivity|exact So|exact G0|exact Us].
    - assert (NE : digests H (e :: m1) <> []) by discriminate.
      assert (NZ : b32_eqb (kv_root H (e :: m1)) zero32 = false).
      { destruct (b32_eqb (kv_root H (e :: m1)) zero32) eqn:Q; auto. exfalso. apply b32_eqb_eq in Q.
        destruct (T_digest H U (digests H (e :: m1)) [] G0) as (x & Ix & Ex); [rewrite sub_root; exact NE|].
        apply (HZ x Ix). rewrite T_kv in Ex. congruence. }
      rewrite NZ.
      destruct (load_ok H U st view Law (digests H (e :: m1)) s G0 NE S0) as (s1 & r & Q & Vs & [->|[[e0 ->] F]]);
        rewrite T_kv in Q; rewrite Q; eexists s1, _; (split; [reflexivity|]); (split; [exact Vs|]).
      + left. eexists. split; [reflexivity|]. split; [|reflexivity].
        assert (Vs' : forall k, view s k = view s1 k) by (intros k; symmetry; apply Vs).
        constructor; cbn [sp_root_node sp_storage]; auto.
        * apply (sound_ext H U (view s)); auto.
        * intros k Kk F. rewrite Vs. apply Us; assumption.
      + right. exists e0. auto.
Qed.

Lemma session_shared : forall vs w s i m os, keeps_all vs w s -> nth i vs (Some []) = Some m ->
  (forall o, In o os -> fresh H U (op_key o)) ->
  (forall m0, In m0 (maps m os) -> NoDup (keys m0) -> good H U (digests H m0)) -> clean m w os ->
  exists s' r, session H pr st (kv_root H m) os s = (s', Val r) /\
    ((r = Ok (kv_root H (fold_left apply_op os m)) /\
      keeps_all (map (spoil H m os) vs ++ [Some (fold_left apply_op os m)]) (written os ++ w) s') \/
     (exists e, r = Err e /\ storage_error e /\ ~ Infallible st /\ keeps_all (map (spoil H m os) vs) (written os ++ w) s')).
Proof.
  intros vs w s i m0 os Ho Em0 Fr Gm Cl.
  assert (Hm0 : NoDup (keys m0) /\ good H U (digests H m0) /\ stored H (digests H m0) (view s) /\
    forall k, In k (keys m0) -> fresh H U k -> view s k <> None).
  { destruct (nth_in_or_default i vs (Some [])) as [I0|D0]; [rewrite Em0 in I0; apply (ka_stored _ _ _ Ho); exact I0|].
    rewrite Em0 in D0. injection D0 as ->. split; [constructor|]. split; [apply Gm; [destruct os; left; reflexivity|constructor]|].
    split; [|intros k []]. intros p NE. exfalso. apply NE. unfold digests. cbn [map]. destruct p; reflexivity. }
  destruct Hm0 as (N0 & G0 & S0 & Has0).
  unfold session.
  pose proof (open_ok m0 s G0 S0 (ka_sound _ _ _ Ho) (ka_users _ _ _ Ho)) as Open.
  assert (Sub : forall s1, keeps_all vs w s1 -> keeps_all (map (spoil H m0 os) vs) (written os ++ w) s1).
  { intros s1 [A B C D]. constructor; auto.
    - intros k F N. apply C; auto. intros I0. apply N. apply in_or_app. right. exact I0.
    - intros m2 I2. apply in_map_iff in I2. destruct I2 as (v & Q & Iv). destruct v as [m3|]; [|discriminate Q].
      cbn [spoil] in Q. destruct (spoils H m0 os m3); [discriminate Q|]. injection Q as ->. auto. }
  destruct Open as (s1 & o & -> & V1 & [(t & -> & C & Es)|(e & -> & F)]).
  2: { exists s1, (Err (SStorageError e)). split; [reflexivity|]. right. eexists. split; [reflexivity|]. split; [left; eauto|]. split; [exact F|].
       apply Sub. apply (keeps_ext vs w s); [exact V1|exact Ho]. }
  assert (Ho1 : keeps_all vs w (sp_storage t)) by (rewrite Es; apply (keeps_ext vs w s); assumption).
  assert (W1 : winv H U view m0 w t).
  { constructor; auto.
    - intros k Ik F. rewrite Es, V1. auto.
    - apply (ka_unwritten _ _ _ Ho1). }
  destruct (run_shared os m0 w t W1) as (t' & r & -> & Uk & K & D); auto.
  { apply (stored_ext H _ (view s)); auto. intros k. rewrite Es. symmetry. apply V1. }
  assert (Old : forall m2, In (Some m2) (map (spoil H m0 os) vs) -> NoDup (keys m2) /\ good H U (digests H m2) /\
    stored H (digests H m2) (V t') /\ forall k, In k (keys m2) -> fresh H U k -> V t' k <> None).
  { intros m2 I2. apply in_map_iff in I2. destruct I2 as (v & Q & Iv). destruct v as [m3|]; [|discriminate Q].
    cbn [spoil] in Q. destruct (spoils H m0 os m3) eqn:Sp; [discriminate Q|]. injection Q as ->.
    destruct (ka_stored _ _ _ Ho1 m2 Iv) as (A & B & C2 & D2). auto 6. }
  destruct D as [(-> & W' & S')|(e & m1 & -> & X & F & W')].
  - eexists (sp_storage t'), _. split; [reflexivity|]. left.
    rewrite (core_kv_root H view U HZ _ _ (wi_core _ _ _ _ _ _ W')). split; [reflexivity|].
    destruct W' as [A B C' D]. constructor; [apply B|apply B|exact D|].
    intros m2 I2. apply in_app_or in I2. destruct I2 as [I2|[Q|[]]]; [auto|]. injection Q as <-.
    split; [exact A|]. split; [apply B|]. split; [exact S'|exact C'].
  - eexists (sp_storage t'), _. split; [reflexivity|]. right. exists e. split; [reflexivity|]. split; [exact X|]. split; [exact F|].
    destruct W' as [A B C' D]. constructor; [apply B|apply B|exact D|exact Old].
Qed.

(** Which maps the versions are, usable or not. *)
Definition of_maps (vs : list (option kvmap)) (ms : list kvmap) : Prop :=
  Forall2 (fun v m => v = Some m \/ v = None) vs ms.
Lemma of_maps_nth : forall vs ms i m, of_maps vs ms -> nth i vs (Some []) = Some m -> nth i ms [] = m.
Proof.
  intros vs ms i m F. revert i. induction F as [|v m1 vs ms Hv F IH]; intros [|i]; cbn [nth]; try congruence; auto.
  destruct Hv; congruence.
Qed.
Lemma of_maps_spoil : forall m os vs ms, of_maps vs ms -> of_maps (map (spoil H m os) vs) ms.
Proof.
  intros m os vs ms F. induction F as [|v m1 vs ms Hv F IH]; cbn [map]; constructor; auto.
  destruct Hv as [-> | ->]; cbn [spoil]; auto. destruct (spoils H m os m1); auto.
Qed.
Lemma of_maps_snoc : forall vs ms m, of_maps vs ms -> of_maps (vs ++ [Some m]) (ms ++ [m]).
Proof. intros vs ms m F. apply Forall2_app; auto. Qed.

Lemma root_nth : forall i ms, nth i (map (kv_root H) ms) zero32 = kv_root H (nth i ms []).
Proof. intros i ms. change zero32 with (kv_root H []). apply map_nth. Qed.

Lemma shared_right : forall acts vs ms w s s' rs, keeps_all vs w s -> of_maps vs ms ->
  (forall k, In k (act_keys acts) -> fresh H U k) ->
  (forall m0, In m0 (passed ms acts rs) -> NoDup (keys m0) -> good H U (digests H m0)) ->
  fair H vs w acts rs -> sessions H pr st (map (kv_root H) ms) acts s = (s', Val rs) ->
  all_right H (fun e => storage_error e /\ ~ Infallible st) ms acts rs.
Proof.
  induction acts as [|[i os] acts IH]; intros vs ms w s s' rs Ho Om Fr Gm Fa R; cbn [sessions] in R.
  - injection R as _ <-. exact Logic.I.
  - unfold bind at 1 in R.
    assert (HU : forall o, In o os -> fresh H U (op_key o)).
    { intros o Io. apply Fr. unfold act_keys. cbn [map concat snd]. apply in_or_app. left. apply in_map. exact Io. }
    destruct rs as [|r0 rs0].
    { exfalso. destruct (session H pr st (nth i (map (kv_root H) ms) zero32) os s) as [s1 [r| |]]; try discriminate R.
      unfold bind, ret in R. destruct (sessions _ _ _ _ acts s1) as [s2 [rs| |]]; discriminate R. }
    cbn [passed fair] in *. destruct Fa as (m & Em & Cl & Fa). pose proof (of_maps_nth _ _ _ _ Om Em) as En.
    rewrite root_nth, En in R.
    destruct (session_shared vs w s i m os Ho Em HU) as (s1 & r & Q & C); [|exact Cl|].
    { intros m0 Im. apply Gm. apply in_or_app. left. rewrite En. exact Im. }
    rewrite Q in R. unfold bind, ret in R.
    destruct (sessions H pr st (match r with Ok x => map (kv_root H) ms ++ [x] | Err _ => map (kv_root H) ms end) acts s1)
      as [s2 [rs1| |]] eqn:R1; try discriminate R.
    injection R as -> -> ->.
    assert (Fr' : forall k, In k (act_keys acts) -> fresh H U k).
    { intros k Ik. apply Fr. unfold act_keys. cbn [map concat]. apply in_or_app. right. exact Ik. }
    destruct C as [(-> & Ho')|(e & -> & X & F & Ho')]; cbn [all_right]; rewrite ?En.
    + split; [reflexivity|]. eapply (IH _ _ _ s1 s' rs0 Ho'); auto.
      * apply of_maps_snoc. apply of_maps_spoil. exact Om.
      * intros m0 Im. apply Gm. apply in_or_app. right. rewrite En. exact Im.
      * rewrite map_app. exact R1.
    + split; [auto|]. rewrite app_nil_r in Fa. eapply (IH _ _ _ s1 s' rs0 Ho'); auto.
      * apply of_maps_spoil. exact Om.
      * intros m0 Im. apply Gm. apply in_or_app. right. exact Im.
Qed.

Lemma shared_total : Infallible st -> forall acts vs ms w s, keeps_all vs w s -> of_maps vs ms ->
  (forall k, In k (act_keys acts) -> fresh H U k) ->
  (forall m0, In m0 (trunk ms acts) -> NoDup (keys m0) -> good H U (digests H m0)) ->
  fair H vs w acts (fine acts) ->
  exists s' w', sessions H pr st (map (kv_root H) ms) acts s =
    (s', Val (map (fun m => Ok (kv_root H m)) (versions ms acts))) /\ keeps_all (usable H vs acts) w' s'.
Proof.
  intros Inf. induction acts as [|[i os] acts IH]; intros vs ms w s Ho Om Fr Gm Fa; cbn [sessions versions].
  - exists s, w. split; [reflexivity|exact Ho].
  - cbn [trunk fine map fair] in *. destruct Fa as (m & Em & Cl & Fa). pose proof (of_maps_nth _ _ _ _ Om Em) as En.
    rewrite root_nth, En in *.
    destruct (session_shared vs w s i m os Ho Em) as (s1 & r & Q & [(-> & Ho')|(e & _ & _ & F & _)]); [| |exact Cl| |contradiction].
    + intros o Io. apply Fr. unfold act_keys. cbn [map concat snd]. apply in_or_app. left. apply in_map. exact Io.
    + intros m0 Im. apply Gm. apply in_or_app. left. exact Im.
    + destruct (IH _ (ms ++ [fold_left apply_op os m]) _ s1 Ho') as (s2 & w' & R2 & K2).
      * apply of_maps_snoc. apply of_maps_spoil. exact Om.
      * intros k Ik. apply Fr. unfold act_keys. cbn [map concat]. apply in_or_app. right. exact Ik.
      * intros m0 Im. apply Gm. apply in_or_app. right. exact Im.
      * exact Fa.
      * exists s2, w'. cbn [usable]. rewrite Em. split; [|exact K2]. unfold bind at 1. rewrite Q. unfold bind, ret. rewrite map_app in R2. cbn [map] in R2. rewrite R2. reflexivity.
Qed.

Lemma shared_answer : forall acts vs ms w s, keeps_all vs w s -> of_maps vs ms ->
  (forall k, In k (act_keys acts) -> fresh H U k) ->
  (forall m0, In m0 (branches ms acts) -> NoDup (keys m0) -> good H U (digests H m0)) ->
  (forall rs : list (result unit unit), length rs = length acts -> fair H vs w acts rs) ->
  exists s' rs, sessions H pr st (map (kv_root H) ms) acts s = (s', Val rs).
Proof.
  induction acts as [|[i os] acts IH]; intros vs ms w s Ho Om Fr Gm Fa; cbn [sessions].
  - exists s, []. reflexivity.
  - cbn [branches] in Gm.
    assert (Fr' : forall k, In k (act_keys acts) -> fresh H U k).
    { intros k Ik. apply Fr. unfold act_keys. cbn [map concat]. apply in_or_app. right. exact Ik. }
    destruct (Fa (fine ((i, os) :: acts))) as (m & Em & Cl & _); [apply map_length|]. pose proof (of_maps_nth _ _ _ _ Om Em) as En.
    rewrite root_nth, En in *.
    destruct (session_shared vs w s i m os Ho Em) as (s1 & r & Q & C); [| |exact Cl|].
    + intros o Io. apply Fr. unfold act_keys. cbn [map concat snd]. apply in_or_app. left. apply in_map. exact Io.
    + intros m0 Im. apply Gm. apply in_or_app. left. exact Im.
    + unfold bind at 1. rewrite Q. unfold bind, ret.
      destruct C as [(-> & Ho')|(e & -> & _ & _ & Ho')].
      * destruct (IH _ (ms ++ [fold_left apply_op os m]) _ s1 Ho') as (s2 & rs & R2); auto.
        { apply of_maps_snoc. apply of_maps_spoil. exact Om. }
        { intros m0 Im. apply Gm. apply in_or_app. right. apply in_or_app. left. exact Im. }
        { intros rs Lr. destruct (Fa (Ok tt :: rs)) as (m1 & Em1 & _ & F1); [cbn [length]; lia|].
          assert (m1 = m) by congruence. subst m1. exact F1. }
        rewrite map_app in R2. cbn [map] in R2. rewrite R2. eauto.
      * destruct (IH _ ms _ s1 Ho') as (s2 & rs & R2); auto.
        { apply of_maps_spoil. exact Om. }
        { intros m0 Im. apply Gm. apply in_or_app. right. apply in_or_app. right. exact Im. }
        { intros rs Lr. destruct (Fa (Err tt :: rs)) as (m1 & Em1 & _ & F1); [cbn [length]; lia|].
          assert (m1 = m) by congruence. subst m1. rewrite app_nil_r in F1. exact F1. }
        rewrite R2. eauto.
Qed.

Lemma keeps_empty : forall s, (forall k, view s k = None) -> keeps_all [] [] s.
Proof.
  intros s Em. constructor.
  - apply sound_empty. exact Em.
  - intros k _. left. apply Em.
  - intros k _ _. apply Em.
  - intros m [].
Qed.
End WithU.

Lemma C103_shared_lemma : forall acts s0 s' rs, (forall k, view s0 k = None) -> fair H [] [] acts rs ->
  sessions H pr st [] acts s0 = (s', Val rs) -> hash_ok H (act_keys acts) (passed [] acts rs) ->
  all_right H (fun e => storage_error e /\ ~ Infallible st) [] acts rs.
Proof.
  intros acts s0 s' rs Em Fa R Ok0. destruct (setup H _ _ Ok0) as (HC & HZ & Fr & Gd).
  apply (shared_right (universe H (passed [] acts rs)) HC HZ acts [] [] [] s0 s' rs); auto; [apply keeps_empty; exact Em|constructor].
Qed.

Lemma C103_shared_total_lemma : Infallible st -> forall acts s0, (forall k, view s0 k = None) -> fair H [] [] acts (fine acts) ->
  hash_ok H (act_keys acts) (trunk [] acts) ->
  exists s', sessions H pr st [] acts s0 = (s', Val (map (fun m => Ok (kv_root H m)) (versions [] acts))) /\
    forall m, In (Some m) (usable H [] acts) -> holds_nodes H (view s') m.
Proof.
  intros Inf acts s0 Em Fa Ok0. destruct (setup H _ _ Ok0) as (HC & HZ & Fr & Gd).
  destruct (shared_total (universe H (trunk [] acts)) HC HZ Inf acts [] [] [] s0) as (s' & w' & R & K); auto;
    [apply keeps_empty; exact Em|constructor|]. exists s'. split; [exact R|].
  intros m Im. destruct (ka_stored _ _ _ _ K m Im) as (N & _ & S0 & _).
  intros h e No. destruct (node_path H m h e N No) as (p & NE & -> & ->). apply S0. exact NE.
Qed.

(** The nodes of a version with the deleted entry are not all there any more. *)
Lemma C103_spoiled_lemma : Infallible st -> forall acts s0 m k, (forall k, view s0 k = None) -> fair H [] [] acts (fine acts) ->
  In (Some m) (usable H [] acts) -> In k (keys m) -> hash_ok H (k :: act_keys acts) (mdel k m :: trunk [] acts) ->
  exists s1 s2 rs, sessions H pr st [] acts s0 = (s1, Val rs) /\
    session H pr st (kv_root H m) [Delete k] s1 = (s2, Val (Ok (kv_root H (mdel k m)))) /\
    forall m2, NoDup (keys m2) -> shared H k m m2 = true -> ~ holds_nodes H (view s2) m2.
Proof.
  intros Inf acts s0 m k Em Fa Im Ik Ok0. destruct (setup H _ _ Ok0) as (HC & HZ & Fr & Gd).
  set (U := universe H (mdel k m :: trunk [] acts)) in *.
  destruct (shared_total U HC HZ Inf acts [] [] [] s0) as (s1 & w & R & K); auto.
  { apply keeps_empty; exact Em. } { constructor. }
  { intros k' I'. apply Fr. right. exact I'. } { intros m0 I0. apply Gd. right. exact I0. }
  destruct (ka_stored _ _ _ _ K m Im) as (N & G & S0 & Has).
  assert (Fk : fresh H U k) by (apply Fr; left; reflexivity).
  assert (G' : good H U (digests H (mdel k m))) by (apply Gd; [left; reflexivity|apply mdel_nodup; exact N]).
  unfold session.
  destruct (open_ok U HZ m s1 G S0 (ka_sound _ _ _ _ K) (ka_users _ _ _ _ K)) as (s2 & o & Q & Vs & [(t & -> & C & Es)|(e & _ & F)]); [|contradiction].
  assert (W : winv H U view m w t).
  { constructor; auto.
    - intros k' I' F'. rewrite Es, Vs. auto.
    - intros k' F' N'. rewrite Es, Vs. apply (ka_unwritten _ _ _ _ K); auto. }
  destruct (clean_delete H U HC HZ pr st view Law k m w t W Fk (or_introl Ik) G') as (t' & r & Dl & D & _).
  destruct D as [(-> & W' & _)|(e & _ & _ & [[_ X]|X])]; [|contradiction|].
  2:{ exfalso. refine (stored_not_missing H _ _ _ _ X). apply (stored_ext H _ (view s1)); [|exact S0]. intros k'. rewrite Es. symmetry. apply Vs. }
  exists s1, (sp_storage t'), (map (fun m => Ok (kv_root H m)) (versions [] acts)). split; [exact R|]. split.
  { cbn [sp_run sp_apply]. unfold bind_try, bind. rewrite Q. cbn iota. rewrite Dl. unfold ret. cbn [sp_run].
    rewrite (core_kv_root H view U HZ _ _ (wi_core _ _ _ _ _ _ W')). reflexivity. }
  intros m2 N2 Sh Ho. unfold shared in Sh.
  destruct (lookup k m) as [v|] eqn:L1; [|discriminate]. destruct (lookup k m2) as [v2|] eqn:L2; [|discriminate].
  apply b32_eqb_eq in Sh. apply lookup_in in L1, L2.
  assert (I1 : In (k, H v) (digests H m)) by (unfold digests; apply in_map_iff; exists (k, v); auto).
  assert (I2 : In (k, H v) (digests H m2)) by (unfold digests; apply in_map_iff; exists (k, v2); cbn [fst snd]; split; [congruence|auto]).
  destruct (lands_exists k (digests H m)) as [D La]; [rewrite keys_digests; exact N|].
  destruct (lands_exists k (digests H m2)) as [D2 La2]; [rewrite keys_digests; exact N2|].
  pose proof (lands_present k (H v) (digests H m) D ltac:(rewrite keys_digests; exact N) La I1) as S1.
  pose proof (lands_present k (H v) (digests H m2) D2 ltac:(rewrite keys_digests; exact N2) La2 I2) as S2.
  assert (ET : T H (P k D) (digests H m) = T H (P k D2) (digests H m2)).
  { destruct (T_cases H (P k D) (digests H m)) as [A1 B1 _|k1 h1 A1 B1 _|A1 _ _ _]; [rewrite keys_digests; exact N|congruence| |rewrite S1 in A1; cbn [length] in A1; lia].
    destruct (T_cases H (P k D2) (digests H m2)) as [A2 B2 _|k2 h2 A2 B2 _|A2 _ _ _]; [rewrite keys_digests; exact N2|congruence| |rewrite S2 in A2; cbn [length] in A2; lia].
    rewrite B1, B2. congruence. }
  pose proof (cut_landing H k m D N La) as Ec. rewrite (landing_present H k m N Ik) in Ec.
  pose proof (delete_gone U HC HZ k (H v) (digests H m) D t t' C Fk La ltac:(rewrite Ec; exact G') I1) as Go.
  rewrite ET in Go. rewrite (holds_stored H _ m2 N2 Ho (P k D2)) in Go by (rewrite S2; discriminate).
  assert (X : Some (sprim_of_node (nd H (P k D2) (digests H m2))) = None); [apply Go; [rewrite Es, Vs; apply Has; auto|exact Dl]|discriminate X].
Qed.

Lemma C103_shared_answer_lemma : forall acts s0, (forall k, view s0 k = None) ->
  (forall rs : list (result unit unit), length rs = length acts -> fair H [] [] acts rs) ->
  hash_ok H (act_keys acts) (branches [] acts) ->
  exists s' rs, sessions H pr st [] acts s0 = (s', Val rs).
Proof.
  intros acts s0 Em Fa Ok0. destruct (setup H _ _ Ok0) as (HC & HZ & Fr & Gd).
  apply (shared_answer (universe H (branches [] acts)) HC HZ acts [] [] [] s0); auto; [apply keeps_empty; exact Em|constructor].
Qed.
End Shared.
