(** CrowdProofs.v -- sparse tree objects at work on one storage at the same time. *)
From Verif Require Import Base Storage ModelCommon ModelSparse SpecBinary SpecSparse SpecForks SpecShared SpecDisk SpecSync RunsSparse RunsForks RunsCrowd
  StorageProofs SparseSpecFacts SparseNodes SparseProofs SparseOps SparseSteps SparseMain SparseTheorems ForkProofs SyncProofs SharedProofs.
From Coq Require Import Arith ZifyBool ZifyNat ZifyN.

Lemma set_same : forall A i (d : A) l, set_at i (nth i l d) l = l.
Proof. intros A i d l. revert i. induction l as [|x l IH]; intros [|i]; cbn [set_at nth]; try reflexivity. rewrite IH. reflexivity. Qed.

Section Crowd.
Variable H : list byte -> bytes32.
Variable pr : profile.
Context {St E : Type}.
Variable st : StorageT St bytes32 SPrimitive E.
Variable view : St -> bytes32 -> option SPrimitive.
Hypothesis Law : Lawful st view.
Notation V t := (view (sp_storage t)).

Section WithU.
Variable U : list (list byte).
Hypothesis HC : ~ has_collision H U.
Hypothesis HZ : forall x, In x U -> H x <> zero32.
Local Notation keeps_all := (keeps_all H view U).
Local Notation node m := (nd H [] (digests H m)).

Lemma node_nth : forall i ms, nth i (map (fun m => node m) ms) snode_placeholder = node (nth i ms []).
Proof. intros i ms. rewrite <- (nd_nil H [] (digests H []) eq_refl). exact (map_nth (fun m => node m) ms [] i). Qed.

(** What a usable version is. *)
Lemma usable_version : forall vs w s i m os, keeps_all vs w s -> nth i vs (Some []) = Some m ->
  (forall m0, In m0 (maps m os) -> NoDup (keys m0) -> good H U (digests H m0)) ->
  stored H (digests H m) (view s) /\ winv H U view m w (Build_SpTree (node m) s).
Proof.
  intros vs w s i m0 os Ho Em0 Gm.
  assert (Hm0 : NoDup (keys m0) /\ good H U (digests H m0) /\ stored H (digests H m0) (view s) /\
    forall k, In k (keys m0) -> fresh H U k -> view s k <> None).
  { destruct (nth_in_or_default i vs (Some [])) as [I0|D0]; [rewrite Em0 in I0; apply (ka_stored _ _ _ _ _ _ Ho); exact I0|].
    rewrite Em0 in D0. injection D0 as ->. split; [constructor|]. split; [apply Gm; [destruct os; left; reflexivity|constructor]|].
    split; [|intros k []]. intros p NE. exfalso. apply NE. unfold digests. cbn [map]. destruct p; reflexivity. }
  destruct Hm0 as (N0 & G0 & S0 & Has0). destruct Ho as [So Us Un Sm]. split; [exact S0|].
  constructor; [exact N0| |exact Has0|exact Un].
  constructor; cbn [sp_root_node sp_storage]; auto.
Qed.

Lemma spoil_more : forall vs w s m os, keeps_all vs w s -> keeps_all (map (spoil H m os) vs) (written os ++ w) s.
Proof.
  intros vs w s m os [A B C D]. constructor; auto.
  - intros k F N. apply C; auto. intros I0. apply N. apply in_or_app. right. exact I0.
  - intros m2 I2. apply in_map_iff in I2. destruct I2 as (v & Q & Iv). destruct v as [m3|]; [|discriminate Q].
    cbn [spoil] in Q. destruct (spoils H m os m3); [discriminate Q|]. injection Q as ->. auto.
Qed.

Lemma act_step : forall vs ms w s i m a, keeps_all vs w s -> of_maps vs ms -> nth i vs (Some []) = Some m ->
  let os := snd (one_call (i, a)) in
  (forall o, In o os -> fresh H U (op_key o)) ->
  (forall m0, In m0 (maps m os) -> NoDup (keys m0) -> good H U (digests H m0)) -> clean m w os ->
  exists s' x, act H pr st (map (fun m => node m) ms) i a s = (s', Val x) /\
    ((x = (map (fun m => node m) (ms ++ [fold_left apply_op os m]), Ok (kv_root H (fold_left apply_op os m))) /\
      keeps_all (map (spoil H m os) vs ++ [Some (fold_left apply_op os m)]) (written os ++ w) s') \/
     (exists e, x = (map (fun m => node m) ms, Err e) /\ storage_error e /\ ~ Infallible st /\
      keeps_all (map (spoil H m os) vs) (written os ++ w) s')).
Proof.
  intros vs ms w s i m a Ho Om Em os Fr Gm Cl.
  destruct (usable_version vs w s i m os Ho Em Gm) as [Sm W].
  pose proof (of_maps_nth _ _ _ _ Om Em) as En.
  unfold act. rewrite node_nth, En. destruct a as [o|]; subst os; cbn [one_call snd] in *.
  - pose proof (Fr o (or_introl eq_refl)) as Fo. cbn [clean] in Cl. destruct Cl as [Co _].
    assert (Co' : clean_op m w o) by (destruct o as [? [|]|]; exact Co).
    assert (Go : good H U (digests H (apply_op m o))).
    { apply Gm; [right; left; reflexivity|]. apply apply_nodup. apply W. }
    destruct (op_step H U HC HZ pr st view Law o m w _ W Fo Co' Go) as (t1 & r1 & A1 & R & _).
    destruct (op_keep H pr st view Law U HC HZ o m w _ t1 r1 W Fo Co' Go A1) as [U1 K1]. rewrite A1. cbn [sp_storage] in *.
    assert (Old : forall m2, In (Some m2) (map (spoil H m [o]) vs) -> NoDup (keys m2) /\ good H U (digests H m2) /\
      stored H (digests H m2) (V t1) /\ forall k, In k (keys m2) -> fresh H U k -> V t1 k <> None).
    { intros m2 I2. apply in_map_iff in I2. destruct I2 as (v & Q & Iv). destruct v as [m3|]; [|discriminate Q].
      cbn [spoil spoils] in Q. rewrite orb_false_r in Q. destruct (hits H m o m3) eqn:Sp; [discriminate Q|]. injection Q as ->.
      destruct (ka_stored _ _ _ _ _ _ Ho m2 Iv) as (A & B & C2 & D2). split; [exact A|]. split; [exact B|]. split; [apply K1; assumption|].
      intros k Ik F. apply U1; [exact F|]. apply D2; assumption. }
    cbn [fold_left]. unfold written. cbn [map concat]. rewrite app_nil_r.
    destruct R as [(-> & W1 & S1)|(e & -> & W1 & [[X F]|X])].
    + eexists (sp_storage t1), _. split; [reflexivity|]. left.
      rewrite (core_kv_root H view U HZ _ _ (wi_core _ _ _ _ _ _ W1)), (core_root _ _ _ _ _ _ (wi_core _ _ _ _ _ _ W1)), map_app.
      split; [reflexivity|]. destruct W1 as [A B C' D]. constructor; [apply B|apply B|exact D|].
      intros m2 I2. apply in_app_or in I2. destruct I2 as [I2|[Q|[]]]; [auto|]. injection Q as <-.
      split; [exact A|]. split; [apply B|]. split; [apply S1; exact Sm|exact C'].
    + eexists (sp_storage t1), _. split; [reflexivity|]. right. exists e.
      rewrite (core_root _ _ _ _ _ _ (wi_core _ _ _ _ _ _ W1)). rewrite <- En at 1. rewrite <- node_nth, set_same.
      split; [reflexivity|]. split; [exact X|]. split; [exact F|].
      destruct W1 as [A B C' D]. constructor; [apply B|apply B|exact D|exact Old].
    + exfalso. exact (stored_not_missing H _ _ _ Sm X).
  - rewrite (core_kv_root H view U HZ _ _ (wi_core _ _ _ _ _ _ W)).
    destruct (open_ok H st view Law U HZ m s (core_good _ _ _ _ _ _ (wi_core _ _ _ _ _ _ W)) Sm (ka_sound _ _ _ _ _ _ Ho) (ka_users _ _ _ _ _ _ Ho))
      as (s1 & r & -> & V1 & [(t & -> & C & Es)|(e & -> & F)]).
    + eexists s1, _. split; [reflexivity|]. left.
      rewrite (core_kv_root H view U HZ _ _ C), (core_root _ _ _ _ _ _ C), map_app. cbn [fold_left]. split; [reflexivity|].
      pose proof (spoil_more vs w s m [] Ho) as Ho'. apply (keeps_ext H view U _ _ _ s1 V1) in Ho'.
      destruct Ho' as [A B C' D]. constructor; auto. intros m2 I2. apply in_app_or in I2. destruct I2 as [I2|[Q|[]]]; [auto|].
      injection Q as <-. split; [apply W|]. split; [apply C|]. split; [apply (stored_ext H _ (view s)); auto|].
      intros k Ik Fk. rewrite V1. apply (wi_has _ _ _ _ _ _ W); assumption.
    + eexists s1, _. split; [reflexivity|]. right. eexists. split; [reflexivity|]. split; [left; eauto|]. split; [exact F|].
      apply (keeps_ext H view U _ _ s s1 V1). apply spoil_more. exact Ho.
Qed.

Local Notation nodes ms := (map (fun m => node m) ms).

Lemma crowd_right : forall acts vs ms w s s' rs, keeps_all vs w s -> of_maps vs ms ->
  (forall k, In k (act_keys (map one_call acts)) -> fresh H U k) ->
  (forall m0, In m0 (passed ms (map one_call acts) rs) -> NoDup (keys m0) -> good H U (digests H m0)) ->
  fair H vs w (map one_call acts) rs -> crowd H pr st (nodes ms) acts s = (s', Val rs) ->
  all_right H (fun e => storage_error e /\ ~ Infallible st) ms (map one_call acts) rs.
Proof.
  induction acts as [|[i a] acts IH]; intros vs ms w s s' rs Ho Om Fr Gm Fa R; cbn [crowd map] in *.
  - injection R as _ <-. exact Logic.I.
  - unfold bind at 1 in R.
    assert (HU : forall o, In o (snd (one_call (i, a))) -> fresh H U (op_key o)).
    { intros o Io. apply Fr. unfold act_keys. cbn [map concat]. apply in_or_app. left. apply in_map. exact Io. }
    destruct rs as [|r0 rs0].
    { exfalso. destruct (act H pr st (nodes ms) i a s) as [s1 [x| |]]; try discriminate R.
      unfold bind, ret in R. destruct (crowd _ _ _ _ acts s1) as [s2 [rs| |]]; discriminate R. }
    cbn [passed fair] in *. destruct (one_call (i, a)) as [i' os] eqn:Eo. assert (i' = i) as -> by (injection Eo; auto).
    destruct Fa as (m & Em & Cl & Fa). pose proof (of_maps_nth _ _ _ _ Om Em) as En.
    destruct (act_step vs ms w s i m a Ho Om Em) as (s1 & x & Q & C); rewrite Eo in *; cbn [snd] in *; auto.
    { intros m0 Im. apply Gm. apply in_or_app. left. rewrite En. exact Im. }
    rewrite Q in R. unfold bind, ret in R.
    destruct (crowd H pr st (fst x) acts s1) as [s2 [rs1| |]] eqn:R1; try discriminate R.
    injection R as -> <- ->.
    assert (Fr' : forall k, In k (act_keys (map one_call acts)) -> fresh H U k).
    { intros k Ik. apply Fr. unfold act_keys. cbn [map concat]. apply in_or_app. right. exact Ik. }
    destruct C as [(-> & Ho')|(e & -> & X & F & Ho')]; cbn [all_right fst snd] in *; rewrite ?En.
    + split; [reflexivity|]. apply (IH _ _ _ s1 s' rs0 Ho'); auto.
      * apply of_maps_snoc. apply of_maps_spoil. exact Om.
      * intros m0 Im. apply Gm. apply in_or_app. right. rewrite En. exact Im.
    + split; [auto|]. rewrite app_nil_r in Fa. apply (IH _ _ _ s1 s' rs0 Ho'); auto.
      * apply of_maps_spoil. exact Om.
      * intros m0 Im. apply Gm. apply in_or_app. right. exact Im.
Qed.

Lemma crowd_total : Infallible st -> forall acts vs ms w s, keeps_all vs w s -> of_maps vs ms ->
  (forall k, In k (act_keys (map one_call acts)) -> fresh H U k) ->
  (forall m0, In m0 (trunk ms (map one_call acts)) -> NoDup (keys m0) -> good H U (digests H m0)) ->
  fair H vs w (map one_call acts) (fine (map one_call acts)) ->
  exists s' w', crowd H pr st (nodes ms) acts s =
    (s', Val (map (fun m => Ok (kv_root H m)) (versions ms (map one_call acts)))) /\ keeps_all (usable H vs (map one_call acts)) w' s'.
Proof.
  intros Inf. induction acts as [|[i a] acts IH]; intros vs ms w s Ho Om Fr Gm Fa; cbn [crowd map].
  - exists s, w. split; [reflexivity|exact Ho].
  - cbn [map] in *. destruct (one_call (i, a)) as [i' os] eqn:Eo. assert (i' = i) as -> by (injection Eo; auto).
    cbn [trunk fine map fair versions usable] in *. destruct Fa as (m & Em & Cl & Fa). pose proof (of_maps_nth _ _ _ _ Om Em) as En.
    rewrite En in *.
    destruct (act_step vs ms w s i m a Ho Om Em) as (s1 & x & Q & C); rewrite Eo in *; cbn [snd] in *; auto.
    + intros o Io. apply Fr. unfold act_keys. cbn [map concat]. apply in_or_app. left. apply in_map. exact Io.
    + intros m0 Im. apply Gm. apply in_or_app. left. exact Im.
    + destruct C as [(-> & Ho')|(e & _ & _ & F & _)]; [|contradiction].
      destruct (IH _ (ms ++ [fold_left apply_op os m]) _ s1 Ho') as (s2 & w' & R2 & K2).
      * apply of_maps_snoc. apply of_maps_spoil. exact Om.
      * intros k Ik. apply Fr. unfold act_keys. cbn [map concat]. apply in_or_app. right. exact Ik.
      * intros m0 Im. apply Gm. apply in_or_app. right. exact Im.
      * exact Fa.
      * exists s2, w'. rewrite Em. split; [|exact K2]. unfold bind at 1. rewrite Q. unfold bind, ret. cbn [fst snd]. rewrite R2. reflexivity.
Qed.

Lemma crowd_answer : forall acts vs ms w s, keeps_all vs w s -> of_maps vs ms ->
  (forall k, In k (act_keys (map one_call acts)) -> fresh H U k) ->
  (forall m0, In m0 (branches ms (map one_call acts)) -> NoDup (keys m0) -> good H U (digests H m0)) ->
  (forall rs : list (result unit unit), length rs = length acts -> fair H vs w (map one_call acts) rs) ->
  exists s' rs, crowd H pr st (nodes ms) acts s = (s', Val rs).
Proof.
  induction acts as [|[i a] acts IH]; intros vs ms w s Ho Om Fr Gm Fa; cbn [crowd map].
  - exists s, []. reflexivity.
  - cbn [map] in *. destruct (one_call (i, a)) as [i' os] eqn:Eo. assert (i' = i) as -> by (injection Eo; auto). cbn [branches] in Gm.
    assert (Fr' : forall k, In k (act_keys (map one_call acts)) -> fresh H U k).
    { intros k Ik. apply Fr. unfold act_keys. cbn [map concat]. apply in_or_app. right. exact Ik. }
    destruct (Fa (map (fun _ => Ok tt) ((i, a) :: acts))) as (m & Em & Cl & _); [apply map_length|]. pose proof (of_maps_nth _ _ _ _ Om Em) as En.
    rewrite En in *.
    destruct (act_step vs ms w s i m a Ho Om Em) as (s1 & x & Q & C); rewrite Eo in *; cbn [snd] in *; auto.
    + intros o Io. apply Fr. unfold act_keys. cbn [map concat]. apply in_or_app. left. apply in_map. exact Io.
    + intros m0 Im. apply Gm. apply in_or_app. left. exact Im.
    + unfold bind at 1. rewrite Q. unfold bind, ret.
      destruct C as [(-> & Ho')|(e & -> & _ & _ & Ho')]; cbn [fst snd].
      * destruct (IH _ (ms ++ [fold_left apply_op os m]) _ s1 Ho') as (s2 & rs & R2); auto.
        { apply of_maps_snoc. apply of_maps_spoil. exact Om. }
        { intros m0 Im. apply Gm. apply in_or_app. right. apply in_or_app. left. exact Im. }
        { intros rs Lr. destruct (Fa (Ok tt :: rs)) as (m1 & Em1 & _ & F1); [cbn [length]; lia|].
          assert (m1 = m) by congruence. subst m1. exact F1. }
        rewrite R2. eauto.
      * destruct (IH _ ms _ s1 Ho') as (s2 & rs & R2); auto.
        { apply of_maps_spoil. exact Om. }
        { intros m0 Im. apply Gm. apply in_or_app. right. apply in_or_app. right. exact Im. }
        { intros rs Lr. destruct (Fa (Err tt :: rs)) as (m1 & Em1 & _ & F1); [cbn [length]; lia|].
          assert (m1 = m) by congruence. subst m1. rewrite app_nil_r in F1. exact F1. }
        rewrite R2. eauto.
Qed.
End WithU.

Lemma C106_right_lemma : forall acts s0 s' rs, (forall k, view s0 k = None) -> fair H [] [] (map one_call acts) rs ->
  crowd H pr st [] acts s0 = (s', Val rs) -> hash_ok H (act_keys (map one_call acts)) (passed [] (map one_call acts) rs) ->
  all_right H (fun e => storage_error e /\ ~ Infallible st) [] (map one_call acts) rs.
Proof.
  intros acts s0 s' rs Em Fa R Ok0. destruct (setup H _ _ Ok0) as (HC & HZ & Fr & Gd).
  apply (crowd_right (universe H (passed [] (map one_call acts) rs)) HC HZ acts [] [] [] s0 s' rs); auto; [apply keeps_empty; exact Em|constructor].
Qed.

Lemma C106_total_lemma : Infallible st -> forall acts s0, (forall k, view s0 k = None) -> fair H [] [] (map one_call acts) (fine (map one_call acts)) ->
  hash_ok H (act_keys (map one_call acts)) (trunk [] (map one_call acts)) ->
  exists s', crowd H pr st [] acts s0 = (s', Val (map (fun m => Ok (kv_root H m)) (versions [] (map one_call acts)))) /\
    forall m, In (Some m) (usable H [] (map one_call acts)) -> holds_nodes H (view s') m.
Proof.
  intros Inf acts s0 Em Fa Ok0. destruct (setup H _ _ Ok0) as (HC & HZ & Fr & Gd).
  destruct (crowd_total (universe H (trunk [] (map one_call acts))) HC HZ Inf acts [] [] [] s0) as (s' & w' & R & K); auto;
    [apply keeps_empty; exact Em|constructor|]. exists s'. split; [exact R|].
  intros m Im. destruct (ka_stored _ _ _ _ _ _ K m Im) as (N & _ & S0 & _).
  intros h e No. destruct (node_path H m h e N No) as (p & NE & -> & ->). apply S0. exact NE.
Qed.

Lemma C106_answer_lemma : forall acts s0, (forall k, view s0 k = None) ->
  (forall rs : list (result unit unit), length rs = length acts -> fair H [] [] (map one_call acts) rs) ->
  hash_ok H (act_keys (map one_call acts)) (branches [] (map one_call acts)) ->
  exists s' rs, crowd H pr st [] acts s0 = (s', Val rs).
Proof.
  intros acts s0 Em Fa Ok0. destruct (setup H _ _ Ok0) as (HC & HZ & Fr & Gd).
  apply (crowd_answer (universe H (branches [] (map one_call acts))) HC HZ acts [] [] [] s0); auto; [apply keeps_empty; exact Em|constructor].
Qed.
End Crowd.
