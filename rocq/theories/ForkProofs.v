(** ForkProofs.v -- sparse trees that share a storage and are only updated do not disturb each other. *)
From Verif Require Import Base Storage ModelCommon ModelSparse SpecBinary SpecSparse SpecForks RunsSparse RunsForks
  StorageProofs SparseSpecFacts SparseNodes SparseProofs SparseOps SparseSteps SparseMain SparseTheorems.
From Coq Require Import Arith ZifyBool ZifyNat ZifyN.

Section Forks.
Variable H : list byte -> bytes32.
Variable pr : profile.
Context {St E : Type}.
Variable st : StorageT St bytes32 SPrimitive E.
Variable view : St -> bytes32 -> option SPrimitive.
Hypothesis Law : Lawful st view.
Notation V t := (view (sp_storage t)).

Section WithU.
Variable U : list (list byte).
Hypothesis HC : ~ has_collision H U.
Hypothesis HZ : forall x, In x U -> H x <> zero32.

(** The storage holds all nodes of the versions [ms]. *)
Record holds (ms : list kvmap) (s : St) : Prop := {
  ho_sound : sound H U (view s);
  ho_users : users H U anyk (view s);
  ho_stored : forall m, In m ms -> NoDup (keys m) /\ good H U (digests H m) /\ stored H (digests H m) (view s)
}.

Lemma holds_ext : forall ms s s', (forall k, view s' k = view s k) -> holds ms s -> holds ms s'.
Proof.
  intros ms s s' X [So Us Sm]. constructor.
  - apply (sound_ext H U (view s)); auto.
  - intros k Kk F. rewrite X. apply Us; assumption.
  - intros m Im. destruct (Sm m Im) as (A & B & C). split; [exact A|]. split; [exact B|].
    apply (stored_ext H _ (view s)); auto.
Qed.

Lemma fold_nodup : forall os m, NoDup (keys m) -> NoDup (keys (fold_left apply_op os m)).
Proof. induction os as [|o os IH]; intros m N; cbn [fold_left]; [exact N|]. apply IH. apply apply_nodup. exact N. Qed.

Lemma update_run_any : forall us m t, core H U anyk view (digests H m) t -> stored H (digests H m) (V t) ->
  (forall o, In o us -> is_update o /\ fresh H U (op_key o)) ->
  (forall m0, In m0 (maps m us) -> NoDup (keys m0) -> good H U (digests H m0)) -> NoDup (keys m) ->
  exists t' r, sp_run H pr st us t = (t', Val r) /\ sound H U (V t') /\ users H U anyk (V t') /\
    (forall m0, good H U m0 -> stored H m0 (V t) -> stored H m0 (V t')) /\
    ((r = Ok tt /\ core H U anyk view (digests H (fold_left apply_op us m)) t' /\
      stored H (digests H (fold_left apply_op us m)) (V t')) \/
     (exists e, r = Err e /\ storage_error e /\ ~ Infallible st)).
Proof.
  intros us. induction us as [|o us IH]; intros m t C Sm Up Gm N.
  - exists t, (Ok tt). cbn [sp_run fold_left]. split; [reflexivity|]. split; [apply C|]. split; [apply C|]. auto.
  - cbn [maps fold_left] in *. destruct (Up o (or_introl eq_refl)) as [Uo Fo].
    destruct o as [k [|b v]|k]; try contradiction Uo. cbn [op_key] in Fo.
    assert (G : good H U (digests H (apply_op m (Update k (b :: v))))).
    { apply Gm; [right; destruct us; left; reflexivity|]. apply apply_nodup. exact N. }
    cbn [apply_op] in *. rewrite digests_mset in G.
    destruct (update_step H U anyk HC HZ pr st view Law k (b :: v) (digests H m) t ltac:(discriminate) C G Logic.I Fo) as (t1 & r1 & A1 & R & _ & _ & Keep).
    cbn [sp_run sp_apply]. unfold bind_try, bind. rewrite A1.
    destruct R as [(-> & C1 & _ & S1)|(e & -> & C1 & [[X F]|X])]; [| |exfalso; exact (stored_not_missing H _ _ _ Sm X)].
    + rewrite <- digests_mset in C1, S1.
      destruct (IH (mset k (b :: v) m) t1 C1 (S1 Sm)) as (t' & r' & R' & So' & Us' & K' & D').
      * intros o Io. apply Up. right. exact Io.
      * intros m0 Im. apply Gm. right. exact Im.
      * apply mset_nodup. exact N.
      * exists t', r'. split; [exact R'|]. split; [exact So'|]. split; [exact Us'|]. split; [auto|exact D'].
    + exists t1, (Err e). split; [reflexivity|]. split; [apply C1|]. split; [apply C1|]. split; [exact Keep|].
      right. exists e. auto.
Qed.

Lemma session_ok : forall ms s i us, holds ms s ->
  (forall o, In o us -> is_update o /\ fresh H U (op_key o)) ->
  (forall m0, In m0 (maps (nth i ms []) us) -> NoDup (keys m0) -> good H U (digests H m0)) ->
  let m := fold_left apply_op us (nth i ms []) in
  exists s' r, session H pr st (nth i (map (kv_root H) ms) zero32) us s = (s', Val r) /\
    ((r = Ok (kv_root H m) /\ holds (ms ++ [m]) s') \/
     (exists e, r = Err e /\ storage_error e /\ ~ Infallible st /\ holds ms s')).
Proof.
  intros ms s i us Ho Up Gm m. set (m0 := nth i ms []) in *.
  assert (Z0 : kv_root H [] = zero32) by reflexivity.
  assert (Er : nth i (map (kv_root H) ms) zero32 = kv_root H m0).
  { rewrite <- Z0. rewrite map_nth. reflexivity. }
  assert (Hm0 : NoDup (keys m0) /\ good H U (digests H m0) /\ stored H (digests H m0) (view s)).
  { destruct (nth_in_or_default i ms []) as [I0|D0]; [apply Ho; exact I0|].
    fold m0 in D0. rewrite D0 in *. split; [constructor|]. split; [apply Gm; [destruct us; left; reflexivity|constructor]|].
    intros p NE. exfalso. apply NE. unfold digests. cbn [map]. destruct p; reflexivity. }
  destruct Hm0 as (N0 & G0 & S0).
  rewrite Er. unfold session.
  assert (Open : exists s1 o, (if b32_eqb (kv_root H m0) zero32 then (s, Val (Ok (sp_new s))) else sp_load st (kv_root H m0) s) = (s1, Val o) /\
    (forall k, view s1 k = view s k) /\
    ((exists t, o = Ok t /\ core H U anyk view (digests H m0) t /\ sp_storage t = s1) \/
     (exists e, o = Err (SStorageError e) /\ ~ Infallible st))).
  { destruct m0 as [|e m1] eqn:Em.
    - rewrite Z0, b32_eqb_refl. exists s, (Ok (sp_new s)). split; [reflexivity|]. split; [reflexivity|]. left.
      exists (sp_new s). split; [reflexivity|]. split; [|reflexivity].
      constructor; cbn [sp_new sp_root_node sp_storage]; [reflexivity|apply Ho|exact G0|apply Ho].
    - assert (NE : digests H (e :: m1) <> []) by discriminate.
      assert (NZ : b32_eqb (kv_root H (e :: m1)) zero32 = false).
      { destruct (b32_eqb (kv_root H (e :: m1)) zero32) eqn:Q; auto. exfalso. apply b32_eqb_eq in Q.
        destruct (T_digest H U (digests H (e :: m1)) [] G0) as (x & Ix & Ex); [rewrite sub_root; exact NE|].
        apply (HZ x Ix). rewrite T_kv in Ex. congruence. }
      rewrite NZ.
      destruct (load_ok H U st view Law (digests H (e :: m1)) s G0 NE S0) as (s1 & r & Q & Vs & [->|[[e0 ->] F]]);
        rewrite T_kv in Q; rewrite Q; eexists s1, _; (split; [reflexivity|]); (split; [exact Vs|]).
      + left. eexists. split; [reflexivity|]. split; [|reflexivity].
        assert (Vs' : forall k, view s k = view s1 k) by (intros k; symmetry; apply Vs).
        constructor; cbn [sp_root_node sp_storage]; auto.
        * apply (sound_ext H U (view s)); auto. apply Ho.
        * intros k Kk F. rewrite Vs. apply Ho; assumption.
      + right. exists e0. auto. }
  destruct Open as (s1 & o & -> & V1 & [(t & -> & C & Es)|(e & -> & F)]).
  2: { exists s1, (Err (SStorageError e)). split; [reflexivity|]. right. eexists. split; [reflexivity|]. split; [left; eauto|]. split; [exact F|].
       apply (holds_ext ms s); [exact V1|exact Ho]. }
  assert (Ho1 : holds ms (sp_storage t)) by (rewrite Es; apply (holds_ext ms s); assumption).
  destruct (update_run_any us m0 t C) as (t' & r & -> & So & Us & K & D); auto.
  { apply (stored_ext H _ (view s)); auto. intros k. rewrite Es. symmetry. apply V1. }
  destruct D as [(-> & C' & S')|(e & -> & X & F)].
  - eexists (sp_storage t'), _. split; [reflexivity|]. left. rewrite (core_kv_root H view U HZ _ _ C'). fold m. split; [reflexivity|].
    constructor; auto. intros m2 I2. apply in_app_or in I2. destruct I2 as [I2|[<-|[]]].
    + destruct (ho_stored _ _ Ho1 m2 I2) as (A & B & D). auto.
    + split; [apply fold_nodup; exact N0|]. split; [apply C'|exact S'].
  - eexists (sp_storage t'), _. split; [reflexivity|]. right. exists e. split; [reflexivity|]. split; [exact X|]. split; [exact F|].
    constructor; auto. intros m2 I2. destruct (ho_stored _ _ Ho1 m2 I2) as (A & B & D). auto.
Qed.
Lemma sessions_right : forall acts ms s s' rs, holds ms s -> only_updates acts ->
  (forall k, In k (act_keys acts) -> fresh H U k) ->
  (forall m0, In m0 (passed ms acts rs) -> NoDup (keys m0) -> good H U (digests H m0)) ->
  sessions H pr st (map (kv_root H) ms) acts s = (s', Val rs) ->
  all_right H (fun e => storage_error e /\ ~ Infallible st) ms acts rs.
Proof.
  induction acts as [|[i us] acts IH]; intros ms s s' rs Ho Up Fr Gm R; cbn [sessions] in R.
  - injection R as _ <-. exact Logic.I.
  - unfold bind at 1 in R.
    assert (HU : forall o, In o us -> is_update o /\ fresh H U (op_key o)).
    { intros o Io. split; [apply (Up (i, us)); [left; reflexivity|exact Io]|]. apply Fr. unfold act_keys. cbn [map concat snd].
      apply in_or_app. left. apply in_map. exact Io. }
    destruct rs as [|r0 rs0].
    { exfalso. destruct (session H pr st (nth i (map (kv_root H) ms) zero32) us s) as [s1 [r| |]]; try discriminate R.
      unfold bind, ret in R. destruct (sessions _ _ _ _ acts s1) as [s2 [rs| |]]; discriminate R. }
    cbn [passed] in Gm.
    destruct (session_ok ms s i us Ho HU) as (s1 & r & Q & C).
    { intros m0 Im. apply Gm. apply in_or_app. left. exact Im. }
    rewrite Q in R. unfold bind, ret in R.
    destruct (sessions H pr st (match r with Ok x => map (kv_root H) ms ++ [x] | Err _ => map (kv_root H) ms end) acts s1)
      as [s2 [rs1| |]] eqn:R1; try discriminate R.
    injection R as -> -> ->.
    assert (Up' : only_updates acts) by (intros a o Ia Io; apply (Up a o); [right; exact Ia|exact Io]).
    assert (Fr' : forall k, In k (act_keys acts) -> fresh H U k).
    { intros k Ik. apply Fr. unfold act_keys. cbn [map concat]. apply in_or_app. right. exact Ik. }
    destruct C as [(-> & Ho')|(e & -> & X & F & Ho')]; cbn [all_right].
    + split; [reflexivity|]. apply (IH _ s1 s'); auto.
      * intros m0 Im. apply Gm. apply in_or_app. right. exact Im.
      * rewrite map_app. exact R1.
    + split; [auto|]. apply (IH _ s1 s'); auto.
      intros m0 Im. apply Gm. apply in_or_app. right. exact Im.
Qed.

Lemma sessions_total : Infallible st -> forall acts ms s, holds ms s -> only_updates acts ->
  (forall k, In k (act_keys acts) -> fresh H U k) ->
  (forall m0, In m0 (trunk ms acts) -> NoDup (keys m0) -> good H U (digests H m0)) ->
  exists s', sessions H pr st (map (kv_root H) ms) acts s =
    (s', Val (map (fun m => Ok (kv_root H m)) (versions ms acts))).
Proof.
  intros Inf. induction acts as [|[i us] acts IH]; intros ms s Ho Up Fr Gm; cbn [sessions versions].
  - exists s. reflexivity.
  - cbn [trunk] in Gm.
    destruct (session_ok ms s i us Ho) as (s1 & r & Q & [(-> & Ho')|(e & _ & _ & F & _)]); [| | |contradiction].
    + intros o Io. split; [apply (Up (i, us)); [left; reflexivity|exact Io]|]. apply Fr. unfold act_keys. cbn [map concat snd].
      apply in_or_app. left. apply in_map. exact Io.
    + intros m0 Im. apply Gm. apply in_or_app. left. exact Im.
    + destruct (IH _ s1 Ho') as (s2 & R2).
      * intros a o Ia Io; apply (Up a o); [right; exact Ia|exact Io].
      * intros k Ik. apply Fr. unfold act_keys. cbn [map concat]. apply in_or_app. right. exact Ik.
      * intros m0 Im. apply Gm. apply in_or_app. right. exact Im.
      * exists s2. unfold bind at 1. rewrite Q. unfold bind, ret. rewrite map_app in R2. cbn [map] in R2. rewrite R2. reflexivity.
Qed.

Lemma sessions_answer : forall acts ms s, holds ms s -> only_updates acts ->
  (forall k, In k (act_keys acts) -> fresh H U k) ->
  (forall m0, In m0 (branches ms acts) -> NoDup (keys m0) -> good H U (digests H m0)) ->
  exists s' rs, sessions H pr st (map (kv_root H) ms) acts s = (s', Val rs).
Proof.
  induction acts as [|[i us] acts IH]; intros ms s Ho Up Fr Gm; cbn [sessions].
  - exists s, []. reflexivity.
  - cbn [branches] in Gm.
    assert (Up' : only_updates acts) by (intros a o Ia Io; apply (Up a o); [right; exact Ia|exact Io]).
    assert (Fr' : forall k, In k (act_keys acts) -> fresh H U k).
    { intros k Ik. apply Fr. unfold act_keys. cbn [map concat]. apply in_or_app. right. exact Ik. }
    destruct (session_ok ms s i us Ho) as (s1 & r & Q & C).
    + intros o Io. split; [apply (Up (i, us)); [left; reflexivity|exact Io]|]. apply Fr. unfold act_keys. cbn [map concat snd].
      apply in_or_app. left. apply in_map. exact Io.
    + intros m0 Im. apply Gm. apply in_or_app. left. exact Im.
    + unfold bind at 1. rewrite Q. unfold bind, ret.
      destruct C as [(-> & Ho')|(e & -> & _ & _ & Ho')].
      * destruct (IH _ s1 Ho' Up' Fr') as (s2 & rs & R2).
        { intros m0 Im. apply Gm. apply in_or_app. right. apply in_or_app. left. exact Im. }
        rewrite map_app in R2. cbn [map] in R2. rewrite R2. eauto.
      * destruct (IH _ s1 Ho' Up' Fr') as (s2 & rs & R2).
        { intros m0 Im. apply Gm. apply in_or_app. right. apply in_or_app. right. exact Im. }
        rewrite R2. eauto.
Qed.

Lemma holds_empty : forall s, (forall k, view s k = None) -> holds [] s.
Proof.
  intros s Em. constructor.
  - apply sound_empty. exact Em.
  - intros k _. left. apply Em.
  - intros m [].
Qed.
End WithU.

Lemma C93_lemma : forall acts s0 s' rs, (forall k, view s0 k = None) -> only_updates acts ->
  sessions H pr st [] acts s0 = (s', Val rs) -> hash_ok H (act_keys acts) (passed [] acts rs) ->
  all_right H (fun e => storage_error e /\ ~ Infallible st) [] acts rs.
Proof.
  intros acts s0 s' rs Em Up R Ok0. destruct (setup H _ _ Ok0) as (HC & HZ & Fr & Gd).
  apply (sessions_right (universe H (passed [] acts rs)) HC HZ acts [] s0 s' rs); auto. apply holds_empty. exact Em.
Qed.

Lemma C93_total_lemma : Infallible st -> forall acts s0, (forall k, view s0 k = None) -> only_updates acts ->
  hash_ok H (act_keys acts) (trunk [] acts) ->
  exists s', sessions H pr st [] acts s0 = (s', Val (map (fun m => Ok (kv_root H m)) (versions [] acts))).
Proof.
  intros Inf acts s0 Em Up Ok0. destruct (setup H _ _ Ok0) as (HC & HZ & Fr & Gd).
  apply (sessions_total (universe H (trunk [] acts)) HC HZ Inf acts [] s0); auto. apply holds_empty. exact Em.
Qed.

Lemma C93_answer_lemma : forall acts s0, (forall k, view s0 k = None) -> only_updates acts ->
  hash_ok H (act_keys acts) (branches [] acts) ->
  exists s' rs, sessions H pr st [] acts s0 = (s', Val rs).
Proof.
  intros acts s0 Em Up Ok0. destruct (setup H _ _ Ok0) as (HC & HZ & Fr & Gd).
  apply (sessions_answer (universe H (branches [] acts)) HC HZ acts [] s0); auto. apply holds_empty. exact Em.
Qed.
End Forks.
