(** SparseAnyRun.v -- arbitrary calls on a sparse tree whose storage may fail. *)
From Verif Require Import Base Storage ModelCommon ModelSparse SpecBits SpecBinary SpecSparse SpecAnyRun RunsSparse
  BindingProofs BitsProofs CommonProofs SparseSpecFacts SparseNodes SparseProofs SparseOps SparseSteps SparseMain SparseTheorems.
From Coq Require Import Arith.

Lemma without_nodup : forall k (m : kvmap), NoDup (keys m) -> NoDup (keys (without_landing k m)).
Proof. intros k m N. unfold without_landing. destruct (landing 256 0 k m); auto using mdel_nodup. Qed.
Lemma inbk : forall k l, existsb (b32_eqb k) l = true <-> In k l.
Proof.
  intros k l. split.
  - intros E. apply existsb_exists in E. destruct E as (k' & I & Q). apply b32_eqb_eq in Q. subst. exact I.
  - intros I. apply existsb_exists. exists k. split; [exact I|apply b32_eqb_refl].
Qed.

Section Any.
Variable H : list byte -> bytes32.
Variable pr : profile.
Context {St E : Type}.
Variable st : StorageT St bytes32 SPrimitive E.
Variable view : St -> bytes32 -> option SPrimitive.
Hypothesis Law : Lawful st view.
Notation V t := (view (sp_storage t)).

Section WithU.
Variable U : list (list byte).
Hypothesis HC : ~ has_collision H U.
Hypothesis HZ : forall x, In x U -> H x <> zero32.

Record ginv (m : kvmap) (w : list bytes32) (t : SpTree St) : Prop := {
  gi_nodup : NoDup (keys m);
  gi_core : core H U anyk view (digests H m) t;
  gi_has : forall k, In k (keys m) -> k <> zero32 -> fresh H U k -> V t k <> None;
  gi_unwritten : forall k, fresh H U k -> ~ In k w -> V t k = None
}.

Definition answer (r : result (SError E) unit) : Prop :=
  r = Ok tt \/ exists e, r = Err e /\ ((storage_error e /\ ~ Infallible st) \/ exists h, e = SChildErr (ChildNotFound h)).

Definition aim (m : kvmap) (o : sp_op) : kvmap :=
  match o with Update k (b :: v) => mset k (b :: v) m | Update k [] | Delete k => without_landing k m end.

Lemma any_delete : forall k m w t, ginv m w t -> fresh H U k -> good H U (digests H (without_landing k m)) ->
  exists t' r, sp_delete H pr st k t = (t', Val r) /\
    ((r = Ok tt /\ exists m1, In m1 (may_op m w (Delete k) true) /\ (m1 = m \/ m1 = without_landing k m) /\ ginv m1 w t' /\
        (stored H (digests H m) (V t) -> stored H (digests H m1) (V t'))) \/
     (exists e, r = Err e /\ ginv m w t' /\ ((storage_error e /\ ~ Infallible st) \/ missing H (digests H m) (V t) e))).
Proof.
  intros k m w t [N C Has Unw] Fr G'.
  destruct (lands_exists k (digests H m)) as [D La]; [rewrite keys_digests; exact N|].
  pose proof (cut_landing H k m D N La) as Ec. fold (without_landing k m) in Ec.
  destruct (delete_step H U anyk HC HZ pr st view Law k (digests H m) D t C Logic.I Fr La ltac:(rewrite Ec; exact G')) as (t' & r & -> & R & Vu & Vd).
  exists t', r. split; [reflexivity|]. rewrite Ec in R.
  assert (Hz : forall k', k' <> zero32 -> fresh H U k' -> V t' k' = V t k') by (intros k' Nz F'; apply Vu; auto).
  assert (Unw' : forall k', fresh H U k' -> ~ In k' w -> V t' k' = None).
  { intros k' F' Nw. destruct (Vd k' F') as [->|Q]; auto. }
  assert (Has' : forall m1 : kvmap, (forall k', In k' (keys m1) -> In k' (keys m)) -> forall k', In k' (keys m1) -> k' <> zero32 -> fresh H U k' -> V t' k' <> None).
  { intros m1 Sub k' Ik Nz F'. rewrite Hz by auto. auto. }
  destruct R as [(-> & C' & Z & Vs)|[(-> & Vk & C' & Sm)|(e & -> & C' & Er)]].
  - left. split; [reflexivity|]. exists m. split; [|split; [left; reflexivity|split]].
    + cbn [may_op]. destruct (existsb (b32_eqb k) w); [|left; reflexivity].
      destruct (existsb (b32_eqb k) (keys m) && negb (b32_eqb k zero32)) eqn:Q; [|left; reflexivity]. exfalso.
      apply andb_prop in Q. destruct Q as [Q1 Q2]. apply inbk in Q1.
      assert (Nz : k <> zero32) by (intros ->; rewrite b32_eqb_refl in Q2; discriminate).
      destruct Z as [Z|Z]; [destruct m; [destruct Q1|discriminate Z]|]. exact (Has k Q1 Nz Fr Z).
    + constructor; auto. intros k' Ik Nz F'. rewrite Vs. auto.
    + intros S0. apply (stored_ext H _ (V t)); auto.
  - left. split; [reflexivity|]. exists (without_landing k m). split; [|split; [right; reflexivity|split]].
    + cbn [may_op]. destruct (existsb (b32_eqb k) w) eqn:Ew.
      * destruct (existsb (b32_eqb k) (keys m) && negb (b32_eqb k zero32)) eqn:Q; [|right; left; reflexivity].
        apply andb_prop in Q. destruct Q as [Q1 _]. apply inbk in Q1. left. unfold without_landing.
        rewrite (landing_present H k m N Q1). reflexivity.
      * exfalso. apply Vk. apply Unw; [exact Fr|]. intros I. apply inbk in I. congruence.
    + constructor; auto using without_nodup. apply (Has' (without_landing k m)). intros k' Ik. unfold without_landing in Ik.
      destruct (landing 256 0 k m); [apply mdel_keys in Ik; tauto|exact Ik].
    + exact Sm.
  - right. exists e. split; [reflexivity|]. split; [|exact Er]. constructor; auto. apply (Has' m). auto.
Qed.

Lemma any_step : forall o m w t, ginv m w t -> fresh H U (op_key o) -> good H U (digests H (aim m o)) ->
  exists t' r, sp_apply H pr st o t = (t', Val r) /\
    ((r = Ok tt /\ exists m1, In m1 (may_op m w o true) /\ (m1 = m \/ m1 = aim m o) /\ ginv m1 (op_writes o ++ w) t' /\
        (stored H (digests H m) (V t) -> stored H (digests H m1) (V t'))) \/
     (exists e, r = Err e /\ ginv m (op_writes o ++ w) t' /\
        ((storage_error e /\ ~ Infallible st) \/ missing H (digests H m) (V t) e) /\
        (is_update o -> stored H (digests H m) (V t) -> stored H (digests H m) (V t')))).
Proof.
  intros o m w t W Fr G.
  assert (Del : forall k, op_key o = k -> (forall t, sp_apply H pr st o t = sp_delete H pr st k t) -> may_op m w o true = may_op m w (Delete k) true ->
    aim m o = without_landing k m -> op_writes o = [] -> ~ is_update o ->
  exists t' r, sp_apply H pr st o t = (t', Val r) /\
    ((r = Ok tt /\ exists m1, In m1 (may_op m w o true) /\ (m1 = m \/ m1 = aim m o) /\ ginv m1 (op_writes o ++ w) t' /\
        (stored H (digests H m) (V t) -> stored H (digests H m1) (V t'))) \/
     (exists e, r = Err e /\ ginv m (op_writes o ++ w) t' /\
        ((storage_error e /\ ~ Infallible st) \/ missing H (digests H m) (V t) e) /\
        (is_update o -> stored H (digests H m) (V t) -> stored H (digests H m) (V t'))))).
  { intros k <- Ea Em Ei Ew Nu. rewrite Ea, Em, Ei, Ew in *. cbn [app].
    destruct (any_delete (op_key o) m w t W Fr G) as (t' & r & A & [R|(e & R1 & R2 & R3)]); exists t', r; (split; [exact A|]); [left; exact R|].
    right. exists e. repeat (split; auto). contradiction. }
  destruct o as [k [|b v]|k]; [apply (Del k); auto; intros t0; apply update_nil| |apply (Del k); auto].
  clear Del. cbn [sp_apply op_key op_writes aim may_op app] in *. destruct W as [N C Has Unw].
  rewrite digests_mset in G.
  destruct (update_step H U anyk HC HZ pr st view Law k (b :: v) (digests H m) t ltac:(discriminate) C G Logic.I Fr) as (t' & r & -> & R & Vo & Vk & Keep).
  exists t', r. split; [reflexivity|].
  assert (Unw' : forall k', fresh H U k' -> ~ In k' (k :: w) -> V t' k' = None).
  { intros k' F' Nw. rewrite Vo; [apply Unw; auto|exact F'|]; intros C1; apply Nw; [right; exact C1|left; congruence]. }
  destruct R as [(-> & C' & Vn & Sm)|(e & -> & C' & Er)].
  - left. split; [reflexivity|]. exists (mset k (b :: v) m). split; [left; reflexivity|]. split; [right; reflexivity|].
    rewrite digests_mset. split; [|exact Sm]. constructor; [apply mset_nodup; exact N|rewrite digests_mset; exact C'| |exact Unw'].
    intros k' Ik Nz F'. destruct (b32_eq_dec k' k) as [->|Ne]; [rewrite Vn; discriminate|]. rewrite Vo by auto. apply Has; auto.
    destruct Ik as [Ik|Ik]; [cbn in Ik; congruence|]. apply mdel_keys in Ik. tauto.
  - right. exists e. split; [reflexivity|]. split; [|split; [exact Er|]].
    + constructor; auto. intros k' Ik Nz F'. destruct (b32_eq_dec k' k) as [->|Ne]; [apply Vk; apply Has; auto|]. rewrite Vo by auto. apply Has; auto.
    + intros _ S0. apply Keep; [apply C|exact S0].
Qed.

Lemma any_run : forall os m w t, ginv m w t -> (forall o, In o os -> fresh H U (op_key o)) ->
  (forall m0, In m0 (possible m os) -> NoDup (keys m0) -> good H U (digests H m0)) ->
  exists t' rs m', sp_run_all H pr st os t = (t', Val rs) /\ length rs = length os /\
    may m w (flags os rs) m' /\ ginv m' (written (rev os) ++ w) t' /\
    (forall r, In r rs -> answer r) /\
    (stored H (digests H m) (V t) -> deletes_ok (flags os rs) = true -> forall e, In (Err e) rs -> storage_error e /\ ~ Infallible st).
Proof.
  induction os as [|o os IH]; intros m w t W Fr Gm.
  - exists t, [], m. split; [reflexivity|]. split; [reflexivity|]. split; [reflexivity|]. split; [exact W|]. split; [intros r []|intros _ _ e []].
  - assert (Hd : forall m0, In m0 (possible m0 os)) by (intros m0; destruct os; left; reflexivity).
    assert (Pm : forall m0, m0 = m \/ m0 = aim m o -> forall m1, In m1 (possible m0 os) -> In m1 (possible m (o :: os))).
    { intros m0 [->| ->] m1 I1; cbn [possible]; right; apply in_or_app; [left; exact I1|right]. destruct o as [k [|b v]|k]; exact I1. }
    assert (G : good H U (digests H (aim m o))).
    { apply Gm; [apply (Pm (aim m o)); [right; reflexivity|apply Hd]|]. destruct o as [k [|b v]|k]; cbn [aim].
      - apply without_nodup, W. - apply mset_nodup, W. - apply without_nodup, W. }
    destruct (any_step o m w t W (Fr o (or_introl eq_refl)) G) as (t1 & r1 & A1 & R).
    assert (X : exists m1, In m1 (may_op m w o (is_ok r1)) /\ (m1 = m \/ m1 = aim m o) /\ ginv m1 (op_writes o ++ w) t1 /\ answer r1 /\
      (stored H (digests H m) (V t) -> forall e, r1 = Err e -> storage_error e /\ ~ Infallible st) /\
      (stored H (digests H m) (V t) -> is_update o \/ is_ok r1 = true -> stored H (digests H m1) (V t1))).
    { destruct R as [(-> & m1 & I1 & C1 & W1 & S1)|(e & -> & W1 & Er & S1)].
      - exists m1. split; [exact I1|]. split; [exact C1|]. split; [exact W1|]. split; [left; reflexivity|]. split; [intros _ e Q; discriminate|auto].
      - exists m. split; [left; reflexivity|]. split; [left; reflexivity|]. split; [exact W1|]. split; [|split].
        + right. exists e. split; [reflexivity|]. destruct Er as [Er|(p & -> & _)]; [left; exact Er|right; eauto].
        + intros S0 e' Q. injection Q as <-. destruct Er as [Er|X]; [exact Er|]. exfalso. revert X. apply stored_not_missing. exact S0.
        + intros S0 [Q|Q]; [|discriminate Q]. auto. }
    destruct X as (m1 & I1 & C1 & W1 & An & Er & S1).
    destruct (IH m1 (op_writes o ++ w) t1 W1) as (t' & rs & m' & A2 & L2 & M2 & W2 & An2 & Er2).
    { intros o' Io. apply Fr. right. exact Io. }
    { intros m0 I0. apply Gm. apply (Pm m1); auto. }
    exists t', (r1 :: rs), m'. split; [|split; [|split; [|split; [|split]]]].
    + cbn [sp_run_all]. unfold bind. rewrite A1, A2. reflexivity.
    + cbn [length]. rewrite L2. reflexivity.
    + cbn. exists m1. auto.
    + cbn [rev]. rewrite written_app. unfold written at 2. cbn [map concat]. rewrite app_nil_r, <- app_assoc. exact W2.
    + intros r [<-|Ir]; auto.
    + intros S0 Do e Ie.
      assert (Y : (is_update o \/ is_ok r1 = true) /\ deletes_ok (flags os rs) = true).
      { unfold flags in *. cbn [map combine deletes_ok] in Do. destruct o as [k [|b v]|k]; try (apply andb_prop in Do; destruct Do as [D1 D2]; auto).
        split; [left; exact Logic.I|exact Do]. }
      destruct Y as [Y1 Y2]. destruct Ie as [Ie|Ie]; [exact (Er S0 e Ie)|]. exact (Er2 (S1 S0 Y1) Y2 e Ie).
Qed.
End WithU.

(** Every entry comes from an update that answered Ok. *)
Lemma may_entries : forall obs m w m', may m w obs m' -> forall k v, In (k, v) m' -> In (k, v) m \/ In (Update k v, true) obs.
Proof.
  induction obs as [|[o ok] obs IH]; intros m w m' M k v I; cbn [may] in M; [subst; auto|].
  destruct M as (m1 & I1 & M). destruct (IH _ _ _ M k v I) as [Q|Q]; [|right; right; exact Q].
  assert (De : forall k0, In (k, v) (mdel k0 m) -> In (k, v) m) by (intros k0 Q'; unfold mdel in Q'; apply filter_In in Q'; tauto).
  assert (Wl : forall k0, In (k, v) (without_landing k0 m) -> In (k, v) m).
  { intros k0 Q'. unfold without_landing in Q'. destruct (landing 256 0 k0 m); [eapply De; exact Q'|exact Q']. }
  destruct ok; [|destruct I1 as [<-|[]]; left; exact Q].
  destruct o as [k0 [|b0 v0]|k0]; cbn [may_op] in I1.
  2:{ destruct I1 as [<-|[]]. destruct Q as [Q|Q]; [injection Q as <- <-; right; left; reflexivity|]. left. eapply De. exact Q. }
  all: left; destruct (existsb (b32_eqb k0) w); [destruct (existsb (b32_eqb k0) (keys m) && negb (b32_eqb k0 zero32))|];
    repeat (destruct I1 as [<-|I1]; eauto); destruct I1.
Qed.

Theorem C73_lemma : forall os s0, (forall k, view s0 k = None) -> hash_ok H (map op_key os) (possible [] os) ->
  exists t rs m, sp_run_all H pr st os (sp_new s0) = (t, Val rs) /\ length rs = length os /\
    may [] [] (flags os rs) m /\ sp_root H t = kv_root H m /\
    (forall k v, In (k, v) m -> In (Update k v, true) (flags os rs)) /\
    (forall e, In (Err e) rs -> (storage_error e /\ ~ Infallible st) \/ exists h, e = SChildErr (ChildNotFound h)) /\
    (deletes_ok (flags os rs) = true -> forall e, In (Err e) rs -> storage_error e /\ ~ Infallible st).
Proof.
  intros os s0 Em Ok0. destruct (setup H _ _ Ok0) as (HC & HZ & Fr & Gd). set (U := universe H _) in *.
  destruct (winv_new H view U s0 Em) as (W & S0 & _).
  assert (W0 : ginv U [] [] (sp_new s0)) by (destruct W as [N C Has Un]; constructor; auto).
  destruct (any_run U HC HZ os [] [] _ W0) as (t & rs & m & R & L & M & W1 & An & Er); auto.
  { intros o Io. apply Fr. apply in_map. exact Io. }
  exists t, rs, m. split; [exact R|]. split; [exact L|]. split; [exact M|]. split; [apply (core_kv_root H view U HZ); apply W1|].
  split; [|split].
  - intros k v I. destruct (may_entries _ _ _ _ M k v I) as [[]|Q]; exact Q.
  - intros e Ie. destruct (An _ Ie) as [Q|(e' & Q & C)]; [discriminate|]. injection Q as <-. exact C.
  - intros Do. exact (Er S0 Do).
Qed.

(** * C59 *)
Theorem C59_partial_lemma : forall os s0 t k v t' e, (forall k, view s0 k = None) -> clean [] [] os -> v <> [] ->
  hash_ok H (map op_key os ++ [k]) (maps [] os ++ [mset k v (final os); without_landing k (final os)]) ->
  sp_run H pr st os (sp_new s0) = (t, Val (Ok tt)) ->
  sp_update H pr st k v t = (t', Val (Err e)) ->
  sp_root H t' = kv_root H (final os) /\
  exists t2 r, sp_delete H pr st k t' = (t2, Val r) /\
    ((r = Ok tt /\ (sp_root H t2 = kv_root H (mdel k (final os)) \/
                    (~ In k (keys (final os)) /\ sp_root H t2 = kv_root H (without_landing k (final os))))) \/
     (exists e', r = Err e' /\ storage_error e' /\ ~ Infallible st /\ sp_root H t2 = kv_root H (final os))).
Proof.
  intros os s0 t k v t' e Em Cl ND Ok0 R Up. destruct (setup H _ _ Ok0) as (HC & HZ & Fr & Gd).
  destruct (run_new_ok H pr st view Law _ _ os s0 t Ok0) as (W & S0 & _); auto.
  { intros k' Ik. apply in_or_app. auto. }
  { intros m Im. apply in_or_app. auto. }
  set (U := universe H _) in *. set (m := final os) in *.
  assert (Fk : fresh H U k) by (apply Fr; apply in_or_app; right; left; reflexivity).
  pose proof (wi_nodup _ _ _ _ _ _ W) as N.
  destruct (op_step H U HC HZ pr st view Law (Update k v) m _ t W Fk) as (t1 & r1 & A1 & C1 & Kp).
  { destruct v; [congruence|exact Logic.I]. }
  { destruct v as [|b v]; [congruence|]. apply Gd; [apply in_or_app; right; left; reflexivity|]. apply mset_nodup. exact N. }
  cbn [sp_apply] in A1. rewrite Up in A1. injection A1 as <- <-.
  destruct C1 as [(Q & _)|(e1 & _ & W1 & _)]; [discriminate|].
  assert (S2 : stored H (digests H m) (V t')).
  { apply Kp; [destruct v; [congruence|exact Logic.I]|apply W|exact S0]. }
  split; [apply (core_kv_root H view U HZ); apply W1|].
  assert (Gw : good H U (digests H (without_landing k m))).
  { apply Gd; [apply in_or_app; right; right; left; reflexivity|]. apply without_nodup. exact N. }
  destruct (existsb (b32_eqb k) (keys m)) eqn:Ek.
  - apply inbk in Ek. assert (Wl : without_landing k m = mdel k m) by (unfold without_landing; rewrite (landing_present H k m N Ek); reflexivity).
    rewrite Wl in Gw. destruct (op_step H U HC HZ pr st view Law (Delete k) m _ t' W1 Fk (or_introl Ek) Gw) as (t2 & r2 & A2 & C2 & _).
    exists t2, r2. split; [exact A2|]. destruct C2 as [(-> & W2 & _)|(e2 & -> & W2 & Er)].
    + left. split; [reflexivity|]. left. apply (core_kv_root H view U HZ). apply W2.
    + right. exists e2. split; [reflexivity|]. destruct Er as [[Se F]|X]; [|exfalso; revert X; apply stored_not_missing; exact S2].
      split; [exact Se|]. split; [exact F|]. apply (core_kv_root H view U HZ). apply W2.
  - assert (Nk : ~ In k (keys m)) by (intros I; apply inbk in I; congruence).
    assert (W1' : ginv U m (op_writes (Update k v) ++ written os) t') by (destruct W1 as [N' C Has Un]; constructor; auto).
    destruct (any_delete U HC HZ k m _ t' W1' Fk Gw) as (t2 & r2 & A2 & C2). exists t2, r2. split; [exact A2|].
    destruct C2 as [(-> & m1 & I1 & C1 & W2 & _)|(e2 & -> & W2 & Er)].
    + left. split; [reflexivity|]. pose proof (core_kv_root H view U HZ _ _ (gi_core _ _ _ _ W2)) as Rt.
      destruct C1 as [->| ->]; [left; rewrite (mdel_notin k m Nk); exact Rt|right; auto].
    + right. exists e2. split; [reflexivity|]. destruct Er as [[Se F]|X]; [|exfalso; revert X; apply stored_not_missing; exact S2].
      split; [exact Se|]. split; [exact F|]. apply (core_kv_root H view U HZ). apply W2.
Qed.

(** * C74 *)
Lemma may_op_aim : forall m w o ok m1, NoDup (keys m) -> In m1 (may_op m w o ok) -> (m1 = m \/ m1 = aim m o) /\ NoDup (keys m1).
Proof.
  intros m w o ok m1 N I. assert (X : m1 = m \/ m1 = aim m o).
  { destruct ok; [|destruct I as [<-|[]]; auto].
    assert (De : forall k, In m1 (may_op m w (Delete k) true) -> m1 = m \/ m1 = without_landing k m).
    { clear I. intros k I. cbn [may_op] in I. destruct (existsb (b32_eqb k) w); [|destruct I as [<-|[]]; auto].
      destruct (existsb (b32_eqb k) (keys m) && negb (b32_eqb k zero32)) eqn:Q; [|destruct I as [<-|[<-|[]]]; auto].
      apply andb_prop in Q. destruct Q as [Q _]. apply inbk in Q. destruct I as [<-|[]]. right. unfold without_landing.
      rewrite (landing_present H k m N Q). reflexivity. }
    destruct o as [k [|b v]|k]; [apply (De k I)|destruct I as [<-|[]]; right; reflexivity|apply (De k I)]. }
  split; [exact X|]. destruct X as [->| ->]; [exact N|].
  destruct o as [k [|b v]|k]; cbn [aim]; [apply without_nodup|apply mset_nodup|apply without_nodup]; exact N.
Qed.
Lemma may_possible : forall os (fs : list bool) m w m' us, length fs = length os -> NoDup (keys m) -> may m w (combine os fs) m' ->
  NoDup (keys m') /\ forall x, In x (possible m' us) -> In x (possible m (os ++ us)).
Proof.
  induction os as [|o os IH]; intros fs m w m' us L N M; destruct fs as [|f fs]; try discriminate L.
  - cbn in M. subst m'. auto.
  - cbn [combine may] in M. destruct M as (m1 & I1 & M). destruct (may_op_aim m w o f m1 N I1) as [A N1].
    injection L as L. destruct (IH fs m1 _ m' us L N1 M) as [N' P']. split; [exact N'|]. intros x Ix. apply P' in Ix.
    cbn [app possible]. right. apply in_or_app. destruct A as [->| ->]; [left; exact Ix|right]. destruct o as [k [|b v]|k]; exact Ix.
Qed.

Theorem C74_partial_lemma : forall os k s0, (forall k, view s0 k = None) -> k <> zero32 ->
  hash_ok H (map op_key os ++ [k]) (possible [] (os ++ [Delete k])) ->
  exists t rs m, sp_run_all H pr st os (sp_new s0) = (t, Val rs) /\ may [] [] (flags os rs) m /\ sp_root H t = kv_root H m /\
    (In k (keys m) ->
     exists t' r, sp_delete H pr st k t = (t', Val r) /\
       ((r = Ok tt /\ sp_root H t' = kv_root H (mdel k m)) \/ (exists e, r = Err e /\ sp_root H t' = kv_root H m))).
Proof.
  intros os k s0 Em Nz Ok0. destruct (setup H _ _ Ok0) as (HC & HZ & Fr & Gd). set (U := universe H _) in *.
  destruct (winv_new H view U s0 Em) as (W & S0 & _).
  assert (W0 : ginv U [] [] (sp_new s0)) by (destruct W as [N C Has Un]; constructor; auto).
  assert (Sub : forall os m x, In x (possible m os) -> In x (possible m (os ++ [Delete k]))).
  { clear. induction os as [|o os IH]; intros m x I.
    - destruct I as [<-|[]]. left. reflexivity.
    - cbn [app possible] in *. destruct I as [<-|I]; [left; reflexivity|right]. apply in_app_or in I. apply in_or_app.
      destruct I as [I|I]; [left; auto|right]. destruct o as [k' [|b v]|k']; auto. }
  destruct (any_run U HC HZ os [] [] _ W0) as (t & rs & m & R & L & M & W1 & _ & _).
  { intros o Io. apply Fr. apply in_or_app. left. apply in_map. exact Io. }
  { intros m0 I0. apply Gd. apply Sub. exact I0. }
  exists t, rs, m. split; [exact R|]. split; [exact M|]. split; [apply (core_kv_root H view U HZ); apply W1|].
  intros Ik. destruct (may_possible os (map is_ok rs) [] [] m [Delete k]) as [N P0]; [rewrite map_length; exact L|constructor|exact M|].
  assert (Wl : without_landing k m = mdel k m) by (unfold without_landing; rewrite (landing_present H k m N Ik); reflexivity).
  assert (Fk : fresh H U k) by (apply Fr; apply in_or_app; right; left; reflexivity).
  destruct (any_delete U HC HZ k m _ t W1 Fk) as (t2 & r2 & A2 & C2).
  { rewrite Wl. apply Gd; [apply P0|apply mdel_nodup; exact N]. cbn [possible]. right. apply in_or_app. right. rewrite Wl. left. reflexivity. }
  exists t2, r2. split; [exact A2|]. destruct C2 as [(-> & m1 & I1 & _ & W2 & _)|(e2 & -> & W2 & _)].
  - left. split; [reflexivity|]. assert (m1 = mdel k m).
    { cbn [may_op] in I1. destruct (existsb (b32_eqb k) (written (rev os) ++ [])) eqn:Ew.
      - rewrite (proj2 (inbk k (keys m)) Ik) in I1. destruct (b32_eqb k zero32) eqn:Ez; [apply b32_eqb_eq in Ez; contradiction|].
        destruct I1 as [<-|[]]. reflexivity.
      - exfalso. apply (gi_has _ _ _ _ W1 k Ik Nz Fk). apply (gi_unwritten _ _ _ _ W1); [exact Fk|]. intros I. apply inbk in I. congruence. }
    subst m1. apply (core_kv_root H view U HZ). apply W2.
  - right. exists e2. split; [reflexivity|]. apply (core_kv_root H view U HZ). apply W2.
Qed.
End Any.
