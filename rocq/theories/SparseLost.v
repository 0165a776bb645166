(** SparseLost.v -- a sparse tree whose storage loses entries. *)
From Verif Require Import Base Storage ModelCommon ModelSparse SpecBits SpecBinary SpecSparse SpecAnyRun SpecLost RunsSparse RunsLost
  BindingProofs BitsProofs CommonProofs SparseSpecFacts SparseNodes SparseProofs SparseOps SparseSteps SparseMain SparseTheorems SparseAnyRun.
From Coq Require Import Arith.

Section Lost.
Variable H : list byte -> bytes32.
Variable pr : profile.
Context {St E : Type}.
Variable st : StorageT St bytes32 SPrimitive E.
Variable view : St -> bytes32 -> option SPrimitive.
Hypothesis Law : Lawful st view.
Notation V t := (view (sp_storage t)).

Section WithU.
Variable U : list (list byte).
Hypothesis HC : ~ has_collision H U.
Hypothesis HZ : forall x, In x U -> H x <> zero32.

Record linv (m : kvmap) (w : list bytes32) (t : SpTree St) : Prop := {
  li_nodup : NoDup (keys m);
  li_core : core H U anyk view (digests H m) t;
  li_unwritten : forall k, fresh H U k -> ~ In k w -> V t k = None
}.

Lemma lose : forall m w n s t, linv m w t -> n = sp_root_node t -> (forall k, view s k = V t k \/ view s k = None) ->
  linv m w (Build_SpTree n s).
Proof.
  intros m w n s t [N [Rn So G Us] Un] -> L. constructor; [exact N| |].
  - constructor; [exact Rn| |exact G|]; cbn [sp_storage].
    + intros m0 p G0 NE. destruct (L (T H p m0)) as [->| ->]; [apply So; assumption|right; reflexivity].
    + intros k Kk Fr. destruct (L k) as [->| ->]; [apply Us; assumption|left; reflexivity].
  - intros k Fr Nw. cbn [sp_storage]. destruct (L k) as [->|Q]; [apply Un; assumption|exact Q].
Qed.

Lemma lost_delete : forall k m w t, linv m w t -> fresh H U k -> good H U (digests H (without_landing k m)) ->
  exists t' r, sp_delete H pr st k t = (t', Val r) /\
    ((r = Ok tt /\ exists m1, In m1 (may_lost_op m w (Delete k) true) /\ (m1 = m \/ m1 = without_landing k m) /\ linv m1 w t') \/
     (exists e, r = Err e /\ linv m w t' /\ ((storage_error e /\ ~ Infallible st) \/ missing H (digests H m) (V t) e))).
Proof.
  intros k m w t [N C Unw] Fr G'.
  destruct (lands_exists k (digests H m)) as [D La]; [rewrite keys_digests; exact N|].
  pose proof (cut_landing H k m D N La) as Ec. fold (without_landing k m) in Ec.
  destruct (delete_step H U anyk HC HZ pr st view Law k (digests H m) D t C Logic.I Fr La ltac:(rewrite Ec; exact G')) as (t' & r & -> & R & Vu & Vd).
  exists t', r. split; [reflexivity|]. rewrite Ec in R.
  assert (Unw' : forall k', fresh H U k' -> ~ In k' w -> V t' k' = None).
  { intros k' F' Nw. destruct (Vd k' F') as [->|Q]; auto. }
  destruct R as [(-> & C' & Z & Vs)|[(-> & Vk & C' & Sm)|(e & -> & C' & Er)]].
  - left. split; [reflexivity|]. exists m. split; [|split; [left; reflexivity|constructor; assumption]].
    cbn [may_lost_op]. destruct (existsb (b32_eqb k) w); left; reflexivity.
  - left. split; [reflexivity|]. exists (without_landing k m). split; [|split; [right; reflexivity|constructor; auto using without_nodup]].
    cbn [may_lost_op]. destruct (existsb (b32_eqb k) w) eqn:Ew; [right; left; reflexivity|].
    exfalso. apply Vk. apply Unw; [exact Fr|]. intros I. apply inbk in I. congruence.
  - right. exists e. split; [reflexivity|]. split; [constructor; assumption|exact Er].
Qed.

Lemma lost_step : forall o m w t, linv m w t -> fresh H U (op_key o) -> good H U (digests H (aim m o)) ->
  exists t' r, sp_apply H pr st o t = (t', Val r) /\
    ((r = Ok tt /\ exists m1, In m1 (may_lost_op m w o true) /\ (m1 = m \/ m1 = aim m o) /\ linv m1 (op_writes o ++ w) t') \/
     (exists e, r = Err e /\ linv m (op_writes o ++ w) t' /\ ((storage_error e /\ ~ Infallible st) \/ missing H (digests H m) (V t) e))).
Proof.
  intros o m w t W Fr G. destruct o as [k [|b v]|k].
  - cbn [sp_apply op_key op_writes aim app may_lost_op] in *. rewrite update_nil. exact (lost_delete k m w t W Fr G).
  - cbn [sp_apply op_key op_writes aim app may_lost_op] in *. destruct W as [N C Unw].
    rewrite digests_mset in G.
    destruct (update_step H U anyk HC HZ pr st view Law k (b :: v) (digests H m) t ltac:(discriminate) C G Logic.I Fr) as (t' & r & -> & R & Vo & Vk & Keep).
    exists t', r. split; [reflexivity|].
    assert (Unw' : forall k', fresh H U k' -> ~ In k' (k :: w) -> V t' k' = None).
    { intros k' F' Nw. rewrite Vo; [apply Unw; auto|exact F'|]; intros C1; apply Nw; [right; exact C1|left; congruence]. }
    destruct R as [(-> & C' & Vn & Sm)|(e & -> & C' & Er)].
    + left. split; [reflexivity|]. exists (mset k (b :: v) m). split; [left; reflexivity|]. split; [right; reflexivity|].
      constructor; [apply mset_nodup; exact N|rewrite digests_mset; exact C'|exact Unw'].
    + right. exists e. split; [reflexivity|]. split; [constructor; assumption|exact Er].
  - cbn [sp_apply op_key op_writes aim app may_lost_op] in *. exact (lost_delete k m w t W Fr G).
Qed.

Lemma lost_load : forall m w t s t1, linv m w t -> sp_root H t <> zero32 ->
  sp_load st (sp_root H t) (sp_storage t) = (s, Val (Ok t1)) -> linv m w t1.
Proof.
  intros m w t s t1 W Nz L. pose proof (li_core _ _ _ W) as C. pose proof (core_kv_root H view U HZ m t C) as Rt.
  assert (NE : digests H m <> []) by (intros Q; destruct m; [|discriminate Q]; apply Nz; rewrite Rt; reflexivity).
  rewrite Rt, <- (T_kv H m) in L. unfold sp_load, bind_try, bind in L.
  destruct (get_spec st view Law (T H [] (digests H m)) (sp_storage t)) as (s1 & r1 & Q & V1 & R); rewrite Q in L.
  destruct R as [->|[[e ->] F]]; [|discriminate L].
  destruct (core_sound _ _ _ _ _ _ C (digests H m) [] (core_good _ _ _ _ _ _ C)) as [Q1|Q1]; [rewrite sub_root; exact NE| |].
  - rewrite Q1, try_from_prim in L. unfold get_state, ret in L. injection L as <- <-.
    apply (lose m w _ s1 t W); [symmetry; apply C|]. intros k. left. apply V1.
  - rewrite Q1 in L. discriminate L.
Qed.

Lemma lost_runs : forall t obs t', lost_run H pr st view t obs t' -> forall m w, linv m w t ->
  (forall o, In o (map fst obs) -> fresh H U (op_key o)) ->
  (forall m0, In m0 (possible m (map fst obs)) -> NoDup (keys m0) -> good H U (digests H m0)) ->
  exists m', may_lost m w (seen obs) m' /\ linv m' (written (rev (map fst obs)) ++ w) t' /\ In m' (possible m (map fst obs)) /\
    (forall us m0, In m0 (possible m' us) -> In m0 (possible m (map fst obs ++ us))) /\
    (forall o e, In (o, Err e) obs -> (storage_error e /\ ~ Infallible st) \/ exists h, e = SChildErr (ChildNotFound h)).
Proof.
  induction 1 as [t|t o t1 r obs t' A R IH|t s obs t' L R IH|t s t1 obs t' Nz L R IH]; intros m w W Fr Gm.
  - exists m. split; [reflexivity|]. split; [exact W|]. split; [left; reflexivity|]. split; [auto|intros o e []].
  - cbn [map fst] in *.
    assert (Hd : forall m0 (os : list sp_op), In m0 (possible m0 os)) by (intros m0 os; destruct os; left; reflexivity).
    assert (Pm : forall us m0, m0 = m \/ m0 = aim m o -> forall m1, In m1 (possible m0 us) -> In m1 (possible m (o :: us))).
    { intros us m0 [->| ->] m1 I1; cbn [possible]; right; apply in_or_app; [left; exact I1|right]. destruct o as [k [|b v]|k]; exact I1. }
    assert (G : good H U (digests H (aim m o))).
    { apply Gm; [apply (Pm _ (aim m o)); [right; reflexivity|apply Hd]|]. destruct o as [k [|b v]|k]; cbn [aim].
      - apply without_nodup, W. - apply mset_nodup, W. - apply without_nodup, W. }
    destruct (lost_step o m w t W (Fr o (or_introl eq_refl)) G) as (t2 & r2 & A2 & C).
    rewrite A in A2. injection A2 as <- <-.
    assert (X : exists m1, In m1 (may_lost_op m w o (is_ok r)) /\ (m1 = m \/ m1 = aim m o) /\ linv m1 (op_writes o ++ w) t1 /\
      (forall e, r = Err e -> (storage_error e /\ ~ Infallible st) \/ exists h, e = SChildErr (ChildNotFound h))).
    { destruct C as [(-> & m1 & I1 & C1 & W1)|(e & -> & W1 & Er)].
      - exists m1. repeat (split; auto). discriminate.
      - exists m. split; [left; reflexivity|]. split; [left; reflexivity|]. split; [exact W1|]. intros e' Q. injection Q as <-.
        destruct Er as [Er|(p & -> & _)]; [left; exact Er|right; eauto]. }
    destruct X as (m1 & I1 & C1 & W1 & Er).
    destruct (IH m1 (op_writes o ++ w) W1) as (m' & M & W' & Im & Pu & Er').
    { intros o' Io. apply Fr. right. exact Io. }
    { intros m0 I0. apply Gm. apply (Pm _ m1); auto. }
    exists m'. split; [cbn; exists m1; auto|]. split; [|split; [apply (Pm _ m1); auto|split]].
    + cbn [rev]. rewrite written_app. unfold written at 2. cbn [map concat]. rewrite app_nil_r, <- app_assoc. exact W'.
    + intros us m0 I0. cbn [app]. apply (Pm _ m1); auto.
    + intros o' e [Q|Q]; [injection Q as _ ->; exact (Er e eq_refl)|exact (Er' o' e Q)].
  - apply IH; auto. apply (lose m w _ s t W); auto.
  - apply IH; auto. apply (lost_load m w t s t1); auto.
Qed.
End WithU.

Lemma lost_entries : forall obs m w m', may_lost m w obs m' -> forall k v, In (k, v) m' -> In (k, v) m \/ In (Update k v, true) obs.
Proof.
  induction obs as [|[o ok] obs IH]; intros m w m' M k v I; cbn [may_lost] in M; [subst; auto|].
  destruct M as (m1 & I1 & M). destruct (IH _ _ _ M k v I) as [Q|Q]; [|right; right; exact Q].
  assert (De : forall k0, In (k, v) (mdel k0 m) -> In (k, v) m) by (intros k0 Q'; unfold mdel in Q'; apply filter_In in Q'; tauto).
  assert (Wl : forall k0, In (k, v) (without_landing k0 m) -> In (k, v) m).
  { intros k0 Q'. unfold without_landing in Q'. destruct (landing 256 0 k0 m); [eapply De; exact Q'|exact Q']. }
  destruct ok; [|destruct I1 as [<-|[]]; left; exact Q].
  destruct o as [k0 [|b0 v0]|k0]; cbn [may_lost_op] in I1.
  2:{ destruct I1 as [<-|[]]. destruct Q as [Q|Q]; [injection Q as <- <-; right; left; reflexivity|]. left. eapply De. exact Q. }
  all: left; destruct (existsb (b32_eqb k0) w); repeat (destruct I1 as [<-|I1]; eauto); destruct I1.
Qed.

Theorem C88_lemma : forall s0 obs t, (forall k, view s0 k = None) -> lost_run H pr st view (sp_new s0) obs t ->
  hash_ok H (map op_key (map fst obs)) (possible [] (map fst obs)) ->
  exists m, may_lost [] [] (seen obs) m /\ sp_root H t = kv_root H m /\
    (forall k v, In (k, v) m -> In (Update k v, true) (seen obs)) /\
    (forall o e, In (o, Err e) obs -> (storage_error e /\ ~ Infallible st) \/ exists h, e = SChildErr (ChildNotFound h)) /\
    (forall o, hash_ok H (map op_key (map fst obs ++ [o])) (possible [] (map fst obs ++ [o])) ->
       exists t' r, sp_apply H pr st o t = (t', Val r) /\
         (r = Ok tt \/ (exists e, r = Err e /\ storage_error e /\ ~ Infallible st) \/
          exists h, r = Err (SChildErr (ChildNotFound h)) /\ view (sp_storage t) h = None)).
Proof.
  assert (Run : forall s0 obs t ms ks, (forall k, view s0 k = None) -> lost_run H pr st view (sp_new s0) obs t -> hash_ok H ks ms ->
    (forall k, In k (map op_key (map fst obs)) -> In k ks) -> (forall m, In m (possible [] (map fst obs)) -> In m ms) ->
    exists m', may_lost [] [] (seen obs) m' /\ linv (universe H ms) m' (written (rev (map fst obs)) ++ []) t /\ In m' (possible [] (map fst obs)) /\
    (forall us m0, In m0 (possible m' us) -> In m0 (possible [] (map fst obs ++ us))) /\
    (forall o e, In (o, Err e) obs -> (storage_error e /\ ~ Infallible st) \/ exists h, e = SChildErr (ChildNotFound h))).
  { intros s0 obs t ms ks Em R Ok0 Sk Sm. destruct (setup H _ _ Ok0) as (HC & HZ & Fr & Gd).
    destruct (winv_new H view (universe H ms) s0 Em) as (W & _ & _).
    assert (W0 : linv (universe H ms) [] [] (sp_new s0)) by (destruct W as [N C Has Un]; constructor; auto).
    apply (lost_runs (universe H ms) HC HZ _ _ _ R [] [] W0).
    - intros o Io. apply Fr, Sk, in_map. exact Io.
    - intros m0 I0. apply Gd, Sm, I0. }
  intros s0 obs t Em R Ok0.
  destruct (Run _ _ _ _ _ Em R Ok0 (fun k I => I) (fun m I => I)) as (m & M & W & _ & _ & Er).
  destruct (setup H _ _ Ok0) as (_ & HZ & _ & _).
  exists m. split; [exact M|]. split; [apply (core_kv_root H view _ HZ); apply W|].
  split; [intros k v I; destruct (lost_entries _ _ _ _ M k v I) as [[]|Q]; exact Q|]. split; [exact Er|].
  clear m M W Er HZ. intros o Ok1. destruct (setup H _ _ Ok1) as (HC & HZ & Fr & Gd).
  assert (Sub : forall os m x, In x (possible m os) -> In x (possible m (os ++ [o]))).
  { clear. induction os as [|o1 os IH]; intros m x I.
    - destruct I as [<-|[]]. left. reflexivity.
    - cbn [app possible] in *. destruct I as [<-|I]; [left; reflexivity|right]. apply in_app_or in I. apply in_or_app.
      destruct I as [I|I]; [left; auto|right]. destruct o1 as [k' [|b v]|k']; auto. }
  destruct (Run _ _ _ _ _ Em R Ok1) as (m & M & W & _ & Pu & _).
  { intros k Ik. rewrite map_app. apply in_or_app. left. exact Ik. }
  { intros m0 I0. apply Sub. exact I0. }
  destruct (lost_step _ HC HZ o m _ t W) as (t' & r & A & C).
  { apply Fr. apply in_map. apply in_or_app. right. left. reflexivity. }
  { apply Gd; [apply (Pu [o]); cbn [possible]; right; apply in_or_app; right; destruct o as [k [|b v]|k]; left; reflexivity|].
    destruct o as [k [|b v]|k]; cbn [aim]; [apply without_nodup, W|apply mset_nodup, W|apply without_nodup, W]. }
  exists t', r. split; [exact A|]. destruct C as [(-> & _)|(e & -> & _ & [[Se F]|(p & -> & Lp)])]; [left; reflexivity|right; left; eauto|].
  right. right. eexists. split; [reflexivity|]. apply Lp.
Qed.
End Lost.
