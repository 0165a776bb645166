(** OpenProofs.v -- trees opened one after the other on one storage. *)
From Verif Require Import Base Storage ModelText ModelCommon ModelSparse SpecBits SpecBinary SpecSparse SpecAnyRun SpecLost SpecOpen RunsSparse RunsOpen
  BindingProofs BitsProofs CommonProofs SparseSpecFacts SparseNodes SparseProofs SparseOps SparseSteps SparseMain SparseTheorems SparseAnyRun SparseLost.
From Coq Require Import Arith.

Section Open.
Variable H : list byte -> bytes32.
Variable pr : profile.
Context {St E : Type}.
Variable st : StorageT St bytes32 SPrimitive E.
Variable view : St -> bytes32 -> option SPrimitive.
Hypothesis Law : Lawful st view.
Notation V t := (view (sp_storage t)).

Lemma possible_self : forall m os, In m (possible m os).
Proof. intros m os. destruct os; left; reflexivity. Qed.
Lemma possible_step : forall m o os m1 m0, m1 = m \/ m1 = aim m o -> In m0 (possible m1 os) -> In m0 (possible m (o :: os)).
Proof.
  intros m o os m1 m0 [->| ->] I1; cbn [possible]; right; apply in_or_app; [left; exact I1|right]. destruct o as [k [|b v]|k]; exact I1.
Qed.
Lemma aim_nodup : forall m o, NoDup (keys m) -> NoDup (keys (aim m o)).
Proof. intros m o N. destruct o as [k [|b v]|k]; cbn [aim]; auto using without_nodup, mset_nodup. Qed.

Section WithU.
Variable U : list (list byte).
Hypothesis HC : ~ has_collision H U.
Hypothesis HZ : forall x, In x U -> H x <> zero32.
Local Notation linv := (linv H view U).
Local Notation ginv := (ginv H view U).

(** A call keeps the entries of keys. *)
Lemma call_keeps : forall o m w t, linv m w t -> fresh H U (op_key o) -> good H U (digests H (aim m o)) ->
  exists t' r, sp_apply H pr st o t = (t', Val r) /\ forall k, k <> zero32 -> fresh H U k -> V t k <> None -> V t' k <> None.
Proof.
  intros o m w t [N C Unw] Fr G.
  assert (Del : forall k, fresh H U k -> good H U (digests H (without_landing k m)) ->
    exists t' r, sp_delete H pr st k t = (t', Val r) /\ forall k, k <> zero32 -> fresh H U k -> V t k <> None -> V t' k <> None).
  { clear o Fr G. intros k Fr G'. destruct (lands_exists k (digests H m)) as [D La]; [rewrite keys_digests; exact N|].
    pose proof (cut_landing H k m D N La) as Ec. fold (without_landing k m) in Ec.
    destruct (delete_step H U anyk HC HZ pr st view Law k (digests H m) D t C Logic.I Fr La ltac:(rewrite Ec; exact G')) as (t' & r & A & _ & Vu & _).
    exists t', r. split; [exact A|]. intros k' Nz F' Q. rewrite Vu; auto. }
  destruct o as [k [|b v]|k]; cbn [sp_apply op_key aim] in *; [rewrite update_nil; apply Del; assumption| |apply Del; assumption].
  rewrite digests_mset in G.
  destruct (update_step H U anyk HC HZ pr st view Law k (b :: v) (digests H m) t ltac:(discriminate) C G Logic.I Fr) as (t' & r & A & _ & Vo & Vk & _).
  exists t', r. split; [exact A|]. intros k' Nz F' Q. destruct (b32_eq_dec k' k) as [->|Ne]; [apply Vk; exact Q|rewrite Vo; auto].
Qed.

(** The tree of any map can be opened if its root is there. *)
Lemma open_step : forall m w t m0, linv m w t -> NoDup (keys m0) -> good H U (digests H m0) -> kv_root H m0 <> zero32 ->
  exists s' r, sp_load st (kv_root H m0) (sp_storage t) = (s', Val r) /\ (forall k, view s' k = V t k) /\
  ((exists t1, r = Ok t1 /\ linv m0 w t1 /\ forall k, V t1 k = V t k) \/
   (exists e, r = Err (SStorageError e) /\ ~ Infallible st) \/
   (r = Err (SLoadError (hex_encode (b32 (kv_root H m0)))) /\ V t (kv_root H m0) = None)).
Proof.
  intros m w t m0 [N C Unw] N0 G0 Nz.
  assert (NE : digests H m0 <> []) by (intros Q; destruct m0; [|discriminate Q]; apply Nz; reflexivity).
  unfold sp_load, bind_try, bind. rewrite <- (T_kv H m0) in *.
  destruct (get_spec st view Law (T H [] (digests H m0)) (sp_storage t)) as (s1 & r1 & -> & V1 & R).
  destruct R as [->|[[e ->] F]].
  2:{ eexists s1, _. split; [reflexivity|]. split; [exact V1|]. right. left. exists e. split; [reflexivity|exact F]. }
  destruct (core_sound _ _ _ _ _ _ C (digests H m0) [] G0) as [Q1|Q1]; [rewrite sub_root; exact NE| |]; rewrite Q1.
  - rewrite try_from_prim. unfold get_state, ret. eexists s1, _. split; [reflexivity|]. split; [exact V1|]. left. eexists. split; [reflexivity|].
    split; [|exact V1]. destruct C as [Rn So G Us]. constructor; [exact N0| |].
    + constructor; cbn [sp_root_node sp_storage]; [reflexivity| |exact G0|].
      * intros m1 p G1 NE1. rewrite V1. apply So; assumption.
      * intros k Kk Fr. rewrite V1. apply Us; assumption.
    + intros k Fr Nw. cbn [sp_storage]. rewrite V1. apply Unw; assumption.
  - eexists s1, _. split; [reflexivity|]. split; [exact V1|]. right. right. split; [reflexivity|reflexivity || exact Q1].
Qed.

Local Notation node m := (nd H [] (digests H m)).
Lemma node_root : forall m, good H U (digests H m) -> snode_hash H (node m) = kv_root H m.
Proof. intros m G. rewrite (nd_hash H U HZ) by exact G. apply T_kv. Qed.
Lemma nodes_nth : forall j ms, nth j (map (fun m => node m) ms) snode_placeholder = node (nth j ms []).
Proof. intros j ms. rewrite <- (nd_nil H [] (digests H []) eq_refl). exact (map_nth (fun m => node m) ms [] j). Qed.
Lemma placeholder_root : snode_hash H snode_placeholder = zero32.
Proof. reflexivity. Qed.
(** Any tree met can be taken up again. *)
Lemma resume_step : forall m w t m0, linv m w t -> NoDup (keys m0) -> good H U (digests H m0) ->
  linv m0 w (Build_SpTree (node m0) (sp_storage t)).
Proof.
  intros m w t m0 [N [Rn So G Us] Un] N0 G0. constructor; [exact N0| |exact Un]. constructor; auto.
Qed.

Record oinv (lost : bool) (ms : list kvmap) (m : kvmap) (w : list bytes32) (t : SpTree St) : Prop := {
  oi_in : In m ms;
  oi_linv : linv m w t;
  oi_nodup : forall mj, In mj ms -> NoDup (keys mj);
  oi_has : lost = false -> forall mj k, In mj ms -> In k (keys mj) -> k <> zero32 -> fresh H U k -> V t k <> None
}.

Definition call_error (e : SError E) : Prop := (storage_error e /\ ~ Infallible st) \/ exists h, e = SChildErr (ChildNotFound h).
Definition open_error (e : SError E) : Prop :=
  (exists e', e = SStorageError e' /\ ~ Infallible st) \/ exists r, e = SLoadError (hex_encode (b32 r)).

Lemma call_step : forall o lost ms m w t, oinv lost ms m w t -> fresh H U (op_key o) -> good H U (digests H (aim m o)) ->
  exists t' r m1, sp_apply H pr st o t = (t', Val r) /\ In m1 ((if lost then may_lost_op else may_op) m w o (fine_answer r)) /\
    (m1 = m \/ m1 = aim m o) /\ oinv lost (ms ++ [m1]) m1 (op_writes o ++ w) t' /\
    (r = Ok tt \/ exists e, r = Err e /\ ((storage_error e /\ ~ Infallible st) \/ missing H (digests H m) (V t) e)).
Proof.
  intros o lost ms m w t [Im L Nd Has] Fr G. pose proof (li_nodup _ _ _ _ _ _ L) as N.
  assert (X : exists t' r m1, sp_apply H pr st o t = (t', Val r) /\ In m1 ((if lost then may_lost_op else may_op) m w o (fine_answer r)) /\
    (m1 = m \/ m1 = aim m o) /\ linv m1 (op_writes o ++ w) t' /\
    (lost = false -> forall k, In k (keys m1) -> k <> zero32 -> fresh H U k -> V t' k <> None) /\
    (r = Ok tt \/ exists e, r = Err e /\ ((storage_error e /\ ~ Infallible st) \/ missing H (digests H m) (V t) e))).
  { destruct lost.
    - destruct (lost_step H pr st view Law U HC HZ o m w t L Fr G) as (t' & r & A & [(-> & m1 & I1 & C1 & W1)|(e & -> & W1 & Er)]).
      + exists t', (Ok tt), m1. repeat (split; auto). discriminate.
      + exists t', (Err e), m. split; [exact A|]. split; [left; reflexivity|]. repeat (split; auto); [discriminate|]. right. eauto.
    - assert (W : ginv m w t) by (destruct L as [_ C Un]; constructor; eauto).
      destruct (any_step H pr st view Law U HC HZ o m w t W Fr G) as (t' & r & A & [(-> & m1 & I1 & C1 & [N1 K1 H1 Un1] & _)|(e & -> & [N1 K1 H1 Un1] & Er & _)]).
      + exists t', (Ok tt), m1. repeat (split; auto).
      + exists t', (Err e), m. split; [exact A|]. split; [left; reflexivity|]. repeat (split; auto). right. eauto. }
  destruct X as (t' & r & m1 & A & I1 & C1 & W1 & H1 & Er).
  exists t', r, m1. split; [exact A|]. split; [exact I1|]. split; [exact C1|]. split; [|exact Er].
  destruct (call_keeps o m w t L Fr G) as (t2 & r2 & A2 & Kp). rewrite A in A2. injection A2 as <- <-.
  constructor; [apply in_or_app; right; left; reflexivity|exact W1| |].
  - intros mj I. apply in_app_or in I. destruct I as [I|[<-|[]]]; [apply Nd; exact I|apply W1].
  - intros Q mj k I. apply in_app_or in I. destruct I as [I|[<-|[]]]; [|apply H1; exact Q].
    intros Ik Nz F'. apply Kp; auto. apply (Has Q mj); auto.
Qed.

Lemma same_step : forall lost lost' ms m w t t' m1, oinv lost ms m w t -> linv m1 w t' -> (m1 = [] \/ In m1 ms) ->
  (lost' = false -> lost = false /\ forall k, V t' k = V t k) -> oinv lost' (ms ++ [m1]) m1 w t'.
Proof.
  intros lost lost' ms m w t t' m1 [Im L Nd Has] L1 I1 Sv. constructor; [apply in_or_app; right; left; reflexivity|exact L1| |].
  - intros mj I. apply in_app_or in I. destruct I as [I|[<-|[]]]; [apply Nd; exact I|apply L1].
  - intros Q mj k I Ik Nz F'. destruct (Sv Q) as [Ql Sk]. rewrite Sk. apply in_app_or in I. destruct I as [I|[<-|[]]]; [apply (Has Ql mj); auto|].
    destruct I1 as [->|I1]; [destruct Ik|apply (Has Ql m1); auto].
Qed.

Lemma open_runs : forall us ns t evs roots t', open_run H pr st view ns t evs roots t' ->
  forall lost ms m w, ns = map (fun m => node m) ms -> oinv lost ms m w t ->
  (forall o, In o (calls_of evs) -> fresh H U (op_key o)) ->
  (forall mj m0, In mj ([] :: ms) -> In m0 (possible mj (calls_of evs ++ us)) -> NoDup (keys m0) -> good H U (digests H m0)) ->
  exists lost' ms' m' w', explains lost w ms m evs ms' /\ roots = map (kv_root H) ms' /\ oinv lost' (ms ++ ms') m' w' t' /\
    (forall mj m0, In mj ([] :: ms ++ ms') -> In m0 (possible mj us) -> NoDup (keys m0) -> good H U (digests H m0)) /\
    (forall o e, In (Called o (Err e)) evs -> call_error e) /\ (forall j e, In (Opened j (Err e)) evs -> open_error e).
Proof.
  intros us.
  assert (Grow : forall (ms : list kvmap) (m1 mj : kvmap), In mj ([] :: ms ++ [m1]) -> In mj ([] :: ms) \/ mj = m1).
  { intros ms m1 mj [<-|I]; [left; left; reflexivity|]. apply in_app_or in I. destruct I as [I|[<-|[]]]; [left; right; exact I|right; reflexivity]. }
  induction 1 as [ns t|ns t o t1 r evs roots t' A R IH|ns t t1 evs roots t' -> R IH|ns t j s t1 evs roots t' Nz A R IH|ns t j s e t1 evs roots t' Nz A -> R IH
    |ns t j t1 evs roots t' -> R IH|ns t s t1 evs roots t' A -> R IH]; intros lost ms m w -> O Fr Gm.
  - exists lost, [], m, w. rewrite app_nil_r. split; [exact Logic.I|]. split; [reflexivity|]. split; [exact O|]. split; [exact Gm|].
    split; [intros o e Q; destruct Q|intros j e Q; destruct Q].
  - assert (I0 : In m ([] :: ms)) by (right; apply O).
    assert (G : good H U (digests H (aim m o))).
    { apply (Gm m); [exact I0| |apply aim_nodup; exact (oi_nodup _ _ _ _ _ O m (oi_in _ _ _ _ _ O))]. apply (possible_step m o _ (aim m o)); [right; reflexivity|apply possible_self]. }
    destruct (call_step o lost ms m w t O (Fr o (or_introl eq_refl)) G) as (t2 & r2 & m1 & A2 & I1 & C1 & O1 & Er).
    rewrite A in A2. injection A2 as <- <-.
    assert (Rt : sp_root H t1 = kv_root H m1) by apply (core_kv_root H view U HZ), O1.
    rewrite Rt in *.
    destruct (IH lost (ms ++ [m1]) m1 (op_writes o ++ w)) as (l' & ms' & m' & w' & Ex & -> & O' & G' & E1 & E2).
    { rewrite map_app. cbn [map]. rewrite (core_root _ _ _ _ _ _ (li_core _ _ _ _ _ _ (oi_linv _ _ _ _ _ O1))). reflexivity. } { exact O1. } { intros o' Io. apply Fr. right. exact Io. }
    { intros mj m0 I Ip. destruct (Grow _ _ _ I) as [I2| ->].
      - apply (Gm mj); [exact I2|]. apply (possible_step mj o _ mj); [left; reflexivity|exact Ip].
      - apply (Gm m); [exact I0|]. apply (possible_step m o _ m1); [exact C1|exact Ip]. }
    exists l', (m1 :: ms'), m', w'. rewrite <- app_assoc in O', G'. split; [split; assumption|]. split; [reflexivity|]. split; [exact O'|].
    split; [exact G'|]. split; [|intros j e [Q|Q]; [discriminate Q|eauto]].
    intros o' e [Q|Q]; [|eauto]. injection Q as -> ->. destruct Er as [Er|(e' & Q & Er)]; [discriminate Er|]. injection Q as <-.
    destruct Er as [Er|(p & -> & _)]; [left; exact Er|right; eauto].
  - assert (L1 : linv [] w (sp_new (sp_storage t))).
    { destruct O as [_ [N [Rn So G Us] Un] _ _]. constructor; [constructor| |exact Un]. constructor; cbn [sp_root_node sp_storage sp_new];
        [symmetry; apply nd_nil; reflexivity|exact So| |exact Us]. apply (Gm [] []); [left; reflexivity|apply possible_self|constructor]. }
    assert (O1 : oinv lost (ms ++ [[]]) [] w (sp_new (sp_storage t))).
    { apply (same_step lost lost ms m w t); auto. }
    assert (Rt : sp_root H (sp_new (sp_storage t)) = kv_root H []) by apply (core_kv_root H view U HZ), O1.
    rewrite Rt in *.
    destruct (IH lost (ms ++ [[]]) [] w) as (l' & ms' & m' & w' & Ex & -> & O' & G' & E1 & E2).
    { rewrite map_app. cbn [map]. rewrite (core_root _ _ _ _ _ _ (li_core _ _ _ _ _ _ (oi_linv _ _ _ _ _ O1))). reflexivity. } { exact O1. } { exact Fr. }
    { intros mj m0 I Ip. destruct (Grow _ _ _ I) as [I2| ->]; [apply (Gm mj); assumption|apply (Gm []); [left; reflexivity|exact Ip]]. }
    exists l', ([] :: ms'), m', w'. rewrite <- app_assoc in O', G'. split; [split; [reflexivity|exact Ex]|]. split; [reflexivity|]. split; [exact O'|].
    split; [exact G'|]. split; [intros o' e [Q|Q]; [discriminate Q|eauto]|intros j e [Q|Q]; [discriminate Q|eauto]].
  - assert (Bj : (j < length ms)%nat).
    { destruct (Nat.lt_ge_cases j (length ms)) as [Q|Q]; [exact Q|]. destruct Nz. rewrite nth_overflow by (rewrite map_length; exact Q). reflexivity. }
    assert (Ij : In (nth j ms []) ms) by (apply nth_In; exact Bj).
    assert (Gj : good H U (digests H (nth j ms []))) by (apply (Gm (nth j ms [])); [right; exact Ij|apply possible_self|apply O; exact Ij]).
    rewrite nodes_nth, (node_root _ Gj) in Nz, A.
    destruct (open_step m w t (nth j ms []) (oi_linv _ _ _ _ _ O) (oi_nodup _ _ _ _ _ O _ Ij)) as (s' & r & A2 & Vs & Cs); [|exact Nz|].
    { apply (Gm (nth j ms [])); [right; exact Ij|apply possible_self|apply O; exact Ij]. }
    rewrite A in A2. injection A2 as <- <-.
    destruct Cs as [(t2 & Q & L1 & V1)|[(e & Q & _)|[Q _]]]; [injection Q as <-|discriminate Q|discriminate Q].
    assert (O1 : oinv lost (ms ++ [nth j ms []]) (nth j ms []) w t1) by (apply (same_step lost lost ms m w t); auto).
    assert (Rt : sp_root H t1 = kv_root H (nth j ms [])) by apply (core_kv_root H view U HZ), O1.
    rewrite Rt in *.
    destruct (IH lost (ms ++ [nth j ms []]) (nth j ms []) w) as (l' & ms' & m' & w' & Ex & -> & O' & G' & E1 & E2).
    { rewrite map_app. cbn [map]. rewrite (core_root _ _ _ _ _ _ (li_core _ _ _ _ _ _ (oi_linv _ _ _ _ _ O1))). reflexivity. } { exact O1. } { exact Fr. }
    { intros mj m0 I Ip. destruct (Grow _ _ _ I) as [I2| ->]; [apply (Gm mj); assumption|apply (Gm (nth j ms [])); [right; exact Ij|exact Ip]]. }
    exists l', (nth j ms [] :: ms'), m', w'. rewrite <- app_assoc in O', G'. split; [split; [reflexivity|exact Ex]|]. split; [reflexivity|]. split; [exact O'|].
    split; [exact G'|]. split; [intros o' e [Q|Q]; [discriminate Q|eauto]|intros j' e [Q|Q]; [discriminate Q|eauto]].
  - assert (Bj : (j < length ms)%nat).
    { destruct (Nat.lt_ge_cases j (length ms)) as [Q|Q]; [exact Q|]. destruct Nz. rewrite nth_overflow by (rewrite map_length; exact Q). reflexivity. }
    assert (Ij : In (nth j ms []) ms) by (apply nth_In; exact Bj).
    assert (Gj : good H U (digests H (nth j ms []))) by (apply (Gm (nth j ms [])); [right; exact Ij|apply possible_self|apply O; exact Ij]).
    rewrite nodes_nth, (node_root _ Gj) in Nz, A.
    destruct (open_step m w t (nth j ms []) (oi_linv _ _ _ _ _ O) (oi_nodup _ _ _ _ _ O _ Ij)) as (s' & r & A2 & Vs & Cs); [|exact Nz|].
    { apply (Gm (nth j ms [])); [right; exact Ij|apply possible_self|apply O; exact Ij]. }
    rewrite A in A2. injection A2 as <- <-.
    assert (Er : open_error e).
    { destruct Cs as [(t2 & Q & _)|[(e' & Q & F)|[Q _]]]; [discriminate Q|injection Q as ->|injection Q as ->]; [left; eauto|right; eauto]. }
    assert (O1 : oinv lost (ms ++ [m]) m w (Build_SpTree (sp_root_node t) s)).
    { apply (same_step lost lost ms m w t); auto; [|right; apply O].
      apply (lose H view U m w _ s t); [apply O|reflexivity|]. intros k. left. apply Vs. }
    assert (Rt : sp_root H (Build_SpTree (sp_root_node t) s) = kv_root H m) by apply (core_kv_root H view U HZ), O1.
    rewrite Rt in *.
    destruct (IH lost (ms ++ [m]) m w) as (l' & ms' & m' & w' & Ex & -> & O' & G' & E1 & E2).
    { rewrite map_app. cbn [map]. rewrite (core_root _ _ _ _ _ _ (li_core _ _ _ _ _ _ (oi_linv _ _ _ _ _ O1))). reflexivity. } { exact O1. } { exact Fr. }
    { intros mj m0 I Ip. destruct (Grow _ _ _ I) as [I2| ->]; [apply (Gm mj); assumption|apply (Gm m); [right; apply O|exact Ip]]. }
    exists l', (m :: ms'), m', w'. rewrite <- app_assoc in O', G'. split; [split; [reflexivity|exact Ex]|]. split; [reflexivity|]. split; [exact O'|].
    split; [exact G'|]. split; [intros o' e' [Q|Q]; [discriminate Q|eauto]|].
    intros j' e' [Q|Q]; [injection Q as _ ->; exact Er|eauto].
  - rewrite nodes_nth in *.
    assert (Gj : NoDup (keys (nth j ms [])) /\ good H U (digests H (nth j ms [])) /\ (nth j ms [] = [] \/ In (nth j ms []) ms)).
    { destruct (nth_in_or_default j ms []) as [I0|D0].
      - assert (Nj : NoDup (keys (nth j ms []))) by (apply O; exact I0). split; [exact Nj|]. split; [|right; exact I0].
        apply (Gm (nth j ms [])); [right; exact I0|apply possible_self|exact Nj].
      - rewrite D0. split; [constructor|]. split; [|left; reflexivity]. apply (Gm [] []); [left; reflexivity|apply possible_self|constructor]. }
    destruct Gj as (Nj & Gj & Ij).
    assert (O1 : oinv lost (ms ++ [nth j ms []]) (nth j ms []) w (Build_SpTree (node (nth j ms [])) (sp_storage t))).
    { apply (same_step lost lost ms m w t); auto. apply (resume_step m); [apply O|exact Nj|exact Gj]. }
    assert (Rt : sp_root H (Build_SpTree (node (nth j ms [])) (sp_storage t)) = kv_root H (nth j ms [])) by apply (core_kv_root H view U HZ), O1.
    rewrite Rt in *.
    destruct (IH lost (ms ++ [nth j ms []]) (nth j ms []) w) as (l' & ms' & m' & w' & Ex & -> & O' & G' & E1 & E2).
    { rewrite map_app. reflexivity. } { exact O1. } { exact Fr. }
    { intros mj m0 I Ip. destruct (Grow _ _ _ I) as [I2| ->]; [apply (Gm mj); assumption|].
      apply (Gm (nth j ms [])); [destruct Ij as [->|Ij]; [left; reflexivity|right; exact Ij]|exact Ip]. }
    exists l', (nth j ms [] :: ms'), m', w'. rewrite <- app_assoc in O', G'. split; [split; [reflexivity|exact Ex]|]. split; [reflexivity|]. split; [exact O'|].
    split; [exact G'|]. split; [intros o' e [Q|Q]; [discriminate Q|eauto]|intros j' e [Q|Q]; [discriminate Q|eauto]].
  - assert (O1 : oinv true (ms ++ [m]) m w (Build_SpTree (sp_root_node t) s)).
    { apply (same_step lost true ms m w t); auto; [|right; apply O|discriminate].
      apply (lose H view U m w _ s t); [apply O|reflexivity|exact A]. }
    assert (Rt : sp_root H (Build_SpTree (sp_root_node t) s) = kv_root H m) by apply (core_kv_root H view U HZ), O1.
    rewrite Rt in *.
    destruct (IH true (ms ++ [m]) m w) as (l' & ms' & m' & w' & Ex & -> & O' & G' & E1 & E2).
    { rewrite map_app. cbn [map]. rewrite (core_root _ _ _ _ _ _ (li_core _ _ _ _ _ _ (oi_linv _ _ _ _ _ O1))). reflexivity. } { exact O1. } { exact Fr. }
    { intros mj m0 I Ip. destruct (Grow _ _ _ I) as [I2| ->]; [apply (Gm mj); assumption|apply (Gm m); [right; apply O|exact Ip]]. }
    exists l', (m :: ms'), m', w'. rewrite <- app_assoc in O', G'. split; [split; [reflexivity|exact Ex]|]. split; [reflexivity|]. split; [exact O'|].
    split; [exact G'|]. split; [intros o' e' [Q|Q]; [discriminate Q|eauto]|intros j' e' [Q|Q]; [discriminate Q|eauto]].
Qed.
End WithU.

Lemma may_entries : forall (lost : bool) m w o ok m1, In m1 ((if lost then may_lost_op else may_op) m w o ok) ->
  forall k v, In (k, v) m1 -> In (k, v) m \/ (o = Update k v /\ ok = true).
Proof.
  intros lost m w o ok m1 I1 k v I.
  assert (De : forall k0, In (k, v) (mdel k0 m) -> In (k, v) m) by (intros k0 Q; unfold mdel in Q; apply filter_In in Q; tauto).
  assert (Wl : forall k0, In (k, v) (without_landing k0 m) -> In (k, v) m).
  { intros k0 Q. unfold without_landing in Q. destruct (landing 256 0 k0 m); [eapply De; exact Q|exact Q]. }
  destruct ok; [|left; destruct lost, I1 as [<-|[]]; exact I].
  assert (Up : forall k0 v0, In (k, v) (mset k0 v0 m) -> In (k, v) m \/ Update k0 v0 = Update k v).
  { intros k0 v0 [Q|Q]; [injection Q as <- <-; right; reflexivity|left; eapply De; exact Q]. }
  destruct lost, o as [k0 [|b0 v0]|k0]; cbn [may_lost_op may_op] in I1.
  2, 5: destruct I1 as [<-|[]]; destruct (Up _ _ I) as [Q|Q]; auto.
  all: left; repeat match type of I1 with context [if ?b then _ else _] => destruct b end;
    repeat (destruct I1 as [<-|I1]; eauto); destruct I1.
Qed.
Lemma explained_entries : forall (evs : list (event (SError E))) lost w ms m ms', explains lost w ms m evs ms' ->
  forall m1 k v, In m1 ms' -> In (k, v) m1 ->
  (exists m0, In m0 (m :: ms) /\ In (k, v) m0) \/ In (Called (Update k v) (Ok tt)) evs.
Proof.
  assert (Step : forall (e : event (SError E)) evs lost w ms m m' ms', explains lost w (ms ++ [m']) m' evs ms' ->
    (forall k v, In (k, v) m' -> (exists m0, In m0 (m :: ms) /\ In (k, v) m0) \/ In (Called (Update k v) (Ok tt)) (e :: evs)) ->
    (forall lost w ms m ms', explains lost w ms m evs ms' -> forall m1 k v, In m1 ms' -> In (k, v) m1 ->
      (exists m0, In m0 (m :: ms) /\ In (k, v) m0) \/ In (Called (Update k v) (Ok tt)) evs) ->
    forall m1 k v, In m1 (m' :: ms') -> In (k, v) m1 -> (exists m0, In m0 (m :: ms) /\ In (k, v) m0) \/ In (Called (Update k v) (Ok tt)) (e :: evs)).
  { intros e evs lost w ms m m' ms' Ex Hm IH m1 k v [<-|I1] I; [apply Hm; exact I|].
    destruct (IH _ _ _ _ _ Ex m1 k v I1 I) as [(m0 & I0 & Ik)|Q]; [|right; right; exact Q].
    destruct I0 as [<-|I0]; [apply Hm; exact Ik|]. apply in_app_or in I0. destruct I0 as [I0|[<-|[]]]; [|apply Hm; exact Ik].
    left. exists m0. split; [right; exact I0|exact Ik]. }
  induction evs as [|e evs IH]; intros lost w ms m [|m' ms'] Ex; cbn [explains] in Ex; try contradiction.
  assert (Here : forall m0 k v, In m0 (m :: ms) -> In (k, v) m0 ->
    (exists m0, In m0 (m :: ms) /\ In (k, v) m0) \/ In (Called (Update k v) (Ok tt)) (e :: evs)) by (intros; left; eauto).
  destruct e as [o r| |j r|j|].
  - destruct Ex as [I1 Ex]. apply (Step _ _ _ _ _ _ _ _ Ex); [|exact IH]. intros k v I.
    destruct (may_entries lost m w o _ m' I1 k v I) as [Q|[-> Q]]; [apply (Here m); [left; reflexivity|exact Q]|].
    right. left. destruct r as [[]|e]; [reflexivity|discriminate Q].
  - destruct Ex as [-> Ex]. apply (Step _ _ _ _ _ _ _ _ Ex); [|exact IH]. intros k v [].
  - destruct Ex as [Q Ex]. apply (Step _ _ _ _ _ _ _ _ Ex); [|exact IH]. intros k v I. apply (Here m'); [|exact I]. subst m'.
    destruct (fine_answer r); [|left; reflexivity].
    destruct (nth_in_or_default j ms []) as [Q|Q]; [right; exact Q|]. rewrite Q in I. destruct I.
  - destruct Ex as [Q Ex]. apply (Step _ _ _ _ _ _ _ _ Ex); [|exact IH]. intros k v I. apply (Here m'); [|exact I]. subst m'.
    destruct (nth_in_or_default j ms []) as [Q|Q]; [right; exact Q|]. rewrite Q in I. destruct I.
  - destruct Ex as [-> Ex]. apply (Step _ _ _ _ _ _ _ _ Ex); [|exact IH]. intros k v I. apply (Here m); [left; reflexivity|exact I].
Qed.

Lemma open_all : forall us s0 evs roots t, (forall k, view s0 k = None) -> open_run H pr st view [snode_placeholder] (sp_new s0) evs roots t ->
  hash_ok H (map op_key (calls_of evs ++ us)) (possible [] (calls_of evs ++ us)) ->
  let U := universe H (possible [] (calls_of evs ++ us)) in
  ~ has_collision H U /\ (forall x, In x U -> H x <> zero32) /\ (forall o, In o us -> fresh H U (op_key o)) /\
  exists lost' ms' m' w', explains false [] [[]] [] evs ms' /\ roots = map (kv_root H) ms' /\ oinv U lost' ([] :: ms') m' w' t /\
    (forall mj m0, In mj ([] :: ms') -> In m0 (possible mj us) -> NoDup (keys m0) -> good H U (digests H m0)) /\
    (forall o e, In (Called o (Err e)) evs -> call_error e) /\ (forall j e, In (Opened j (Err e)) evs -> open_error e).
Proof.
  intros us s0 evs roots t Em R Ok0 U. destruct (setup H _ _ Ok0) as (HC & HZ & Fr & Gd). fold U in HC, HZ, Fr, Gd.
  split; [exact HC|]. split; [exact HZ|]. split.
  { intros o Io. apply Fr, in_map, in_or_app. right. exact Io. }
  destruct (winv_new H view U s0 Em) as (W & _ & _).
  assert (O0 : oinv U false [[]] [] [] (sp_new s0)).
  { destruct W as [N C Has Un]. constructor; [left; reflexivity|constructor; auto| |].
    - intros mj [<-|[]]. constructor.
    - intros _ mj k [<-|[]] []. }
  destruct (open_runs U HC HZ us _ _ _ _ _ R false [[]] [] [] ltac:(rewrite <- (nd_nil H [] (digests H []) eq_refl); reflexivity) O0) as (l' & ms' & m' & w' & Ex & Q & O' & G' & E1 & E2).
  - intros o Io. apply Fr, in_map, in_or_app. left. exact Io.
  - intros mj m0 I I0. assert (mj = []) as -> by (destruct I as [<-|[<-|[]]]; reflexivity). apply Gd. exact I0.
  - exists l', ms', m', w'. split; [exact Ex|]. split; [exact Q|]. split; [exact O'|]. split; [|split; assumption].
    intros mj m0 [<-|I]; apply G'; [left; reflexivity|right; right; exact I].
Qed.

Theorem C104_lemma : forall s0 evs roots t, (forall k, view s0 k = None) -> open_run H pr st view [snode_placeholder] (sp_new s0) evs roots t ->
  hash_ok H (map op_key (calls_of evs)) (possible [] (calls_of evs)) ->
  (exists ms, explains false [] [[]] [] evs ms /\ roots = map (kv_root H) ms /\
     forall m k v, In m ms -> In (k, v) m -> In (Called (Update k v) (Ok tt)) evs) /\
  (forall o e, In (Called o (Err e)) evs -> (storage_error e /\ ~ Infallible st) \/ exists h, e = SChildErr (ChildNotFound h)) /\
  (forall j e, In (Opened j (Err e)) evs -> (exists e', e = SStorageError e' /\ ~ Infallible st) \/ exists r, e = SLoadError (hex_encode (b32 r))).
Proof.
  intros s0 evs roots t Em R Ok0. rewrite <- (app_nil_r (calls_of evs)) in Ok0.
  destruct (open_all [] s0 evs roots t Em R Ok0) as (_ & _ & _ & l' & ms' & m' & w' & Ex & Q & _ & _ & E1 & E2).
  split; [|split; assumption]. exists ms'. split; [exact Ex|]. split; [exact Q|]. intros m k v Im I.
  destruct (explained_entries _ _ _ _ _ _ Ex m k v Im I) as [(m0 & [<-|[<-|[]]] & [])|X]. exact X.
Qed.

Theorem C104_next_lemma : forall s0 evs roots t, (forall k, view s0 k = None) -> open_run H pr st view [snode_placeholder] (sp_new s0) evs roots t ->
  (forall o, hash_ok H (map op_key (calls_of evs ++ [o])) (possible [] (calls_of evs ++ [o])) ->
     exists t' r, sp_apply H pr st o t = (t', Val r) /\
       (r = Ok tt \/ (exists e, r = Err e /\ storage_error e /\ ~ Infallible st) \/
        exists h, r = Err (SChildErr (ChildNotFound h)) /\ V t h = None)) /\
  (forall root, hash_ok H (map op_key (calls_of evs)) (possible [] (calls_of evs)) -> In root roots -> root <> zero32 ->
     exists s' r, sp_load st root (sp_storage t) = (s', Val r) /\
       ((exists t1, r = Ok t1 /\ sp_root H t1 = root) \/ (exists e, r = Err (SStorageError e) /\ ~ Infallible st) \/
        (r = Err (SLoadError (hex_encode (b32 root))) /\ V t root = None))).
Proof.
  intros s0 evs roots t Em R. split.
  - intros o Ok0. destruct (open_all [o] s0 evs roots t Em R Ok0) as (HC & HZ & Fr & l' & ms' & m' & w' & Ex & Q & O' & G' & E1 & E2).
    destruct (call_step _ HC HZ o l' _ m' w' t O') as (t' & r & m1 & A & _ & _ & _ & Er).
    + apply Fr. left. reflexivity.
    + apply (G' m'); [apply O'| |apply aim_nodup; exact (oi_nodup _ _ _ _ _ _ O' m' (oi_in _ _ _ _ _ _ O'))].
      apply (possible_step m' o _ (aim m' o)); [right; reflexivity|apply possible_self].
    + exists t', r. split; [exact A|]. destruct Er as [->|(e & -> & [Er|(p & -> & Lp)])]; [left; reflexivity|right; left; eauto|].
      right. right. eexists. split; [reflexivity|]. apply Lp.
  - intros root Ok0 Ir Nz. rewrite <- (app_nil_r (calls_of evs)) in Ok0.
    destruct (open_all [] s0 evs roots t Em R Ok0) as (HC & HZ & Fr & l' & ms' & m' & w' & Ex & -> & O' & G' & E1 & E2).
    apply in_map_iff in Ir. destruct Ir as (mj & <- & Ij).
    assert (Ij' : In mj ([] :: ms')) by (right; exact Ij). pose proof (oi_nodup _ _ _ _ _ _ O' mj Ij') as Nj.
    destruct (open_step _ m' w' t mj (oi_linv _ _ _ _ _ _ O') Nj) as (s' & r & A & _ & Cs); [|exact Nz|].
    { apply (G' mj); [exact Ij'|apply possible_self|exact Nj]. }
    exists s', r. split; [exact A|]. destruct Cs as [(t1 & -> & L1 & _)|Cs]; [left|right; exact Cs].
    exists t1. split; [reflexivity|]. apply (core_kv_root H view _ HZ), L1.
Qed.
End Open.
