(** HistoryProofs.v -- what holds of a sparse tree after any history, stale deletes included. *)
From Verif Require Import Base Storage ModelCommon ModelSparse SpecBits SpecBinary SpecSparse SpecAnyRun SpecDisk RunsSparse StorageProofs
  BindingProofs BitsProofs CommonProofs SparseSpecFacts SparseNodes SparseProofs SparseOps SparseSteps SparseMain SparseTheorems SparseAnyRun SparseSim SparseDisk.
From Coq Require Import Arith ZifyBool ZifyNat ZifyN.
Ltac Zify.zify_post_hook ::= Z.div_mod_to_equations.
Arguments Nat.mul : simpl never.
Arguments Z.of_nat : simpl never.

Section History.
Variable H : list byte -> bytes32.

(** * The replay *)
Lemma replay_app : forall os os', replay H (os ++ os') = fold_left (replay_op H) os' (replay H os).
Proof. intros os os'. apply fold_left_app. Qed.
Lemma trail_app : forall os os' x m, In m (trail H x (os ++ os')) <->
  In m (trail H x os) \/ In m (trail H (fold_left (replay_op H) os x) os').
Proof.
  induction os as [|o os IH]; intros os' x m; cbn [app trail fold_left].
  - split; [auto|]. intros [[<-|[]]|Q]; [destruct os'; left; reflexivity|exact Q].
  - cbn [In]. rewrite IH. tauto.
Qed.
Lemma trail_last : forall os x, In (fst (fold_left (replay_op H) os x)) (trail H x os).
Proof. induction os as [|o os IH]; intros x; [left; reflexivity|right; apply IH]. Qed.
Lemma trail_nodup : forall os x m, NoDup (keys (fst x)) -> In m (trail H x os) -> NoDup (keys m).
Proof.
  induction os as [|o os IH]; intros x m N; cbn [trail In].
  - intros [<-|[]]. exact N.
  - intros [<-|Q]; [exact N|]. apply (IH (replay_op H x o) m); [apply replay_nodup; exact N|exact Q].
Qed.
Lemma replay_update : forall k v x, v <> [] -> fst (replay_op H x (Update k v)) = mset k v (fst x).
Proof. intros k [|b v] [m d] N; [congruence|reflexivity]. Qed.
Lemma put_path_keeps : forall p d k, d k <> None -> put_path p d k <> None.
Proof.
  induction p as [|[h [e|]] p IH]; intros d k N; cbn [put_path fold_left fst snd]; [exact N| |apply IH; exact N].
  apply IH. unfold put. destruct (b32_eqb k h); [discriminate|exact N].
Qed.
Lemma replay_update_key : forall k v x, v <> [] -> snd (replay_op H x (Update k v)) k <> None.
Proof.
  intros k [|b v] [m d] N; [congruence|]. cbn [replay_op snd]. apply put_path_keeps. unfold put. rewrite b32_eqb_refl. discriminate.
Qed.
Lemma wr_idem : forall L v v' k, (exists o, In (k, o) L) -> wr L v k = wr L v' k.
Proof.
  induction L as [|[h o] L IH]; intros v v' k [o' I]; [destruct I|]. change (wr L (wr1 v (h, o)) k = wr L (wr1 v' (h, o)) k).
  destruct (wr_cases L (wr1 v (h, o)) k) as [(o2 & I2 & _)|[N2 E2]]; [apply IH; eauto|].
  destruct (wr_cases L (wr1 v' (h, o)) k) as [(o3 & I3 & _)|[_ E3]]; [destruct (N2 _ I3)|]. rewrite E2, E3.
  destruct I as [Q|I]; [|destruct (N2 _ I)]. injection Q as -> ->. unfold wr1. cbn [fst snd]. rewrite b32_eqb_refl. reflexivity.
Qed.
Lemma replay_twice : forall k v x h, v <> [] ->
  fst (replay_op H (replay_op H x (Update k v)) (Update k v)) = fst (replay_op H x (Update k v)) /\
  snd (replay_op H (replay_op H x (Update k v)) (Update k v)) h = snd (replay_op H x (Update k v)) h.
Proof.
  intros k [|b v] [m d] h N; [congruence|]. cbn [replay_op fst snd]. rewrite mset_mset. split; [reflexivity|].
  generalize (path_in H k (mset k (b :: v) m)), (0, x00, k, H (b :: v)). intros p e.
  rewrite !put_path_wr. change (put (wr (some_writes p) (put d k e)) k e) with (wr1 (wr (some_writes p) (put d k e)) (k, Some e)).
  change (put d k e) with (wr1 d (k, Some e)).
  change (wr ((k, Some e) :: some_writes p) (wr ((k, Some e) :: some_writes p) d) h = wr ((k, Some e) :: some_writes p) d h).
  destruct (wr_cases ((k, Some e) :: some_writes p) (wr ((k, Some e) :: some_writes p) d) h) as [(o & I & _)|[_ ->]]; [|reflexivity].
  apply wr_idem. eauto.
Qed.

(** An update with empty data is a delete. *)
Definition norm (o : sp_op) : sp_op := match o with Update k [] => Delete k | _ => o end.
Lemma replay_norm : forall os x, fold_left (replay_op H) (map norm os) x = fold_left (replay_op H) os x /\
  trail H x (map norm os) = trail H x os.
Proof.
  induction os as [|o os IH]; intros x; [auto|]. cbn [map fold_left trail].
  assert (Q : replay_op H x (norm o) = replay_op H x o) by (destruct x as [m d], o as [k [|b v]|k]; reflexivity).
  rewrite Q. destruct (IH (replay_op H x o)) as [-> ->]. auto.
Qed.
Lemma origin : forall os h e, snd (replay H os) h = Some e ->
  In h (written os) \/ exists m k, In m (trail H nothing os) /\ In (h, Some e) (path_in H k m).
Proof.
  intros os h e Q. unfold replay in Q. destruct (replay_norm os nothing) as [Q1 Q2]. rewrite <- Q1 in Q.
  destruct (replay_origin H _ _ _ _ Q) as [X|[(v & I & _)|(m & k & I & J)]]; [discriminate X| |].
  - left. apply in_map_iff in I. destruct I as (o & Eo & Io). unfold written. apply in_concat. exists (op_writes o).
    split; [apply in_map; exact Io|]. destruct o as [k [|b w]|k]; try discriminate Eo. injection Eo as -> _. left. reflexivity.
  - right. exists m, k. rewrite <- Q2. auto.
Qed.

Variable pr : profile.
Context {St E : Type}.
Variable st : StorageT St bytes32 SPrimitive E.
Variable view : St -> bytes32 -> option SPrimitive.
Hypothesis Law : Lawful st view.
Notation V t := (view (sp_storage t)).

(** * Any history *)
Lemma reach : forall ks ms os s0, hash_ok H ks ms -> (forall k, In k (map op_key os) -> In k ks) ->
  (forall m, In m (trail H nothing os) -> In m ms) -> (forall k, view s0 k = None) ->
  exists t r, sp_run H pr st os (sp_new s0) = (t, Val r) /\
    ((r = Ok tt /\ dinv H view (universe H ms) anyk (replay H os) t) \/ (exists e, r = Err e /\ storage_error e /\ ~ Infallible st)).
Proof.
  intros ks ms os s0 Ok0 Ik Im Em. destruct (setup H _ _ Ok0) as (HC & HZ & Fr & Gd). set (U := universe H _) in *.
  destruct (winv_new H view U s0 Em) as (W & S0 & _).
  assert (W0 : dinv H view U anyk nothing (sp_new s0)) by (constructor; cbn [fst snd nothing]; auto; apply W).
  destruct (disk_run H pr st view Law U anyk HC HZ os nothing (sp_new s0) W0) as (t & r & A & R); auto.
  - intros o _. exact Logic.I.
  - intros o Io. apply Fr, Ik. apply in_map. exact Io.
  - exists t, r. split; [exact A|exact R].
Qed.
Lemma reach_ok : forall ks ms os s0 t, hash_ok H ks ms -> (forall k, In k (map op_key os) -> In k ks) ->
  (forall m, In m (trail H nothing os) -> In m ms) -> (forall k, view s0 k = None) ->
  sp_run H pr st os (sp_new s0) = (t, Val (Ok tt)) -> dinv H view (universe H ms) anyk (replay H os) t.
Proof.
  intros ks ms os s0 t Ok0 Ik Im Em R. destruct (reach ks ms os s0 Ok0 Ik Im Em) as (t1 & r1 & R1 & C).
  rewrite R in R1. injection R1 as <- <-. destruct C as [(_ & C)|(e & Q & _)]; [exact C|discriminate].
Qed.

Theorem C32_any_lemma : Infallible st -> forall os s0 k v1 v2, (forall k, view s0 k = None) -> v1 <> [] -> v2 <> [] ->
  hash_ok H (k :: map op_key os) (trail H nothing (os ++ [Update k v1; Update k v2])) ->
  exists t t', sp_run H pr st (os ++ [Update k v1; Update k v2]) (sp_new s0) = (t, Val (Ok tt)) /\
    sp_run H pr st (os ++ [Update k v2]) (sp_new s0) = (t', Val (Ok tt)) /\ sp_root H t = sp_root H t'.
Proof.
  intros Inf os s0 k v1 v2 Em N1 N2 Ok0.
  assert (Eq : fst (replay H (os ++ [Update k v1; Update k v2])) = fst (replay H (os ++ [Update k v2]))).
  { rewrite !replay_app. cbn [fold_left]. rewrite !replay_update by assumption. apply mset_mset. }
  destruct (C89_lemma H pr st view Law (os ++ [Update k v1; Update k v2]) s0 Em) as (t & r & R & [(-> & Q & _)|(e & _ & _ & F)]); [| |contradiction].
  { revert Ok0. apply hash_ok_incl; auto. intros k'. rewrite map_app, in_app_iff. cbn. tauto. }
  destruct (C89_lemma H pr st view Law (os ++ [Update k v2]) s0 Em) as (t' & r' & R' & [(-> & Q' & _)|(e & _ & _ & F)]); [| |contradiction].
  { revert Ok0. apply hash_ok_incl.
    - intros k'. rewrite map_app, in_app_iff. cbn. tauto.
    - intros m. rewrite !trail_app. fold (replay H os). intros [I|[<-|[<-|[]]]]; [auto|right; left; reflexivity|].
      right. rewrite replay_app in Eq. cbn [fold_left trail In] in *. rewrite <- (replay_app os [Update k v2]) in Eq || idtac.
      right. right. left. rewrite !replay_update by assumption. apply mset_mset. }
  exists t, t'. split; [exact R|]. split; [exact R'|]. congruence.
Qed.

Theorem C32_repeat_any_lemma : Infallible st -> forall os s0 k v, (forall k, view s0 k = None) -> v <> [] ->
  hash_ok H (k :: map op_key os) (trail H nothing (os ++ [Update k v])) ->
  exists t t', sp_run H pr st (os ++ [Update k v]) (sp_new s0) = (t, Val (Ok tt)) /\
    sp_update H pr st k v t = (t', Val (Ok tt)) /\ sp_root H t' = sp_root H t /\ forall k', V t' k' = V t k'.
Proof.
  intros Inf os s0 k v Em Nv Ok0. destruct (setup H _ _ Ok0) as (HC & HZ & Fr & Gd).
  destruct (reach _ _ (os ++ [Update k v]) s0 Ok0) as (t & r & R & [(-> & D)|(e & _ & _ & F)]); auto; [| |contradiction].
  { intros k'. rewrite map_app, in_app_iff. cbn. tauto. }
  set (U := universe H _) in *.
  rewrite replay_app in D. cbn [fold_left] in D. set (x := replay H os) in *.
  assert (Tw1 : fst (replay_op H (replay_op H x (Update k v)) (Update k v)) = fst (replay_op H x (Update k v))) by (apply (replay_twice k v x zero32 Nv)).
  destruct (disk_step H pr st view Law U anyk HC HZ (Update k v) _ t D Logic.I) as (t' & r' & R' & [(-> & D')|(e & _ & _ & F)]); [| | |contradiction].
  - apply Fr. left. reflexivity.
  - rewrite Tw1. apply D.
  - exists t, t'. split; [exact R|]. split; [exact R'|]. split.
    + rewrite (core_kv_root H view U HZ _ _ (di_core _ _ _ _ _ _ D')), (core_kv_root H view U HZ _ _ (di_core _ _ _ _ _ _ D)). congruence.
    + intros k'. rewrite (di_exact _ _ _ _ _ _ D'), (di_exact _ _ _ _ _ _ D). apply (replay_twice k v x k' Nv).
Qed.

Theorem C33_any_lemma : Infallible st -> forall os s0 k v, (forall k, view s0 k = None) -> v <> [] ->
  ~ In k (keys (fst (replay H os))) -> hash_ok H (k :: map op_key os) (trail H nothing (os ++ [Update k v])) ->
  exists t t', sp_run H pr st os (sp_new s0) = (t, Val (Ok tt)) /\
    sp_run H pr st (os ++ [Update k v; Delete k]) (sp_new s0) = (t', Val (Ok tt)) /\ sp_root H t' = sp_root H t.
Proof.
  intros Inf os s0 k v Em Nv Nk Ok0.
  assert (N : NoDup (keys (fst (replay H os)))) by (eapply trail_nodup; [|apply (trail_last os nothing)]; constructor).
  assert (Eq : fst (replay H (os ++ [Update k v; Delete k])) = fst (replay H os)).
  { rewrite replay_app. cbn [fold_left]. set (x := replay H os) in *.
    pose proof (replay_update k v x Nv) as Q1. pose proof (replay_update_key k v x Nv) as Q2.
    destruct (replay_op H x (Update k v)) as [m d]. cbn [fst snd] in Q1, Q2. subst m. cbn [replay_op].
    destruct (d k) as [e|]; [|congruence]. unfold mset. cbn [fst]. fold (mset k v (fst x)).
    unfold without_landing. rewrite (landing_present H) by (auto using mset_nodup; left; reflexivity).
    rewrite mdel_mset. apply mdel_notin. exact Nk. }
  destruct (C89_lemma H pr st view Law os s0 Em) as (t & r & R & [(-> & Q & _)|(e & _ & _ & F)]); [| |contradiction].
  { revert Ok0. apply hash_ok_incl; [intros k'; cbn; tauto|]. intros m I. apply trail_app. auto. }
  destruct (C89_lemma H pr st view Law (os ++ [Update k v; Delete k]) s0 Em) as (t' & r' & R' & [(-> & Q' & _)|(e & _ & _ & F)]); [| |contradiction].
  { revert Ok0. apply hash_ok_incl.
    - intros k'. rewrite map_app, in_app_iff. cbn. tauto.
    - intros m. rewrite !trail_app. fold (replay H os). cbn [trail In].
      intros [I|[I|[I|[<-|[]]]]]; auto. right. left. rewrite replay_app in Eq. cbn [fold_left] in Eq. congruence. }
  exists t, t'. split; [exact R|]. split; [exact R'|]. congruence.
Qed.

Lemma unwritten_empty : forall ks ms os k, hash_ok H ks ms -> In k ks -> (forall m, In m (trail H nothing os) -> In m ms) ->
  ~ In k (written os) -> snd (replay H os) k = None.
Proof.
  intros ks ms os k Ok0 Ik Im Nk. destruct (setup H _ _ Ok0) as (HC & HZ & Fr & Gd). set (U := universe H _) in *.
  destruct (snd (replay H os) k) as [e|] eqn:Q; [exfalso|reflexivity].
  destruct (origin os k e Q) as [X|(m & k' & I & J)]; [contradiction|].
  assert (N : NoDup (keys m)) by (eapply trail_nodup; [|exact I]; constructor).
  pose proof (Gd m (Im m I) N) as G.
  destruct (lands_exists k' (digests H m)) as [D La]; [rewrite keys_digests; exact N|].
  rewrite (path_met H k' m D N La) in J. apply in_map_iff in J. destruct J as (j & Ej & _). unfold met in Ej.
  destruct (sub (P k' j) (digests H m)) eqn:Es; [discriminate Ej|]. injection Ej as Ej _.
  apply (fresh_not_T H U k (digests H m) (P k' j)); auto. rewrite Es. discriminate.
Qed.

Theorem C35_any_lemma : forall os s0 k t, (forall k, view s0 k = None) -> ~ In k (written os) ->
  hash_ok H (k :: map op_key os) (trail H nothing os) -> sp_run H pr st os (sp_new s0) = (t, Val (Ok tt)) ->
  exists t' r, sp_delete H pr st k t = (t', Val r) /\ sp_root H t' = sp_root H t /\ (forall k', V t' k' = V t k') /\
    (r = Ok tt \/ (exists e, r = Err (SStorageError e)) /\ ~ Infallible st).
Proof.
  intros os s0 k t Em Nk Ok0 R.
  pose proof (reach_ok _ _ os s0 t Ok0 (fun k Ik => or_intror Ik) (fun m Im => Im) Em R) as D.
  destruct (delete_none H pr st view Law k t) as (t' & r & Q & Rt & Vs & C).
  - rewrite (di_exact _ _ _ _ _ _ D). apply (unwritten_empty _ _ os k Ok0); auto. left. reflexivity.
  - exists t', r. split; [exact Q|]. split; [unfold sp_root; rewrite Rt; reflexivity|]. split; [exact Vs|].
    destruct C as [->|(e & -> & F)]; [left; reflexivity|right]. split; [eauto|exact F].
Qed.

Theorem C37_any_lemma : Infallible st -> forall os s0 t, (forall k, view s0 k = None) -> fst (replay H os) <> [] ->
  hash_ok H (map op_key os) (trail H nothing os) -> sp_run H pr st os (sp_new s0) = (t, Val (Ok tt)) ->
  exists s' t2, sp_load st (sp_root H t) (sp_storage t) = (s', Val (Ok t2)) /\ sp_root H t2 = sp_root H t /\
    forall us, exists t' t2' o, sp_run_all H pr st us t = (t', o) /\ sp_run_all H pr st us t2 = (t2', o) /\
      sp_root H t' = sp_root H t2' /\ forall k, V t' k = V t2' k.
Proof.
  intros Inf os s0 t Em NE Ok0 R. destruct (setup H _ _ Ok0) as (HC & HZ & Fr & Gd).
  pose proof (reach_ok _ _ os s0 t Ok0 (fun k Ik => Ik) (fun m Im => Im) Em R) as D. set (U := universe H _) in *.
  pose proof (di_core _ _ _ _ _ _ D) as C. rewrite (core_kv_root H view U HZ _ _ C).
  destruct (load_stored H st view Law U HC HZ Inf (fst (replay H os)) t NE (core_good _ _ _ _ _ _ C) (core_sound _ _ _ _ _ _ C) (core_users _ _ _ _ _ _ C) (di_stored _ _ _ _ _ _ D))
    as (s' & t2 & L & Es & Vs & C2 & _).
  exists s', t2. split; [exact L|]. split; [exact (core_kv_root H view U HZ _ _ C2)|].
  assert (Rn : sp_root_node t2 = sp_root_node t) by (rewrite (core_root _ _ _ _ _ _ C2), (core_root _ _ _ _ _ _ C); reflexivity).
  intros us. destruct t as [n s], t2 as [n2 s2]. cbn [sp_root_node sp_storage] in *. subst n2.
  apply (same_behaviour H pr _ _ _ st st view view Law Law Inf Inf). intros k. rewrite Es. symmetry. apply Vs.
Qed.

Theorem C38_any_lemma : Infallible st -> forall os us1 us2 us3 s0, (forall k, view s0 k = None) ->
  (forall o, In o (us1 ++ us2 ++ us3) -> is_update o) ->
  let m := fst (replay H os) in let m1 := fold_left apply_op us1 m in m1 <> [] ->
  hash_ok H (map op_key (os ++ us1 ++ us2 ++ us3)) (trail H nothing os ++ maps m (us1 ++ us2) ++ maps m1 us3) ->
  exists t t1 t2 s' t3 t4,
    sp_run H pr st os (sp_new s0) = (t, Val (Ok tt)) /\
    sp_run H pr st us1 t = (t1, Val (Ok tt)) /\ sp_run H pr st us2 t1 = (t2, Val (Ok tt)) /\
    sp_load st (sp_root H t1) (sp_storage t2) = (s', Val (Ok t3)) /\ sp_root H t3 = sp_root H t1 /\
    sp_run H pr st us3 t3 = (t4, Val (Ok tt)) /\ sp_root H t4 = kv_root H (fold_left apply_op us3 m1).
Proof.
  intros Inf os us1 us2 us3 s0 Em Up m m1 NE Ok0. destruct (setup H _ _ Ok0) as (HC & HZ & Fr & Gd).
  destruct (reach _ _ os s0 Ok0) as (t & r & R & [(-> & D)|(e & _ & _ & F)]); auto; [| | |contradiction].
  { intros k. rewrite map_app, in_app_iff. tauto. }
  { intros m0. rewrite in_app_iff. tauto. }
  set (U := universe H _) in *. pose proof (di_core _ _ _ _ _ _ D) as C. pose proof (di_nodup _ _ _ _ _ _ D) as N. fold m in C, N.
  assert (N1 : NoDup (keys m1)) by (apply fold_nodup; exact N).
  destruct (update_run H pr st view Law U HC HZ us1 _ t C (di_stored _ _ _ _ _ _ D)) as (t1 & R1 & C1 & S1 & K1); auto.
  { intros o Io. split; [apply Up; rewrite !in_app_iff; tauto|]. apply Fr. apply in_map. rewrite !in_app_iff. tauto. }
  { intros m0 Im. apply Gd. rewrite !in_app_iff, maps_app. tauto. }
  fold m1 in C1, S1. pose proof (core_good _ _ _ _ _ _ C1) as G1.
  destruct (update_run H pr st view Law U HC HZ us2 _ t1 C1 S1) as (t2 & R2 & C2 & S2 & K2); auto.
  { intros o Io. split; [apply Up; rewrite !in_app_iff; tauto|]. apply Fr. apply in_map. rewrite !in_app_iff. tauto. }
  { intros m0 Im. apply Gd. rewrite !in_app_iff, maps_app. tauto. }
  destruct (load_stored H st view Law U HC HZ Inf m1 t2 NE G1 (core_sound _ _ _ _ _ _ C2) (core_users _ _ _ _ _ _ C2) (K2 _ G1 S1))
    as (s' & t3 & L3 & Es & _ & C3 & S3).
  destruct (update_run H pr st view Law U HC HZ us3 _ t3 C3 S3) as (t4 & R4 & C4 & _ & _); auto.
  { intros o Io. split; [apply Up; rewrite !in_app_iff; tauto|]. apply Fr. apply in_map. rewrite !in_app_iff. tauto. }
  { intros m0 Im. apply Gd. rewrite !in_app_iff. tauto. }
  exists t, t1, t2, s', t3, t4. rewrite (core_kv_root H view U HZ _ _ C1). split; [exact R|]. split; [exact R1|]. split; [exact R2|].
  split; [exact L3|]. split; [exact (core_kv_root H view U HZ _ _ C3)|]. split; [exact R4|]. exact (core_kv_root H view U HZ _ _ C4).
Qed.

(** Updates some of which fail. *)
Lemma updates_all : forall U, ~ has_collision H U -> (forall x, In x U -> H x <> zero32) ->
  forall us m t, core H U anyk view (digests H m) t -> stored H (digests H m) (V t) -> NoDup (keys m) ->
  (forall o, In o us -> is_update o /\ fresh H U (op_key o)) ->
  (forall m0, In m0 (outcomes m us) -> NoDup (keys m0) -> good H U (digests H m0)) ->
  exists t' rs, sp_run_all H pr st us t = (t', Val rs) /\ core H U anyk view (digests H (achieved m (flags us rs))) t' /\
    forall e, In (Err e) rs -> storage_error e /\ ~ Infallible st.
Proof.
  intros U HC HZ. induction us as [|o us IH]; intros m t C Sm N Up Gm.
  { exists t, []. split; [reflexivity|]. split; [exact C|intros e []]. }
  destruct (Up o (or_introl eq_refl)) as [Uo Fo].
  assert (G : good H U (digests H (apply_op m o))).
  { apply Gm; [|apply apply_nodup; exact N]. cbn [outcomes]. right. apply in_or_app. right. apply outcomes_here. }
  destruct o as [k [|b v]|k]; try contradiction Uo. cbn [op_key apply_op] in Fo, G. rewrite digests_mset in G.
  destruct (update_step H U anyk HC HZ pr st view Law k (b :: v) (digests H m) t ltac:(discriminate) C G Logic.I Fo) as (t1 & r1 & A1 & R & _ & _ & Keep).
  cbn [sp_run_all sp_apply]. unfold bind. rewrite A1.
  destruct R as [(-> & C1 & _ & S1)|(e & -> & C1 & Er)].
  - rewrite <- digests_mset in C1, S1.
    destruct (IH (mset k (b :: v) m) t1 C1 (S1 Sm)) as (t' & rs & R' & C' & E').
    + apply mset_nodup. exact N.
    + intros o Io. apply Up. right. exact Io.
    + intros m0 Im. apply Gm. cbn [outcomes]. right. apply in_or_app. right. exact Im.
    + rewrite R'. eexists _, _. split; [reflexivity|]. split; [exact C'|]. intros e [Q|I]; [discriminate Q|auto].
  - destruct Er as [Er|X]; [|exfalso; exact (stored_not_missing H _ _ _ Sm X)].
    destruct (IH m t1 C1 (Keep _ (core_good _ _ _ _ _ _ C) Sm)) as (t' & rs & R' & C' & E'); auto.
    + intros o Io. apply Up. right. exact Io.
    + intros m0 Im. apply Gm. cbn [outcomes]. right. apply in_or_app. left. exact Im.
    + rewrite R'. eexists _, _. split; [reflexivity|]. split; [exact C'|]. intros e' [Q|I]; [injection Q as <-; exact Er|auto].
Qed.

Theorem C41_any_lemma : forall os us s0 t, (forall k, view s0 k = None) -> (forall o, In o us -> is_update o) ->
  hash_ok H (map op_key (os ++ us)) (trail H nothing os ++ outcomes (fst (replay H os)) us) ->
  sp_run H pr st os (sp_new s0) = (t, Val (Ok tt)) ->
  exists t' rs, sp_run_all H pr st us t = (t', Val rs) /\
    sp_root H t' = kv_root H (achieved (fst (replay H os)) (flags us rs)) /\
    forall e, In (Err e) rs -> storage_error e /\ ~ Infallible st.
Proof.
  intros os us s0 t Em Up Ok0 R. destruct (setup H _ _ Ok0) as (HC & HZ & Fr & Gd).
  assert (D : dinv H view (universe H (trail H nothing os ++ outcomes (fst (replay H os)) us)) anyk (replay H os) t).
  { apply (reach_ok _ _ os s0 t Ok0); auto; [intros k; rewrite map_app, in_app_iff; tauto|intros m; rewrite in_app_iff; tauto]. }
  set (U := universe H _) in *.
  destruct (updates_all U HC HZ us (fst (replay H os)) t) as (t' & rs & Ra & C' & Er); try apply D.
  - intros o Io. split; [auto|]. apply Fr. apply in_map. apply in_or_app. auto.
  - intros m Im. apply Gd. apply in_or_app. auto.
  - exists t', rs. split; [exact Ra|]. split; [exact (core_kv_root H view U HZ _ _ C')|exact Er].
Qed.

Theorem C49_any_lemma : Infallible st -> forall os s0 t s k v, (forall k, view s0 k = None) ->
  sp_run H pr st os (sp_new s0) = (t, Val (Ok tt)) -> v <> [] ->
  hash_ok H (k :: map op_key os) (trail H nothing (os ++ [Update k v])) ->
  (forall k', view s k' = V t k' \/ view s k' = None) ->
  let m := fst (replay H os) in
  exists t' r, sp_update H pr st k v (Build_SpTree (sp_root_node t) s) = (t', Val r) /\
  ((r = Ok tt /\ sp_root H t' = kv_root H (mset k v m) /\
    forall h, near_path H k (digests H m) h -> h <> H (smt_leaf_input k (H v)) -> view s h <> None) \/
   (exists h, r = Err (SChildErr (ChildNotFound h)) /\ view s h = None /\ near_path H k (digests H m) h /\ sp_root H t' = sp_root H t)).
Proof.
  intros Inf os s0 t s k v Em R NV Ok0 Ls m. destruct (setup H _ _ Ok0) as (HC & HZ & Fr & Gd).
  pose proof (reach_ok _ _ os s0 t Ok0 (fun k Ik => or_intror Ik)) as D.
  specialize (D ltac:(intros m0; rewrite trail_app; tauto) Em R). set (U := universe H _) in *.
  assert (Fk : fresh H U k) by (apply Fr; left; reflexivity).
  destruct D as [N [Rn So G Us] _ _]. fold m in N, Rn, G.
  assert (G' : good H U (mset k (H v) (digests H m))).
  { rewrite <- digests_mset. apply Gd; [|apply mset_nodup; exact N]. rewrite trail_app. right. right. left. apply replay_update. exact NV. }
  destruct (lands_exists k (digests H m)) as [D La]; [apply G|].
  assert (So' : sound H U (view s)).
  { intros m0 p G0 NE. destruct (Ls (T H p m0)) as [->| ->]; [apply So; auto|right; reflexivity]. }
  destruct (update_ok H U HC HZ pr st view Law k v (digests H m) (Build_SpTree (sp_root_node t) s) D NV G G' Fk So' Rn La)
    as (t' & r & L & Ru & VL & WL & C).
  cbn [sp_storage sp_root_node] in *. exists t', r. split; [exact Ru|].
  assert (LH : snode_hash H (leafn k (H v)) = H (smt_leaf_input k (H v))).
  { apply leafn_hash. apply (good_digest H U _ G' k (H v)). left. reflexivity. }
  destruct C as [(-> & Rt & _ & Av)|(e & -> & Rt & Er)].
  - left. split; [reflexivity|]. split.
    + unfold sp_root. rewrite Rt, (nd_hash H U HZ) by exact G'. rewrite <- digests_mset. apply T_kv.
    + intros h Np Nl. destruct (near_path_sub H k _ h Np) as (d & Ld & L2 & p & Pp & NE & ->).
      assert (Dd : (d < D)%nat).
      { destruct (Nat.lt_ge_cases d D) as [A|A]; auto. exfalso. destruct La as (_ & _ & LE).
        pose proof (sub_P_le k D d (digests H m) A). lia. }
      destruct (Av d Dd) as [A1 A2]. assert (A : avail H p (digests H m) (wr [leaf_w H k (H v); user_w k (H v)] (view s))) by (destruct Pp as [-> | ->]; assumption).
      destruct A as [A|A]; [congruence|].
      destruct (wr_cases [leaf_w H k (H v); user_w k (H v)] (view s) (T H p (digests H m))) as [(o & Io & Eo)|[_ Q]].
      * exfalso. destruct Io as [Io|[Io|[]]].
        -- unfold leaf_w in Io. injection Io as Io _. apply Nl. rewrite <- Io. exact LH.
        -- unfold user_w in Io. injection Io as Io _. apply (fresh_not_T H U k (digests H m) p Fk G NE). congruence.
      * rewrite Q in A. rewrite A. discriminate.
  - right. destruct Er as [[_ F]|[(p & -> & [NE Lp] & j & Lj & Pp)|[_ F]]]; [contradiction| |contradiction].
    exists (T H p (digests H m)). split; [reflexivity|]. split.
    + match type of Lp with wr ?l ?v ?x = None => destruct (wr_cases l v x) as [(o & Io & Eo)|[_ Q]] end; [|rewrite <- Q; exact Lp].
      exfalso. rewrite Eo in Lp. subst o. destruct Io as [Q|[Q|[]]]; discriminate Q.
    + split; [|unfold sp_root; rewrite Rt; reflexivity].
      destruct La as (LD & LA & _). specialize (LA j Lj). assert (Lj' : (j < KB)%nat) by lia.
      assert (Pp' : exists b, p = P k j ++ [b]) by (destruct Pp as [->| ->]; [rewrite P_S by lia|unfold sd]; eauto).
      destruct Pp' as [b ->]. exists j, b. split; [rewrite KB_eq in Lj'; lia|]. rewrite !agree_sub by lia. split; [exact LA|].
      pose proof (sub_snoc (P k j) b (digests H m) ltac:(rewrite P_length; lia)) as Sn. rewrite P_length in Sn by lia. rewrite Sn.
      split; [exact NE|]. unfold T. rewrite app_length, P_length by lia. cbn [length]. rewrite Nat.add_1_r.
      replace (KB - S j)%nat with (256 - S j)%nat by (rewrite KB_eq; reflexivity). reflexivity.
Qed.
End History.
