(** StartSparse.v -- starting over on the storage of tries that were given up: sparse trees. *)
From Verif Require Import Base Storage ModelCommon ModelSparse SpecBits SpecBinary SpecSparse SpecAnyRun SpecDisk SpecSync RunsSparse RunsSync RunsStart
  StorageProofs BindingProofs BitsProofs PositionProofs CommonProofs SparseSpecFacts SparseNodes SparseProofs SparseOps SparseSteps SparseMain
  SparseTheorems SparseAnyRun SparseDisk SyncProofs SharedProofs.
From Coq Require Import Arith ZifyBool ZifyNat ZifyN.
Arguments Nat.mul : simpl never.
Arguments Z.of_nat : simpl never.

Section Start.
Variable H : list byte -> bytes32.

(** * The nodes after a change of one entry *)
Lemma mdel_with : forall {V} k d b (l : list (bytes32 * V)), mdel k (with_bit d b l) = with_bit d b (mdel k l).
Proof.
  intros V k d b l. unfold mdel, with_bit. induction l as [|e l IH]; cbn [filter]; [reflexivity|].
  destruct (Bool.eqb (kbit (fst e) d) b) eqn:Q1, (negb (b32_eqb (fst e) k)) eqn:Q2; cbn [filter]; rewrite ?Q1, ?Q2, IH; reflexivity.
Qed.
Lemma with_other : forall {V} k d b (l : list (bytes32 * V)), kbit k d <> b -> with_bit d b (mdel k l) = with_bit d b l.
Proof.
  intros V k d b l Nb. unfold mdel, with_bit. induction l as [|e l IH]; cbn [filter]; [reflexivity|].
  destruct (negb (b32_eqb (fst e) k)) eqn:Q2; cbn [filter].
  - destruct (Bool.eqb (kbit (fst e) d) b); rewrite IH; reflexivity.
  - assert (Q : fst e = k) by (apply b32_eqb_eq; destruct (b32_eqb (fst e) k); [reflexivity|discriminate]).
    rewrite Q. destruct (Bool.eqb (kbit k d) b) eqn:Q1; [apply Bool.eqb_prop in Q1; contradiction|exact IH].
Qed.

Lemma path_below : forall n d k l h e, In (h, Some e) (path H n (S d) k (with_bit d (kbit k d) l)) -> In (h, Some e) (path H (S n) d k l).
Proof.
  intros n d k l h e. destruct l as [|x [|y l]].
  - unfold with_bit. destruct n; cbn [filter path]; intros [Q|[]]; discriminate Q.
  - unfold with_bit. cbn [filter]. destruct (Bool.eqb (kbit (fst x) d) (kbit k d)).
    + destruct n, x; cbn [path]; auto.
    + destruct n; cbn [path]; intros [Q|[]]; discriminate Q.
  - intros J. destruct x as [kx hx]. cbn [path]. right. exact J.
Qed.

Lemma path_change : forall n d k k' l l' h e, mdel k l' = mdel k l -> In (h, Some e) (path H n d k' l') ->
  In (h, Some e) (path H n d k l') \/ In (h, Some e) (path H n d k' l).
Proof.
  induction n as [|n IH]; intros d k k' l l' h e Q I; (destruct l' as [|[kx hx] [|y l2]];
    [left; exact I|left; exact I|]); [destruct I|].
  remember ((kx, hx) :: y :: l2) as l' eqn:El. assert (I' : In (h, Some e) (path H n (S d) k' (with_bit d (kbit k' d) l')) \/
    (forall k0, In (h, Some e) (path H (S n) d k0 l'))).
  { rewrite El in I |- *. cbn [path] in I |- *. destruct I as [I|I]; [right; intros k0; left; exact I|left; exact I]. }
  destruct I' as [I'|I']; [|left; apply I'].
  destruct (Bool.bool_dec (kbit k d) (kbit k' d)) as [Eb|Nb].
  - destruct (IH (S d) k k' (with_bit d (kbit k' d) l) (with_bit d (kbit k' d) l') h e) as [J|J]; auto.
    + rewrite !mdel_with, Q. reflexivity.
    + left. apply path_below. rewrite Eb. exact J.
    + right. apply path_below. exact J.
  - right. apply path_below. rewrite <- (with_other k d (kbit k' d) l Nb), <- Q, (with_other k d (kbit k' d) l' Nb). exact I'.
Qed.

Lemma mdel_twice : forall {V} k (m : list (bytes32 * V)), mdel k (mdel k m) = mdel k m.
Proof. intros V k m. apply mdel_notin. intros C. apply mdel_keys in C. tauto. Qed.
Lemma apply_mdel : forall o m, mdel (op_key o) (digests H (apply_op m o)) = mdel (op_key o) (digests H m).
Proof.
  intros [k [|b v]|k] m; cbn [apply_op op_key]; rewrite <- !digests_mdel; rewrite ?mdel_twice; try reflexivity.
  f_equal. unfold mset, mdel at 1. cbn [filter fst]. rewrite b32_eqb_refl. cbn [negb]. apply (mdel_twice k m).
Qed.

Lemma node_change : forall o m h e, node_of H (apply_op m o) h e ->
  In (h, Some e) (path_in H (op_key o) (apply_op m o)) \/ node_of H m h e.
Proof.
  intros o m h e [k' I]. destruct (path_change _ _ (op_key o) k' (digests H m) _ h e (apply_mdel o m) I) as [J|J]; [left; exact J|right].
  exists k'. exact J.
Qed.

(** * Writes *)
Lemma put_path_eq : forall p (d d' : disk) k, d k = d' k -> put_path p d k = put_path p d' k.
Proof.
  unfold put_path. induction p as [|[x [e|]] p IH]; intros d d' k Q; cbn [fold_left fst snd]; auto.
  apply IH. unfold put. destruct (b32_eqb k x); auto.
Qed.
Lemma put_path_in : forall p (d d' : disk) k e, In (k, Some e) p -> put_path p d k = put_path p d' k.
Proof.
  induction p as [|[x o] p IH]; intros d d' k e I; [destruct I|]. destruct I as [Q|I]; [|apply (IH _ _ _ _ I)].
  injection Q as -> ->. apply (put_path_eq p). cbn [snd fst]. unfold put. rewrite b32_eqb_refl. reflexivity.
Qed.
Lemma drop_path_eq : forall p (d d' : disk) k, d k = d' k -> drop_path p d k = drop_path p d' k.
Proof.
  unfold drop_path. induction p as [|x p IH]; intros d d' k Q; cbn [fold_left]; auto.
  apply IH. unfold drop. destruct (b32_eqb k (fst x)); auto.
Qed.

(** * Replays on different storage contents *)
Section WithU.
Variable U : list (list byte).
Hypothesis HC : ~ has_collision H U.
Hypothesis HZ : forall x, In x U -> H x <> zero32.

(** One step makes the written places alike and leaves alike what was. *)
Lemma step_alike : forall o m (d1 d2 : disk) d1' d2', NoDup (keys m) ->
  (op_writes o = [] -> (d1 (op_key o) = None <-> d2 (op_key o) = None) /\ (d1 (op_key o) <> None -> In (op_key o) (keys m))) ->
  replay_op H (m, d1) o = (apply_op m o, d1') -> replay_op H (m, d2) o = (apply_op m o, d2') ->
  (forall k, d1 k = d2 k -> d1' k = d2' k) /\ (forall k, In k (op_writes o) -> d1' k = d2' k) /\
  ((forall h e, node_of H m h e -> d1 h = d2 h) -> forall h e, node_of H (apply_op m o) h e -> d1' h = d2' h).
Proof.
  intros o m d1 d2 d1' d2' N Pre R1 R2.
  assert (De : forall k, op_key o = k -> op_writes o = [] -> apply_op m o = mdel k m ->
    replay_op H (m, d1) (Delete k) = (mdel k m, d1') -> replay_op H (m, d2) (Delete k) = (mdel k m, d2') ->
    (forall k, d1 k = d2 k -> d1' k = d2' k) /\ (forall k, In k (op_writes o) -> d1' k = d2' k) /\
    ((forall h e, node_of H m h e -> d1 h = d2 h) -> forall h e, node_of H (apply_op m o) h e -> d1' h = d2' h)).
  { intros k Ek Ew Ea Q1 Q2. rewrite Ew. cbn [replay_op] in Q1, Q2. destruct (Pre Ew) as [Same Pres]. rewrite Ek in Same, Pres.
    assert (Skip : d1' = d1 -> d2' = d2 -> apply_op m o = m -> 
      (forall k, d1 k = d2 k -> d1' k = d2' k) /\ (forall k, In k [] -> d1' k = d2' k) /\
      ((forall h e, node_of H m h e -> d1 h = d2 h) -> forall h e, node_of H (apply_op m o) h e -> d1' h = d2' h)).
    { intros -> -> ->. split; [auto|]. split; [intros ? []|auto]. }
    destruct m as [|e0 m0]; [apply Skip; congruence|].
    destruct (d1 k) as [x1|] eqn:D1, (d2 k) as [x2|] eqn:D2.
    - assert (Ik : In k (keys (e0 :: m0))) by (apply Pres; discriminate).
      unfold without_landing in Q1, Q2. rewrite (landing_present H k _ N Ik) in Q1, Q2.
      injection Q1 as <-. injection Q2 as <-.
      assert (Keep : forall k0, d1 k0 = d2 k0 ->
        put_path (path_in H k (mdel k (e0 :: m0))) (drop_path (path_in H k (e0 :: m0)) d1) k0 =
        put_path (path_in H k (mdel k (e0 :: m0))) (drop_path (path_in H k (e0 :: m0)) d2) k0).
      { intros k0 Q. apply put_path_eq, drop_path_eq. exact Q. }
      split; [exact Keep|]. split; [intros ? []|]. intros Nm h e No.
      apply node_change in No. destruct No as [I|No]; [|apply Keep; apply (Nm h e No)].
      rewrite Ea, Ek in I. apply (put_path_in _ _ _ _ _ I).
    - exfalso. destruct Same as [_ S]. discriminate (S eq_refl).
    - exfalso. destruct Same as [S _]. discriminate (S eq_refl).
    - apply Skip; congruence. }
  destruct o as [k [|b v]|k]; cbn [op_key op_writes apply_op] in *; [apply (De k); auto| |apply (De k); auto].
  clear De. cbn [replay_op] in R1, R2. injection R1 as <-. injection R2 as <-.
  assert (Keep : forall k0, d1 k0 = d2 k0 \/ k0 = k ->
    put_path (path_in H k (mset k (b :: v) m)) (put d1 k (0, x00, k, H (b :: v))) k0 =
    put_path (path_in H k (mset k (b :: v) m)) (put d2 k (0, x00, k, H (b :: v))) k0).
  { intros k0 Q. apply put_path_eq. unfold put. destruct (b32_eqb k0 k) eqn:X; [reflexivity|].
    destruct Q as [Q| ->]; [exact Q|]. rewrite b32_eqb_refl in X. discriminate X. }
  split; [auto|]. split; [intros k0 [<-|[]]; auto|]. intros Nm h e No.
  apply (node_change (Update k (b :: v))) in No. cbn [op_key apply_op] in No.
  destruct No as [I|No]; [|apply Keep; left; apply (Nm h e No)]. apply (put_path_in _ _ _ _ _ I).
Qed.

Lemma replay_alike : forall os m (d1 d2 : disk) w, NoDup (keys m) -> (forall o, In o os -> fresh H U (op_key o)) ->
  (forall m0, In m0 (maps m os) -> NoDup (keys m0) -> good H U (digests H m0)) -> clean m w os ->
  (forall k, In k (map op_key os) -> In k (keys m) -> d1 k <> None) -> (forall k, In k (map op_key os) -> d1 k <> None -> In k w) ->
  (forall k, In k (map op_key os) -> In k (keys m) -> d2 k <> None) -> (forall k, In k (map op_key os) -> d2 k <> None -> In k w) ->
  (forall h e, node_of H m h e -> d1 h = d2 h) ->
  (forall k, d1 k = d2 k \/ In k (written os) \/ exists m0 e, In m0 (maps m os) /\ node_of H m0 k e) ->
  forall k, snd (fold_left (replay_op H) os (m, d1)) k = snd (fold_left (replay_op H) os (m, d2)) k.
Proof.
  induction os as [|o os IH]; intros m d1 d2 w N Fr Gm Cl Has1 Wr1 Has2 Wr2 Nm Al k.
  - cbn [fold_left snd]. destruct (Al k) as [Q|[[]|(m0 & e & [<-|[]] & No)]]; [exact Q|apply (Nm k e No)].
  - cbn [clean] in Cl. destruct Cl as [Co Cl].
    assert (Fo' : forall k, In k (map op_key os) -> fresh H U k).
    { intros k0 Ik. apply in_map_iff in Ik. destruct Ik as (o' & <- & Io). apply Fr. right. exact Io. }
    assert (N' : NoDup (keys (apply_op m o))) by (apply apply_nodup; exact N).
    assert (Gh : forall x l, In x (maps x l)) by (intros x [|o' l]; left; reflexivity).
    assert (G : good H U (digests H m)) by (apply Gm; [apply Gh|exact N]).
    assert (G' : good H U (digests H (apply_op m o))) by (apply Gm; [right; apply Gh|exact N']).
    assert (Co' : clean_op m w o) by (destruct o as [? [|]|]; exact Co).
    destruct (sync_step H U o os m d1 w N Fo' G G' Has1 Wr1 Co') as (d1' & R1 & Has1' & Wr1').
    destruct (sync_step H U o os m d2 w N Fo' G G' Has2 Wr2 Co') as (d2' & R2 & Has2' & Wr2').
    cbn [fold_left]. rewrite R1, R2.
    assert (Wdel : op_writes o = [] -> In (op_key o) (keys m) \/ ~ In (op_key o) w).
    { intros Ew. destruct o as [k0 [|b v]|k0]; cbn [op_writes op_key clean_op] in *; [exact Co'|discriminate|exact Co']. }
    destruct (step_alike o m d1 d2 d1' d2' N) as (K & Kw & Nn); auto.
    { intros Ew. specialize (Wdel Ew). split.
      - destruct Wdel as [Ik|Nw].
        + split; intros Q; exfalso; [apply (Has1 (op_key o))|apply (Has2 (op_key o))]; auto; left; reflexivity.
        + split; intros _; [destruct (d2 (op_key o)) eqn:Q|destruct (d1 (op_key o)) eqn:Q]; auto; exfalso; apply Nw.
          * apply Wr2; [left; reflexivity|congruence].
          * apply Wr1; [left; reflexivity|congruence].
      - intros Nn. destruct Wdel as [Ik|Nw]; [exact Ik|]. exfalso. apply Nw. apply Wr1; [left; reflexivity|exact Nn]. }
    apply (IH _ d1' d2' _ N' (fun o' Io => Fr o' (or_intror Io)) (fun m0 I0 => Gm m0 (or_intror I0)) Cl); auto.
    + apply Nn. exact Nm.
    + intros k0. destruct (Al k0) as [Q|[Iw|(m0 & e & Im & No)]]; [left; apply K; exact Q| |].
      * unfold written in *. cbn [map concat] in Iw. apply in_app_or in Iw. destruct Iw as [Iw|Iw]; [left; apply Kw; exact Iw|auto].
      * destruct Im as [<-|Im]; [left; apply K; apply (Nm k0 e No)|right; right; eauto].
Qed.
End WithU.

(** * Tries *)
Lemma fresh_dec : forall U k, fresh H U k \/ exists x, In x U /\ H x = k.
Proof.
  induction U as [|x U IH]; intros k; [left; intros x []|]. destruct (b32_eq_dec (H x) k) as [Q|Q]; [right; exists x; split; [left|]; auto|].
  destruct (IH k) as [F|(y & Iy & Ey)]; [left|right; exists y; split; [right|]; auto]. intros y [<-|Iy]; auto.
Qed.

Section Run.
Variable pr : profile.
Context {St E : Type}.
Variable st : StorageT St bytes32 SPrimitive E.
Variable view : St -> bytes32 -> option SPrimitive.
Hypothesis Law : Lawful st view.

Lemma winv_again : forall U m w t, winv H U view m w t -> winv H U view [] w (sp_new (sp_storage t)).
Proof.
  intros U m w t [N C Has Unw]. constructor; cbn [sp_new sp_storage].
  - constructor.
  - constructor; cbn [sp_root_node sp_storage]; [symmetry; apply nd_nil; reflexivity|apply C|exact (good_nil H U)|apply C].
  - intros k [].
  - exact Unw.
Qed.

Lemma sp_tries_inv : forall os s0 s1, (forall k, view s0 k = None) -> clean [] (written os) os -> hash_ok H (map op_key os) (maps [] os) ->
  tries (sp_try H pr st) os s0 s1 -> winv H (universe H (maps [] os)) view [] (written os) (sp_new s1).
Proof.
  intros os s0 s1 Em Cl Ok0 T. destruct (setup H _ _ Ok0) as (HC & HZ & Fr & Gd). set (U := universe H (maps [] os)) in *.
  induction T as [s|es rest s s1 T IH Q].
  - destruct (winv_new H view U s Em) as (W & _ & _). apply (winv_sub H view U _ _ _ _ W). intros k [].
  - specialize (IH Em).
    destruct (run_shared H pr st view Law U HC HZ es [] (written os) (sp_new s1) IH) as (t & r & A & _ & _ & R).
    + intros p NE. exfalso. apply NE. reflexivity.
    + intros o Io. apply Fr. rewrite Q, map_app. apply in_or_app. left. apply in_map. exact Io.
    + intros m0 I0. apply Gd. rewrite Q. apply maps_app. left. exact I0.
    + rewrite Q in Cl at 2. apply clean_app in Cl. apply Cl.
    + assert (X : exists m1, winv H U view m1 (written es ++ written os) t) by (destruct R as [(_ & W & _)|(e & m1 & _ & _ & _ & W)]; eauto).
      destruct X as [m1 W]. unfold sp_try. rewrite A. cbn [fst]. apply (winv_again U m1). apply (winv_sub H view U _ _ _ _ W).
      intros k Ik. apply in_app_or in Ik. destruct Ik as [Ik|Ik]; [|exact Ik]. rewrite Q. unfold written in *. rewrite map_app, concat_app.
      apply in_or_app. left. exact Ik.
Qed.

Theorem C111_partial_lemma : forall os s0 s1, (forall k, view s0 k = None) -> clean [] (written os) os -> hash_ok H (map op_key os) (maps [] os) ->
  tries (sp_try H pr st) os s0 s1 ->
  exists t r, sp_run H pr st os (sp_new s1) = (t, Val r) /\
    ((r = Ok tt /\ sp_root H t = kv_root H (final os) /\ forall k, view (sp_storage t) k = snd (replay H os) k) \/
     (exists e, r = Err e /\ storage_error e /\ ~ Infallible st)).
Proof.
  intros os s0 s1 Em Cl Ok0 T. pose proof (sp_tries_inv os s0 s1 Em Cl Ok0 T) as W.
  pose proof Ok0 as Ok1. destruct (setup H _ _ Ok0) as (HC & HZ & Fr & Gd). set (U := universe H (maps [] os)) in *.
  destruct W as [_ [_ So _ Us] _ Unw]. cbn [sp_storage sp_new] in *.
  assert (Fo : forall o, In o os -> fresh H U (op_key o)) by (intros o Io; apply Fr; apply in_map; exact Io).
  assert (Wr1 : forall k, In k (map op_key os) -> view s1 k <> None -> In k (written os)).
  { intros k Ik Nn. destruct (in_dec b32_eq_dec k (written os)) as [I|I]; [exact I|]. exfalso. apply Nn. apply Unw; auto. }
  destruct (sync_clean H U os [] (view s1) (written os)) as [Q1 Q2]; auto; [constructor|].
  destruct (C98_new_lemma H pr St E st view Law os s1) as (t & r & A & R).
  - exact (eq_ind_r (fun x => hash_ok H (map op_key os) x) Ok1 Q2).
  - refine (eq_ind_r (fun x => no_conflict H (view s1) (map op_key os) x) _ Q2). split.
    + intros m h e Im No. pose proof (maps_nodup os [] m (NoDup_nil _) Im) as N.
      destruct (node_path H m h e N No) as (p & NE & -> & ->). destruct (So (digests H m) p (Gd m Im N) NE) as [X|X]; auto.
    + intros k Ik. destruct (Us k Logic.I (Fr k Ik)) as [X|[h X]]; [left; exact X|right; exists h; exact X].
  - exists t, r. split; [exact A|]. destruct R as [(-> & Rt & Vs)|R]; [left|right; exact R]. split; [reflexivity|].
    split; [exact (eq_trans Rt (f_equal (kv_root H) Q1))|]. intros k. rewrite Vs.
    apply (replay_alike U os [] (view s1) (fun _ => None) (written os)); auto.
    + constructor.
    + intros h e [k0 [Q|[]]]. discriminate Q.
    + intros k0. destruct (fresh_dec U k0) as [F|(x & Ix & Ex)].
      * destruct (in_dec b32_eq_dec k0 (written os)) as [I|I]; [right; left; exact I|left; apply Unw; auto].
      * right. right. unfold U, universe in Ix. apply in_concat in Ix. destruct Ix as (i & Ii & Ix). apply in_map_iff in Ii.
        destruct Ii as (m & <- & Im). rewrite <- I_kv in Ix. pose proof (maps_nodup os [] m (NoDup_nil _) Im) as N.
        destruct (I_in H (digests H m) KB [] x) as (q & Nq & Eq); [rewrite keys_digests; exact N|reflexivity|exact Ix|].
        exists m, (sprim_of_node (nd H q (digests H m))). split; [exact Im|]. rewrite <- Ex, <- Eq. apply path_node; auto.
Qed.
End Run.
End Start.
