(** SyncProofs.v -- a sparse tree opened on a storage that holds the nodes of a map and other
    things. *)
From Verif Require Import Base Storage ModelCommon ModelSparse SpecBits SpecBinary SpecSparse SpecAnyRun SpecDisk SpecCalls SpecSync RunsSparse RunsSync
  StorageProofs BindingProofs BitsProofs PositionProofs CommonProofs SparseSpecFacts SparseNodes SparseProofs SparseOps SparseSteps SparseMain
  SparseTheorems SparseAnyRun SparseDisk SparseCalls.
From Coq Require Import Arith ZifyBool ZifyNat ZifyN.
Ltac Zify.zify_post_hook ::= Z.div_mod_to_equations.
Arguments Nat.mul : simpl never.
Arguments Z.of_nat : simpl never.

Section Sync.
Variable H : list byte -> bytes32.
Notation T := (T H).
Notation nd := (nd H).
Notation prim := sprim_of_node.

(** * Nodes *)
Lemma node_path : forall m h e, NoDup (keys m) -> node_of H m h e ->
  exists p, sub p (digests H m) <> [] /\ h = T p (digests H m) /\ e = prim (nd p (digests H m)).
Proof.
  intros m h e N [k Ik]. destruct (lands_exists k (digests H m)) as [D La]; [rewrite keys_digests; exact N|].
  rewrite (path_met H k m D N La) in Ik. apply in_map_iff in Ik. destruct Ik as (j & Q & _). unfold met in Q.
  exists (P k j). destruct (sub (P k j) (digests H m)) eqn:Es; [discriminate|]. split; [discriminate|]. injection Q as <- <-. auto.
Qed.

Lemma path_member : forall m p, NoDup (keys m) -> sub p (digests H m) <> [] ->
  exists k, In k (keys m) /\ In (T p (digests H m), Some (prim (nd p (digests H m)))) (path_in H k m).
Proof.
  intros m p N NE. set (l := digests H m) in *. assert (Nl : NoDup (keys l)) by (unfold l; rewrite keys_digests; exact N).
  destruct (sub p l) as [|[k h] r] eqn:Es; [congruence|]. clear NE.
  assert (Ik : In (k, h) (sub p l)) by (rewrite Es; left; reflexivity).
  pose proof Ik as Ip. apply sub_in in Ip. cbn [fst] in Ip. destruct Ip as [Il Pr]. destruct (P_of_prefix p k Pr) as [Lp Ep].
  destruct (lands_exists k l Nl) as [D La]. exists k.
  split; [rewrite <- (keys_digests H); apply (in_map fst _ _ Il)|]. rewrite (path_met H k m D N La). fold l.
  pose proof (lands_present k h l D Nl La Il) as SD. pose proof La as (LD & LA & LE).
  destruct (Nat.le_gt_cases (length p) D) as [A|A].
  - apply in_map_iff. exists (length p). split; [|apply in_seq; lia]. unfold met. rewrite <- Ep, Es. reflexivity.
  - assert (S1 : sub p l = [(k, h)]).
    { apply length_one; [exact Ik|]. rewrite Ep. pose proof (sub_P_le k D (length p) l ltac:(lia)). lia. }
    apply in_map_iff. exists D. split; [|apply in_seq; lia]. unfold met. rewrite SD.
    rewrite (nd_one H _ _ _ _ S1), (nd_one H _ _ _ _ SD).
    destruct (T_cases H p l Nl) as [Q _ _|k1 h1 Q E1 _|Q _ _ _]; [congruence| |rewrite S1 in Q; cbn [length] in Q; lia].
    destruct (T_cases H (P k D) l Nl) as [Q2 _ _|k2 h2 Q2 E2 _|Q2 _ _ _]; [congruence| |rewrite SD in Q2; cbn [length] in Q2; lia].
    rewrite E1, E2. assert (X : (k1, h1) = (k2, h2)) by congruence. injection X as -> ->. reflexivity.
Qed.

Lemma path_node : forall m p, NoDup (keys m) -> sub p (digests H m) <> [] ->
  node_of H m (T p (digests H m)) (prim (nd p (digests H m))).
Proof. intros m p N NE. destruct (path_member m p N NE) as (k & _ & Ik). exists k. exact Ik. Qed.
(** The paths of the keys of the map meet all nodes. *)
Lemma node_listed : forall m h e, NoDup (keys m) -> node_of H m h e -> In (h, Some e) (flat_map (fun k => path_in H k m) (keys m)).
Proof.
  intros m h e N No. destruct (node_path m h e N No) as (p & NE & -> & ->). destruct (path_member m p N NE) as (k & Ik & Ip).
  apply in_flat_map. exists k. auto.
Qed.

Lemma I_in : forall l c p x, NoDup (keys l) -> (length p + c = KB)%nat -> In x (I H p l) -> exists q, sub q l <> [] /\ T q l = H x.
Proof.
  intros l. induction c as [|c IH]; intros p x N Lp Ix;
    (destruct (T_cases H p l N) as [S1 E1 I1|k h S1 E1 I1|S1 L1 E1 I1]; rewrite I1 in Ix;
      [destruct Ix|destruct Ix as [<-|[]]; exists p; rewrite S1; split; [discriminate|exact E1]|]).
  - exfalso. lia.
  - destruct Ix as [<-|Ix]; [exists p; split; [intros Q; rewrite Q in S1; cbn [length] in S1; lia|exact E1]|].
    apply in_app_or in Ix. destruct Ix as [Ix|Ix]; (apply IH in Ix; [exact Ix|exact N|rewrite app_length; cbn [length]; lia]).
Qed.

Section Run.
Variable pr : profile.
Context {St E : Type}.
Variable st : StorageT St bytes32 SPrimitive E.
Variable view : St -> bytes32 -> option SPrimitive.
Hypothesis Law : Lawful st view.

Lemma holds_stored : forall (d : disk) m, NoDup (keys m) -> holds_nodes H d m -> stored H (digests H m) d.
Proof. intros d m N Ho p NE. apply Ho. apply path_node; auto. Qed.

Lemma conflict_sound : forall U ks ms (d : disk), U = universe H ms -> ~ has_collision H U -> (forall x, In x U -> H x <> zero32) ->
  (forall m, In m ms -> NoDup (keys m)) -> (forall m, In m ms -> NoDup (keys m) -> good H U (digests H m)) ->
  no_conflict H d ks ms -> sound H U d.
Proof.
  intros U ks ms d EU HC HZ Nm Gm [Nc _] l p G NE. destruct (T_digest H U l p G NE) as (x & Ix & Ex).
  rewrite EU in Ix. unfold universe in Ix. apply in_concat in Ix. destruct Ix as (i & Ii & Ix). apply in_map_iff in Ii.
  destruct Ii as (m & <- & Im). rewrite <- I_kv in Ix.
  destruct (I_in (digests H m) KB [] x) as (q & Nq & Eq); [rewrite keys_digests; auto|reflexivity|exact Ix|].
  assert (ET : T p l = T q (digests H m)) by congruence.
  rewrite (nd_unique H U HC HZ p q l (digests H m) G (Gm m Im (Nm m Im)) ET), ET.
  destruct (Nc m _ _ Im (path_node m q (Nm m Im) Nq)); auto.
Qed.

Lemma trail_nodup : forall os x, NoDup (keys (fst x)) -> forall m, In m (trail H x os) -> NoDup (keys m).
Proof.
  induction os as [|o os IH]; intros x N m Im; cbn [trail] in Im; destruct Im as [<-|Im]; auto; [destruct Im|].
  apply (IH (replay_op H x o)); auto. apply replay_nodup. exact N.
Qed.

(** * What the tree does *)
Section WithU.
Variable U : list (list byte).
Hypothesis HC : ~ has_collision H U.
Hypothesis HZ : forall x, In x U -> H x <> zero32.

(** Deletes that are clean: the replay is that of the map. *)
Lemma fresh_put : forall k m (d : disk) k', NoDup (keys m) -> good H U (digests H m) -> fresh H U k' -> put_path (path_in H k m) d k' = d k'.
Proof.
  intros k m d k' N G F. destruct (lands_exists k (digests H m)) as [D La]; [apply G|].
  rewrite (path_met H k m D N La), put_path_wr.
  destruct (wr_cases (some_writes (map (met H k (digests H m)) (seq 0 (S D)))) d k') as [(o & Io & _)|[_ ->]]; [|reflexivity].
  exfalso. apply some_writes_in in Io. destruct Io as (j & _ & NE & Q). unfold SparseProofs.nw in Q.
  apply (fresh_not_T H U k' (digests H m) (P k j) F G NE). congruence.
Qed.
Lemma fresh_drop : forall k m (d : disk) k', NoDup (keys m) -> good H U (digests H m) -> fresh H U k' -> In k (keys m) ->
  drop_path (path_in H k m) d k' = d k'.
Proof.
  intros k m d k' N G F Ik. destruct (lands_exists k (digests H m)) as [D La]; [apply G|].
  rewrite (path_met H k m D N La), drop_path_wr, map_map.
  match goal with |- wr ?l ?v ?x = _ => destruct (wr_cases l v x) as [(o & Io & _)|[_ ->]] end; [|reflexivity].
  exfalso. apply in_map_iff in Io. destruct Io as (j & Q & Ij). apply in_seq in Ij. unfold met in Q. cbn [fst] in Q.
  assert (Il : exists h, In (k, h) (digests H m)).
  { unfold keys in Ik. apply in_map_iff in Ik. destruct Ik as ([k0 v0] & <- & Ie). exists (H v0). unfold digests. apply in_map_iff. exists (k0, v0). auto. }
  destruct Il as [h Il]. pose proof (lands_present k h _ D (good_nodup H U _ G) La Il) as SD.
  apply (fresh_not_T H U k' (digests H m) (P k j) F G); [|congruence].
  intros C. assert (X : In (k, h) (sub (P k j) (digests H m))).
  { apply (sub_P_in k j D); [lia|]. rewrite SD. left. reflexivity. }
  rewrite C in X. destruct X.
Qed.

Lemma sync_step : forall o (os : list sp_op) m (d : disk) w, NoDup (keys m) -> (forall k, In k (map op_key os) -> fresh H U k) ->
  good H U (digests H m) -> good H U (digests H (apply_op m o)) ->
  (forall k, In k (map op_key (o :: os)) -> In k (keys m) -> d k <> None) ->
  (forall k, In k (map op_key (o :: os)) -> d k <> None -> In k w) -> clean_op m w o ->
  exists d', replay_op H (m, d) o = (apply_op m o, d') /\
    (forall k, In k (map op_key os) -> In k (keys (apply_op m o)) -> d' k <> None) /\
    (forall k, In k (map op_key os) -> d' k <> None -> In k (op_writes o ++ w)).
Proof.
  intros o os m d w N Fo' G G' Has Wr Co.
  assert (N' : NoDup (keys (apply_op m o))) by (apply apply_nodup; exact N).
  assert (De : forall k, op_key o = k -> (In k (keys m) \/ ~ In k w) -> apply_op m o = mdel k m -> op_writes o = [] ->
    exists d', replay_op H (m, d) (Delete k) = (mdel k m, d') /\
    (forall k, In k (map op_key os) -> In k (keys (apply_op m o)) -> d' k <> None) /\
    (forall k, In k (map op_key os) -> d' k <> None -> In k (op_writes o ++ w))).
  { intros k Ek Ck Ea Ew. rewrite Ea, Ew. cbn [app]. rewrite Ea in G', N'.
    assert (Kd : forall k', In k' (map op_key os) -> In k' (keys (mdel k m)) -> d k' <> None).
    { intros k' Ik Im. apply Has; [right; exact Ik|]. apply mdel_keys in Im. tauto. }
    assert (Kw : forall k', In k' (map op_key os) -> d k' <> None -> In k' w) by (intros k' Ik; apply Wr; right; exact Ik).
    cbn [replay_op]. destruct m as [|e0 m0]; [exists d; auto|]. destruct (d k) as [ek|] eqn:Dk.
    - assert (Ik : In k (keys (e0 :: m0))).
      { destruct Ck as [Ck|Ck]; [exact Ck|]. exfalso. apply Ck. apply Wr; [left; exact Ek|congruence]. }
      unfold without_landing. rewrite (landing_present H k _ N Ik).
      eexists. split; [reflexivity|].
      assert (Vs : forall k', In k' (map op_key os) ->
        put_path (path_in H k (mdel k (e0 :: m0))) (drop_path (path_in H k (e0 :: m0)) d) k' = d k').
      { intros k' I'. rewrite fresh_put by (auto; rewrite <- Ek; auto). apply fresh_drop; auto. }
      split; intros k' I'; rewrite (Vs k' I'); auto.
    - exists d. split; [|auto]. rewrite mdel_notin; [reflexivity|]. intros Ik.
      apply (Has k); [left; exact Ek|exact Ik|exact Dk]. }
  destruct o as [k [|b v]|k]; cbn [op_key apply_op op_writes clean_op] in *.
  - destruct (De k eq_refl Co eq_refl eq_refl) as (d' & Q & X). exists d'. split; [exact Q|exact X].
  - eexists. cbn [replay_op]. split; [reflexivity|].
    assert (Vs : forall k', In k' (map op_key os) ->
      put_path (path_in H k (mset k (b :: v) m)) (put d k (0, x00, k, H (b :: v))) k' = put d k (0, x00, k, H (b :: v)) k').
    { intros k' I'. apply fresh_put; auto. }
    split; intros k' I'; rewrite (Vs k' I'); unfold put; (destruct (b32_eqb k' k) eqn:Q; [apply b32_eqb_eq in Q; subst k'|]).
    + discriminate.
    + intros Ik. apply Has; [right; exact I'|]. unfold mset in Ik. cbn [keys map fst] in Ik. destruct Ik as [<-|Ik]; [rewrite b32_eqb_refl in Q; discriminate|]. apply mdel_keys in Ik. tauto.
    + intros _. left. reflexivity.
    + intros Nn. right. apply Wr; [right; exact I'|exact Nn].
  - destruct (De k eq_refl Co eq_refl eq_refl) as (d' & Q & X). exists d'. split; [exact Q|exact X].
Qed.

Lemma sync_clean : forall os m (d : disk) w, NoDup (keys m) -> (forall o, In o os -> fresh H U (op_key o)) ->
  (forall m0, In m0 (maps m os) -> NoDup (keys m0) -> good H U (digests H m0)) ->
  (forall k, In k (map op_key os) -> In k (keys m) -> d k <> None) ->
  (forall k, In k (map op_key os) -> d k <> None -> In k w) -> clean m w os ->
  fst (fold_left (replay_op H) os (m, d)) = fold_left apply_op os m /\ trail H (m, d) os = maps m os.
Proof.
  induction os as [|o os IH]; intros m d w N Fr Gm Has Wr Cl; [split; reflexivity|].
  cbn [clean] in Cl. destruct Cl as [Co Cl].
  assert (Fo' : forall k, In k (map op_key os) -> fresh H U k).
  { intros k Ik. apply in_map_iff in Ik. destruct Ik as (o' & <- & Io). apply Fr. right. exact Io. }
  assert (N' : NoDup (keys (apply_op m o))) by (apply apply_nodup; exact N).
  assert (Gh : forall x l, In x (maps x l)) by (intros x [|o' l]; left; reflexivity).
  assert (G : good H U (digests H m)) by (apply Gm; [apply Gh|exact N]).
  assert (G' : good H U (digests H (apply_op m o))) by (apply Gm; [right; apply Gh|exact N']).
  destruct (sync_step o os m d w N Fo' G G' Has Wr) as (d' & Q & Has' & Wr'); [destruct o as [? [|]|]; exact Co|].
  cbn [fold_left trail maps fst]. rewrite Q.
  destruct (IH _ d' _ N' (fun o' Io => Fr o' (or_intror Io)) (fun m0 I0 => Gm m0 (or_intror I0)) Has' Wr' Cl) as [Q1 Q2].
  split; [exact Q1|]. f_equal. exact Q2.
Qed.
End WithU.

Lemma sync_dinv : forall U os m (d : disk) t, let x := (m, d) in NoDup (keys m) ->
  ~ has_collision H U -> (forall x, In x U -> H x <> zero32) ->
  (forall m, In m (trail H x os) -> NoDup (keys m) -> good H U (digests H m)) -> U = universe H (trail H x os) ->
  holds_nodes H d m -> no_conflict H d (map op_key os) (trail H x os) ->
  sp_root_node t = nd [] (digests H m) -> (forall k, view (sp_storage t) k = d k) ->
  dinv H view U (fun k => In k (map op_key os)) x t.
Proof.
  intros U os m d t x N HC HZ Gm EU Ho Nc Rt Vs.
  assert (Hd : In m (trail H x os)) by (destruct os; left; reflexivity).
  constructor; cbn [fst snd]; auto.
  - constructor; auto.
    + apply (sound_ext H U d); [intros k; symmetry; apply Vs|].
      apply (conflict_sound U (map op_key os) (trail H x os)); auto. apply trail_nodup. exact N.
    + intros k Kk Fk. rewrite Vs. destruct (proj2 Nc k Kk) as [->|[h ->]]; [left; reflexivity|right; exists h; reflexivity].
  - apply (stored_ext H _ d); [intros k; symmetry; apply Vs|]. apply holds_stored; auto.
Qed.

Lemma sync_run : forall os m (d : disk) t, let x := (m, d) in NoDup (keys m) ->
  hash_ok H (map op_key os) (trail H x os) -> holds_nodes H d m -> no_conflict H d (map op_key os) (trail H x os) ->
  sp_root_node t = nd [] (digests H m) -> (forall k, view (sp_storage t) k = d k) -> goes_on H pr st view os x t.
Proof.
  intros os m d t x N Ok0 Ho Nc Rt Vs. destruct (setup H _ _ Ok0) as (HC & HZ & Fr & Gd). set (U := universe H _) in *.
  pose proof (sync_dinv U os m d t N HC HZ Gd eq_refl Ho Nc Rt Vs) as W. fold x in W.
  destruct (disk_run H pr st view Law U _ HC HZ os x t W) as (t' & r & A & R); auto.
  { intros o Io. apply in_map. exact Io. }
  { intros o Io. apply Fr. apply in_map. exact Io. }
  exists t', r. split; [exact A|]. destruct R as [(-> & W1)|R]; [left|right; exact R].
  split; [reflexivity|]. split; [|apply W1]. apply (core_kv_rootK H view U HZ _ _ _ (di_core _ _ _ _ _ _ W1)).
Qed.
End Run.

Theorem C98_lemma : forall pr St E (st : StorageT St bytes32 SPrimitive E) view, Lawful st view ->
  forall m os s0, m <> [] -> NoDup (keys m) -> hash_ok H (map op_key os) (trail H (m, view s0) os) ->
  holds_nodes H (view s0) m -> no_conflict H (view s0) (map op_key os) (trail H (m, view s0) os) ->
  exists s1 r, sp_load st (kv_root H m) s0 = (s1, Val r) /\
    ((exists t, r = Ok t /\ sp_root H t = kv_root H m /\ (forall k, view (sp_storage t) k = view s0 k) /\
        goes_on H pr st view os (m, view s0) t) \/
     (exists e, r = Err (SStorageError e) /\ ~ Infallible st)).
Proof.
  intros pr St E st view Law m os s0 NE N Ok0 Ho Nc. destruct (setup H _ _ Ok0) as (HC & HZ & Fr & Gd). set (U := universe H _) in *.
  assert (G : good H U (digests H m)) by (apply Gd; [destruct os; left; reflexivity|exact N]).
  assert (NEd : digests H m <> []) by (destruct m; [congruence|discriminate]).
  destruct (load_ok H U st view Law (digests H m) s0 G NEd (holds_stored _ m N Ho)) as (s1 & r & Q & Vs & R).
  rewrite T_kv in Q. exists s1, r. split; [exact Q|]. destruct R as [->|[[e ->] F]]; [left|right; eauto].
  eexists. split; [reflexivity|]. split.
  - unfold sp_root. cbn [sp_root_node]. rewrite (nd_hash H U HZ) by exact G. apply T_kv.
  - split; [exact Vs|]. apply sync_run; auto.
Qed.

Theorem C98_new_lemma : forall pr St E (st : StorageT St bytes32 SPrimitive E) view, Lawful st view ->
  forall os s0, hash_ok H (map op_key os) (trail H ([], view s0) os) ->
  no_conflict H (view s0) (map op_key os) (trail H ([], view s0) os) ->
  goes_on H pr st view os ([], view s0) (sp_new s0).
Proof.
  intros pr St E st view Law os s0 Ok0 Nc. apply sync_run; auto; [apply NoDup_nil|].
  intros h e [k [Q|[]]]. discriminate.
Qed.

Theorem C98_clean_lemma : forall m d os w, NoDup (keys m) -> hash_ok H (map op_key os) (maps m os) ->
  (forall k, In k (map op_key os) -> In k (keys m) -> d k <> None) ->
  (forall k, In k (map op_key os) -> d k <> None -> In k w) -> clean m w os ->
  fst (fold_left (replay_op H) os (m, d)) = fold_left apply_op os m /\ trail H (m, d) os = maps m os.
Proof.
  intros m d os w N Ok0 Has Wr Cl. destruct (setup H _ _ Ok0) as (HC & HZ & Fr & Gd).
  apply (sync_clean (universe H (maps m os)) os m d w); auto. intros o Io. apply Fr. apply in_map. exact Io.
Qed.

Theorem C98_calls_lemma : forall pr St E (st : StorageT St bytes32 SPrimitive E) view, Lawful st view ->
  forall m os s0, m <> [] -> NoDup (keys m) -> hash_ok H (map op_key os) (trail H (m, view s0) os) ->
  holds_nodes H (view s0) m -> no_conflict H (view s0) (map op_key os) (trail H (m, view s0) os) ->
  forall L s1 t, sp_load (Logged st) (kv_root H m) (L, s0) = (s1, Val (Ok t)) ->
  fst (sp_storage t) = L ++ [done (Get (kv_root H m))] /\
  exists t' r l, sp_run H pr (Logged st) os t = (t', Val r) /\ fst (sp_storage t') = fst (sp_storage t) ++ l /\
    ((r = Ok tt /\ l = map done (script H (m, view s0) os)) \/
     (exists before o rest l', os = before ++ o :: rest /\ l = map done (script H (m, view s0) before) ++ l' /\
        sparse_stop (script_op H (fold_left (replay_op H) before (m, view s0)) o) l' r)).
Proof.
  intros pr St E st view Law m os s0 NE N Ok0 Ho Nc L s1 t A. destruct (setup H _ _ Ok0) as (HC & HZ & Fr & Gd). set (U := universe H _) in *.
  assert (G : good H U (digests H m)) by (apply Gd; [destruct os; left; reflexivity|exact N]).
  assert (NEd : digests H m <> []) by (destruct m; [congruence|discriminate]).
  pose proof (Logged_lawful _ _ _ _ st view Law) as LLaw.
  set (lview := fun ls : list (event bytes32 SPrimitive E) * St => view (snd ls)) in *.
  destruct (load_ok H U (Logged st) lview LLaw (digests H m) (L, s0) G NEd (holds_stored _ m N Ho)) as (s2 & r & Q & Vs & R).
  rewrite T_kv in Q. rewrite A in Q. injection Q as <- <-.
  destruct R as [R|[[e R] F]]; [|discriminate]. injection R as ->. destruct s1 as [L1 s1].
  assert (EL : L1 = L ++ [done (Get (kv_root H m))]).
  { unfold sp_load, bind_try, bind, sst_get, lift, Logged, get_state, ret in A. cbn [s_get] in A.
    destruct (s_get st (kv_root H m) s0) as [s3 [o|e]]; cbn [outcome map_err] in A; [|discriminate A].
    destruct o as [p|]; [|discriminate A]. destruct (snode_try_from p) as [n|]; [|discriminate A]. injection A as A1 _ _ _. symmetry. exact A1. }
  subst L1. split; [reflexivity|]. cbn [sp_storage fst].
  destruct (run_calls H U HC HZ pr st view Law (fun k => In k (map op_key os)) os (m, view s0) (nd [] (digests H m)) (L ++ [done (Get (kv_root H m))]) s1)
    as (rn & s & r & l & B & R).
  { apply (sync_dinv lview); auto. }
  { intros o Io. apply in_map. exact Io. }
  { intros o Io. apply Fr. apply in_map. exact Io. }
  { exact Gd. }
  exists (Build_SpTree rn ((L ++ [done (Get (kv_root H m))]) ++ l, s)), r, l. split; [exact B|]. split; [reflexivity|exact R].
Qed.
End Sync.
