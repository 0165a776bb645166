(** SparseDisk.v -- the exact content of the storage of a sparse tree. *)
From Verif Require Import Base Storage ModelCommon ModelSparse SpecBits SpecBinary SpecSparse SpecAnyRun SpecDisk RunsSparse StorageProofs
  BindingProofs BitsProofs CommonProofs SparseSpecFacts SparseNodes SparseProofs SparseOps SparseSteps SparseMain SparseTheorems SparseAnyRun.
From Coq Require Import Arith ZifyBool ZifyNat ZifyN.
Ltac Zify.zify_post_hook ::= Z.div_mod_to_equations.
Arguments Nat.mul : simpl never.
Arguments Z.of_nat : simpl never.

(** * Replayed writes as lists of writes *)
Definition some_writes (p : list (bytes32 * option entry)) : list (bytes32 * option SPrimitive) :=
  flat_map (fun x => match snd x with Some e => [(fst x, Some e)] | None => [] end) p.
Lemma put_path_wr : forall p d, put_path p d = wr (some_writes p) d.
Proof.
  induction p as [|[h [e|]] p IH]; intros d; cbn [put_path fold_left some_writes flat_map app fst snd]; [reflexivity| |apply IH].
  change (put_path p (put d h e) = wr (some_writes p) (wr1 d (h, Some e))). rewrite IH. reflexivity.
Qed.
Lemma drop_path_wr : forall p d, drop_path p d = wr (map (fun x => (fst x, None)) p) d.
Proof.
  induction p as [|[h o] p IH]; intros d; cbn [drop_path fold_left map fst]; [reflexivity|].
  change (drop_path p (drop d h) = wr (map (fun x => (fst x, None)) p) (wr1 d (h, None))). rewrite IH. reflexivity.
Qed.
Lemma wr_none : forall l v k, (forall x, In x l -> snd x = None) ->
  wr l v k = if existsb (fun x => b32_eqb k (fst x)) l then None else v k.
Proof.
  intros l v k N. destruct (existsb (fun x => b32_eqb k (fst x)) l) eqn:Q.
  - apply existsb_exists in Q. destruct Q as ([h o] & I & Q). apply b32_eqb_eq in Q. cbn [fst] in Q. subst h.
    destruct (wr_cases l v k) as [(o' & Io & ->)|[X _]]; [apply (N _ Io)|]. destruct (X o I).
  - destruct (wr_cases l v k) as [(o' & Io & _)|[_ ->]]; [|reflexivity]. exfalso.
    assert (C : existsb (fun x => b32_eqb k (fst x)) l = true) by (apply existsb_exists; exists (k, o'); split; [exact Io|apply b32_eqb_refl]).
    congruence.
Qed.

Section Disk.
Variable H : list byte -> bytes32.
Notation T := (T H).
Notation nd := (nd H).
Notation nw := (nw H).
Notation prim := sprim_of_node.

(** * The path *)
Definition met (k : bytes32) (l : entries) (j : nat) : bytes32 * option entry :=
  (T (P k j) l, match sub (P k j) l with [] => None | _ => Some (prim (nd (P k j) l)) end).

Lemma path_from : forall k l D, NoDup (keys l) -> lands k l D -> forall c i, (i + c = D)%nat ->
  path H (KB - i) i k (sub (P k i) l) = map (met k l) (seq i (S c)).
Proof.
  intros k l D N (LD & LA & LE). induction c as [|c IH]; intros i Ei.
  - assert (i = D) by lia. subst i. cbn [seq map]. unfold met.
    destruct (T_cases H (P k D) l N) as [S1 E1 I1|k' h S1 E1 I1|S1 L1 E1 I1]; [| |lia].
    + rewrite S1, E1. destruct (KB - D)%nat; reflexivity.
    + rewrite S1, E1, (nd_one H _ _ _ _ S1). destruct (KB - D)%nat; reflexivity.
  - specialize (LA i ltac:(lia)). change (seq i (S (S c))) with (i :: seq (S i) (S c)). cbn [map].
    rewrite <- (IH (S i) ltac:(lia)). rewrite P_S by lia.
    destruct (T_cases H (P k i) l N) as [S1 E1 I1|k' h S1 E1 I1|S1 L1 E1 I1]; [rewrite S1 in LA; cbn [length] in LA; lia|rewrite S1 in LA; cbn [length] in LA; lia|].
    unfold met at 1. rewrite (nd_two H _ _ LA), E1.
    pose proof (sub_snoc (P k i) false l ltac:(rewrite P_length; lia)) as Sf.
    pose proof (sub_snoc (P k i) true l ltac:(rewrite P_length; lia)) as St.
    pose proof (sub_snoc (P k i) (kbit k i) l ltac:(rewrite P_length; lia)) as Sk.
    rewrite P_length in Sf, St, Sk by lia.
    unfold inode, sprim_of_node. cbn [sn_height sn_prefix sn_bytes_lo sn_bytes_hi].
    unfold SparseSpecFacts.T. rewrite !app_length, P_length by lia. cbn [length].
    replace (KB - i)%nat with (S (KB - S i))%nat by lia. replace (i + 1)%nat with (S i) by lia.
    destruct (sub (P k i) l) as [|[k1 h1] [|e2 l2]] eqn:Es; cbn [length] in LA; try lia.
    cbn [path]. rewrite <- Sf, <- St, <- Sk.
    f_equal. f_equal. f_equal. replace (Z.of_nat (S (KB - S i))) with (256 - Z.of_nat i) by (pose proof KB_eq; lia). reflexivity.
Qed.
Lemma path_met : forall k (m : kvmap) D, NoDup (keys m) -> lands k (digests H m) D -> path_in H k m = map (met k (digests H m)) (seq 0 (S D)).
Proof.
  intros k m D N La. unfold path_in. rewrite <- (path_from k (digests H m) D ltac:(rewrite keys_digests; exact N) La D 0 ltac:(lia)).
  rewrite sub_root. rewrite Nat.sub_0_r. reflexivity.
Qed.

Lemma some_writes_in : forall k l D w, In w (some_writes (map (met k l) (seq 0 (S D)))) <->
  exists j, (j <= D)%nat /\ sub (P k j) l <> [] /\ w = nw (P k j) l.
Proof.
  intros k l D w. unfold some_writes. rewrite in_flat_map. split.
  - intros (x & Ix & Iw). apply in_map_iff in Ix. destruct Ix as (j & <- & Ij). apply in_seq in Ij. exists j. split; [lia|].
    unfold met in Iw. cbn [fst snd] in Iw. destruct (sub (P k j) l) eqn:Es; [destruct Iw|]. destruct Iw as [<-|[]]. split; [discriminate|reflexivity].
  - intros (j & Lj & NE & ->). exists (met k l j). split; [apply in_map; apply in_seq; lia|]. unfold met. cbn [fst snd].
    destruct (sub (P k j) l) eqn:Es; [congruence|]. left. reflexivity.
Qed.

Section Run.
Variable pr : profile.
Context {St E : Type}.
Variable st : StorageT St bytes32 SPrimitive E.
Variable view : St -> bytes32 -> option SPrimitive.
Hypothesis Law : Lawful st view.
Notation V t := (view (sp_storage t)).

Section WithU.
Variable U : list (list byte).
Variable Ks : bytes32 -> Prop.
Hypothesis HC : ~ has_collision H U.
Hypothesis HZ : forall x, In x U -> H x <> zero32.

Record dinv (x : kvmap * disk) (t : SpTree St) : Prop := {
  di_nodup : NoDup (keys (fst x));
  di_core : core H U Ks view (digests H (fst x)) t;
  di_stored : stored H (digests H (fst x)) (V t);
  di_exact : forall k, V t k = snd x k
}.

Lemma disk_update : forall k b v m d t, dinv (m, d) t -> Ks k -> fresh H U k -> good H U (digests H (mset k (b :: v) m)) ->
  exists t' r, sp_update H pr st k (b :: v) t = (t', Val r) /\
    ((r = Ok tt /\ dinv (replay_op H (m, d) (Update k (b :: v))) t') \/
     (exists e, r = Err e /\ storage_error e /\ ~ Infallible st)).
Proof.
  intros k b v m d t [N C Sd Ex] Kk Fr G'. cbn [fst snd] in *. rewrite digests_mset in G'.
  destruct (lands_exists k (digests H m)) as [D La]; [apply C|].
  destruct (update_ok H U HC HZ pr st view Law k (b :: v) (digests H m) t D ltac:(discriminate) (core_good _ _ _ _ _ _ C) G' Fr
    (core_sound _ _ _ _ _ _ C) (core_root _ _ _ _ _ _ C) La) as (t' & r & L & A & VL & WL & R).
  destruct (update_step H U Ks HC HZ pr st view Law k (b :: v) (digests H m) t ltac:(discriminate) C G' Kk Fr) as (t2 & r2 & A2 & R2 & _).
  rewrite A in A2. injection A2 as <- <-. exists t', r. split; [exact A|].
  destruct R2 as [(-> & C' & Vk & S')|(e & -> & _ & Er)].
  2:{ right. exists e. split; [reflexivity|]. destruct Er as [Er|X]; [exact Er|]. exfalso. revert X. apply stored_not_missing. exact Sd. }
  specialize (S' Sd). left. split; [reflexivity|]. cbn [replay_op].
  constructor; cbn [fst snd].
  - apply mset_nodup. exact N.
  - rewrite digests_mset. exact C'.
  - rewrite digests_mset. exact S'.
  - destruct R as [(_ & _ & AL & _)|(e & Q & _)]; [|discriminate].
    destruct (lands_exists k (digests H (mset k (b :: v) m))) as [D' La']; [rewrite keys_digests; apply mset_nodup; exact N|].
    rewrite (path_met k _ D' ltac:(apply mset_nodup; exact N) La'), put_path_wr. intros x.
    rewrite digests_mset in *. set (m' := mset k (H (b :: v)) (digests H m)) in *.
    destruct (wr_cases (some_writes (map (met k m') (seq 0 (S D')))) (put d k (0, x00, k, H (b :: v))) x) as [(o & Io & ->)|[No ->]].
    + apply some_writes_in in Io. destruct Io as (j & Lj & NE & Q). unfold SparseProofs.nw in Q. injection Q as -> ->. apply S'. exact NE.
    + unfold put. destruct (b32_eqb x k) eqn:Q; [apply b32_eqb_eq in Q; subst x; exact Vk|].
      rewrite VL. destruct (wr_cases L (V t) x) as [(o & Io & _)|[_ ->]]; [|apply Ex]. exfalso.
      destruct (WL _ Io) as [W|(i & Li & NE & W)]; [injection W as -> _; rewrite b32_eqb_refl in Q; discriminate|].
      unfold SparseProofs.nw in W. injection W as -> ->. fold m' in No, NE.
      destruct La' as (LD & LA & LE).
      destruct (Nat.le_gt_cases i D') as [A1|A1].
      * apply (No (Some (prim (nd (P k i) m')))). apply some_writes_in. exists i. auto.
      * assert (Es : sub (P k i) m' = sub (P k D') m').
        { pose proof (sub_P_le k D' i m' ltac:(lia)) as Q1.
          destruct (sub (P k i) m') as [|e1 [|]] eqn:E1; [congruence| |cbn [length] in *; lia].
          symmetry. apply length_one; [|exact LE]. apply (sub_P_in k D' i); [lia|]. rewrite E1. left. reflexivity. }
        assert (Gm' : good H U m') by exact G'.
        apply (No (Some (prim (nd (P k D') m')))). apply some_writes_in. exists D'. split; [lia|]. split; [rewrite <- Es; exact NE|].
        unfold SparseProofs.nw. f_equal. rewrite <- !(nd_hash H U HZ) by exact Gm'.
        destruct (sub (P k D') m') as [|[k1 h1] [|]] eqn:E1; [congruence| |cbn [length] in LE; lia].
        rewrite (nd_one H _ _ _ _ E1), (nd_one H _ _ _ _ Es). reflexivity.
Qed.

Lemma delete_empty : forall k t, core H U Ks view [] t -> sp_delete H pr st k t = (t, Val (Ok tt)).
Proof.
  intros k [rn s] C. pose proof (core_root _ _ _ _ _ _ C) as R. cbn [sp_root_node] in R. subst rn.
  unfold sp_delete, bind at 1, get_state, sp_root. cbn [sp_root_node]. rewrite (nd_hash H U HZ) by apply C. reflexivity.
Qed.

Lemma disk_delete : forall k m d t, dinv (m, d) t -> Ks k -> fresh H U k -> good H U (digests H (fst (replay_op H (m, d) (Delete k)))) ->
  exists t' r, sp_delete H pr st k t = (t', Val r) /\
    ((r = Ok tt /\ dinv (replay_op H (m, d) (Delete k)) t') \/
     (exists e, r = Err e /\ storage_error e /\ ~ Infallible st)).
Proof.
  intros k m d t [N C Sd Ex] Kk Fr G'. cbn [fst snd] in *.
  assert (Same : forall t', sp_root_node t' = sp_root_node t -> (forall k', V t' k' = V t k') -> dinv (m, d) t').
  { intros t' Rt Vs. constructor; cbn [fst snd]; auto.
    - destruct C as [Rn So G Us]. constructor; auto; [congruence|apply (sound_ext H U (V t)); auto|]. intros k' K' F'. rewrite Vs. apply Us; assumption.
    - apply (stored_ext H _ (V t)); auto.
    - intros k'. rewrite Vs. apply Ex. }
  destruct m as [|e0 m0].
  { exists t, (Ok tt). split; [apply delete_empty; exact C|]. left. split; [reflexivity|]. apply Same; auto. }
  destruct (d k) as [ek|] eqn:Dk.
  2:{ destruct (delete_none H pr st view Law k t ltac:(rewrite Ex; exact Dk)) as (t' & r & A & Rt & Vs & R).
      exists t', r. split; [exact A|]. destruct R as [->|(e & -> & F)].
      - left. split; [reflexivity|]. cbn [replay_op]. rewrite Dk. apply Same; auto.
      - right. exists (SStorageError e). split; [reflexivity|]. split; [left; eauto|exact F]. }
  cbn [replay_op] in *. rewrite Dk in *. cbn [fst] in G'. set (m := e0 :: m0) in *. set (m' := without_landing k m) in *.
  destruct (lands_exists k (digests H m)) as [D La]; [apply C|].
  pose proof (cut_landing H k m D N La) as Ec. fold (without_landing k m) in Ec. fold m' in Ec.
  assert (N' : NoDup (keys m')) by (apply without_nodup; exact N).
  destruct (delete_ok H U HZ pr st view Law k (digests H m) D t La (core_good _ _ _ _ _ _ C) ltac:(rewrite Ec; exact G')
    (core_sound _ _ _ _ _ _ C) (core_root _ _ _ _ _ _ C) (core_users _ _ _ _ _ _ C k Kk Fr)) as (t' & r & A & R).
  destruct (delete_step H U Ks HC HZ pr st view Law k (digests H m) D t C Kk Fr La ltac:(rewrite Ec; exact G')) as (t2 & r2 & A2 & R2 & _).
  rewrite A in A2. injection A2 as <- <-. exists t', r. split; [exact A|].
  destruct R2 as [(-> & _ & [Z|Z] & _)|[(-> & _ & C' & S')|(e & -> & _ & Er)]].
  - discriminate Z.
  - rewrite Ex in Z. congruence.
  - left. split; [reflexivity|]. rewrite Ec in C', S'. specialize (S' Sd).
    destruct R as [(_ & _ & _ & [Z|Z])|[(_ & _ & _ & _ & L & VL & WL)|(e & Q & _)]]; [discriminate Z|rewrite Ex in Z; congruence| |discriminate].
    constructor; cbn [fst snd]; auto.
    destruct (lands_exists k (digests H m')) as [D' La']; [apply G'|].
    rewrite (path_met k m D N La), (path_met k m' D' N' La'), put_path_wr, drop_path_wr. intros x.
    destruct (wr_cases (some_writes (map (met k (digests H m')) (seq 0 (S D'))))
      (wr (map (fun x => (fst x, None)) (map (met k (digests H m)) (seq 0 (S D)))) d) x) as [(o & Io & ->)|[No ->]].
    + apply some_writes_in in Io. destruct Io as (j & Lj & NE & Q). unfold SparseProofs.nw in Q. injection Q as -> ->. apply S'. exact NE.
    + rewrite VL, wr_app. destruct (wr_cases L (wr (map (rm H k (digests H m)) (down (S D))) (V t)) x) as [(o & Io & _)|[_ ->]].
      * exfalso. apply WL in Io. destruct Io as (i & Li & L2 & W). rewrite Ec in L2, W. apply (No o). rewrite W. apply some_writes_in.
        exists i. split; [|split; [|reflexivity]].
        -- destruct (Nat.le_gt_cases i D') as [|B]; auto. exfalso. destruct La' as (_ & _ & LE').
           pose proof (sub_P_le k D' i (digests H m') ltac:(lia)). lia.
        -- intros Q. rewrite Q in L2. cbn [length] in L2. lia.
      * rewrite !wr_none.
        -- assert (Q : existsb (fun y : bytes32 * option SPrimitive => b32_eqb x (fst y)) (map (rm H k (digests H m)) (down (S D))) =
             existsb (fun y : bytes32 * option SPrimitive => b32_eqb x (fst y)) (map (fun y => (fst y, None)) (map (met k (digests H m)) (seq 0 (S D))))).
           { apply Bool.eq_iff_eq_true. rewrite !existsb_exists. rewrite map_map. split.
             - intros (w & Iw & Q). apply in_map_iff in Iw. destruct Iw as (i & <- & Ii). apply down_in in Ii.
               exists (T (P k i) (digests H m), None). split; [|exact Q]. apply in_map_iff. exists i. split; [reflexivity|]. apply in_seq. lia.
             - intros (w & Iw & Q). apply in_map_iff in Iw. destruct Iw as (i & <- & Ii). apply in_seq in Ii.
               exists (rm H k (digests H m) i). split; [|exact Q]. apply in_map. apply down_in. lia. }
           rewrite Q. rewrite Ex. reflexivity.
        -- intros w Iw. rewrite map_map in Iw. apply in_map_iff in Iw. destruct Iw as (i & <- & _). reflexivity.
        -- intros w Iw. apply in_map_iff in Iw. destruct Iw as (i & <- & _). reflexivity.
  - right. exists e. split; [reflexivity|]. destruct Er as [Er|X]; [exact Er|]. exfalso. revert X. apply stored_not_missing. exact Sd.
Qed.

Lemma disk_step : forall o x t, dinv x t -> Ks (op_key o) -> fresh H U (op_key o) -> good H U (digests H (fst (replay_op H x o))) ->
  exists t' r, sp_apply H pr st o t = (t', Val r) /\
    ((r = Ok tt /\ dinv (replay_op H x o) t') \/ (exists e, r = Err e /\ storage_error e /\ ~ Infallible st)).
Proof.
  intros [k [|b v]|k] [m d] t W Ko Fr G; cbn [sp_apply op_key] in *.
  - rewrite update_nil. apply disk_delete; auto.
  - apply disk_update; auto.
  - apply disk_delete; auto.
Qed.

Lemma replay_nodup : forall x o, NoDup (keys (fst x)) -> NoDup (keys (fst (replay_op H x o))).
Proof.
  intros [m d] [k [|b v]|k] N; cbn [replay_op fst] in *.
  - destruct m; [exact N|]. destruct (d k); [apply without_nodup; exact N|exact N].
  - apply mset_nodup. exact N.
  - destruct m; [exact N|]. destruct (d k); [apply without_nodup; exact N|exact N].
Qed.

Lemma disk_run : forall os x t, dinv x t -> (forall o, In o os -> Ks (op_key o)) -> (forall o, In o os -> fresh H U (op_key o)) ->
  (forall m, In m (trail H x os) -> NoDup (keys m) -> good H U (digests H m)) ->
  exists t' r, sp_run H pr st os t = (t', Val r) /\
    ((r = Ok tt /\ dinv (fold_left (replay_op H) os x) t') \/ (exists e, r = Err e /\ storage_error e /\ ~ Infallible st)).
Proof.
  induction os as [|o os IH]; intros x t W Kr Fr Gm; [exists t, (Ok tt); split; [reflexivity|left; auto]|].
  assert (Hd : forall y, In (fst y) (trail H y os)) by (intros y; destruct os; left; reflexivity).
  destruct (disk_step o x t W) as (t1 & r1 & A & R).
  { apply Kr. left. reflexivity. }
  { apply Fr. left. reflexivity. }
  { apply Gm; [right; apply Hd|]. apply replay_nodup. apply W. }
  cbn [sp_run fold_left]. unfold bind_try, bind. rewrite A. destruct R as [(-> & W1)|(e & -> & Se)].
  - apply IH; auto; [intros o' Io; apply Kr; right; exact Io|intros o' Io; apply Fr; right; exact Io|]. intros m Im. apply Gm. right. exact Im.
  - exists t1, (Err e). split; [reflexivity|]. right. eauto.
Qed.
End WithU.

Lemma clean_replay : Infallible st -> forall U, ~ has_collision H U -> (forall x, In x U -> H x <> zero32) ->
  forall os m w d t, winv H U view m w t -> dinv U anyk (m, d) t -> (forall o, In o os -> fresh H U (op_key o)) ->
  (forall m0, In m0 (maps m os) -> NoDup (keys m0) -> good H U (digests H m0)) -> clean m w os ->
  fst (fold_left (replay_op H) os (m, d)) = fold_left apply_op os m /\ trail H (m, d) os = maps m os.
Proof.
  intros Inf U HC HZ. induction os as [|o os IH]; intros m w d t W Di Fr Gm Cl; [split; reflexivity|].
  cbn [clean] in Cl. destruct Cl as [Co Cl].
  assert (Eq : fst (replay_op H (m, d) o) = apply_op m o).
  { assert (De : forall k, fresh H U k -> In k (keys m) \/ ~ In k w -> fst (replay_op H (m, d) (Delete k)) = mdel k m).
    { intros k Fk Ck. cbn [replay_op]. destruct (in_dec b32_eq_dec k (keys m)) as [Ik|Nk].
      - pose proof (wi_has _ _ _ _ _ _ W k Ik Fk) as Vk. rewrite (di_exact U anyk _ _ Di) in Vk. cbn [snd] in Vk.
        destruct m as [|e0 m0]; [destruct Ik|]. destruct (d k) eqn:Q; [|destruct Vk; reflexivity]. cbn [fst]. unfold without_landing.
        rewrite (landing_present H k _ (wi_nodup _ _ _ _ _ _ W) Ik). reflexivity.
      - destruct Ck as [Ck|Ck]; [contradiction|].
        pose proof (wi_unwritten _ _ _ _ _ _ W k Fk Ck) as Vk. rewrite (di_exact U anyk _ _ Di) in Vk. cbn [snd] in Vk. rewrite Vk.
        rewrite mdel_notin by exact Nk. destruct m; reflexivity. }
    pose proof (Fr o (or_introl eq_refl)) as Fo.
    destruct o as [k [|b v]|k]; cbn [apply_op op_key] in *; [apply De; auto|reflexivity|apply De; auto]. }
  assert (Go : good H U (digests H (apply_op m o))).
  { apply Gm; [right; destruct os; left; reflexivity|]. apply apply_nodup, W. }
  destruct (op_step H U HC HZ pr st view Law o m w t W (Fr o (or_introl eq_refl)) ltac:(destruct o as [? [|]|]; exact Co) Go) as (t1 & r1 & A1 & R & _).
  destruct (disk_step U anyk HC HZ o (m, d) t Di Logic.I (Fr o (or_introl eq_refl)) ltac:(rewrite Eq; exact Go)) as (t2 & r2 & A2 & R2).
  rewrite A1 in A2. injection A2 as <- <-.
  destruct R2 as [(-> & Di')|(e & _ & _ & F)]; [|contradiction].
  destruct R as [(_ & W' & _)|(e & Q & _)]; [|discriminate].
  cbn [fold_left trail maps fst]. destruct (replay_op H (m, d) o) as [m' d'] eqn:Q. cbn [fst] in Eq. subst m'.
  destruct (IH _ _ _ _ W' Di') as [Q1 Q2]; auto.
  - intros o' Io. apply Fr. right. exact Io.
  - intros m0 I0. apply Gm. right. exact I0.
  - rewrite Q1, Q2. auto.
Qed.

Definition wrote (k : bytes32) (w : option (list byte)) (o : sp_op) : option (list byte) :=
  match o with Update k' (b :: v) => if b32_eqb k' k then Some (b :: v) else w | _ => w end.
Definition key_entry (k : bytes32) (w : option (list byte)) : option entry :=
  match w with Some v => Some (0, x00, k, H v) | None => None end.

Lemma key_entries : forall U, ~ has_collision H U -> (forall x, In x U -> H x <> zero32) ->
  forall os m w t t' f, winv H U view m w t -> (forall k, fresh H U k -> V t k = key_entry k (f k)) ->
  (forall o, In o os -> fresh H U (op_key o)) ->
  (forall m0, In m0 (maps m os) -> NoDup (keys m0) -> good H U (digests H m0)) -> clean m w os ->
  sp_run H pr st os t = (t', Val (Ok tt)) ->
  forall k, fresh H U k -> V t' k = key_entry k (fold_left (wrote k) os (f k)).
Proof.
  intros U HC HZ. induction os as [|o os IH]; intros m w t t' f W F Fr Gm Cl R k Fk.
  - cbn [sp_run ret] in R. injection R as <-. apply F. exact Fk.
  - cbn [clean] in Cl. destruct Cl as [Co Cl].
    assert (Go : good H U (digests H (apply_op m o))).
    { apply Gm; [right; destruct os; left; reflexivity|]. apply apply_nodup, W. }
    destruct (op_step H U HC HZ pr st view Law o m w t W (Fr o (or_introl eq_refl)) ltac:(destruct o as [? [|]|]; exact Co) Go) as (t1 & r1 & A1 & Rr & _).
    cbn [sp_run] in R. unfold bind_try, bind in R. rewrite A1 in R.
    destruct Rr as [(-> & W1 & _)|(e & -> & _)]; [|discriminate R].
    cbn [fold_left].
    apply (IH _ _ _ _ (fun k => wrote k (f k) o) W1); auto.
    + intros k' Fk'. clear R IH Fk k. pose proof (Fr o (or_introl eq_refl)) as Fo.
      assert (De : forall k, fresh H U k -> In k (keys m) \/ ~ In k w -> good H U (digests H (mdel k m)) ->
        sp_delete H pr st k t = (t1, Val (Ok tt)) -> V t1 k' = V t k').
      { intros k Fk Ck Gk Dk. destruct (clean_delete H U HC HZ pr st view Law k m w t W Fk Ck Gk) as (t2 & r2 & D2 & _ & Vf).
        rewrite Dk in D2. injection D2 as <- <-. apply Vf. exact Fk'. }
      destruct o as [k [|b v]|k]; cbn [sp_apply op_key apply_op wrote] in *.
      * rewrite update_nil in A1. rewrite (De k) by auto. apply F. exact Fk'.
      * rewrite digests_mset in Go.
        destruct (update_step H U anyk HC HZ pr st view Law k (b :: v) (digests H m) t ltac:(discriminate) (wi_core _ _ _ _ _ _ W) Go Logic.I Fo) as (t2 & r2 & A2 & R2 & Vo & _).
        rewrite A1 in A2. injection A2 as <- <-. destruct R2 as [(_ & _ & Vk & _)|(e & Q & _)]; [|discriminate].
        destruct (b32_eqb k k') eqn:Q; [apply b32_eqb_eq in Q; subst k'; exact Vk|].
        rewrite Vo; [apply F; exact Fk'|exact Fk'|]. intros ->. rewrite b32_eqb_refl in Q. discriminate.
      * rewrite (De k) by auto. apply F. exact Fk'.
    + intros o' Io. apply Fr. right. exact Io.
    + intros m0 I0. apply Gm. right. exact I0.
Qed.

Opaque path_in.
(** Whatever the replay puts on the disk is the leaf of an update, under its key, or a node. *)
Lemma replay_origin : forall os x h e, snd (fold_left (replay_op H) os x) h = Some e ->
  snd x h = Some e \/ (exists v, In (Update h v) os /\ e = (0, x00, h, H v)) \/
  exists m k, In m (trail H x os) /\ In (h, Some e) (path_in H k m).
Proof.
  induction os as [|o os IH]; intros [m d] h e Q; [left; exact Q|]. cbn [fold_left] in Q.
  destruct (IH _ _ _ Q) as [X|[(v & I & ->)|(m1 & k & I & J)]]; [|right; left; exists v; split; [right; exact I|reflexivity]|right; right; exists m1, k; split; [right; exact I|exact J]].
  clear Q. assert (Hd : forall y, In (fst y) (trail H y os)) by (intros y; destruct os; left; reflexivity).
  assert (Pp : forall p d0, put_path p d0 h = Some e -> In (h, Some e) p \/ d0 h = Some e).
  { intros p d0 Q. rewrite put_path_wr in Q. destruct (wr_cases (some_writes p) d0 h) as [(o' & Io & Eo)|[_ Eo]]; rewrite Eo in Q; [|right; exact Q].
    left. subst o'. unfold some_writes in Io. apply in_flat_map in Io. destruct Io as ([h' [e'|]] & Ip & Iw); [|destruct Iw].
    destruct Iw as [Iw|[]]. cbn [fst] in Iw. injection Iw as -> ->. exact Ip. }
  assert (Dp : forall p d0, drop_path p d0 h = Some e -> d0 h = Some e).
  { intros p d0 Q. rewrite drop_path_wr in Q. rewrite wr_none in Q; [|intros y Iy; apply in_map_iff in Iy; destruct Iy as (z & <- & _); reflexivity].
    destruct (existsb _ _) in Q; [discriminate|exact Q]. }
  pose proof (Hd (replay_op H (m, d) o)) as Hm.
  assert (De : forall k, replay_op H (m, d) o = replay_op H (m, d) (Delete k) -> snd (m, d) h = Some e \/
    (exists v, In (Update h v) (o :: os) /\ e = (0, x00, h, H v)) \/ exists m1 k1, In m1 (trail H (m, d) (o :: os)) /\ In (h, Some e) (path_in H k1 m1)).
  { intros k Eq. assert (Q : snd (m, d) h = Some e \/ In (h, Some e) (path_in H k (fst (replay_op H (m, d) o)))).
    { rewrite Eq in X |- *. cbn [replay_op] in X |- *. destruct m as [|e0 m0]; [left; exact X|]. destruct (d k); [|left; exact X].
      cbn [snd fst] in X |- *. destruct (Pp _ _ X) as [J|J]; [right; exact J|left; exact (Dp _ _ J)]. }
    destruct Q as [Q|Q]; [left; exact Q|]. right. right. eexists _, k. split; [|exact Q]. right. exact Hm. }
  destruct o as [k [|b v]|k]; [apply (De k); reflexivity| |apply (De k); reflexivity].
  cbn [replay_op snd] in X. destruct (Pp _ _ X) as [J|J].
  - right. right. eexists _, k. split; [|exact J]. right. exact Hm.
  - unfold put in J. destruct (b32_eqb h k) eqn:Q; [|left; exact J]. apply b32_eqb_eq in Q. subst k.
    right. left. exists (b :: v). split; [left; reflexivity|]. congruence.
Qed.

Theorem C89_lemma : forall os s0, (forall k, view s0 k = None) -> hash_ok H (map op_key os) (trail H nothing os) ->
  exists t r, sp_run H pr st os (sp_new s0) = (t, Val r) /\
    ((r = Ok tt /\ sp_root H t = kv_root H (fst (replay H os)) /\ forall k, view (sp_storage t) k = snd (replay H os) k) \/
     (exists e, r = Err e /\ storage_error e /\ ~ Infallible st)).
Proof.
  intros os s0 Em Ok0. destruct (setup H _ _ Ok0) as (HC & HZ & Fr & Gd). set (U := universe H _) in *.
  destruct (winv_new H view U s0 Em) as (W & S0 & _).
  assert (W0 : dinv U anyk nothing (sp_new s0)).
  { constructor; cbn [fst snd nothing]; auto; apply W. }
  destruct (disk_run U anyk HC HZ os nothing (sp_new s0) W0) as (t & r & A & R); auto.
  { intros o _. exact Logic.I. }
  { intros o Io. apply Fr. apply in_map. exact Io. }
  exists t, r. split; [exact A|]. destruct R as [(-> & W1)|R]; [left|right; exact R].
  split; [reflexivity|]. split; [|apply W1]. apply (core_kv_root H view U HZ). apply W1.
Qed.
End Run.

Theorem C89_clean_lemma : forall os, clean [] [] os -> hash_ok H (map op_key os) (maps [] os) ->
  fst (replay H os) = final os /\ trail H nothing os = maps [] os.
Proof.
  intros os Cl Ok0. destruct (setup H _ _ Ok0) as (HC & HZ & Fr & Gd). set (U := universe H _) in *.
  pose proof (StorageMap_lawful (V := SPrimitive) b32_eqb b32_eqb_eq) as Law.
  set (sview := smap_lookup b32_eqb) in *.
  destruct (winv_new H sview U smap_new ltac:(reflexivity)) as (W & S0 & _).
  assert (W0 : dinv sview U anyk nothing (sp_new smap_new)).
  { constructor; cbn [fst snd nothing]; auto; apply W. }
  apply (clean_replay Debug _ sview Law (StorageMap_infallible b32_eqb) U HC HZ os [] [] _ (sp_new smap_new) W W0); auto.
  intros o Io. apply Fr. apply in_map. exact Io.
Qed.

(** * C90 *)
Theorem C90_lemma : forall pr St E (st : StorageT St bytes32 SPrimitive E) view, Lawful st view ->
  forall os s0 t, (forall k, view s0 k = None) -> clean [] [] os -> hash_ok H (map op_key os) (maps [] os) ->
  sp_run H pr st os (sp_new s0) = (t, Val (Ok tt)) ->
  (forall k, In k (map op_key os) ->
     view (sp_storage t) k = match last_write k os with Some v => Some (0, x00, k, H v) | None => None end) /\
  (forall h e, ~ In h (map op_key os) -> view (sp_storage t) h = Some e ->
     exists m k, In m (maps [] os) /\ In (h, Some e) (path_in H k m)).
Proof.
  intros pr St E st view Law os s0 t Em Cl Ok0 R. split.
  - intros k Ik. destruct (setup H _ _ Ok0) as (HC & HZ & Fr & Gd).
    destruct (winv_new H view (universe H (maps [] os)) s0 Em) as (W & _ & _).
    assert (F0 : forall k, fresh H (universe H (maps [] os)) k -> view (sp_storage (sp_new s0)) k = key_entry k None) by (intros k' _; apply Em).
    assert (F1 : forall o, In o os -> fresh H (universe H (maps [] os)) (op_key o)) by (intros o Io; apply Fr; apply in_map; exact Io).
    exact (key_entries pr st view Law _ HC HZ os [] [] (sp_new s0) t (fun _ => None) W F0 F1 Gd Cl R k (Fr k Ik)).
  - intros h e Nh Vh. destruct (C89_clean_lemma os Cl Ok0) as [_ Tr].
    destruct (C89_lemma pr st view Law os s0 Em ltac:(rewrite Tr; exact Ok0)) as (t' & r & R' & C).
    rewrite R in R'. injection R' as <- <-. destruct C as [(_ & _ & Ex)|(e' & Q & _)]; [|discriminate].
    rewrite Ex in Vh. destruct (replay_origin _ _ _ _ Vh) as [Q|[(v & I & _)|(m & k & I & J)]]; [discriminate Q| |].
    + exfalso. apply Nh. apply in_map_iff. exists (Update h v). auto.
    + exists m, k. rewrite Tr in I. auto.
Qed.
End Disk.
