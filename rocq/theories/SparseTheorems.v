(** SparseTheorems.v -- the properties of the sparse tree, from the steps of SparseMain.v. *)
From Verif Require Import Base Storage ModelText ModelCommon ModelSparse SpecBits SpecBinary SpecSparse RunsSparse
  SpecPosition BindingProofs BitsProofs PositionProofs CommonProofs StorageProofs
  SparseSpecFacts SparseNodes SparseProofs SparseOps SparseSteps SparseMain.
From Coq Require Import Arith ZifyBool ZifyNat ZifyN Permutation.
Ltac Zify.zify_post_hook ::= Z.div_mod_to_equations.

(** * Lists of operations *)
Lemma fold_nodup : forall os m, NoDup (keys m) -> NoDup (keys (fold_left apply_op os m)).
Proof. induction os as [|o os IH]; intros m N; cbn [fold_left]; auto using apply_nodup. Qed.
Lemma final_nodup : forall os, NoDup (keys (final os)).
Proof. intros os. apply fold_nodup. constructor. Qed.
Lemma final_app : forall os os', final (os ++ os') = fold_left apply_op os' (final os).
Proof. intros os os'. unfold final. apply fold_left_app. Qed.
Lemma written_app : forall os os', written (os ++ os') = written os ++ written os'.
Proof. intros os os'. unfold written. rewrite map_app, concat_app. reflexivity. Qed.

Lemma apply_keys : forall o m k, In k (keys (apply_op m o)) -> In k (op_writes o ++ keys m).
Proof.
  intros [k' [|b v]|k'] m k Ik; cbn [apply_op op_writes app] in *.
  - apply mdel_keys in Ik. tauto.
  - destruct Ik as [<-|Ik]; [left; reflexivity|right]. apply mdel_keys in Ik. tauto.
  - apply mdel_keys in Ik. tauto.
Qed.
Lemma fold_keys : forall os m k, In k (keys (fold_left apply_op os m)) -> In k (written os ++ keys m).
Proof.
  induction os as [|o os IH]; intros m k Ik; cbn [fold_left] in *; auto.
  apply IH in Ik. apply in_app_or in Ik. unfold written in *. cbn [map concat]. rewrite <- app_assoc.
  destruct Ik as [Ik|Ik]; [|apply apply_keys in Ik]; rewrite !in_app_iff in *; tauto.
Qed.
Lemma final_keys : forall os k, In k (keys (final os)) -> In k (written os).
Proof. intros os k Ik. apply fold_keys in Ik. rewrite app_nil_r in Ik. exact Ik. Qed.

Lemma clean_incl : forall os m w w', (forall k, In k w' -> In k w) -> clean m w os -> clean m w' os.
Proof.
  induction os as [|o os IH]; intros m w w' I; cbn [clean]; auto. intros [A B]. split.
  - destruct o as [k [|b v]|k]; auto; destruct A as [A|A]; [left; exact A|right; intros C; apply A; auto|left; exact A|right; intros C; apply A; auto].
  - apply (IH _ (op_writes o ++ w)); auto. intros k. rewrite !in_app_iff. intros [C|C]; auto.
Qed.
Lemma clean_app : forall os os' m w, clean m w (os ++ os') <-> clean m w os /\ clean (fold_left apply_op os m) (written os ++ w) os'.
Proof.
  induction os as [|o os IH]; intros os' m w; cbn [app clean fold_left]; [cbn; tauto|].
  rewrite IH. assert (Q : forall m, clean m (written os ++ op_writes o ++ w) os' <-> clean m (written (o :: os) ++ w) os').
  { intros m0. split; apply clean_incl; intros k; unfold written; cbn [map concat]; rewrite !in_app_iff; tauto. }
  rewrite Q. tauto.
Qed.
Lemma clean_final : forall os os', clean [] [] (os ++ os') <-> clean [] [] os /\ clean (final os) (written os) os'.
Proof. intros os os'. rewrite clean_app, app_nil_r. reflexivity. Qed.

Lemma maps_app : forall os os' m m0, In m0 (maps m (os ++ os')) <-> In m0 (maps m os) \/ In m0 (maps (fold_left apply_op os m) os').
Proof.
  induction os as [|o os IH]; intros os' m m0; cbn [app maps fold_left].
  - destruct os'; cbn [maps In]; tauto.
  - cbn [In]. rewrite IH. tauto.
Qed.
Lemma maps_last : forall os m, In (fold_left apply_op os m) (maps m os).
Proof. induction os as [|o os IH]; intros m; cbn [maps fold_left]; [left; reflexivity|right; apply IH]. Qed.
Lemma maps_nodup : forall os m m0, NoDup (keys m) -> In m0 (maps m os) -> NoDup (keys m0).
Proof.
  induction os as [|o os IH]; intros m m0 N; cbn [maps In]; [intros [<-|[]]; exact N|].
  intros [<-|Im]; [exact N|]. exact (IH (apply_op m o) m0 (apply_nodup o m N) Im).
Qed.
Lemma outcomes_nodup : forall os m m0, NoDup (keys m) -> In m0 (outcomes m os) -> NoDup (keys m0).
Proof.
  induction os as [|o os IH]; intros m m0 N; cbn [outcomes In]; [intros [<-|[]]; exact N|].
  intros [<-|Im]; [exact N|]. apply in_app_or in Im. destruct Im as [Im|Im]; [exact (IH m m0 N Im)|].
  exact (IH (apply_op m o) m0 (apply_nodup o m N) Im).
Qed.
Lemma outcomes_here : forall os m, In m (outcomes m os).
Proof. intros [|o os] m; left; reflexivity. Qed.

Lemma mdel_mdel : forall V k (m : list (bytes32 * V)), mdel k (mdel k m) = mdel k m.
Proof. intros V k m. apply mdel_notin. intros C. apply mdel_keys in C. tauto. Qed.
Lemma mdel_mset : forall V k v (m : list (bytes32 * V)), mdel k (mset k v m) = mdel k m.
Proof. intros V k v m. unfold mset. cbn [mdel filter fst]. rewrite b32_eqb_refl. cbn [negb]. apply mdel_mdel. Qed.
Lemma mset_mset : forall V k v v' (m : list (bytes32 * V)), mset k v' (mset k v m) = mset k v' m.
Proof. intros V k v v' m. unfold mset at 1. rewrite mdel_mset. reflexivity. Qed.
Lemma apply_update : forall k v m, v <> [] -> apply_op m (Update k v) = mset k v m.
Proof. intros k [|b v] m N; [congruence|reflexivity]. Qed.

Lemma agree_sub : forall V d k (l : list (bytes32 * V)), (d <= KB)%nat -> agree d k l = sub (P k d) l.
Proof.
  intros V d k l L. induction d as [|d IH]; cbn [agree]; [symmetry; apply sub_root|].
  rewrite IH by lia. rewrite P_S by lia. rewrite <- (sub_snoc (P k d) (kbit k d) l) by (rewrite P_length; lia).
  rewrite P_length by lia. reflexivity.
Qed.

(** * Hash assumptions *)
Section Setup.
Variable H : list byte -> bytes32.

Definition universe (ms : list kvmap) : list (list byte) := concat (map (kv_inputs H) ms).

Lemma I_kv : forall m, I H [] (digests H m) = kv_inputs H m.
Proof. intros m. rewrite I_root, KB_eq. unfold kv_inputs. change (8 * 32)%nat with 256%nat. reflexivity. Qed.
Lemma T_kv : forall m, T H [] (digests H m) = kv_root H m.
Proof. intros m. rewrite T_root, KB_eq. unfold kv_root. change (8 * 32)%nat with 256%nat. reflexivity. Qed.

Lemma setup : forall ks ms, hash_ok H ks ms -> let U := universe ms in
  ~ has_collision H U /\ (forall x, In x U -> H x <> zero32) /\ (forall k, In k ks -> fresh H U k) /\
  (forall m, In m ms -> NoDup (keys m) -> good H U (digests H m)).
Proof.
  intros ks ms (HC & HZ & HK & HD) U. split; [exact HC|]. split; [exact HZ|]. split.
  - intros k Ik x Ix. exact (HK k x Ik Ix).
  - intros m Im N. constructor.
    + rewrite keys_digests. exact N.
    + rewrite I_kv. intros x Ix. unfold U, universe. apply in_concat. exists (kv_inputs H m). split; [|exact Ix].
      apply in_map. exact Im.
    + intros k h Ik. unfold digests in Ik. apply in_map_iff in Ik. destruct Ik as (e & Q & Ie). injection Q as _ <-.
      exact (HD m e Im Ie).
Qed.

Lemma hash_ok_incl : forall ks ms ks' ms', (forall k, In k ks' -> In k ks) -> (forall m, In m ms' -> In m ms) ->
  hash_ok H ks ms -> hash_ok H ks' ms'.
Proof.
  intros ks ms ks' ms' Ik Im (HC & HZ & HK & HD).
  assert (Iu : forall x, In x (concat (map (kv_inputs H) ms')) -> In x (concat (map (kv_inputs H) ms))).
  { intros x Ix. apply in_concat in Ix. destruct Ix as (l & Il & Ix). apply in_map_iff in Il. destruct Il as (m & <- & Jm).
    apply in_concat. exists (kv_inputs H m). split; [apply in_map; auto|exact Ix]. }
  split; [|split; [|split]]; auto.
  - intros (x & y & Ix & Iy & Q). apply HC. exists x, y. auto.
  - intros m e Jm. apply HD. auto.
Qed.
End Setup.

Section Theorems.
Variable H : list byte -> bytes32.
Variable pr : profile.
Context {St E : Type}.
Variable st : StorageT St bytes32 SPrimitive E.
Variable view : St -> bytes32 -> option SPrimitive.
Hypothesis Law : Lawful st view.
Notation V t := (view (sp_storage t)).

Section WithU.
Variable U : list (list byte).
Hypothesis HC : ~ has_collision H U.
Hypothesis HZ : forall x, In x U -> H x <> zero32.

Lemma good_nil : good H U [].
Proof. constructor; [constructor|intros x []|intros k h []]. Qed.
Lemma winv_new : forall s0, (forall k, view s0 k = None) ->
  winv H U view [] [] (sp_new s0) /\ stored H (digests H []) (view s0) /\ exact H U [] (view s0).
Proof.
  intros s0 Em. split; [|split].
  - constructor.
    + constructor.
    + constructor; cbn [sp_root_node sp_storage sp_new].
      * symmetry. apply nd_nil. reflexivity.
      * apply sound_empty. exact Em.
      * exact good_nil.
      * intros k _ F. left. apply Em.
    + intros k [].
    + intros k F _. apply Em.
  - intros p NE. exfalso. apply NE. reflexivity.
  - intros k d [].
Qed.
Lemma core_kv_rootK : forall Ks m t, core H U Ks view (digests H m) t -> sp_root H t = kv_root H m.
Proof. intros Ks m t C. unfold sp_root. rewrite (core_root _ _ _ _ _ _ C), (nd_hash H U HZ) by apply C. apply T_kv. Qed.
Lemma core_kv_root : forall m t, core H U anyk view (digests H m) t -> sp_root H t = kv_root H m.
Proof. exact (core_kv_rootK anyk). Qed.
End WithU.

(** A clean history from an empty storage. *)
Lemma run_new : forall ks ms os s0, hash_ok H ks ms -> (forall k, In k (map op_key os) -> In k ks) ->
  (forall m, In m (maps [] os) -> In m ms) -> (forall k, view s0 k = None) -> clean [] [] os ->
  exists t r, sp_run H pr st os (sp_new s0) = (t, Val r) /\
  ((r = Ok tt /\ winv H (universe H ms) view (final os) (written os) t /\
    stored H (digests H (final os)) (V t) /\ exact H (universe H ms) (final os) (V t)) \/
   (exists e, r = Err e /\ storage_error e /\ ~ Infallible st)).
Proof.
  intros ks ms os s0 Ok0 Ik Im Em Cl. destruct (setup H ks ms Ok0) as (HC & HZ & Fr & Gd).
  destruct (winv_new (universe H ms) s0 Em) as (W & S0 & E0).
  destruct (run_clean H _ HC HZ pr st view Law os [] [] (sp_new s0) W S0 E0) as (t & r & -> & R); auto.
  - intros o Io. apply Fr, Ik. apply in_map. exact Io.
  - exists t, r. split; [reflexivity|]. rewrite app_nil_r in R. exact R.
Qed.
Lemma run_new_ok : forall ks ms os s0 t, hash_ok H ks ms -> (forall k, In k (map op_key os) -> In k ks) ->
  (forall m, In m (maps [] os) -> In m ms) -> (forall k, view s0 k = None) -> clean [] [] os ->
  sp_run H pr st os (sp_new s0) = (t, Val (Ok tt)) ->
  winv H (universe H ms) view (final os) (written os) t /\
    stored H (digests H (final os)) (V t) /\ exact H (universe H ms) (final os) (V t).
Proof.
  intros ks ms os s0 t Ok0 Ik Im Em Cl R. destruct (run_new ks ms os s0 Ok0 Ik Im Em Cl) as (t1 & r1 & R1 & C).
  rewrite R in R1. injection R1 as <- <-. destruct C as [(_ & C)|(e & Q & _)]; [exact C|discriminate].
Qed.

Lemma run_app : forall os os' t, sp_run H pr st (os ++ os') t =
  bind_try (sp_run H pr st os) (fun _ => sp_run H pr st os') t.
Proof.
  induction os as [|o os IH]; intros os' t; [reflexivity|]. cbn [app sp_run]. unfold bind_try, bind in *.
  destruct (sp_apply H pr st o t) as [t1 [[[]|e]| |]]; auto.
Qed.

(** * C29 *)
Theorem C29_lemma : Infallible st -> forall os s0, (forall k, view s0 k = None) -> clean [] [] os ->
  hash_ok H (map op_key os) (maps [] os) ->
  exists t, sp_run H pr st os (sp_new s0) = (t, Val (Ok tt)) /\ sp_root H t = kv_root H (final os).
Proof.
  intros Inf os s0 Em Cl Ok0. destruct (run_new _ _ os s0 Ok0 (fun k Ik => Ik) (fun m Im => Im) Em Cl) as (t & r & -> & R).
  destruct R as [(-> & W & _)|(e & _ & _ & F)]; [|contradiction]. exists t. split; [reflexivity|].
  destruct (setup H _ _ Ok0) as (HC & HZ & _). apply (core_kv_root _ HZ). apply W.
Qed.

(** * C32 *)
Theorem C32_lemma : Infallible st -> forall os s0 k v1 v2, (forall k, view s0 k = None) -> v1 <> [] -> v2 <> [] ->
  clean [] [] os -> hash_ok H (k :: map op_key os) (maps [] (os ++ [Update k v1; Update k v2])) ->
  exists t t', sp_run H pr st (os ++ [Update k v1; Update k v2]) (sp_new s0) = (t, Val (Ok tt)) /\
    sp_run H pr st (os ++ [Update k v2]) (sp_new s0) = (t', Val (Ok tt)) /\ sp_root H t = sp_root H t'.
Proof.
  intros Inf os s0 k v1 v2 Em N1 N2 Cl Ok0.
  assert (A1 : final (os ++ [Update k v1; Update k v2]) = final (os ++ [Update k v2])).
  { rewrite !final_app. cbn [fold_left]. rewrite !apply_update by auto. apply mset_mset. }
  assert (Cu : forall l, (forall o, In o l -> is_update o) -> forall m w, clean m w l).
  { induction l as [|o l IH]; intros Up m w; cbn [clean]; [exact Logic.I|]. split; [|apply IH; intros o' Io; apply Up; right; exact Io].
    specialize (Up o (or_introl eq_refl)). destruct o as [? [|]|]; try contradiction Up. exact Logic.I. }
  assert (U1 : is_update (Update k v1)) by (destruct v1; [congruence|exact Logic.I]).
  assert (U2 : is_update (Update k v2)) by (destruct v2; [congruence|exact Logic.I]).
  destruct (C29_lemma Inf (os ++ [Update k v1; Update k v2]) s0 Em) as (t & R & Q).
  - apply clean_final. split; [exact Cl|]. apply Cu. intros o [<-|[<-|[]]]; auto.
  - revert Ok0. apply hash_ok_incl; auto. intros k'. rewrite map_app, in_app_iff. cbn. tauto.
  - destruct (C29_lemma Inf (os ++ [Update k v2]) s0 Em) as (t' & R' & Q').
    + apply clean_final. split; [exact Cl|]. apply Cu. intros o [<-|[]]; auto.
    + revert Ok0. apply hash_ok_incl.
      * intros k'. rewrite map_app, in_app_iff. cbn. tauto.
      * intros m. rewrite !maps_app. cbn [maps In]. rewrite !apply_update by auto. rewrite mset_mset. unfold final. tauto.
    + exists t, t'. split; [exact R|]. split; [exact R'|]. congruence.
Qed.

(** Repeating an update writes nothing new. *)
Theorem C32_repeat_lemma : Infallible st -> forall os s0 k v, (forall k, view s0 k = None) -> v <> [] ->
  clean [] [] os -> hash_ok H (k :: map op_key os) (maps [] (os ++ [Update k v])) ->
  exists t t', sp_run H pr st (os ++ [Update k v]) (sp_new s0) = (t, Val (Ok tt)) /\
    sp_update H pr st k v t = (t', Val (Ok tt)) /\ sp_root_node t' = sp_root_node t /\ forall k', V t' k' = V t k'.
Proof.
  intros Inf os s0 k v Em N Cl Ok0. destruct (setup H _ _ Ok0) as (HC & HZ & Fr & Gd). set (U := universe H _) in *.
  assert (Cl' : clean [] [] (os ++ [Update k v])).
  { apply clean_final. split; [exact Cl|]. split; [destruct v; [congruence|exact Logic.I]|exact Logic.I]. }
  destruct (run_new _ _ (os ++ [Update k v]) s0 Ok0) as (t & r & R & C); auto.
  { intros k'. rewrite map_app, in_app_iff. cbn. tauto. }
  destruct C as [(-> & W & S0 & E0)|(e & _ & _ & F)]; [|contradiction].
  assert (Ef : final (os ++ [Update k v]) = mset k v (final os)).
  { rewrite final_app. cbn [fold_left]. apply apply_update. exact N. }
  rewrite Ef in *. set (m := mset k v (final os)) in *.
  assert (Em' : mset k (H v) (digests H m) = digests H m) by (unfold m; rewrite digests_mset; apply mset_mset).
  assert (G : good H U (digests H m)) by apply W.
  assert (Fk : fresh H U k) by (apply Fr; left; reflexivity).
  destruct (lands_exists k (digests H m)) as [D La]; [apply G|].
  destruct (update_ok H U HC HZ pr st view Law k v (digests H m) t D N G) as (t' & r' & L & Ru & VL & WL & C); auto;
    [rewrite Em'; exact G|apply W|apply W|].
  assert (Vs : forall k', V t' k' = V t k').
  { intros k'. rewrite VL. destruct (wr_cases L (V t) k') as [(o & Io & ->)|[_ Q]]; [|exact Q].
    destruct (WL _ Io) as [Q|(i & _ & NE & Q)].
    - injection Q as -> ->. symmetry. apply E0; [left; reflexivity|exact Fk].
    - rewrite Em' in Q, NE. unfold nw in Q. injection Q as -> ->. symmetry. apply S0. exact NE. }
  destruct C as [(-> & Rt & _)|(e & -> & _ & Er)].
  - exists t, t'. split; [exact R|]. split; [exact Ru|]. split; [|exact Vs]. rewrite Rt, Em'. symmetry. apply W.
  - exfalso. destruct (op_err_cases H st k (digests H m) D _ e Er) as [[_ F]|(p & _ & NE & Lp)]; [exact (F Inf)|].
    match type of Lp with wr ?l ?v ?x = None => destruct (wr_cases l v x) as [(o & Io & Eo)|[_ Q]] end.
    + rewrite Eo in Lp. subst o. destruct Io as [Q|[Q|[]]]; discriminate Q.
    + rewrite Q, (S0 p NE) in Lp. discriminate.
Qed.

(** * C33 *)
Theorem C33_lemma : Infallible st -> forall os s0 k v, (forall k, view s0 k = None) -> v <> [] ->
  clean [] [] os -> ~ In k (keys (final os)) ->
  hash_ok H (k :: map op_key os) (maps [] (os ++ [Update k v])) ->
  exists t t', sp_run H pr st os (sp_new s0) = (t, Val (Ok tt)) /\
    sp_run H pr st (os ++ [Update k v; Delete k]) (sp_new s0) = (t', Val (Ok tt)) /\ sp_root H t' = sp_root H t.
Proof.
  intros Inf os s0 k v Em N Cl Nk Ok0.
  assert (Ef : final (os ++ [Update k v; Delete k]) = final os).
  { rewrite final_app. cbn [fold_left]. rewrite apply_update by exact N. cbn [apply_op]. rewrite mdel_mset. apply mdel_notin. exact Nk. }
  destruct (C29_lemma Inf os s0 Em Cl) as (t & R & Q).
  { revert Ok0. apply hash_ok_incl; [intros k'; cbn; tauto|]. intros m. rewrite maps_app. tauto. }
  destruct (C29_lemma Inf (os ++ [Update k v; Delete k]) s0 Em) as (t' & R' & Q').
  - apply clean_final. split; [exact Cl|]. cbn [clean]. split; [destruct v; [congruence|exact Logic.I]|].
    split; [|exact Logic.I]. left. rewrite apply_update by exact N. left. reflexivity.
  - revert Ok0. apply hash_ok_incl.
    + intros k'. rewrite map_app, in_app_iff. cbn. tauto.
    + intros m. rewrite !maps_app. cbn [maps In]. rewrite apply_update by exact N. cbn [apply_op]. rewrite mdel_mset.
      fold (final os). rewrite (mdel_notin k (final os) Nk). pose proof (maps_last os []) as Ml. fold (final os) in Ml.
      intros [Im|[Im|[Im|[Im|[]]]]]; auto; subst m; auto.
  - exists t, t'. split; [exact R|]. split; [exact R'|]. congruence.
Qed.

(** * C34 *)
Theorem C34_lemma : Infallible st -> forall os s0 k, (forall k, view s0 k = None) ->
  clean [] [] (os ++ [Delete k]) -> In k (keys (final os)) ->
  let m := final (os ++ [Delete k]) in
  let m' := match landing 256 0 k m with Some k' => mdel k' m | None => m end in
  hash_ok H (map op_key (os ++ [Delete k])) (maps [] (os ++ [Delete k]) ++ [m']) ->
  exists t t', sp_run H pr st (os ++ [Delete k]) (sp_new s0) = (t, Val (Ok tt)) /\
    sp_root H t = kv_root H m /\
    sp_delete H pr st k t = (t', Val (Ok tt)) /\ sp_root H t' = kv_root H m'.
Proof.
  intros Inf os s0 k Em Cl Ik m m' Ok0. destruct (setup H _ _ Ok0) as (HC & HZ & Fr & Gd). set (U := universe H _) in *.
  assert (Ef : m = mdel k (final os)) by (unfold m; rewrite final_app; reflexivity).
  assert (Fk : fresh H U k) by (apply Fr; rewrite map_app, in_app_iff; right; left; reflexivity).
  apply clean_final in Cl. destruct Cl as [Cl Cd].
  destruct (run_new _ _ os s0 Ok0) as (t0 & r0 & R0 & C0); auto.
  { intros k'. rewrite map_app, in_app_iff. tauto. }
  { intros m0. rewrite in_app_iff, maps_app. tauto. }
  destruct C0 as [(-> & W & S0 & _)|(e & _ & _ & F)]; [|contradiction].
  assert (Gm : good H U (digests H m)).
  { apply Gd; [|apply final_nodup]. apply in_or_app. left. apply maps_last. }
  destruct (clean_delete H U HC HZ pr st view Law k (final os) (written os) t0 W Fk (or_introl Ik)) as (t & r & R & C & Vf).
  { rewrite <- Ef. exact Gm. }
  destruct C as [(-> & W1 & S1)|(e & -> & _ & [[_ F]|X])]; [|exfalso; exact (F Inf)|exfalso; exact (stored_not_missing H _ _ _ S0 X)].
  assert (Rn : sp_run H pr st (os ++ [Delete k]) (sp_new s0) = (t, Val (Ok tt))).
  { rewrite run_app. unfold bind_try, bind. rewrite R0. cbn [sp_run sp_apply]. unfold bind_try, bind. rewrite R. reflexivity. }
  rewrite <- Ef in *. destruct (lands_exists k (digests H m)) as [D La]; [apply Gm|].
  pose proof (cut_landing H k m D (wi_nodup _ _ _ _ _ _ W1) La) as Ec. fold m' in Ec.
  assert (Gm' : good H U (digests H m')).
  { apply Gd; [apply in_or_app; right; left; reflexivity|]. unfold m'. destruct (landing 256 0 k m); [apply mdel_nodup|]; apply W1. }
  assert (Vk : V t k <> None) by (rewrite (Vf k Fk); apply (wi_has _ _ _ _ _ _ W); auto).
  destruct (delete_step H U anyk HC HZ pr st view Law k (digests H m) D t (wi_core _ _ _ _ _ _ W1) Logic.I Fk La ltac:(rewrite Ec; exact Gm')) as (t' & r' & R' & C' & _).
  exists t. exists t'. split; [exact Rn|]. split; [apply (core_kv_root U HZ); apply W1|]. rewrite R'. rewrite Ec in C'.
  destruct C' as [(-> & C1 & [X|X] & _)|[(-> & _ & C1 & _)|(e & -> & _ & [[_ F]|X])]].
  - split; [reflexivity|]. assert (Q : m = []) by (destruct m; [reflexivity|discriminate X]).
    assert (Q' : m' = m) by (unfold m'; rewrite Q; reflexivity). rewrite Q'. exact (core_kv_root U HZ _ _ C1).
  - contradiction.
  - split; [reflexivity|]. exact (core_kv_root U HZ _ _ C1).
  - exfalso. exact (F Inf).
  - exfalso. exact (stored_not_missing H _ _ _ (S1 S0) X).
Qed.

(** * C35 *)
Theorem C35_lemma : forall os s0 k t, (forall k, view s0 k = None) -> clean [] [] os -> ~ In k (written os) ->
  hash_ok H (k :: map op_key os) (maps [] os) -> sp_run H pr st os (sp_new s0) = (t, Val (Ok tt)) ->
  exists t' r, sp_delete H pr st k t = (t', Val r) /\ sp_root H t' = sp_root H t /\ (forall k', V t' k' = V t k') /\
    (r = Ok tt \/ (exists e, r = Err (SStorageError e)) /\ ~ Infallible st).
Proof.
  intros os s0 k t Em Cl Nk Ok0 R. destruct (setup H _ _ Ok0) as (HC & HZ & Fr & Gd).
  destruct (run_new_ok _ _ os s0 t Ok0 (fun k Ik => or_intror Ik) (fun m Im => Im) Em Cl R) as (W & _).
  destruct (delete_none H pr st view Law k t) as (t' & r & Q & Rt & Vs & C).
  - apply (wi_unwritten _ _ _ _ _ _ W); [apply Fr; left; reflexivity|exact Nk].
  - exists t', r. split; [exact Q|]. split; [unfold sp_root; rewrite Rt; reflexivity|]. split; [exact Vs|].
    destruct C as [->|(e & -> & F)]; [left; reflexivity|right]. split; [eauto|exact F].
Qed.

(** * C38, C37 *)
Lemma update_run : forall U, ~ has_collision H U -> (forall x, In x U -> H x <> zero32) ->
  forall us m t, core H U anyk view (digests H m) t -> stored H (digests H m) (V t) ->
  (forall o, In o us -> is_update o /\ fresh H U (op_key o)) ->
  (forall m0, In m0 (maps m us) -> NoDup (keys m0) -> good H U (digests H m0)) -> NoDup (keys m) -> Infallible st ->
  exists t', sp_run H pr st us t = (t', Val (Ok tt)) /\ core H U anyk view (digests H (fold_left apply_op us m)) t' /\
    stored H (digests H (fold_left apply_op us m)) (V t') /\
    forall m0, good H U m0 -> stored H m0 (V t) -> stored H m0 (V t').
Proof.
  intros U HC HZ us. induction us as [|o us IH]; intros m t C Sm Up Gm N Inf.
  - exists t. cbn. auto.
  - cbn [maps fold_left] in *. destruct (Up o (or_introl eq_refl)) as [Uo Fo].
    destruct o as [k [|b v]|k]; try contradiction Uo. cbn [op_key] in Fo.
    assert (G : good H U (digests H (apply_op m (Update k (b :: v))))).
    { apply Gm; [right; destruct us; left; reflexivity|]. apply apply_nodup. exact N. }
    cbn [apply_op] in *. rewrite digests_mset in G.
    destruct (update_step H U anyk HC HZ pr st view Law k (b :: v) (digests H m) t ltac:(discriminate) C G Logic.I Fo) as (t1 & r1 & A1 & R & _ & _ & Keep).
    destruct R as [(-> & C1 & _ & S1)|(e & -> & _ & [[_ F]|X])]; [|exfalso; exact (F Inf)|exfalso; exact (stored_not_missing H _ _ _ Sm X)].
    rewrite <- digests_mset in C1, S1. cbn [sp_run sp_apply]. unfold bind_try, bind. rewrite A1.
    destruct (IH (mset k (b :: v) m) t1 C1 (S1 Sm)) as (t' & R' & C' & S' & K').
    + intros o Io. apply Up. right. exact Io.
    + intros m0 Im. apply Gm. right. exact Im.
    + apply mset_nodup. exact N.
    + exact Inf.
    + exists t'. split; [exact R'|]. split; [exact C'|]. split; [exact S'|]. auto.
Qed.

(** Loading a stored map. *)
Lemma load_stored : forall U, ~ has_collision H U -> (forall x, In x U -> H x <> zero32) -> Infallible st ->
  forall m t, m <> [] -> good H U (digests H m) -> sound H U (V t) -> users H U anyk (V t) -> stored H (digests H m) (V t) ->
  exists s' t2, sp_load st (kv_root H m) (sp_storage t) = (s', Val (Ok t2)) /\ sp_storage t2 = s' /\
    (forall k, view s' k = V t k) /\ core H U anyk view (digests H m) t2 /\ stored H (digests H m) (V t2).
Proof.
  intros U HC HZ Inf m t NE G So Us Sm.
  assert (NE' : digests H m <> []) by (destruct m; [congruence|discriminate]).
  destruct (load_ok H U st view Law (digests H m) (sp_storage t) G NE' Sm) as (s' & r & Q & Vs & [->|[_ F]]); [|contradiction].
  rewrite T_kv in Q. exists s', (Build_SpTree (nd H [] (digests H m)) s'). split; [exact Q|]. split; [reflexivity|]. split; [exact Vs|].
  assert (Vs' : forall k, view (sp_storage t) k = view s' k) by (intros k; symmetry; apply Vs).
  split; [constructor; cbn [sp_root_node sp_storage]; auto|].
  - apply (sound_ext H U (V t)); auto.
  - intros k Kk F. rewrite Vs. apply Us; assumption.
  - cbn [sp_storage]. apply (stored_ext H _ (V t)); auto.
Qed.

Theorem C38_lemma : Infallible st -> forall os us1 us2 us3 s0, (forall k, view s0 k = None) -> clean [] [] os ->
  (forall o, In o (us1 ++ us2 ++ us3) -> is_update o) -> final (os ++ us1) <> [] ->
  hash_ok H (map op_key (os ++ us1 ++ us2 ++ us3)) (maps [] (os ++ us1 ++ us2) ++ maps (final (os ++ us1)) us3) ->
  exists t1 t2 s' t3 t4,
    sp_run H pr st (os ++ us1) (sp_new s0) = (t1, Val (Ok tt)) /\
    sp_run H pr st us2 t1 = (t2, Val (Ok tt)) /\
    sp_load st (sp_root H t1) (sp_storage t2) = (s', Val (Ok t3)) /\ sp_root H t3 = sp_root H t1 /\
    sp_run H pr st us3 t3 = (t4, Val (Ok tt)) /\ sp_root H t4 = kv_root H (final (os ++ us1 ++ us3)).
Proof.
  intros Inf os us1 us2 us3 s0 Em Cl Up NE Ok0. destruct (setup H _ _ Ok0) as (HC & HZ & Fr & Gd). set (U := universe H _) in *.
  assert (Cl1 : clean [] [] (os ++ us1)).
  { apply clean_final. split; [exact Cl|]. clear - Up. generalize (final os) (written os). revert Up. induction us1 as [|o us IH]; intros Up m w; cbn [clean]; [exact Logic.I|].
    split; [|apply IH; intros o' Io; apply Up; right; exact Io]. specialize (Up o (or_introl eq_refl)).
    destruct o as [? [|]|]; try contradiction Up. exact Logic.I. }
  destruct (run_new _ _ (os ++ us1) s0 Ok0) as (t1 & r1 & R1 & C1); auto.
  { intros k. rewrite !map_app, !in_app_iff. tauto. }
  { intros m. rewrite in_app_iff, app_assoc, (maps_app (os ++ us1)). tauto. }
  destruct C1 as [(-> & W & S1 & _)|(e & _ & _ & F)]; [|contradiction].
  assert (G1 : good H U (digests H (final (os ++ us1)))) by apply W.
  destruct (update_run U HC HZ us2 _ t1 (wi_core _ _ _ _ _ _ W) S1) as (t2 & R2 & C2 & S2 & K2); auto.
  { intros o Io. split; [apply Up; rewrite !in_app_iff; tauto|]. apply Fr. apply in_map. rewrite !in_app_iff. tauto. }
  { intros m Im. apply Gd. rewrite in_app_iff, app_assoc, (maps_app (os ++ us1)). tauto. }
  { apply final_nodup. }
  destruct (load_stored U HC HZ Inf (final (os ++ us1)) t2 NE G1 (core_sound _ _ _ _ _ _ C2) (core_users _ _ _ _ _ _ C2) (K2 _ G1 S1))
    as (s' & t3 & L3 & Es & _ & C3 & S3).
  destruct (update_run U HC HZ us3 _ t3 C3 S3) as (t4 & R4 & C4 & _ & _); auto.
  { intros o Io. split; [apply Up; rewrite !in_app_iff; tauto|]. apply Fr. apply in_map. rewrite !in_app_iff. tauto. }
  { intros m Im. apply Gd. rewrite in_app_iff. tauto. }
  { apply final_nodup. }
  pose proof (core_kv_root U HZ _ _ (wi_core _ _ _ _ _ _ W)) as Q1.
  exists t1, t2, s', t3, t4. rewrite Q1. split; [exact R1|]. split; [exact R2|]. split; [exact L3|].
  split; [exact (core_kv_root U HZ _ _ C3)|]. split; [exact R4|]. rewrite (core_kv_root U HZ _ _ C4), app_assoc, (final_app (os ++ us1) us3). reflexivity.
Qed.

Theorem C37_lemma : Infallible st -> forall os s0 t, (forall k, view s0 k = None) -> clean [] [] os -> final os <> [] ->
  hash_ok H (map op_key os) (maps [] os) -> sp_run H pr st os (sp_new s0) = (t, Val (Ok tt)) ->
  exists s' t2, sp_load st (sp_root H t) (sp_storage t) = (s', Val (Ok t2)) /\ sp_storage t2 = s' /\
    sp_root_node t2 = sp_root_node t /\ forall k, V t2 k = V t k.
Proof.
  intros Inf os s0 t Em Cl NE Ok0 R. destruct (setup H _ _ Ok0) as (HC & HZ & Fr & Gd). set (U := universe H _) in *.
  destruct (run_new_ok _ _ os s0 t Ok0 (fun k Ik => Ik) (fun m Im => Im) Em Cl R) as (W & S0 & _).
  pose proof (wi_core _ _ _ _ _ _ W) as C. rewrite (core_kv_root U HZ _ _ C).
  destruct (load_stored U HC HZ Inf (final os) t NE (core_good _ _ _ _ _ _ C) (core_sound _ _ _ _ _ _ C) (core_users _ _ _ _ _ _ C) S0)
    as (s' & t2 & L & Es & Vs & C2 & _).
  exists s', t2. split; [exact L|]. split; [exact Es|]. split; [rewrite (core_root _ _ _ _ _ _ C2), (core_root _ _ _ _ _ _ C); reflexivity|].
  intros k. rewrite Es. apply Vs.
Qed.

(** * C39 *)
Theorem C39_lemma : Infallible st -> forall os s0 k, (forall k, view s0 k = None) -> clean [] [] os ->
  In k (keys (final os)) -> hash_ok H (map op_key os) (maps [] (os ++ [Delete k])) ->
  exists t t' s', sp_run H pr st os (sp_new s0) = (t, Val (Ok tt)) /\ sp_delete H pr st k t = (t', Val (Ok tt)) /\
    sp_load st (sp_root H t) (sp_storage t') = (s', Val (Err (SLoadError (hex_encode (b32 (sp_root H t)))))).
Proof.
  intros Inf os s0 k Em Cl Ik Ok0. destruct (setup H _ _ Ok0) as (HC & HZ & Fr & Gd). set (U := universe H _) in *.
  destruct (run_new _ _ os s0 Ok0) as (t & r & R & C); auto.
  { intros m. rewrite maps_app. tauto. }
  destruct C as [(-> & W & S0 & _)|(e & _ & _ & F)]; [|contradiction].
  assert (Fk : fresh H U k).
  { apply Fr. apply final_keys in Ik. unfold written in Ik. apply in_concat in Ik. destruct Ik as (l & Il & Ik).
    apply in_map_iff in Il. destruct Il as (o & <- & Io). apply in_map_iff. exists o. split; [|exact Io].
    destruct o as [? [|]|]; cbn in Ik; [contradiction| |contradiction]. destruct Ik as [Ik|[]]. exact Ik. }
  set (m := final os) in *. pose proof W as [N [Rn So G Us] Has _].
  destruct (lands_exists k (digests H m)) as [D La]; [apply G|].
  pose proof (cut_landing H k m D N La) as Ec. rewrite (landing_present H k m N Ik) in Ec.
  assert (G' : good H U (digests H (mdel k m))).
  { apply Gd; [|apply mdel_nodup; exact N]. rewrite maps_app. right. right. left. reflexivity. }
  destruct (delete_ok H U HZ pr st view Law k (digests H m) D t La G ltac:(rewrite Ec; exact G') So Rn (Us k Logic.I Fk)) as (t' & r & Rd & Cd).
  assert (Vn : V t k <> None) by (apply Has; auto).
  destruct Cd as [(-> & _ & _ & [X|X])|[(-> & _ & _ & _ & L & VL & WL)|(e & -> & _ & Er & _)]].
  - exfalso. destruct m; [destruct Ik|discriminate X].
  - contradiction.
  - assert (Q : sp_root H t = T H [] (digests H m)) by (unfold sp_root; rewrite Rn; apply (nd_hash H U HZ); exact G).
    assert (VN : V t' (sp_root H t) = None).
    { rewrite Q, VL, wr_app.
      destruct (wr_cases L (wr (map (rm H k (digests H m)) (down (S D))) (V t)) (T H [] (digests H m))) as [(o & Io & _)|[_ ->]].
      - exfalso. apply WL in Io. destruct Io as (i & Li & L2 & E0). rewrite Ec in *. unfold nw in E0. injection E0 as E0 _.
        assert (Iv : exists h, In (k, h) (digests H m)).
        { apply in_keys in Ik. destruct Ik as [v Iv]. exists (H v). unfold digests. apply in_map_iff. exists (k, v). auto. }
        destruct Iv as [h Iv].
        destruct (T_same H U HC HZ [] (P k i) _ _ G G' E0) as (Sa & _).
        assert (Ie : In (k, h) (sub (P k i) (digests H (mdel k m)))) by (apply Sa; rewrite sub_root; exact Iv).
        apply sub_in in Ie. destruct Ie as [Ie _]. rewrite digests_mdel in Ie. apply mdel_in in Ie. cbn in Ie. tauto.
      - destruct (wr_cases (map (rm H k (digests H m)) (down (S D))) (V t) (T H [] (digests H m))) as [(o & Io & ->)|[No _]].
        + apply in_map_iff in Io. destruct Io as (i & E0 & _). unfold rm in E0. congruence.
        + exfalso. apply (No None). apply in_map_iff. exists O. split; [reflexivity|]. apply down_in. lia. }
    destruct (get_spec st view Law (sp_root H t) (sp_storage t')) as (s1 & r1 & Eg & _ & [->|[_ F]]); [|contradiction].
    exists t, t', s1. split; [exact R|]. split; [exact Rd|]. unfold sp_load, bind_try, bind. rewrite Eg, VN. reflexivity.
  - exfalso. destruct (op_err_cases H st k _ D _ e Er) as [[_ F]|X]; [exact (F Inf)|exact (stored_not_missing H _ _ _ S0 X)].
Qed.

(** * C30 *)
Theorem C30_lemma : Infallible st -> forall os s0, (forall k, view s0 k = None) -> ~ In zero32 (map op_key os) ->
  hash_ok H (map op_key os) (real_maps [] [] os) ->
  exists t, sp_run H pr st os (sp_new s0) = (t, Val (Ok tt)) /\ sp_root H t = kv_root H (real_final [] [] os).
Proof.
  intros Inf os s0 Em Nz Ok0. destruct (setup H _ _ Ok0) as (HC & HZ & Fr & Gd). set (U := universe H _) in *.
  destruct (winv_new U s0 Em) as (W & S0 & _).
  destruct (run_real H U HC HZ pr st view Law Inf os [] [] (sp_new s0) W S0) as (t & R & Rt & G).
  - intros k [].
  - intros o Io. apply Fr. apply in_map. exact Io.
  - intros k Ik Q. rewrite app_nil_r in Ik. subst k. contradiction.
  - exact Gd.
  - exists t. split; [exact R|]. unfold sp_root. rewrite Rt, (nd_hash H U HZ) by exact G. apply T_kv.
Qed.

(** * C41, C42 *)
Lemma attempts_outcomes : forall os (fs : list bool) m m0, In m0 (attempts m (combine os fs)) -> In m0 (outcomes m os).
Proof.
  induction os as [|o os IH]; intros fs m m0; cbn [combine attempts outcomes In]; [tauto|].
  destruct fs as [|f fs]; cbn [combine attempts In]; [tauto|]. intros [->|[<-|Im]]; [left; reflexivity| |].
  - right. apply in_or_app. right. apply outcomes_here.
  - right. apply in_or_app. destruct f; cbn [apply_if fst snd] in Im; [right|left]; exact (IH _ _ _ Im).
Qed.

(** Every call answers, whatever the storage does. *)
Lemma run_all_val : forall U, ~ has_collision H U -> (forall x, In x U -> H x <> zero32) ->
  forall us m w t, winv H U view m w t -> (forall o, In o us -> is_update o /\ fresh H U (op_key o)) ->
  (forall m0, In m0 (outcomes m us) -> NoDup (keys m0) -> good H U (digests H m0)) ->
  exists t' rs, sp_run_all H pr st us t = (t', Val rs).
Proof.
  intros U HC HZ. induction us as [|o us IH]; intros m w t W Up Gm; [exists t, []; reflexivity|].
  destruct (Up o (or_introl eq_refl)) as [Uo Fo].
  assert (G : good H U (digests H (apply_op m o))).
  { apply Gm; [|apply apply_nodup; apply W]. cbn [outcomes]. right. apply in_or_app. right. apply outcomes_here. }
  destruct (op_step H U HC HZ pr st view Law o m w t W Fo) as (t1 & r1 & A1 & R & _); [destruct o as [? [|]|]; try contradiction Uo; exact Logic.I|exact G|].
  cbn [sp_run_all]. unfold bind. rewrite A1.
  assert (X : exists m1 w1, winv H U view m1 w1 t1 /\ forall m0, In m0 (outcomes m1 us) -> In m0 (outcomes m (o :: us))).
  { cbn [outcomes]. destruct R as [(_ & W1 & _)|(e & _ & W1 & _)]; eexists _, _; (split; [exact W1|]); intros m0 Im; right; apply in_or_app; auto. }
  destruct X as (m1 & w1 & W1 & Io).
  destruct (IH m1 w1 t1 W1) as (t' & rs & R').
  - intros o' Io'. apply Up. right. exact Io'.
  - intros m0 Im. apply Gm. auto.
  - rewrite R'. eexists _, _. reflexivity.
Qed.

Theorem C41_lemma : forall os us s0 t, (forall k, view s0 k = None) -> clean [] [] os ->
  (forall o, In o us -> is_update o) ->
  hash_ok H (map op_key (os ++ us)) (maps [] os ++ outcomes (final os) us) ->
  sp_run H pr st os (sp_new s0) = (t, Val (Ok tt)) ->
  exists t' rs, sp_run_all H pr st us t = (t', Val rs) /\
    sp_root H t' = kv_root H (achieved (final os) (flags us rs)) /\
    forall e, In (Err e) rs -> storage_error e /\ ~ Infallible st.
Proof.
  intros os us s0 t Em Cl Up Ok0 R. destruct (setup H _ _ Ok0) as (HC & HZ & Fr & Gd). set (U := universe H _) in *.
  destruct (run_new_ok _ _ os s0 t Ok0) as (W & S0 & _); auto.
  { intros k. rewrite map_app, in_app_iff. tauto. }
  { intros m. rewrite in_app_iff. tauto. }
  assert (Fo : forall o, In o us -> fresh H U (op_key o)) by (intros o Io; apply Fr; apply in_map; apply in_or_app; auto).
  destruct (run_all_val U HC HZ us _ _ t W) as (t' & rs & Ra); auto.
  { intros m Im. apply Gd. apply in_or_app. auto. }
  destruct (run_flags H U HC HZ pr st view Law us _ _ t t' rs W Ra Fo) as (w' & W' & Q).
  - intros m Im. apply Gd. apply in_or_app. right. exact (attempts_outcomes us _ _ _ Im).
  - clear - Up. generalize (final os) (written os). unfold flags. generalize (map is_ok rs). revert Up.
    induction us as [|o us IH]; intros Up fs m w; cbn [combine clean_flags]; [exact Logic.I|]. destruct fs as [|f fs]; cbn [clean_flags]; [exact Logic.I|].
    cbn [fst]. split; [|apply IH; intros o' Io; apply Up; right; exact Io]. specialize (Up o (or_introl eq_refl)).
    destruct o as [? [|]|]; try contradiction Up. exact Logic.I.
  - exists t', rs. split; [exact Ra|]. split; [apply (core_kv_root U HZ); apply W'|]. apply (Q S0 Up).
Qed.

Theorem C42_lemma : forall os s0 t rs, (forall k, view s0 k = None) -> sp_run_all H pr st os (sp_new s0) = (t, Val rs) ->
  clean_flags [] [] (flags os rs) -> hash_ok H (map op_key os) (attempts [] (flags os rs)) ->
  sp_root H t = kv_root H (achieved [] (flags os rs)).
Proof.
  intros os s0 t rs Em R Cl Ok0. destruct (setup H _ _ Ok0) as (HC & HZ & Fr & Gd). set (U := universe H _) in *.
  destruct (winv_new U s0 Em) as (W & S0 & _).
  destruct (run_flags H U HC HZ pr st view Law os [] [] _ t rs W R) as (w' & W' & _); auto.
  - intros o Io. apply Fr. apply in_map. exact Io.
  - apply (core_kv_root U HZ). apply W'.
Qed.

(** * C49 *)
Lemma near_path_sub : forall k l h, near_path H k l h ->
  exists d, (d < KB)%nat /\ (2 <= length (sub (P k d) l))%nat /\ exists p, (p = P k (S d) \/ p = sd k d) /\ sub p l <> [] /\ h = T H p l.
Proof.
  intros k l h (d & b & Ld & L2 & NE & ->). assert (Ld' : (d < KB)%nat) by (rewrite KB_eq; lia).
  rewrite agree_sub in * by lia. exists d. split; [exact Ld'|]. split; [exact L2|].
  pose proof (sub_snoc (P k d) b l ltac:(rewrite P_length; lia)) as Sn. rewrite P_length in Sn by lia. rewrite Sn in *.
  exists (P k d ++ [b]). split.
  - rewrite P_S by lia. unfold sd. destruct (kbit k d), b; auto.
  - split; [exact NE|]. unfold T. rewrite app_length, P_length by lia. cbn [length]. rewrite Nat.add_1_r.
    replace (KB - S d)%nat with (256 - S d)%nat by (rewrite KB_eq; reflexivity). reflexivity.
Qed.

Theorem C49_lemma : Infallible st -> forall os s0 t s k v, (forall k, view s0 k = None) -> clean [] [] os ->
  sp_run H pr st os (sp_new s0) = (t, Val (Ok tt)) -> v <> [] ->
  hash_ok H (k :: map op_key os) (maps [] (os ++ [Update k v])) ->
  (forall k', view s k' = V t k' \/ view s k' = None) ->
  exists t' r, sp_update H pr st k v (Build_SpTree (sp_root_node t) s) = (t', Val r) /\
  ((r = Ok tt /\ sp_root H t' = kv_root H (final (os ++ [Update k v])) /\
    forall h, near_path H k (digests H (final os)) h -> h <> H (smt_leaf_input k (H v)) -> view s h <> None) \/
   (exists h, r = Err (SChildErr (ChildNotFound h)) /\ view s h = None /\ near_path H k (digests H (final os)) h /\ sp_root H t' = sp_root H t)).
Proof.
  intros Inf os s0 t s k v Em Cl R NV Ok0 Ls. destruct (setup H _ _ Ok0) as (HC & HZ & Fr & Gd). set (U := universe H _) in *.
  destruct (run_new_ok _ _ os s0 t Ok0) as (W & S0 & _); auto.
  { intros k'. cbn. tauto. }
  { intros m. rewrite maps_app. tauto. }
  assert (Fk : fresh H U k) by (apply Fr; left; reflexivity). set (m := final os) in *.
  pose proof W as [N [Rn So G Us] Has _].
  assert (G' : good H U (mset k (H v) (digests H m))).
  { rewrite <- digests_mset. apply Gd; [|apply mset_nodup; exact N]. rewrite maps_app. right. right. left. apply apply_update. exact NV. }
  destruct (lands_exists k (digests H m)) as [D La]; [apply G|].
  assert (So' : sound H U (view s)).
  { intros m0 p G0 NE. destruct (Ls (T H p m0)) as [->| ->]; [apply So; auto|right; reflexivity]. }
  destruct (update_ok H U HC HZ pr st view Law k v (digests H m) (Build_SpTree (sp_root_node t) s) D NV G G' Fk So' Rn La)
    as (t' & r & L & Ru & VL & WL & C).
  cbn [sp_storage sp_root_node] in *. exists t', r. split; [exact Ru|].
  assert (LH : snode_hash H (leafn k (H v)) = H (smt_leaf_input k (H v))).
  { apply leafn_hash. apply (good_digest H U _ G' k (H v)). left. reflexivity. }
  destruct C as [(-> & Rt & _ & Av)|(e & -> & Rt & Er)].
  - left. split; [reflexivity|]. split.
    + unfold sp_root. rewrite Rt, (nd_hash H U HZ) by exact G'. rewrite <- digests_mset, T_kv, final_app. cbn [fold_left].
      rewrite apply_update by exact NV. reflexivity.
    + intros h Np Nl. destruct (near_path_sub k _ h Np) as (d & Ld & L2 & p & Pp & NE & ->).
      assert (Dd : (d < D)%nat).
      { destruct (Nat.lt_ge_cases d D) as [A|A]; auto. exfalso. destruct La as (_ & _ & LE).
        pose proof (sub_P_le k D d (digests H m) A). lia. }
      destruct (Av d Dd) as [A1 A2]. assert (A : avail H p (digests H m) (wr [leaf_w H k (H v); user_w k (H v)] (view s))) by (destruct Pp as [-> | ->]; assumption).
      destruct A as [A|A]; [congruence|].
      destruct (wr_cases [leaf_w H k (H v); user_w k (H v)] (view s) (T H p (digests H m))) as [(o & Io & Eo)|[_ Q]].
      * exfalso. destruct Io as [Io|[Io|[]]].
        -- unfold leaf_w in Io. injection Io as Io _. apply Nl. rewrite <- Io. exact LH.
        -- unfold user_w in Io. injection Io as Io _. apply (fresh_not_T H U k (digests H m) p Fk G NE). congruence.
      * rewrite Q in A. rewrite A. discriminate.
  - right. destruct Er as [[_ F]|[(p & -> & [NE Lp] & j & Lj & Pp)|[_ F]]]; [contradiction| |contradiction].
    exists (T H p (digests H m)). split; [reflexivity|]. split.
    + match type of Lp with wr ?l ?v ?x = None => destruct (wr_cases l v x) as [(o & Io & Eo)|[_ Q]] end; [|rewrite <- Q; exact Lp].
      exfalso. rewrite Eo in Lp. subst o. destruct Io as [Q|[Q|[]]]; discriminate Q.
    + split; [|unfold sp_root; rewrite Rt; reflexivity].
      destruct La as (LD & LA & _). specialize (LA j Lj). assert (Lj' : (j < KB)%nat) by lia.
      assert (Pp' : exists b, p = P k j ++ [b]) by (destruct Pp as [->| ->]; [rewrite P_S by lia|unfold sd]; eauto).
      destruct Pp' as [b ->]. exists j, b. split; [rewrite KB_eq in Lj'; lia|]. rewrite !agree_sub by lia. split; [exact LA|].
      pose proof (sub_snoc (P k j) b (digests H m) ltac:(rewrite P_length; lia)) as Sn. rewrite P_length in Sn by lia. rewrite Sn.
      split; [exact NE|]. unfold T. rewrite app_length, P_length by lia. cbn [length]. rewrite Nat.add_1_r.
      replace (KB - S j)%nat with (256 - S j)%nat by (rewrite KB_eq; reflexivity). reflexivity.
Qed.
End Theorems.

(** * C31 *)
Theorem C31_lemma : forall H pr pr' St E St' E' (st : StorageT St bytes32 SPrimitive E) (st' : StorageT St' bytes32 SPrimitive E') view view',
  Lawful st view -> Lawful st' view' -> Infallible st -> Infallible st' ->
  forall os os' s0 s0', (forall k, view s0 k = None) -> (forall k, view' s0' k = None) ->
  clean [] [] os -> clean [] [] os' -> hash_ok H (map op_key os) (maps [] os) -> hash_ok H (map op_key os') (maps [] os') ->
  (forall k, lookup k (final os) = lookup k (final os')) ->
  exists t t', sp_run H pr st os (sp_new s0) = (t, Val (Ok tt)) /\ sp_run H pr' st' os' (sp_new s0') = (t', Val (Ok tt)) /\
    sp_root H t = sp_root H t'.
Proof.
  intros H pr pr' St E St' E' st st' view view' L L' I I' os os' s0 s0' Em Em' Cl Cl' Ok0 Ok0' Lk.
  destruct (C29_lemma H pr st view L I os s0 Em Cl Ok0) as (t & R & Q).
  destruct (C29_lemma H pr' st' view' L' I' os' s0' Em' Cl' Ok0') as (t' & R' & Q').
  exists t, t'. split; [exact R|]. split; [exact R'|]. rewrite Q, Q'. unfold kv_root. apply smt_perm. unfold digests.
  apply Permutation_map. apply lookup_perm; auto using final_nodup.
Qed.

(** * C43 *)
Theorem C43_lemma : forall H m m', NoDup (keys m) -> NoDup (keys m') -> kv_root H m = kv_root H m' ->
  (forall k, lookup k m = lookup k m') \/
  has_collision H (kv_inputs H m ++ kv_inputs H m' ++ map snd m ++ map snd m') \/
  exists x, In x (kv_inputs H m ++ kv_inputs H m') /\ H x = zero32.
Proof.
  intros H m m' N N' Er.
  destruct (T_binding H (digests H m) (digests H m') [] []) as [[Sa _]|B].
  - rewrite keys_digests. exact N.
  - rewrite keys_digests. exact N'.
  - rewrite !T_kv. exact Er.
  - rewrite !sub_root in Sa.
    (* the same keys with the same digests *)
    assert (D : forall a b, NoDup (keys a) -> NoDup (keys b) -> same (digests H a) (digests H b) ->
      forall k v, lookup k a = Some v -> exists v', lookup k b = Some v' /\ H v = H v' /\ In v (map snd a) /\ In v' (map snd b)).
    { clear. intros a b Na Nb Sa k v Lk. apply lookup_in in Lk; auto.
      assert (Ik : In (k, H v) (digests H b)) by (apply Sa; unfold digests; apply in_map_iff; exists (k, v); auto).
      unfold digests in Ik. apply in_map_iff in Ik. destruct Ik as ([k' v'] & Q & Ik). cbn [fst snd] in Q. injection Q as -> Q.
      exists v'. split; [apply lookup_in; auto|]. split; [congruence|]. split; apply in_map_iff; [exists (k, v)|exists (k, v')]; auto. }
    assert (S' : same (digests H m') (digests H m)) by (intros e; symmetry; apply Sa).
    destruct (existsb (fun e => match lookup (fst e) m' with Some v' => if bytes_eq_dec (snd e) v' then false else true | None => true end) m) eqn:Ex.
    + right. left. apply existsb_exists in Ex. destruct Ex as ([k v] & Ie & Q). cbn [fst snd] in Q.
      assert (Lk : lookup k m = Some v) by (apply lookup_in; auto).
      destruct (D m m' N N' Sa k v Lk) as (v' & Lk' & Eh & I1 & I2). rewrite Lk' in Q.
      destruct (bytes_eq_dec v v'); [discriminate|]. exists v, v'. rewrite !in_app_iff. auto 10.
    + left. intros k. destruct (lookup k m) as [v|] eqn:Lk.
      * assert (Ie : In (k, v) m) by (apply lookup_in; auto).
        destruct (D m m' N N' Sa k v Lk) as (v' & Lk' & _). rewrite Lk'.
        destruct (bytes_eq_dec v v') as [->|Ne]; [reflexivity|]. exfalso.
        assert (C : existsb (fun e => match lookup (fst e) m' with Some v' => if bytes_eq_dec (snd e) v' then false else true | None => true end) m = true).
        { apply existsb_exists. exists (k, v). split; [exact Ie|]. cbn [fst snd]. rewrite Lk'. destruct (bytes_eq_dec v v'); [contradiction|reflexivity]. }
        congruence.
      * destruct (lookup k m') as [v'|] eqn:Lk'; [|reflexivity]. exfalso.
        destruct (D m' m N' N S' k v' Lk') as (v & Lk2 & _). congruence.
  - right. rewrite !I_kv in B. destruct B as [(x & y & Ix & Iy & Q)|B]; [left|right; exact B].
    exists x, y. rewrite in_app_iff in Ix, Iy. rewrite !in_app_iff. tauto.
Qed.

(** * C47 *)
Theorem C47_lemma : forall H pr os, clean [] [] os -> hash_ok H (map op_key os) (maps [] os) ->
  exists t, sim_run H pr os sim_new = (t, Val tt) /\ sim_root H t = kv_root H (final os).
Proof.
  intros H pr os Cl Ok0.
  assert (Law : Lawful SStorageMap (smap_lookup b32_eqb)) by (apply StorageMap_lawful; apply b32_eqb_eq).
  destruct (C29_lemma H pr SStorageMap _ Law (StorageMap_infallible _) os smap_new (fun k => eq_refl) Cl Ok0) as (t & R & Q).
  exists t. split; [|exact Q]. clear Q Cl Ok0.
  assert (G : forall t0 : SpTree SScratch, sp_run H pr SStorageMap os t0 = (t, Val (Ok tt)) -> sim_run H pr os t0 = (t, Val tt)); [|exact (G _ R)].
  clear R. induction os as [|o os IH]; intros t0 R; [injection R as <-; reflexivity|].
  cbn [sp_run] in R. unfold bind_try, bind in R. destruct (sp_apply H pr SStorageMap o t0) as [t1 [[[]|e]| |]] eqn:A; try discriminate.
  destruct o as [k v|k]; cbn [sim_run]; unfold sim_update, sim_delete, bind; cbn [sp_apply] in A; rewrite A; cbn [ret]; apply IH; exact R.
Qed.
