(** SparseSteps.v -- invariants of the sparse tree and their preservation by one call. *)
From Verif Require Import Base Storage ModelCommon ModelSparse SpecBits SpecBinary SpecSparse RunsSparse
  SpecPosition BindingProofs BitsProofs PositionProofs CommonProofs SparseSpecFacts SparseNodes SparseProofs SparseOps.
From Coq Require Import Arith ZifyBool ZifyNat ZifyN Permutation.
Ltac Zify.zify_post_hook ::= Z.div_mod_to_equations.
Arguments Nat.mul : simpl never.
Arguments Z.pow : simpl never.
Arguments Z.mul : simpl never.
Arguments Z.add : simpl never.
Arguments Z.sub : simpl never.
Arguments Z.of_nat : simpl never.

Section Steps.
Variable H : list byte -> bytes32.
Variable U : list (list byte).
Variable Ks : bytes32 -> Prop.
Hypothesis HC : ~ has_collision H U.
Hypothesis HZ : forall x, In x U -> H x <> zero32.
Variable pr : profile.
Context {St E : Type}.
Variable st : StorageT St bytes32 SPrimitive E.
Variable view : St -> bytes32 -> option SPrimitive.
Hypothesis Law : Lawful st view.
Notation T := (T H).
Notation nd := (nd H).
Notation nw := (nw H).
Notation good := (good H U).
Notation prim := sprim_of_node.
Notation fallible := (fallible st).
Notation sound := (sound H U).
Notation fresh := (fresh H U).
Notation stored := (stored H).
Notation keeps := (keeps H U).
Notation V t := (view (sp_storage t)).

(** The entry of a key in use ([Ks]) is a leaf of its key, or absent. *)
Definition users (v : bytes32 -> option SPrimitive) : Prop :=
  forall k, Ks k -> fresh k -> v k = None \/ exists h, v k = Some (prim (leafn k h)).
(** The tree holds [m]; nodes may be missing. *)
Record core (m : entries) (t : SpTree St) : Prop := {
  core_root : sp_root_node t = nd [] m;
  core_sound : sound (V t);
  core_good : good m;
  core_users : users (V t)
}.

(** The two kinds of errors. *)
Definition missing (m : entries) (v : bytes32 -> option SPrimitive) (e : SError E) : Prop :=
  exists p, e = SChildErr (ChildNotFound (T p m)) /\ lost H p m v.

Lemma op_err_cases : forall k m D v e, op_err H st k m D v e -> (storage_error e /\ fallible) \/ missing m v e.
Proof.
  intros k m D v e [[X F]|[(p & -> & Lp & _)|[X F]]].
  - left. split; [left; exact X|exact F].
  - right. exists p. auto.
  - left. split; [right; exact X|exact F].
Qed.

Lemma fresh_not_T : forall k m p, fresh k -> good m -> sub p m <> [] -> T p m <> k.
Proof. intros k m p F G NE C. destruct (T_digest H U m p G NE) as (x & Ix & Ex). apply (F x Ix). congruence. Qed.

Lemma upd_keeps : forall k h m w, good (mset k h m) -> fresh k -> upd_write H k h m w -> keeps w.
Proof.
  intros k h m w G F [->|(i & _ & NE & ->)]; [right; exists k, (Some (prim (leafn k h))); auto|].
  left. exists (mset k h m), (P k i). auto.
Qed.

Lemma off_path : forall p (k : bytes32), (length p <= KB)%nat -> has_prefix p (bits_of k) = false ->
  exists i q, (i < length p)%nat /\ p = sd k i ++ q.
Proof.
  intros p k Lp O.
  assert (G : forall n, (n <= length p)%nat -> firstn n p = P k n \/ exists i q, (i < length p)%nat /\ p = sd k i ++ q).
  { induction n as [|n IH]; intros Ln; [left; reflexivity|].
    destruct (IH ltac:(lia)) as [Q|Q]; [|right; exact Q].
    rewrite nth_firstn_snoc by lia. rewrite Q. rewrite P_S by lia.
    destruct (Bool.bool_dec (nth n p false) (kbit k n)) as [Eq|Ne].
    - left. rewrite Eq. reflexivity.
    - right. exists n, (skipn (S n) p). split; [lia|]. rewrite <- (firstn_skipn (S n) p) at 1. f_equal.
      rewrite nth_firstn_snoc by lia. rewrite Q. unfold sd. f_equal. f_equal. destruct (nth n p false), (kbit k n); auto; congruence. }
  destruct (G (length p) (Nat.le_refl _)) as [Q|Q]; [|exact Q]. exfalso. rewrite firstn_all in Q.
  assert (X : has_prefix p (bits_of k) = true) by (rewrite Q at 1; apply P_prefix). congruence.
Qed.

Lemma sub_ne_short : forall p (m : entries), sub p m <> [] -> (length p <= KB)%nat.
Proof. intros p m NE. destruct (Nat.le_gt_cases (length p) KB); auto. rewrite sub_long in NE by lia. congruence. Qed.

(** * Update *)
Theorem update_step : forall k data m t, data <> [] -> core m t -> good (mset k (H data) m) -> Ks k -> fresh k ->
  exists t' r, sp_update H pr st k data t = (t', Val r) /\
  ((r = Ok tt /\ core (mset k (H data) m) t' /\ V t' k = Some (prim (leafn k (H data))) /\ (stored m (V t) -> stored (mset k (H data) m) (V t'))) \/
   (exists e, r = Err e /\ core m t' /\ ((storage_error e /\ fallible) \/ (missing m (V t) e)))) /\
  (forall k', fresh k' -> k' <> k -> V t' k' = V t k') /\
  (V t k <> None -> V t' k <> None) /\
  (forall m0, good m0 -> stored m0 (V t) -> stored m0 (V t')).
Proof.
  intros k data m t ND [Rn So G Us] G' Kk Fr. destruct (lands_exists k m (good_nodup H U m G)) as [D La].
  set (h := H data) in *. set (m' := mset k h m) in *.
  destruct (update_ok H U HC HZ pr st view Law k data m t D ND G G' Fr So Rn La) as (t' & r & L & -> & VL & WL & R).
  fold h in VL, WL, R. fold m' in R.
  assert (KL : Forall keeps L) by (apply Forall_forall; intros w Iw; apply (upd_keeps k h m w G' Fr); auto).
  assert (So' : sound (V t')).
  { apply (sound_ext H U (wr L (V t))); [intros; symmetry; apply VL|]. apply sound_wr; auto.
    eapply Forall_impl; [|exact KL]. intros w. apply keeps_ok. }
  assert (Uk : forall o, In (k, o) L -> o = Some (prim (leafn k h))).
  { intros o Io. destruct (WL _ Io) as [Q|(i & _ & NE & Q)]; [congruence|]. exfalso.
    unfold SparseProofs.nw in Q. fold m' in Q. apply (fresh_not_T k m' (P k i) Fr G' NE). congruence. }
  assert (Uo : forall k' o, fresh k' -> k' <> k -> ~ In (k', o) L).
  { intros k' o F' N Io. destruct (WL _ Io) as [Q|(i & _ & NE & Q)]; [congruence|].
    unfold SparseProofs.nw in Q. fold m' in Q. apply (fresh_not_T k' m' (P k i) F' G' NE). congruence. }
  assert (Vo : forall k', fresh k' -> k' <> k -> V t' k' = V t k').
  { intros k' F' N. rewrite VL. destruct (wr_cases L (V t) k') as [(o & Io & _)|[_ ->]]; [|reflexivity]. destruct (Uo k' o F' N Io). }
  assert (Vk : V t' k = Some (prim (leafn k h)) \/ V t' k = V t k).
  { rewrite VL. destruct (wr_cases L (V t) k) as [(o & Io & ->)|[_ ->]]; [left; apply Uk; exact Io|right; reflexivity]. }
  assert (Us' : users (V t')).
  { intros k' K' F'. destruct (b32_eq_dec k' k) as [->|N]; [|rewrite Vo by auto; apply Us; assumption].
    destruct Vk as [->| ->]; [right; eauto|apply Us; assumption]. }
  assert (Keep : forall m0, good m0 -> stored m0 (V t) -> stored m0 (V t')).
  { intros m0 G0 S0. apply (stored_ext H m0 (wr L (V t))); [intros; symmetry; apply VL|]. apply (stored_wr H U HC HZ); auto. }
  exists t', r. split; [reflexivity|]. split; [|split; [exact Vo|split; [|exact Keep]]].
  2:{ intros N. destruct Vk as [->| ->]; [discriminate|exact N]. }
  destruct R as [(-> & Rt & AL & _)|(e & -> & Rt & Er)].
  - left. split; [reflexivity|]. split; [constructor; auto|]. split.
    + rewrite VL. destruct (wr_cases L (V t) k) as [(o & Io & ->)|[N _]]; [exact (Uk o Io)|].
      exfalso. apply (N (Some (prim (leafn k h)))). apply AL. left. reflexivity.
    + intros Sm. intros p NE. rewrite VL. destruct (has_prefix p (bits_of k)) eqn:Ep.
      * apply (present_wr H U HC HZ); auto. apply AL. right. destruct (P_of_prefix p k Ep) as [Lp Eq].
        exists (length p). rewrite <- Eq. split; [exact Lp|]. split; [exact NE|reflexivity].
      * destruct (upd_off H k h m p Ep) as [En ET]. fold m' in En, ET. apply (keep_entry H U HC HZ); auto.
        rewrite En, ET. apply Sm. unfold m' in NE. rewrite sub_mset_out in NE by exact Ep. exact NE.
  - right. exists e. split; [reflexivity|]. split; [constructor; auto; congruence|].
    destruct (op_err_cases k m D _ e Er) as [X|(p & -> & NE & Lp)]; [left; exact X|]. right. exists p. split; [reflexivity|].
    split; [exact NE|].
    match type of Lp with wr ?l ?v ?x = None => destruct (wr_cases l v x) as [(o & Io & Eo)|[_ Q]] end; [|rewrite <- Q; exact Lp].
    exfalso. rewrite Eo in Lp. subst o. destruct Io as [Q|[Q|[]]]; discriminate Q.
Qed.

(** * Delete *)
Lemma cut_stored : forall k m D v L, good m -> good (cut (P k D) m) -> lands k m D -> stored m v ->
  (forall w, In w L <-> ins_write H k m D w) ->
  stored (cut (P k D) m) (wr (map (rm H k m) (down (S D)) ++ L) v).
Proof.
  intros k m D v L G G' La Sm WL p NE. set (m' := cut (P k D) m) in *. rewrite wr_app.
  assert (KL : Forall keeps L).
  { apply Forall_forall. intros w Iw. apply WL in Iw. destruct Iw as (i & Li & L2 & ->). left. exists m', (P k i).
    split; [exact G'|]. split; [intros C; fold m' in L2; rewrite C in L2; cbn [length] in L2; lia|reflexivity]. }
  (* off the path *)
  assert (Off : forall p, sub p m' <> [] -> has_prefix p (bits_of k) = false ->
    wr L (wr (map (rm H k m) (down (S D))) v) (T p m') = Some (prim (nd p m'))).
  { clear p NE. intros p NE O. apply (keep_entry H U HC HZ); auto.
    destruct (off_path p k (sub_ne_short p m' NE) O) as (i & q & Li & Ep).
    destruct (Nat.lt_ge_cases i D) as [A|A].
    - assert (Eqs : forall q', sub (p ++ q') m' = sub (p ++ q') m).
      { intros q'. rewrite Ep, <- app_assoc. apply (del_off k m D La). exact A. }
      destruct (nd_ext H p m' m Eqs) as [En ET]. pose proof (Eqs []) as E0. rewrite !app_nil_r in E0. rewrite E0 in NE.
      rewrite En, ET.
      destruct (wr_cases (map (rm H k m) (down (S D))) v (T p m)) as [(o & Io & _)|[_ ->]]; [|apply Sm; exact NE].
      exfalso. apply in_map_iff in Io. destruct Io as (i' & Q & Ii). apply down_in in Ii.
      assert (ET' : T (P k i') m = T p m) by (unfold rm in Q; congruence). clear Q.
      destruct (T_same H U HC HZ p (P k i') m m G G ltac:(congruence)) as (Sa & Ln & Dp).
      destruct (sub p m) as [|e l] eqn:Es; [congruence|].
      assert (Ie : In e (sub (P k i') m)) by (apply Sa; left; reflexivity). apply sub_in in Ie.
      assert (Ie2 : In e (sub p m)) by (rewrite Es; left; reflexivity).
      assert (Ie3 : In e (sub p m')) by (rewrite E0; left; reflexivity).
      apply sub_in in Ie2. apply sub_in in Ie3. destruct Ie3 as [Ie3 _]. apply cut_in in Ie3. destruct Ie3 as [_ Nd].
      destruct (Nat.le_gt_cases 2 (length (e :: l))) as [Tw|On].
      + specialize (Dp Tw). destruct Ie as [_ Ie], Ie2 as [_ Ie2]. apply has_prefix_spec in Ie. apply has_prefix_spec in Ie2.
        assert (Q : p = P k i') by (rewrite <- Ie, <- Ie2, Dp; reflexivity).
        rewrite Q, P_prefix in O. discriminate.
      + destruct La as (LD & LA & LE). assert (i' = D).
        { destruct (Nat.lt_ge_cases i' D) as [B|B]; [specialize (LA i' B); lia|lia]. }
        subst i'. destruct Ie as [_ Ie]. congruence.
    - exfalso. apply NE. rewrite Ep. destruct (P_le k D i A) as [q' Eq]. unfold sd. rewrite Eq, <- !app_assoc.
      apply length_zero_iff_nil. pose proof (sub_app_length (P k D) (q' ++ [negb (kbit k i)] ++ q) m') as Q.
      unfold m' in Q at 2. rewrite cut_below in Q. cbn [length] in Q. lia. }
  destruct (has_prefix p (bits_of k)) eqn:O; [|apply Off; auto].
  destruct (P_of_prefix p k O) as [Lp Eq].
  destruct (Nat.le_gt_cases 2 (length (sub p m'))) as [Tw|On].
  - apply (present_wr H U HC HZ); auto. apply WL. exists (length p). fold m'. rewrite <- Eq. split; [|auto].
    destruct (Nat.lt_ge_cases (length p) D) as [A|A]; auto. exfalso. pose proof (sub_P_le k D (length p) m' A) as Q.
    rewrite <- Eq in Q. unfold m' in Q at 2. rewrite cut_below in Q. cbn [length] in Q. lia.
  - destruct (nil_or_one (sub p m') ltac:(lia)) as [C|[[x hx] Sx]]; [congruence|].
    assert (Ix : In (x, hx) m' /\ has_prefix (P k D) (bits_of x) = false).
    { assert (Q : In (x, hx) (sub p m')) by (rewrite Sx; left; reflexivity). apply sub_in in Q. destruct Q as [Q _].
      split; [exact Q|]. apply cut_in in Q. apply Q. }
    assert (Sx2 : sub (P x KB) m' = [(x, hx)]).
    { apply length_one; [apply sub_in; split; [tauto|apply P_prefix]|]. apply sub_full; [rewrite P_length; lia|apply G']. }
    assert (ET : T p m' = T (P x KB) m').
    { rewrite <- !(nd_hash H U HZ) by exact G'. rewrite (nd_one H _ _ _ _ Sx), (nd_one H _ _ _ _ Sx2). reflexivity. }
    rewrite (nd_one H _ _ _ _ Sx), <- (nd_one H _ _ _ _ Sx2), ET. apply Off; [rewrite Sx2; discriminate|].
    destruct (has_prefix (P x KB) (bits_of k)) eqn:C; auto. exfalso. apply has_prefix_spec in C. rewrite P_length in C by lia.
    unfold P in C. rewrite !firstn_all2 in C by (rewrite kbits_length; lia). destruct Ix as [_ Ix]. rewrite <- C in Ix.
    rewrite P_prefix in Ix. discriminate.
Qed.

Lemma delete_none : forall k t, V t k = None -> exists t' r, sp_delete H pr st k t = (t', Val r) /\
  sp_root_node t' = sp_root_node t /\ (forall k', V t' k' = V t k') /\ (r = Ok tt \/ exists e, r = Err (SStorageError e) /\ fallible).
Proof.
  intros k [rn s] Vk. cbn [sp_storage] in Vk. unfold sp_delete, bind at 1, get_state.
  destruct (b32_eqb (sp_root H {| sp_root_node := rn; sp_storage := s |}) zero_sum).
  - eexists _, (Ok tt). split; [reflexivity|]. auto.
  - unfold bind_try at 1. unfold bind at 1. unfold on_storage at 1. cbn [sp_storage sp_root_node].
    destruct (get_spec st view Law k s) as (s1 & r1 & -> & V1 & [->|[[e ->] F]]).
    + rewrite Vk. eexists _, (Ok tt). split; [reflexivity|]. cbn [sp_storage sp_root_node]. auto.
    + eexists _, _. split; [reflexivity|]. cbn [sp_storage sp_root_node]. split; [reflexivity|]. split; [exact V1|]. right. eauto.
Qed.

Theorem delete_step : forall k m D t, core m t -> Ks k -> fresh k -> lands k m D -> good (cut (P k D) m) ->
  exists t' r, sp_delete H pr st k t = (t', Val r) /\
  ((r = Ok tt /\ core m t' /\ (m = [] \/ V t k = None) /\ (forall k', V t' k' = V t k')) \/
   (r = Ok tt /\ V t k <> None /\ core (cut (P k D) m) t' /\ (stored m (V t) -> stored (cut (P k D) m) (V t'))) \/
   (exists e, r = Err e /\ core m t' /\ ((storage_error e /\ fallible) \/ (missing m (V t) e)))) /\
  (forall k', fresh k' -> k' <> zero32 \/ sub (P k D) m <> [] -> V t' k' = V t k') /\
  (forall k', fresh k' -> V t' k' = V t k' \/ V t' k' = None).
Proof.
  intros k m D t [Rn So G Us] Kk Fr La G'.
  destruct (delete_ok H U HZ pr st view Law k m D t La G G' So Rn (Us k Kk Fr)) as (t' & r & -> & R).
  exists t', r. split; [reflexivity|].
  (* effects of writes of a delete *)
  assert (WO : forall L, (forall w, In w L -> del_write H k m D w) ->
    Forall (ok_write H U) L /\ forall k' o, fresh k' -> In (k', o) L -> k' = zero32 /\ o = None /\ sub (P k D) m = []).
  { intros L WL. split.
    - apply Forall_forall. intros w Iw. destruct (WL w Iw) as [(i & _ & ->)|(i & Li & L2 & ->)]; [right; right; reflexivity|].
      left. exists (cut (P k D) m), (P k i). split; [exact G'|]. split; [intros C; rewrite C in L2; cbn [length] in L2; lia|reflexivity].
    - intros k' o F' Io. destruct (WL _ Io) as [(i & Li & Q)|(i & Li & L2 & Q)].
      + unfold rm in Q. destruct (sub (P k i) m) eqn:Es.
        * assert (i = D). { destruct (Nat.eq_dec i D); auto. exfalso. destruct La as (_ & LA & _). specialize (LA i ltac:(lia)). rewrite Es in LA. cbn [length] in LA. lia. }
          subst i. assert (TZ : T (P k D) m = zero32) by (destruct (T_cases H (P k D) m (good_nodup H U m G)) as [? Q1 ?|? ? Q1|Q1]; [exact Q1|congruence|rewrite Es in Q1; cbn [length] in Q1; lia]).
          rewrite TZ in Q. split; [congruence|]. split; [congruence|exact Es].
        * exfalso. apply (fresh_not_T k' m (P k i) F' G); [rewrite Es; discriminate|congruence].
      + exfalso. unfold SparseProofs.nw in Q. apply (fresh_not_T k' (cut (P k D) m) (P k i) F' G'); [intros C; rewrite C in L2; cbn [length] in L2; lia|congruence]. }
  assert (WV : forall L, (forall w, In w L -> del_write H k m D w) -> (forall k', V t' k' = wr L (V t) k') ->
    sound (V t') /\ users (V t') /\ (forall k', fresh k' -> k' <> zero32 \/ sub (P k D) m <> [] -> V t' k' = V t k') /\
    (forall k', fresh k' -> V t' k' = V t k' \/ V t' k' = None)).
  { intros L WL VL. destruct (WO L WL) as [OL UL]. split; [|split; [|split]].
    - apply (sound_ext H U (wr L (V t))); [intros; symmetry; apply VL|]. apply sound_wr; auto.
    - intros k' K' F'. rewrite VL. destruct (wr_cases L (V t) k') as [(o & Io & ->)|[_ ->]]; [|apply Us; assumption].
      left. apply (UL k' o F' Io).
    - intros k' F' C. rewrite VL. destruct (wr_cases L (V t) k') as [(o & Io & _)|[_ ->]]; [|reflexivity].
      destruct (UL k' o F' Io) as (A & _ & B). destruct C; contradiction.
    - intros k' F'. rewrite VL. destruct (wr_cases L (V t) k') as [(o & Io & ->)|[_ ->]]; [|left; reflexivity].
      right. apply (UL k' o F' Io). }
  destruct R as [(-> & Rt & Vs & C)|[(-> & Vk & Rt & _ & L & VL & WL)|(e & -> & Rt & Er & L & VL & WL & _)]].
  - split; [|split; [intros k' _ _; apply Vs|intros k' _; left; apply Vs]]. left. split; [reflexivity|]. split.
    + constructor; auto; [apply (sound_ext H U (V t)); auto|]. intros k' K' F'. rewrite Vs. apply Us; assumption.
    + split; [exact C|exact Vs].
  - assert (WR : forall w, In w (map (rm H k m) (down (S D)) ++ L) -> del_write H k m D w).
    { intros w Iw. apply in_app_or in Iw. destruct Iw as [Iw|Iw]; [|right; apply WL; exact Iw].
      left. apply in_map_iff in Iw. destruct Iw as (i & <- & Ii). apply down_in in Ii. exists i. split; [lia|reflexivity]. }
    destruct (WV _ WR VL) as (So' & Us' & Vu). split; [|exact Vu]. right. left. split; [reflexivity|]. split; [exact Vk|].
    split; [constructor; auto|]. intros Sm. apply (stored_ext H _ (wr (map (rm H k m) (down (S D)) ++ L) (V t))); [intros; symmetry; apply VL|].
    apply cut_stored; auto.
  - destruct (WV _ WL VL) as (So' & Us' & Vu). split; [|exact Vu]. right. right. exists e. split; [reflexivity|].
    split; [constructor; auto; congruence|]. exact (op_err_cases k m D _ e Er).
Qed.

(** A present key is where its path ends. *)
Lemma lands_present : forall k h m D, NoDup (keys m) -> lands k m D -> In (k, h) m -> sub (P k D) m = [(k, h)].
Proof.
  intros k h m D N (LD & LA & LE) Ik. apply length_one; auto. apply sub_in. split; [exact Ik|apply P_prefix].
Qed.
Lemma stored_not_missing : forall m v e, stored m v -> ~ missing m v e.
Proof. intros m v e Sm (p & _ & NE & Lp). rewrite (Sm p NE) in Lp. discriminate. Qed.

(** * Load *)
Lemma load_ok : forall m s, good m -> m <> [] -> stored m (view s) ->
  exists s' r, sp_load st (T [] m) s = (s', Val r) /\ (forall k, view s' k = view s k) /\
  (r = Ok (Build_SpTree (nd [] m) s') \/ (exists e, r = Err (SStorageError e)) /\ fallible).
Proof.
  intros m s G NE Sm. unfold sp_load, bind_try, bind.
  destruct (get_spec st view Law (T [] m) s) as (s1 & r1 & -> & V1 & [->|[[e ->] F]]).
  - rewrite (Sm []) by (rewrite sub_root; exact NE). rewrite try_from_prim. eexists _, _. split; [reflexivity|]. auto.
  - eexists _, _. split; [reflexivity|]. split; [exact V1|]. right. eauto.
Qed.
End Steps.

(** All keys are in use. *)
Definition anyk (k : bytes32) : Prop := True.
