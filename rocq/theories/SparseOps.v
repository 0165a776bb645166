(** SparseOps.v -- one update and one delete of the sparse tree. *)
From Verif Require Import Base Storage ModelCommon ModelSparse SpecBits SpecBinary SpecSparse
  SpecPosition BindingProofs BitsProofs PositionProofs CommonProofs SparseSpecFacts SparseNodes SparseProofs.
From Coq Require Import Arith ZifyBool ZifyNat ZifyN Permutation.
Ltac Zify.zify_post_hook ::= Z.div_mod_to_equations.
Arguments Nat.mul : simpl never.
Arguments Z.pow : simpl never.
Arguments Z.mul : simpl never.
Arguments Z.add : simpl never.
Arguments Z.sub : simpl never.
Arguments Z.of_nat : simpl never.

(** * Maps that agree off the path of a key *)
Lemma P_le : forall k i j, (i <= j)%nat -> exists q, P k j = P k i ++ q.
Proof.
  intros k i j L. exists (skipn i (P k j)). unfold P.
  rewrite <- (firstn_skipn i (firstn j (bits_of k))) at 1. rewrite firstn_firstn. f_equal. f_equal. lia.
Qed.
Lemma sub_P_le : forall {V} k i j (m : list (bytes32 * V)), (i <= j)%nat -> (length (sub (P k j) m) <= length (sub (P k i) m))%nat.
Proof. intros V k i j m L. destruct (P_le k i j L) as [q ->]. apply sub_app_length. Qed.
Lemma sub_P_in : forall {V} k i j (m : list (bytes32 * V)) e, (i <= j)%nat -> In e (sub (P k j) m) -> In e (sub (P k i) m).
Proof.
  intros V k i j m e L Ie. destruct (P_le k i j L) as [q Eq]. rewrite Eq in Ie. apply sub_in in Ie. apply sub_in.
  split; [tauto|]. apply (has_prefix_app _ q). tauto.
Qed.
Lemma off_extend : forall p q bs, has_prefix p bs = false -> has_prefix (p ++ q) bs = false.
Proof.
  intros p q bs E. destruct (has_prefix (p ++ q) bs) eqn:F; auto. apply has_prefix_app in F. congruence.
Qed.

Lemma mdel_length : forall {V} k (l : list (bytes32 * V)), NoDup (keys l) -> (length l <= S (length (mdel k l)))%nat.
Proof.
  intros V k l N. unfold keys in N. induction l as [|[k' x] l IH]; cbn [length]; [lia|]. cbn [map fst] in N. inversion N; subst.
  unfold mdel in *. cbn [filter fst]. destruct (b32_eqb k' k) eqn:E; cbn [negb].
  - apply b32_eqb_eq in E. subst k'. replace (filter (fun e : bytes32 * V => negb (b32_eqb (fst e) k)) l) with l; [lia|].
    symmetry. exact (mdel_notin k l H1).
  - cbn [length]. specialize (IH H2). lia.
Qed.

Lemma bind_val : forall {S A B} (a : A) (f : A -> M S B), bind (lift (Val a)) f = f a.
Proof. reflexivity. Qed.
Lemma try_ok : forall {S E A B} (a : A) (f : A -> M S (result E B)), bind_try (ret (Ok a)) f = f a.
Proof. reflexivity. Qed.
Lemma on_ok : forall {S E A B} (a : A) (f : A -> M (SpTree S) (result E B)) t,
  bind_try (on_storage (ret (Ok a))) f t = f a t.
Proof. intros S E A B a f [n s]. reflexivity. Qed.

Lemma nil_or_one : forall {A} (l : list A), (length l <= 1)%nat -> l = [] \/ exists x, l = [x].
Proof. intros A [|x [|y l]] L; cbn [length] in L; try lia; eauto. Qed.

Section Ops.
Variable H : list byte -> bytes32.
Variable U : list (list byte).
Hypothesis HC : ~ has_collision H U.
Hypothesis HZ : forall x, In x U -> H x <> zero32.
Variable pr : profile.
Context {St E : Type}.
Variable st : StorageT St bytes32 SPrimitive E.
Variable view : St -> bytes32 -> option SPrimitive.
Hypothesis Law : Lawful st view.
Notation T := (T H).
Notation nd := (nd H).
Notation nw := (nw H).
Notation good := (good H U).
Notation prim := sprim_of_node.
Notation fallible := (fallible st).
Notation walk_err := (walk_err H st).

Lemma nd_ext : forall p m m', (forall q, sub (p ++ q) m = sub (p ++ q) m') -> nd p m = nd p m' /\ T p m = T p m'.
Proof.
  intros p m m' E0. assert (E1 : sub p m = sub p m') by (specialize (E0 []); rewrite app_nil_r in E0; exact E0).
  split; [|unfold SparseSpecFacts.T; rewrite E1; reflexivity].
  unfold SparseNodes.nd, inode, SparseSpecFacts.T. rewrite E1, !E0. reflexivity.
Qed.

(** * Keeping the storage in order *)
(** Whatever is stored under the hash of a node is that node. *)
Definition sound (v : bytes32 -> option SPrimitive) : Prop :=
  forall m p, good m -> sub p m <> [] -> v (T p m) = Some (prim (nd p m)) \/ v (T p m) = None.
Definition fresh (k : bytes32) : Prop := forall x, In x U -> H x <> k.

Lemma T_digest : forall m p, good m -> sub p m <> [] -> exists x, In x U /\ T p m = H x.
Proof.
  intros m p G NE. pose proof (good_I H U m p G) as S.
  destruct (T_cases H p m (good_nodup H U m G)) as [S1 E1 I1|k h S1 E1 I1|S1 L1 E1 I1]; [contradiction| |];
    eexists; (split; [apply S; rewrite I1; left; reflexivity|exact E1]).
Qed.

Definition ok_write (w : bytes32 * option SPrimitive) : Prop :=
  (exists m p, good m /\ sub p m <> [] /\ w = nw p m) \/
  (exists k o, fresh k /\ w = (k, o)) \/ snd w = None.

Lemma sound_wr : forall L v, sound v -> Forall ok_write L -> sound (wr L v).
Proof.
  intros L v So F m p G NE. destruct (wr_cases L v (T p m)) as [(o & Io & ->)|[_ ->]]; [|apply So; auto].
  rewrite Forall_forall in F. destruct (F _ Io) as [(m1 & p1 & G1 & N1 & Q)|[(k & o' & Fr & Q)|Q]].
  - unfold SparseProofs.nw in Q. assert (Q1 : T p m = T p1 m1) by congruence. assert (Q2 : o = Some (prim (nd p1 m1))) by congruence.
    left. rewrite Q2. rewrite (nd_unique H U HC HZ p p1 m m1 G G1 Q1). reflexivity.
  - exfalso. destruct (T_digest m p G NE) as (x & Ix & Ex). apply (Fr x Ix). congruence.
  - right. exact Q.
Qed.

Lemma sound_ext : forall v v', (forall k, v k = v' k) -> sound v -> sound v'.
Proof. intros v v' X So m p G NE. rewrite <- X. apply So; auto. Qed.
Lemma sound_lossy : forall v m, sound v -> good m -> lossy H m v.
Proof. intros v m So G p NE. apply So; auto. Qed.
Lemma sound_empty : forall v, (forall k, v k = None) -> sound v.
Proof. intros v N m p G NE. right. apply N. Qed.

(** All nodes of [m] are there. *)
Definition stored (m : entries) (v : bytes32 -> option SPrimitive) : Prop :=
  forall p, sub p m <> [] -> v (T p m) = Some (prim (nd p m)).
Lemma stored_ext : forall m v v', (forall k, v k = v' k) -> stored m v -> stored m v'.
Proof. intros m v v' X So p NE. rewrite <- X. apply So; auto. Qed.

(** Writes of nodes and of fresh keys destroy nothing. *)
Definition keeps (w : bytes32 * option SPrimitive) : Prop :=
  (exists m p, good m /\ sub p m <> [] /\ w = nw p m) \/ (exists k o, fresh k /\ w = (k, o)).
Lemma keeps_ok : forall w, keeps w -> ok_write w.
Proof. intros w [A|B]; [left; exact A|right; left; exact B]. Qed.

Lemma keep_entry : forall L v m p, good m -> sub p m <> [] -> Forall keeps L -> v (T p m) = Some (prim (nd p m)) ->
  wr L v (T p m) = Some (prim (nd p m)).
Proof.
  intros L v m p G NE F So. destruct (wr_cases L v (T p m)) as [(o & Io & ->)|[_ ->]]; [|exact So].
  rewrite Forall_forall in F. destruct (F _ Io) as [(m1 & p1 & G1 & N1 & Q)|(k & o' & Fr & Q)].
  - unfold SparseProofs.nw in Q. assert (Q1 : T p m = T p1 m1) by congruence. assert (Q2 : o = Some (prim (nd p1 m1))) by congruence.
    rewrite Q2. rewrite (nd_unique H U HC HZ p p1 m m1 G G1 Q1). reflexivity.
  - exfalso. destruct (T_digest m p G NE) as (x & Ix & Ex). apply (Fr x Ix). congruence.
Qed.

Lemma stored_wr : forall L v m, good m -> stored m v -> Forall keeps L -> stored m (wr L v).
Proof. intros L v m G So F p NE. apply keep_entry; auto. Qed.

Lemma present_wr : forall L v m p, good m -> sub p m <> [] -> Forall keeps L -> In (nw p m) L ->
  wr L v (T p m) = Some (prim (nd p m)).
Proof.
  intros L v m p G NE F Iw. destruct (wr_cases L v (T p m)) as [(o & Io & ->)|[N _]]; [|destruct (N _ Iw)].
  rewrite Forall_forall in F. destruct (F _ Io) as [(m1 & p1 & G1 & N1 & Q)|(k & o' & Fr & Q)].
  - unfold SparseProofs.nw in Q. assert (Q1 : T p m = T p1 m1) by congruence. assert (Q2 : o = Some (prim (nd p1 m1))) by congruence.
    rewrite Q2. rewrite (nd_unique H U HC HZ p p1 m m1 G G1 Q1). reflexivity.
  - exfalso. destruct (T_digest m p G NE) as (x & Ix & Ex). apply (Fr x Ix). congruence.
Qed.

Lemma root_assert : forall m, good m -> debug_assert pr (snode_is_leaf (nd [] m) || (sn_height (nd [] m) =? max_height)) = Val tt.
Proof.
  intros m G. rewrite (nd_is_leaf H U HZ) by exact G. rewrite nd_height.
  unfold debug_assert; destruct (length (sub [] m) <=? 1)%nat; destruct (debug_assertions pr); reflexivity.
Qed.

Lemma set_root_ok : forall m t, good m ->
  sp_set_root_node pr (nd [] m) t = (Build_SpTree (nd [] m) (sp_storage (S := St) t), Val tt).
Proof. intros m t G. unfold sp_set_root_node, bind, lift. rewrite root_assert by exact G. reflexivity. Qed.

(** * Update *)
Section Update.
Variable k : bytes32.
Variable h : bytes32.
Variable m : entries.
Let m' : entries := mset k h m.
Hypothesis G : good m.
Hypothesis G' : good m'.

Lemma upd_off : forall p, has_prefix p (bits_of k) = false -> nd p m' = nd p m /\ T p m' = T p m.
Proof. intros p O. apply nd_ext. intros q. apply sub_mset_out. apply off_extend. exact O. Qed.

Lemma upd_P : forall i, sub (P k i) m' = (k, h) :: mdel k (sub (P k i) m).
Proof. intros i. apply sub_mset_in. apply P_prefix. Qed.

Lemma upd_two : forall i, (2 <= length (sub (P k i) m))%nat -> (2 <= length (sub (P k i) m'))%nat.
Proof.
  intros i L. rewrite upd_P. cbn [length]. pose proof (mdel_length k (sub (P k i) m) (sub_nodup _ _ (good_nodup H U m G))). lia.
Qed.

Lemma sides_eq : forall D, (D <= KB)%nat -> map (fun i => nd (sd k i) m) (down D) = map (fun i => nd (sd k i) m') (down D).
Proof.
  intros D L. apply map_ext_in. intros i Ii. apply down_in in Ii. symmetry. apply upd_off. apply sd_off. lia.
Qed.

(** The writes of an update. *)
Definition upd_write (w : bytes32 * option SPrimitive) : Prop :=
  w = (k, Some (prim (leafn k h))) \/ exists i, (i <= KB)%nat /\ sub (P k i) m' <> [] /\ w = nw (P k i) m'.

Lemma leaf_write : forall i, sub (P k i) m' = [(k, h)] -> nw (P k i) m' = (snode_hash H (leafn k h), Some (prim (leafn k h))).
Proof.
  intros i S1. unfold SparseProofs.nw. rewrite <- (nd_hash H U HZ) by exact G'. rewrite (nd_one H _ _ _ _ S1). reflexivity.
Qed.

Lemma sub_P_full : forall i, (length (sub (P k i) m') <= 1)%nat -> sub (P k i) m' = [(k, h)].
Proof. intros i L. apply length_one; auto. rewrite upd_P. left. reflexivity. Qed.

Lemma sub_P_ne : forall i, sub (P k i) m' <> [].
Proof. intros i. rewrite upd_P. discriminate. Qed.

Definition leaf_w : bytes32 * option SPrimitive := (snode_hash H (leafn k h), Some (prim (leafn k h))).
Definition user_w : bytes32 * option SPrimitive := (k, Some (prim (leafn k h))).

Lemma leaf_w_ok : upd_write leaf_w.
Proof.
  right. exists KB. split; [lia|]. split; [apply sub_P_ne|]. unfold leaf_w. rewrite leaf_write; [reflexivity|].
  apply sub_P_full. apply sub_full; [rewrite P_length; lia|apply G'].
Qed.

(** From a list of the writes of the nodes above depth [j] one gets all of them. *)
Lemma all_writes : forall j L, (j <= KB)%nat -> (length (sub (P k j) m') <= 1)%nat ->
  In user_w L -> In leaf_w L -> (forall i, (i < j)%nat -> In (nw (P k i) m') L) -> forall w, upd_write w -> In w L.
Proof.
  intros j L Lj S1 Iu Il Ii w [->|(i & Li & NE & ->)]; [exact Iu|].
  destruct (Nat.lt_ge_cases i j) as [A|A]; [apply Ii; exact A|].
  rewrite leaf_write; [exact Il|]. apply sub_P_full. pose proof (sub_P_le k j i m' A). lia.
Qed.

Lemma update_path_ok : forall D t, lands k m D ->
  exists t' r L, update_with_path_set H pr st (leafn k h) (map (fun i => nd (P k i) m) (down (S D)))
                   (map (fun i => nd (sd k i) m) (down D)) t = (t', Val r) /\
  (forall k', view (sp_storage t') k' = wr L (view (sp_storage t)) k') /\ (forall w, In w L -> upd_write w) /\
  ((r = Ok tt /\ sp_root_node t' = nd [] m' /\ forall w, upd_write w -> In w (user_w :: leaf_w :: L)) \/
   ((exists e, r = Err (SStorageError e)) /\ sp_root_node t' = sp_root_node t /\ fallible)).
Proof.
  intros D [rn s] (LD & LA & LE). pose proof KB_val as KV. unfold update_with_path_set. cbn [down map].
  change (snode_leaf_key (leafn k h)) with (Val k).
  rewrite sides_eq by exact LD. set (sides := map (fun i => nd (sd k i) m') (down D)).
  assert (Ls : length sides = D) by (unfold sides; rewrite map_length, down_length; reflexivity).
  assert (nw_writes : forall j, (j <= KB)%nat -> forall w, In w (map (fun i => nw (P k i) m') (down j)) -> upd_write w).
  { intros j Lj w Iw. apply in_map_iff in Iw. destruct Iw as (i & <- & Ii). apply down_in in Ii.
    right. exists i. split; [lia|]. split; [apply sub_P_ne|reflexivity]. }
  unfold bind at 1. unfold lift at 1.
  (* what is left once the node at depth j is there *)
  assert (Fin : forall j s1 L1 n, (D = j)%nat -> n = nd (P k j) m' -> (forall i, (i < j)%nat -> (2 <= length (sub (P k i) m'))%nat) ->
    (forall k', view s1 k' = wr L1 (view s) k') -> (forall w, In w L1 -> upd_write w) ->
    (forall w, (exists i, (j <= i <= KB)%nat /\ w = nw (P k i) m') -> In w (user_w :: leaf_w :: L1)) ->
    exists t' r L, bind_try (on_storage (merge_side_nodes H pr st k n sides))
        (fun current_node => bind (sp_set_root_node pr current_node) (fun _ => ret (Ok tt))) (Build_SpTree rn s1) = (t', Val r) /\
    (forall k', view (sp_storage t') k' = wr L (view s) k') /\ (forall w, In w L -> upd_write w) /\
    ((r = Ok tt /\ sp_root_node t' = nd [] m' /\ forall w, upd_write w -> In w (user_w :: leaf_w :: L)) \/
     ((exists e, r = Err (SStorageError e)) /\ sp_root_node t' = rn /\ fallible))).
  { intros j s1 L1 n Ej -> L2 V1 W1 A1. subst j. unfold bind_try, bind, on_storage. cbn [sp_storage sp_root_node].
    pose proof (merge_ok H U HZ pr st view Law k D m' G' LD L2 s1) as Mg. fold sides in Mg.
    destruct Mg as (s2 & r2 & L & -> & V2 & I2 & [[-> ->]|[[e ->] F]]).
    - rewrite set_root_ok by exact G'. cbn [sp_storage].
      eexists _, (Ok tt), (L1 ++ _). split; [reflexivity|]. cbn [sp_storage sp_root_node]. split.
      { intros k'. rewrite V2, wr_app. apply wr_ext. exact V1. }
      split. { intros w Iw. apply in_app_or in Iw. destruct Iw as [Iw|Iw]; auto. exact (nw_writes D LD w Iw). }
      left. split; [reflexivity|]. split; [reflexivity|]. intros w [->|(i & Li & NE & ->)]; [left; reflexivity|].
      destruct (Nat.lt_ge_cases i D) as [A|A].
      + right. right. apply in_or_app. right. apply in_map_iff. exists i. split; [reflexivity|]. apply down_in. exact A.
      + assert (Q : In (nw (P k i) m') (user_w :: leaf_w :: L1)) by (apply A1; exists i; split; [lia|reflexivity]).
        destruct Q as [Q|[Q|Q]]; [left; exact Q|right; left; exact Q|right; right; apply in_or_app; left; exact Q].
    - eexists _, (Err (SStorageError e)), (L1 ++ L). split; [reflexivity|]. cbn [sp_storage sp_root_node]. split.
      { intros k'. rewrite V2, wr_app. apply wr_ext. exact V1. }
      split. { intros w Iw. apply in_app_or in Iw. destruct Iw as [Iw|Iw]; auto. apply (nw_writes D LD). apply I2. exact Iw. }
      right. eauto. }
  assert (Single : (length (sub (P k D) m') <= 1)%nat -> forall w, (exists i, (D <= i <= KB)%nat /\ w = nw (P k i) m') -> In w (user_w :: leaf_w :: [])).
  { intros S1 w (i & Li & ->). right. left. symmetry. apply leaf_write. apply sub_P_full.
    pose proof (sub_P_le k D i m' ltac:(lia)). lia. }
  assert (Upper : forall i, (i < D)%nat -> (2 <= length (sub (P k i) m'))%nat) by (intros i Li; apply upd_two; apply LA; exact Li).
  assert (Direct : (length (sub (P k D) m') <= 1)%nat ->
    exists t' r L, bind_try (on_storage (merge_side_nodes H pr st k (leafn k h) sides))
        (fun current_node => bind (sp_set_root_node pr current_node) (fun _ => ret (Ok tt))) (Build_SpTree rn s) = (t', Val r) /\
    (forall k', view (sp_storage t') k' = wr L (view s) k') /\ (forall w, In w L -> upd_write w) /\
    ((r = Ok tt /\ sp_root_node t' = nd [] m' /\ forall w, upd_write w -> In w (user_w :: leaf_w :: L)) \/
     ((exists e, r = Err (SStorageError e)) /\ sp_root_node t' = rn /\ fallible))).
  { intros S1. refine (Fin D s [] (leafn k h) eq_refl _ Upper (fun _ => eq_refl) (fun w (Iw : In w []) => match Iw with end) (Single S1)).
    symmetry. apply nd_one. apply sub_P_full. exact S1. }
  destruct (nil_or_one _ LE) as [S0|[[ka ha] S0]].
  - (* nothing there *)
    assert (S1 : (length (sub (P k D) m') <= 1)%nat) by (rewrite upd_P, S0; cbn [mdel filter length]; lia).
    rewrite (nd_nil H _ _ S0). change (snode_leaf_key snode_placeholder) with (Val zero32).
    unfold bind at 1. unfold lift at 1.
    destruct (negb (b32_eqb k zero32)).
    + change (snode_is_placeholder snode_placeholder) with true. cbn [negb].
      unfold snode_common_path_length. change (snode_is_placeholder snode_placeholder) with true. rewrite orb_true_r.
      replace (debug_assert pr (snode_is_leaf (leafn k h))) with (Val tt) by (unfold debug_assert; destruct (debug_assertions pr); reflexivity).
      replace (debug_assert pr (snode_is_leaf snode_placeholder)) with (Val tt) by (unfold debug_assert; destruct (debug_assertions pr); reflexivity).
      cbn [obind]. rewrite try_ok, bind_val, Ls. replace (Z.to_nat (Z.max (Z.of_nat D) 0 - Z.of_nat D)) with O by lia.
      cbn [repeat merge_side_nodes]. rewrite on_ok.
      destruct (Direct S1) as (t' & r & L & Q & R). exists t', r, L. split; [exact Q|exact R].
    + destruct (Direct S1) as (t' & r & L & Q & R). exists t', r, L. split; [exact Q|exact R].
  - rewrite (nd_one H _ _ _ _ S0). change (snode_leaf_key (leafn ka ha)) with (Val ka).
    unfold bind at 1. unfold lift at 1.
    assert (Ia : In (ka, ha) m /\ has_prefix (P k D) (bits_of ka) = true).
    { apply (sub_in (P k D) m (ka, ha)). rewrite S0. left. reflexivity. }
    destruct (b32_eqb k ka) eqn:Ek; cbn [negb].
    + apply b32_eqb_eq in Ek. subst ka.
      assert (S1 : (length (sub (P k D) m') <= 1)%nat).
      { rewrite upd_P, S0. cbn [mdel filter fst]. rewrite b32_eqb_refl. cbn [negb length]. lia. }
      destruct (Direct S1) as (t' & r & L & Q & R). exists t', r, L. split; [exact Q|exact R].
    + (* another leaf: fork at depth c *)
      apply b32_eqb_neq in Ek. set (c := lcp (bits_of k) (bits_of ka)).
      assert (Fc : firstn c (bits_of k) = firstn c (bits_of ka)) by apply lcp_firstn.
      assert (Lc : (c < KB)%nat).
      { destruct (Nat.lt_ge_cases c KB) as [A|A]; auto. exfalso. apply Ek. apply bytes32_ext. apply bits_of_inj; [rewrite !b32_length; reflexivity|].
        rewrite !firstn_all2 in Fc by (rewrite kbits_length; exact A). exact Fc. }
      assert (Dc : (D <= c)%nat).
      { apply lcp_max; [rewrite kbits_length; lia..|]. destruct Ia as [_ Pa]. apply has_prefix_spec in Pa.
        rewrite P_length in Pa by exact LD. symmetry. exact Pa. }
      assert (Kc : kbit ka c = negb (kbit k c)).
      { destruct (Bool.bool_dec (kbit ka c) (kbit k c)) as [Eq|Ne]; [|destruct (kbit ka c), (kbit k c); auto; congruence].
        exfalso. assert (Q : (S c <= lcp (bits_of k) (bits_of ka))%nat).
        { apply lcp_max; [rewrite kbits_length; lia..|]. rewrite !nth_firstn_snoc by (rewrite kbits_length; lia).
          unfold kbit in Eq. rewrite Fc, Eq. reflexivity. }
        fold c in Q. lia. }
      assert (Iam' : In (ka, ha) m') by (right; apply mdel_in; split; [tauto|cbn; congruence]).
      assert (Psd : has_prefix (sd k c) (bits_of ka) = true).
      { unfold sd. rewrite has_prefix_snoc by (rewrite P_length, kbits_length; lia). rewrite P_length by lia.
        apply andb_true_intro. split; [unfold P; rewrite Fc; apply has_prefix_firstn|].
        fold (kbit ka c). rewrite Kc. apply Bool.eqb_reflx. }
      assert (PD : sub (P k D) m' = [(k, h); (ka, ha)]).
      { rewrite upd_P, S0. cbn [mdel filter fst]. replace (b32_eqb ka k) with false by (symmetry; apply b32_eqb_neq; congruence). reflexivity. }
      assert (Inc : forall i, (D <= i <= c)%nat -> (2 <= length (sub (P k i) m'))%nat).
      { intros i Li.
        assert (Iu : incl [(k, h); (ka, ha)] (sub (P k i) m')).
        { intros e [<-|[<-|[]]]; apply sub_in; cbn [fst].
          - split; [left; reflexivity|apply P_prefix].
          - split; [exact Iam'|]. destruct (P_le k i c ltac:(lia)) as [q Eq]. apply (has_prefix_app _ q). rewrite <- Eq.
            unfold P. rewrite Fc. apply has_prefix_firstn. }
        change 2%nat with (length [(k, h); (ka, ha)]). apply NoDup_incl_length; [|exact Iu].
        constructor; [intros [C|[]]; congruence|]. constructor; [intros []|constructor]. }
      assert (PSc : sub (P k (S c)) m' = [(k, h)]).
      { apply sub_P_full. destruct (Nat.le_gt_cases (length (sub (P k (S c)) m')) 1) as [A|A]; auto. exfalso.
        destruct (two_elements (sub (P k (S c)) m')) as (e & e' & Ie & Ie' & Ne); [lia|apply sub_nodup; apply G'|].
        assert (Q : forall x, In x (sub (P k (S c)) m') -> x = (k, h)).
        { intros x Ix. pose proof (sub_P_in k D (S c) m' x ltac:(lia) Ix) as Ix2. rewrite PD in Ix2.
          destruct Ix2 as [<-|[<-|[]]]; [reflexivity|]. exfalso. apply sub_in in Ix. destruct Ix as [_ Ix]. cbn [fst] in Ix.
          rewrite P_S in Ix by exact Lc. rewrite has_prefix_snoc in Ix by (rewrite P_length, kbits_length; lia).
          rewrite P_length in Ix by lia. fold (kbit ka c) in Ix. rewrite Kc in Ix. destruct (kbit k c); rewrite andb_false_r in Ix; discriminate. }
        apply Ne. rewrite (Q e Ie), (Q e' Ie'). reflexivity. }
      assert (Ssd : sub (sd k c) m' = [(ka, ha)]).
      { apply length_one; [apply sub_in; split; [exact Iam'|exact Psd]|].
        pose proof (sub_split_length (P k c) m' ltac:(rewrite P_length; lia)) as Sp.
        pose proof (sub_P_le k D c m' Dc) as Le. rewrite PD in Le. cbn [length] in Le.
        assert (Q : length (sub (P k (S c)) m') = 1%nat) by (rewrite PSc; reflexivity).
        rewrite P_S in Q by exact Lc. unfold sd. destruct (kbit k c); cbn [negb] in *; lia. }
      assert (Emp : forall i, (D <= i < c)%nat -> sub (sd k i) m' = []).
      { intros i Li. apply length_zero_iff_nil.
        pose proof (sub_split_length (P k i) m' ltac:(rewrite P_length; lia)) as Sp.
        pose proof (sub_P_le k D i m' ltac:(lia)) as Le. rewrite PD in Le. cbn [length] in Le.
        pose proof (Inc (S i) ltac:(lia)) as Q. rewrite P_S in Q by lia. unfold sd. destruct (kbit k i); cbn [negb] in *; lia. }
      assert (Nsd : h <> zero32 /\ ha <> zero32).
      { split; [apply (good_digest H U m' G' k h); left; reflexivity|apply (good_digest H U m G ka ha); tauto]. }
      rewrite leafn_not_placeholder by tauto. cbn [negb].
      unfold bind_try at 1. unfold bind at 1. unfold bind_try at 1. unfold bind at 1. unfold on_storage at 1. cbn [sp_storage sp_root_node].
      pose proof (join_store_ok H U HZ pr st view Law k c m' s G' Lc (Inc c ltac:(lia))) as J.
      rewrite (nd_one H _ _ _ _ PSc), (nd_one H _ _ _ _ Ssd) in J.
      destruct J as (s1 & r1 & L1 & -> & V1 & I1 & [[-> ->]|[[e ->] F]]).
      2:{ eexists _, _, L1. split; [reflexivity|]. cbn [sp_storage sp_root_node]. split; [exact V1|]. split.
          - intros w Iw. apply I1 in Iw. destruct Iw as [<-|[]]. right. exists c. split; [lia|]. split; [apply sub_P_ne|reflexivity].
          - right. eauto. }
      assert (CPL : snode_common_path_length pr (leafn k h) (leafn ka ha) = Val (Z.of_nat c)).
      { unfold snode_common_path_length. rewrite !leafn_not_placeholder by tauto. cbn [orb].
        replace (debug_assert pr (snode_is_leaf (leafn k h))) with (Val tt) by (unfold debug_assert; destruct (debug_assertions pr); reflexivity).
        replace (debug_assert pr (snode_is_leaf (leafn ka ha))) with (Val tt) by (unfold debug_assert; destruct (debug_assertions pr); reflexivity).
        cbn [obind]. change (snode_leaf_key (leafn k h)) with (Val k). change (snode_leaf_key (leafn ka ha)) with (Val ka).
        cbn [obind]. apply common_prefix_count_ok. rewrite !b32_length. reflexivity. }
      rewrite CPL, bind_val, Ls.
      replace (Z.to_nat (Z.max (Z.of_nat D) (Z.of_nat c) - Z.of_nat D)) with (c - D)%nat by lia.
      destruct (down_app c D Dc) as (l & El & Ll & Bl).
      assert (Rep : repeat snode_placeholder (c - D) = map (fun i => nd (sd k i) m') l).
      { rewrite <- Ll. clear - Emp Bl HZ. induction l as [|i l IH]; cbn [length repeat map]; auto. f_equal.
        - symmetry. apply nd_nil. apply Emp. apply Bl. left. reflexivity.
        - apply IH. intros j Ij. apply Bl. right. exact Ij. }
      rewrite Rep.
      assert (Two : forall i, (i < c)%nat -> (2 <= length (sub (P k i) m'))%nat).
      { intros i Li. destruct (Nat.lt_ge_cases i D) as [A|A]; [apply Upper; exact A|apply Inc; lia]. }
      pose proof (merge_ok H U HZ pr st view Law k c m' G' ltac:(lia) Two s1) as Mg.
      rewrite El, map_app in Mg. fold sides in Mg. rewrite merge_app in Mg. unfold bind_try, bind in Mg.
      unfold bind_try, bind, on_storage. cbn [sp_storage sp_root_node].
      destruct Mg as (s2 & r2 & L2 & Mg & V2 & I2 & R2).
      destruct (merge_side_nodes H pr st k (nd (P k c) m') (map (fun i => nd (sd k i) m') l) s1) as [s3 [[n3|e3]| |]] eqn:M3; try discriminate.
      * cbn [sp_storage sp_root_node]. rewrite Mg.
        assert (W2 : forall w, In w ([nw (P k c) m'] ++ L2) -> upd_write w).
        { intros w [<-|Iw]; [right; exists c; split; [lia|]; split; [apply sub_P_ne|reflexivity]|].
          apply I2 in Iw. rewrite <- El in Iw. exact (nw_writes c ltac:(lia) w Iw). }
        destruct R2 as [[-> ->]|[[e ->] F]].
        -- rewrite set_root_ok by exact G'. cbn [sp_storage].
           eexists _, (Ok tt), _. split; [reflexivity|]. cbn [sp_storage sp_root_node]. split.
           { intros k'. rewrite V2. rewrite (wr_ext _ _ _ k' V1). rewrite <- wr_app. reflexivity. }
           split; [exact W2|]. left. split; [reflexivity|]. split; [reflexivity|].
           intros w [->|(i & Li & NE & ->)]; [left; reflexivity|].
           destruct (Nat.lt_ge_cases i c) as [A|A].
           ++ right. right. right. rewrite <- El. apply in_map_iff. exists i. split; [reflexivity|]. apply down_in. exact A.
           ++ destruct (Nat.eq_dec i c) as [->|]; [right; right; left; reflexivity|].
              right. left. symmetry. apply leaf_write. apply sub_P_full.
              pose proof (sub_P_le k (S c) i m' ltac:(lia)) as Q. rewrite PSc in Q. cbn [length] in Q. lia.
        -- eexists _, _, ([nw (P k c) m'] ++ L2). split; [reflexivity|]. cbn [sp_storage sp_root_node]. split.
           { intros k'. rewrite V2. rewrite (wr_ext _ _ _ k' V1). rewrite <- wr_app. reflexivity. }
           split; [exact W2|]. right. eauto.
      * injection Mg as -> <-.
        eexists _, _, ([nw (P k c) m'] ++ L2). split; [reflexivity|]. cbn [sp_storage sp_root_node]. split.
        { intros k'. rewrite V2. rewrite (wr_ext _ _ _ k' V1). rewrite <- wr_app. reflexivity. }
        split.
        { intros w [<-|Iw]; [right; exists c; split; [lia|]; split; [apply sub_P_ne|reflexivity]|].
          apply I2 in Iw. rewrite <- El in Iw. exact (nw_writes c ltac:(lia) w Iw). }
        destruct R2 as [[Q _]|[[e Q] F]]; [discriminate|]. injection Q as ->. right. eauto.
Qed.
End Update.

(** What can go wrong: the storage fails, or the walk meets a lost node. *)
Definition op_err (k : bytes32) (m : entries) (D : nat) (v : bytes32 -> option SPrimitive) (e : SError E) : Prop :=
  ((exists e', e = SStorageError e') /\ fallible) \/ walk_err k m D v e.

Theorem update_ok : forall k data m t D, data <> [] -> good m -> good (mset k (H data) m) -> fresh k ->
  sound (view (sp_storage t)) -> sp_root_node t = nd [] m -> lands k m D ->
  let v1 := wr [leaf_w k (H data); user_w k (H data)] (view (sp_storage t)) in
  exists t' r L, sp_update H pr st k data t = (t', Val r) /\
  (forall k', view (sp_storage t') k' = wr L (view (sp_storage t)) k') /\
  (forall w, In w L -> upd_write k (H data) m w) /\
  ((r = Ok tt /\ sp_root_node t' = nd [] (mset k (H data) m) /\ (forall w, upd_write k (H data) m w -> In w L) /\
    (forall j, (j < D)%nat -> avail H (P k (S j)) m v1 /\ avail H (sd k j) m v1)) \/
   (exists e, r = Err e /\ sp_root_node t' = sp_root_node t /\ op_err k m D v1 e)).
Proof.
  intros k data m [rn s] D ND G G' Fr So Rn La v1. cbn [sp_storage sp_root_node] in *. subst rn.
  set (h := H data) in *. unfold sp_update. destruct data as [|d data]; [congruence|]. cbv zeta.
  change (snode_create_leaf H k (d :: data)) with (leafn k h).
  pose proof (leaf_w_ok k h m G') as Wl. assert (Wu : upd_write k h m (user_w k h)) by (left; reflexivity).
  unfold bind_try at 1. unfold bind at 1. unfold on_storage at 1. cbn [sp_storage sp_root_node].
  destruct (insert_spec st view Law (snode_hash H (leafn k h)) (prim (leafn k h)) s) as (s1 & r1 & L1 & -> & V1 & I1 & [[-> ->]|[[e ->] F]]).
  2:{ eexists _, _, L1. split; [reflexivity|]. cbn [sp_storage sp_root_node]. split; [exact V1|]. split.
      - intros w Iw. apply I1 in Iw. destruct Iw as [<-|[]]. exact Wl.
      - right. exists (SStorageError e). split; [reflexivity|]. split; [reflexivity|]. left. eauto. }
  fold (leaf_w k h) in V1.
  change (snode_leaf_key (leafn k h)) with (Val k). rewrite bind_val.
  unfold bind_try at 1. unfold bind at 1. unfold on_storage at 1. cbn [sp_storage sp_root_node].
  destruct (insert_spec st view Law k (prim (leafn k h)) s1) as (s2 & r2 & L2 & -> & V2 & I2 & [[-> ->]|[[e ->] F]]).
  2:{ eexists _, _, ([leaf_w k h] ++ L2). split; [reflexivity|]. cbn [sp_storage sp_root_node]. split.
      { intros k'. rewrite V2, wr_app. apply wr_ext. exact V1. }
      split.
      - intros w [<-|Iw]; [exact Wl|]. apply I2 in Iw. destruct Iw as [<-|[]]. exact Wu.
      - right. exists (SStorageError e). split; [reflexivity|]. split; [reflexivity|]. left. eauto. }
  fold (user_w k h) in V2.
  assert (V : forall k', view s2 k' = v1 k').
  { intros k'. unfold v1. rewrite V2. change [leaf_w k h; user_w k h] with ([leaf_w k h] ++ [user_w k h]). rewrite wr_app.
    apply wr_ext. exact V1. }
  unfold bind at 1. unfold get_state. cbn [sp_root_node]. rewrite (nd_is_placeholder H U HZ) by exact G.
  destruct (Nat.eqb_spec (length (sub [] m)) 0) as [Z|NZ].
  - assert (Em : m = []) by (rewrite sub_root in Z; apply length_zero_iff_nil; exact Z).
    assert (R : leafn k h = nd [] (mset k h m)) by (rewrite Em; reflexivity).
    rewrite R. unfold bind. rewrite set_root_ok by exact G'. cbn [sp_storage].
    eexists _, (Ok tt), [leaf_w k h; user_w k h]. split; [reflexivity|]. cbn [sp_storage sp_root_node]. split; [exact V|].
    split. { intros w [<-|[<-|[]]]; [exact Wl|exact Wu]. }
    left. split; [reflexivity|]. split; [reflexivity|]. split.
    + apply (all_writes k h m G' 0); [lia| |right; left; reflexivity|left; reflexivity|intros i Li; lia].
      rewrite Em. cbn [P]. change (P k 0) with (@nil bool). rewrite sub_root. cbn [length mset mdel filter]. lia.
    + intros j Lj. exfalso. destruct La as (_ & LA & _). specialize (LA O ltac:(lia)).
      change (P k 0) with (@nil bool) in LA. lia.
  - assert (Lo : lossy H m v1).
    { apply sound_lossy; auto. apply sound_wr; auto.
      constructor; [|constructor; [|constructor]]; [|right; left; exists k, (Some (prim (leafn k h))); split; [exact Fr|reflexivity]].
      left. destruct Wl as [Q|(i & Li & NE & Q)]; [|exists (mset k h m), (P k i); auto].
      exists (mset k h m), (P k KB). split; auto. split; [apply sub_P_ne|].
      rewrite leaf_write; [reflexivity|exact G'|]. apply sub_P_full. apply sub_full; [rewrite P_length; lia|apply G']. }
    unfold bind_try at 1. unfold bind at 1. unfold on_storage at 1. cbn [sp_storage sp_root_node].
    destruct (path_set_ok H U HZ pr st view Law (leafn k h) k m v1 D s2 G Lo eq_refl La V)
      as (s3 & r3 & -> & V3 & [[-> A3]|(e & -> & W3)]).
    + destruct (update_path_ok k h m G G' D (Build_SpTree (nd [] m) s3) La) as (t' & r & L & -> & V4 & W4 & R4).
      cbn [sp_storage sp_root_node] in *.
      exists t', r, ([leaf_w k h; user_w k h] ++ L). split; [reflexivity|]. split.
      { intros k'. rewrite V4, wr_app. apply wr_ext. exact V3. }
      split. { intros w Iw. apply in_app_or in Iw. destruct Iw as [[<-|[<-|[]]]|Iw]; [exact Wl|exact Wu|auto]. }
      destruct R4 as [(-> & Rt & All)|((e & ->) & Rt & F)].
      * left. split; [reflexivity|]. split; [exact Rt|]. split; [|exact A3].
        intros w Ww. specialize (All w Ww). apply in_or_app. destruct All as [<-|[<-|Q]]; [left; right; left; reflexivity|left; left; reflexivity|right; exact Q].
      * right. exists (SStorageError e). split; [reflexivity|]. split; [exact Rt|]. left. eauto.
    + eexists _, (Err e), [leaf_w k h; user_w k h]. split; [reflexivity|]. cbn [sp_storage sp_root_node].
      split; [intros k'; rewrite V3; reflexivity|]. split. { intros w [<-|[<-|[]]]; [exact Wl|exact Wu]. }
      right. exists e. split; [reflexivity|]. split; [reflexivity|]. right. exact W3.
Qed.

(** * Delete *)
Definition cut (p : list bool) (m : entries) : entries :=
  filter (fun e : bytes32 * bytes32 => negb (has_prefix p (bits_of (fst e)))) m.
Lemma cut_in : forall p m e, In e (cut p m) <-> In e m /\ has_prefix p (bits_of (fst e)) = false.
Proof. intros p m e. unfold cut. rewrite filter_In, negb_true_iff. reflexivity. Qed.

Lemma cut_nil : forall p m, sub p m = [] -> cut p m = m.
Proof.
  intros p m S0. unfold cut, sub in *. induction m as [|e m IH]; auto. cbn [filter] in *.
  destruct (has_prefix p (bits_of (fst e))); [discriminate|]. cbn [negb]. f_equal. auto.
Qed.
Lemma cut_one : forall p m k h, NoDup (keys m) -> sub p m = [(k, h)] -> cut p m = mdel k m.
Proof.
  intros p m k h N S0. unfold cut, mdel. apply filter_ext_in. intros e Ie. f_equal.
  destruct (has_prefix p (bits_of (fst e))) eqn:Ep.
  - assert (Q : In e (sub p m)) by (apply sub_in; auto). rewrite S0 in Q. destruct Q as [<-|[]]. symmetry. apply b32_eqb_refl.
  - symmetry. apply b32_eqb_neq. intros C.
    assert (Q : In (k, h) (sub p m)) by (rewrite S0; left; reflexivity). apply sub_in in Q. destruct Q as [Q1 Q2].
    rewrite (nodup_keys_inj m e (k, h) N Ie Q1 C) in Ep. cbn [fst] in *. congruence.
Qed.

Lemma cut_off : forall p p' (l : entries), (forall bs, has_prefix p' bs = true -> has_prefix p bs = false) ->
  sub p (cut p' l) = sub p l.
Proof.
  intros p p' l O. unfold cut, sub. induction l as [|e l IH]; cbn [filter]; auto.
  destruct (has_prefix p' (bits_of (fst e))) eqn:Ep; cbn [negb filter]; rewrite IH; auto. rewrite (O _ Ep). reflexivity.
Qed.
Lemma cut_below : forall p (l : entries), sub p (cut p l) = [].
Proof.
  intros p l. unfold cut, sub. induction l as [|e l IH]; cbn [filter]; auto.
  destruct (has_prefix p (bits_of (fst e))) eqn:Ep; cbn [negb filter]; rewrite ?Ep; exact IH.
Qed.

Section Delete.
Variable k : bytes32.
Variable m : entries.
Variable D : nat.
Hypothesis La : lands k m D.
Let m' : entries := cut (P k D) m.
Hypothesis G : good m.
Hypothesis G' : good m'.

Lemma del_off : forall i q, (i < D)%nat -> sub (sd k i ++ q) m' = sub (sd k i ++ q) m.
Proof.
  intros i q Li. destruct La as (LD & _ & _). apply cut_off. intros bs Ep. apply off_extend.
  destruct (Nat.lt_ge_cases (length bs) D) as [Sh|Ln].
  { exfalso. apply has_prefix_spec in Ep. rewrite P_length in Ep by exact LD.
    assert (Q : length (firstn D bs) = D) by (rewrite Ep; apply P_length; exact LD). rewrite firstn_length in Q. lia. }
  destruct (P_le k (S i) D ltac:(lia)) as [q' Eq]. rewrite Eq in Ep. apply has_prefix_app in Ep.
  rewrite P_S in Ep by lia. unfold sd. rewrite has_prefix_snoc in * by (rewrite P_length; lia).
  apply andb_prop in Ep. destruct Ep as [_ Ep]. apply Bool.eqb_prop in Ep. rewrite Ep. destruct (kbit k i); apply andb_false_r.
Qed.
Lemma del_side : forall i, (i < D)%nat -> nd (sd k i) m' = nd (sd k i) m /\ T (sd k i) m' = T (sd k i) m.
Proof. intros i Li. apply nd_ext. intros q. apply del_off. exact Li. Qed.
Lemma del_side_sub : forall i, (i < D)%nat -> sub (sd k i) m' = sub (sd k i) m.
Proof. intros i Li. pose proof (del_off i [] Li) as Q. rewrite !app_nil_r in Q. exact Q. Qed.
Lemma del_below : sub (P k D) m' = [].
Proof.
  apply cut_below.
Qed.
Lemma del_split : forall i, (i < D)%nat ->
  length (sub (P k i) m') = (length (sub (P k (S i)) m') + length (sub (sd k i) m'))%nat.
Proof.
  intros i Li. destruct La as (LD & _ & _). rewrite (sub_split_length (P k i) m') by (rewrite P_length; lia).
  rewrite P_S by lia. unfold sd. destruct (kbit k i); cbn [negb]; lia.
Qed.
Lemma del_split_in : forall i e, (i < D)%nat -> (In e (sub (P k i) m') <-> In e (sub (P k (S i)) m') \/ In e (sub (sd k i) m')).
Proof.
  intros i e Li. destruct La as (LD & _ & _). rewrite (sub_split_in (P k i) m') by (rewrite P_length; lia).
  rewrite P_S by lia. unfold sd. destruct (kbit k i); cbn [negb]; tauto.
Qed.

Lemma dsides_eq : map (fun i => nd (sd k i) m) (down D) = map (fun i => nd (sd k i) m') (down D).
Proof. apply map_ext_in. intros i Ii. apply down_in in Ii. symmetry. apply del_side. exact Ii. Qed.

Definition rm (i : nat) : bytes32 * option SPrimitive := (T (P k i) m, None).
Lemma remove_ok : forall l s, exists s' r L, remove_path_nodes H st (map (fun i => nd (P k i) m) l) s = (s', Val r) /\
  (forall k', view s' k' = wr L (view s) k') /\ incl L (map rm l) /\
  ((r = Ok tt /\ L = map rm l) \/ (exists e, r = Err (SStorageError e)) /\ fallible).
Proof.
  induction l as [|i l IH]; intros s; cbn [map remove_path_nodes].
  - exists s, (Ok tt), []. split; [reflexivity|]. split; [reflexivity|]. split; [apply incl_nil_l|]. auto.
  - rewrite (nd_hash H U HZ) by exact G. unfold bind_try, bind.
    destruct (remove_spec st view Law (T (P k i) m) s) as (s1 & r1 & L1 & -> & V1 & I1 & [[-> ->]|[[e ->] F]]).
    + destruct (IH s1) as (s2 & r2 & L2 & -> & V2 & I2 & D2).
      exists s2, r2, ([rm i] ++ L2). split; [reflexivity|]. split.
      { intros k'. rewrite V2, wr_app. apply wr_ext. exact V1. }
      split; [apply incl_app; [intros x [<-|[]]; left; reflexivity|apply incl_tl; exact I2]|].
      destruct D2 as [[-> ->]|D2]; auto.
    + exists s1, (Err (SStorageError e)), L1. split; [reflexivity|]. split; [exact V1|].
      split; [intros x Ix; apply I1 in Ix; destruct Ix as [<-|[]]; left; reflexivity|]. right. eauto.
Qed.

Lemma find_ok : forall j, (j <= D)%nat ->
  (find_non_placeholder (map (fun i => nd (sd k i) m') (down j)) = (None, []) /\
    forall i, (i < j)%nat -> sub (sd k i) m' = []) \/
  exists i, (i < j)%nat /\
    find_non_placeholder (map (fun i => nd (sd k i) m') (down j)) =
      (Some (nd (sd k i) m'), map (fun i => nd (sd k i) m') (down i)) /\
    sub (sd k i) m' <> [] /\ forall i', (i < i' < j)%nat -> sub (sd k i') m' = [].
Proof.
  induction j as [|j IH]; intros Lj; cbn [down map find_non_placeholder].
  - left. split; [reflexivity|]. intros i Li. lia.
  - rewrite (nd_is_placeholder H U HZ) by exact G'. destruct (Nat.eqb_spec (length (sub (sd k j) m')) 0) as [Z|NZ]; cbn [negb].
    + apply length_zero_iff_nil in Z. destruct (IH ltac:(lia)) as [[A B]|(i & Li & A & B & C)].
      * left. split; [exact A|]. intros i Li. destruct (Nat.eq_dec i j) as [->|]; auto. apply B. lia.
      * right. exists i. split; [lia|]. split; [exact A|]. split; [exact B|]. intros i' Li'.
        destruct (Nat.eq_dec i' j) as [->|]; auto. apply C. lia.
    + right. exists j. split; [lia|]. split; [reflexivity|]. split; [intros C; rewrite C in NZ; cbn [length] in NZ; lia|].
      intros i' Li'. lia.
Qed.

(** Going up through empty sides changes nothing. *)
Lemma up_empty : forall d i j, (j = i + d)%nat -> (j <= D)%nat -> (forall i', (i <= i' < j)%nat -> sub (sd k i') m' = []) ->
  forall x, sub (P k j) m' = [x] -> sub (P k i) m' = [x].
Proof.
  induction d as [|d IH]; intros i j Ej Lj Em x Sj.
  - replace i with j by lia. exact Sj.
  - assert (Q : sub (P k (S i)) m' = [x]) by (apply (IH (S i) j); [lia|lia|intros i' Li'; apply Em; lia|exact Sj]).
    apply length_one.
    + apply del_split_in; [lia|]. left. rewrite Q. left. reflexivity.
    + rewrite del_split by lia. rewrite Q, (Em i) by lia. cbn [length]. lia.
Qed.

Definition ins_write (w : bytes32 * option SPrimitive) : Prop :=
  exists i, (i < D)%nat /\ (2 <= length (sub (P k i) m'))%nat /\ w = nw (P k i) m'.
Definition del_write (w : bytes32 * option SPrimitive) : Prop := (exists i, (i <= D)%nat /\ w = rm i) \/ ins_write w.

Lemma delete_path_ok : forall hk t,
  exists t' r, delete_with_path_set H pr st (leafn k hk) (map (fun i => nd (P k i) m) (down (S D)))
                   (map (fun i => nd (sd k i) m) (down D)) t = (t', Val r) /\
  ((r = Ok tt /\ sp_root_node t' = nd [] m' /\
    exists L, (forall k', view (sp_storage t') k' = wr (map rm (down (S D)) ++ L) (view (sp_storage t)) k') /\
      forall w, In w L <-> ins_write w) \/
   ((exists e, r = Err (SStorageError e)) /\ sp_root_node t' = sp_root_node t /\ fallible /\
    exists L, (forall k', view (sp_storage t') k' = wr L (view (sp_storage t)) k') /\ forall w, In w L -> del_write w)).
Proof.
  intros hk [rn s]. destruct La as (LD & LA & LE). unfold delete_with_path_set. rewrite dsides_eq.
  assert (Mono : forall i j, (i <= j)%nat -> (length (sub (P k j) m') <= length (sub (P k i) m'))%nat)
    by (intros i j Lij; apply sub_P_le; exact Lij).
  unfold bind_try at 1. unfold bind at 1. unfold on_storage at 1. cbn [sp_storage sp_root_node].
  destruct (remove_ok (down (S D)) s) as (s1 & r1 & L1 & -> & V1 & I1 & [[-> ->]|[[e ->] F]]).
  2:{ eexists _, _. split; [reflexivity|]. right. cbn [sp_storage sp_root_node]. split; [eauto|]. split; [reflexivity|]. split; [exact F|].
      exists L1. split; [exact V1|]. intros w Iw. left. apply I1 in Iw. apply in_map_iff in Iw. destruct Iw as (i & <- & Ii).
      apply down_in in Ii. exists i. split; [lia|reflexivity]. }
  assert (Rmw : forall w, In w (map rm (down (S D))) -> del_write w).
  { intros w Iw. left. apply in_map_iff in Iw. destruct Iw as (i & <- & Ii). apply down_in in Ii. exists i. split; [lia|reflexivity]. }
  change (snode_leaf_key (leafn k hk)) with (Val k). rewrite bind_val.
  (* the end of the work, once the node at depth j is rebuilt *)
  assert (Fin : forall j s2 L2, (j <= D)%nat -> (forall i, (i < j)%nat -> (2 <= length (sub (P k i) m'))%nat) ->
    (forall k', view s2 k' = wr (map rm (down (S D)) ++ L2) (view s) k') -> (forall w, In w L2 -> ins_write w) ->
    (forall w, ins_write w -> In w L2 \/ exists i, (i < j)%nat /\ w = nw (P k i) m') ->
    exists t' r, bind_try (on_storage (merge_side_nodes H pr st k (nd (P k j) m') (map (fun i => nd (sd k i) m') (down j))))
        (fun current_node => bind (sp_set_root_node pr current_node) (fun _ => ret (Ok tt))) (Build_SpTree rn s2) = (t', Val r) /\
    ((r = Ok tt /\ sp_root_node t' = nd [] m' /\
      exists L, (forall k', view (sp_storage t') k' = wr (map rm (down (S D)) ++ L) (view s) k') /\ forall w, In w L <-> ins_write w) \/
     ((exists e, r = Err (SStorageError e)) /\ sp_root_node t' = rn /\ fallible /\
      exists L, (forall k', view (sp_storage t') k' = wr L (view s) k') /\ forall w, In w L -> del_write w))).
  { intros j s2 L2 Lj Two V2 W2 A2. unfold bind_try, bind, on_storage. cbn [sp_storage sp_root_node].
    destruct (merge_ok H U HZ pr st view Law k j m' G' ltac:(lia) Two s2) as (s3 & r3 & L3 & -> & V3 & I3 & [[-> ->]|[[e ->] F]]).
    - rewrite set_root_ok by exact G'. cbn [sp_storage]. eexists _, (Ok tt). split; [reflexivity|]. left.
      cbn [sp_storage sp_root_node]. split; [reflexivity|]. split; [reflexivity|].
      exists (L2 ++ map (fun i => nw (P k i) m') (down j)). split.
      { intros k'. rewrite V3. rewrite (wr_ext _ _ _ k' V2). rewrite <- wr_app, <- app_assoc. reflexivity. }
      intros w. split; intros Iw.
      + apply in_app_or in Iw. destruct Iw as [Iw|Iw]; auto. apply in_map_iff in Iw. destruct Iw as (i & <- & Ii).
        apply down_in in Ii. exists i. split; [lia|]. split; [apply Two; exact Ii|reflexivity].
      + apply in_or_app. destruct (A2 w Iw) as [Q|(i & Li & ->)]; [left; exact Q|]. right. apply in_map_iff. exists i.
        split; [reflexivity|]. apply down_in. exact Li.
    - eexists _, _. split; [reflexivity|]. right. cbn [sp_storage sp_root_node]. split; [eauto|]. split; [reflexivity|]. split; [exact F|].
      exists ((map rm (down (S D)) ++ L2) ++ L3). split.
      { intros k'. rewrite V3, wr_app. apply wr_ext. exact V2. }
      intros w Iw. apply in_app_or in Iw. destruct Iw as [Iw|Iw].
      + apply in_app_or in Iw. destruct Iw as [Iw|Iw]; [apply Rmw; exact Iw|right; auto].
      + apply I3 in Iw. apply in_map_iff in Iw. destruct Iw as (i & <- & Ii). apply down_in in Ii. right. exists i.
        split; [lia|]. split; [apply Two; exact Ii|reflexivity]. }
  assert (V1' : forall k', view s1 k' = wr (map rm (down (S D)) ++ []) (view s) k') by (intros; rewrite app_nil_r; apply V1).
  assert (Ph : nd (P k D) m' = snode_placeholder) by (apply nd_nil; exact del_below).
  assert (Dc : D = O \/ exists d, D = S d) by (destruct (Nat.eq_dec D 0); [left; assumption|right; exists (D - 1)%nat; lia]).
  destruct Dc as [D0|[d Dd]].
  - (* the root was a single leaf *)
    assert (Dn : down D = []) by (rewrite D0; reflexivity). rewrite Dn. cbn [map]. rewrite try_ok. rewrite <- Ph.
    assert (Q : nd (P k D) m' = nd (P k 0) m') by (rewrite D0 at 1; reflexivity). rewrite Q.
    apply (Fin O s1 []); [lia|intros i Li; lia|exact V1'|intros w []|intros w (i & Li & _); lia].
  - assert (Dn : down D = d :: down d) by (rewrite Dd; reflexivity). rewrite Dn. cbn [map]. rewrite (nd_is_leaf H U HZ) by exact G'.
    assert (Sp : length (sub (P k d) m') = length (sub (sd k d) m')).
    { rewrite del_split by lia. rewrite <- Dd. rewrite del_below. reflexivity. }
    destruct (Nat.leb_spec (length (sub (sd k d) m')) 1) as [A|A].
    + (* the sibling is a leaf: collapse *)
      assert (NE : sub (sd k d) m' <> []).
      { rewrite del_side_sub by lia. intros C. specialize (LA d ltac:(lia)).
        pose proof (sub_split_length (P k d) m ltac:(rewrite P_length; lia)) as Q.
        rewrite Dd, P_S in LE by lia. unfold sd in C. destruct (kbit k d); cbn [negb] in *; rewrite C in Q; cbn [length] in Q; lia. }
      destruct (nil_or_one _ A) as [C|[x Sx]]; [congruence|]. destruct x as [kx hx].
      assert (Sd : sub (P k d) m' = [(kx, hx)]).
      { apply length_one; [apply del_split_in; [lia|right; rewrite Sx; left; reflexivity]|]. rewrite Sp. exact A. }
      assert (Nx : nd (sd k d) m' = leafn kx hx) by exact (nd_one H _ _ _ _ Sx).
      destruct (find_ok d ltac:(lia)) as [[-> Em]|(i & Li & -> & NEi & Em)].
      * rewrite try_ok. rewrite Nx.
        assert (S0 : sub (P k 0) m' = [(kx, hx)]) by (apply (up_empty d 0 d); [lia|lia|intros i' Li'; apply Em; lia|exact Sd]).
        rewrite <- (nd_one H _ _ _ _ S0).
        apply (Fin O s1 []); [lia|intros i Li; lia|exact V1'|intros w []|].
        intros w (i & Li & L2 & _). exfalso. pose proof (Mono O i ltac:(lia)) as Q. rewrite S0 in Q. cbn [length] in Q. lia.
      * assert (Si : sub (P k (S i)) m' = [(kx, hx)]) by (apply (up_empty (d - S i) (S i) d); [lia|lia|intros i' Li'; apply Em; lia|exact Sd]).
        assert (Two : (2 <= length (sub (P k i) m'))%nat).
        { rewrite del_split by lia. rewrite Si. destruct (sub (sd k i) m'); [congruence|]. cbn [length]. lia. }
        rewrite Nx. rewrite <- (nd_one H _ _ _ _ Si).
        unfold bind_try at 1. unfold bind at 1. unfold bind_try at 1. unfold bind at 1. unfold on_storage at 1. cbn [sp_storage sp_root_node].
        destruct (join_store_ok H U HZ pr st view Law k i m' s1 G' ltac:(lia) Two) as (s2 & r2 & L2 & -> & V2 & I2 & [[-> ->]|[[e ->] F]]).
        2:{ eexists _, _. split; [reflexivity|]. right. cbn [sp_storage sp_root_node]. split; [eauto|]. split; [reflexivity|]. split; [exact F|].
            exists (map rm (down (S D)) ++ L2). split.
            { intros k'. rewrite V2, wr_app. apply wr_ext. exact V1. }
            intros w Iw. apply in_app_or in Iw. destruct Iw as [Iw|Iw]; [apply Rmw; exact Iw|].
            apply I2 in Iw. destruct Iw as [<-|[]]. right. exists i. split; [lia|]. split; [exact Two|reflexivity]. }
        cbn [ret]. apply (Fin i s2 [nw (P k i) m']).
        -- lia.
        -- intros i' Li'. pose proof (Mono i' i ltac:(lia)). lia.
        -- intros k'. rewrite V2, wr_app. apply wr_ext. exact V1.
        -- intros w [<-|[]]. exists i. split; [lia|]. split; [exact Two|reflexivity].
        -- intros w (i' & Li' & L2' & ->). destruct (Nat.eq_dec i' i) as [->|N]; [left; left; reflexivity|].
           right. exists i'. split; [|reflexivity]. destruct (Nat.lt_ge_cases i' i) as [B|B]; auto. exfalso.
           pose proof (Mono (S i) i' ltac:(lia)) as Q. rewrite Si in Q. cbn [length] in Q. lia.
    + (* the sibling is larger: rebuild above a placeholder *)
      rewrite try_ok. rewrite <- Ph. change (nd (sd k d) m' :: map (fun i => nd (sd k i) m') (down d)) with (map (fun i => nd (sd k i) m') (d :: down d)). rewrite <- Dn.
      apply (Fin D s1 []); [lia| |exact V1'|intros w []|].
      * intros i Li. pose proof (Mono i d ltac:(lia)). lia.
      * intros w (i & Li & L2 & ->). right. exists i. split; [lia|reflexivity].
Qed.
End Delete.

Theorem delete_ok : forall k m D t, lands k m D -> good m -> good (cut (P k D) m) ->
  sound (view (sp_storage t)) -> sp_root_node t = nd [] m ->
  (view (sp_storage t) k = None \/ exists h, view (sp_storage t) k = Some (prim (leafn k h))) ->
  exists t' r, sp_delete H pr st k t = (t', Val r) /\
  ((r = Ok tt /\ sp_root_node t' = nd [] m /\ (forall k', view (sp_storage t') k' = view (sp_storage t) k') /\
    (m = [] \/ view (sp_storage t) k = None)) \/
   (r = Ok tt /\ view (sp_storage t) k <> None /\ sp_root_node t' = nd [] (cut (P k D) m) /\
    (forall j, (j < D)%nat -> avail H (P k (S j)) m (view (sp_storage t)) /\ avail H (sd k j) m (view (sp_storage t))) /\
    exists L, (forall k', view (sp_storage t') k' = wr (map (rm k m) (down (S D)) ++ L) (view (sp_storage t)) k') /\
      forall w, In w L <-> ins_write k m D w) \/
   (exists e, r = Err e /\ sp_root_node t' = sp_root_node t /\ op_err k m D (view (sp_storage t)) e /\
    exists L, (forall k', view (sp_storage t') k' = wr L (view (sp_storage t)) k') /\ (forall w, In w L -> del_write k m D w) /\
    (L <> [] -> fallible))).
Proof.
  intros k m D [rn s] La G G' So Rn Vk. cbn [sp_storage sp_root_node] in *. subst rn. unfold sp_delete.
  unfold bind at 1. unfold get_state. unfold sp_root. cbn [sp_root_node]. rewrite (nd_hash H U HZ) by exact G.
  destruct (b32_eqb (T [] m) zero_sum) eqn:Z.
  - eexists _, (Ok tt). split; [reflexivity|]. left. cbn [sp_storage sp_root_node]. split; [reflexivity|]. split; [reflexivity|].
    split; [reflexivity|]. left. apply b32_eqb_eq in Z. destruct m as [|e m0]; auto. exfalso. revert Z.
    apply (T_nonzero H U HZ); auto. rewrite sub_root. discriminate.
  - unfold bind_try at 1. unfold bind at 1. unfold on_storage at 1. cbn [sp_storage sp_root_node].
    destruct (get_spec st view Law k s) as (s1 & r1 & -> & V1 & [->|[[e ->] F]]).
    2:{ eexists _, _. split; [reflexivity|]. right. right. cbn [sp_storage sp_root_node]. eexists. split; [reflexivity|]. split; [reflexivity|].
        split; [left; eauto|]. exists []. split; [exact V1|]. split; [intros w []|congruence]. }
    destruct Vk as [Vk|[h Vk]]; rewrite Vk.
    + eexists _, (Ok tt). split; [reflexivity|]. left. cbn [sp_storage sp_root_node]. split; [reflexivity|]. split; [reflexivity|]. split; [exact V1|]. right. reflexivity.
    + rewrite try_from_prim. unfold bind_try at 1. unfold bind at 1. unfold on_storage at 1. cbn [sp_storage sp_root_node].
      destruct (path_set_ok H U HZ pr st view Law (leafn k h) k m (view s) D s1 G (sound_lossy _ _ So G) eq_refl La V1)
        as (s2 & r2 & -> & V2 & [[-> A2]|(e & -> & W2)]).
      * destruct (delete_path_ok k m D La G G' h (Build_SpTree (nd [] m) s2)) as (t' & r & -> & R). cbn [sp_storage sp_root_node] in R.
        exists t', r. split; [reflexivity|]. destruct R as [(-> & Rt & L & VL & WL)|((e & ->) & Rt & F & L & VL & WL)].
        -- right. left. split; [reflexivity|]. split; [discriminate|]. split; [exact Rt|]. split; [exact A2|]. exists L. split; [|exact WL].
           intros k'. rewrite VL. apply wr_ext. exact V2.
        -- right. right. eexists. split; [reflexivity|]. split; [exact Rt|]. split; [left; eauto|]. exists L. split; [|split; [exact WL|intros _; exact F]].
           intros k'. rewrite VL. apply wr_ext. exact V2.
      * eexists _, (Err e). split; [reflexivity|]. right. right. cbn [sp_storage sp_root_node]. exists e. split; [reflexivity|]. split; [reflexivity|].
        split; [right; exact W2|]. exists []. split; [exact V2|]. split; [intros w []|congruence].
Qed.
End Ops.
