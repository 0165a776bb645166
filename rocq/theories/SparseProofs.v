(** SparseProofs.v -- one update and one delete of the sparse tree on a possibly lossy and
    fallible storage. *)
From Verif Require Import Base Storage ModelCommon ModelSparse SpecBits SpecBinary SpecSparse
  SpecPosition BindingProofs BitsProofs PositionProofs CommonProofs SparseSpecFacts SparseNodes.
From Coq Require Import Arith ZifyBool ZifyNat ZifyN Permutation.
Ltac Zify.zify_post_hook ::= Z.div_mod_to_equations.
Arguments Nat.mul : simpl never.
Arguments Z.pow : simpl never.
Arguments Z.mul : simpl never.
Arguments Z.add : simpl never.
Arguments Z.sub : simpl never.
Arguments Z.of_nat : simpl never.

(** * Lists of writes *)
Notation writes := (list (bytes32 * option SPrimitive)).
Definition wr1 (v : bytes32 -> option SPrimitive) (w : bytes32 * option SPrimitive) : bytes32 -> option SPrimitive :=
  fun k => if b32_eqb k (fst w) then snd w else v k.
Definition wr (L : writes) (v : bytes32 -> option SPrimitive) : bytes32 -> option SPrimitive := fold_left wr1 L v.

Lemma wr_app : forall L L' v, wr (L ++ L') v = wr L' (wr L v).
Proof. intros. apply fold_left_app. Qed.
Lemma wr_ext : forall L v v' k, (forall k, v k = v' k) -> wr L v k = wr L v' k.
Proof.
  induction L as [|w L IH]; intros v v' k E; cbn [wr fold_left]; auto. apply IH. intros k'. unfold wr1. rewrite E. reflexivity.
Qed.
(** Each entry is untouched, or holds what some write put there. *)
Lemma wr_cases : forall L v k,
  (exists o, In (k, o) L /\ wr L v k = o) \/ ((forall o, ~ In (k, o) L) /\ wr L v k = v k).
Proof.
  induction L as [|[k0 o0] L IH]; intros v k; [right; split; auto|].
  cbn [wr fold_left]. destruct (IH (wr1 v (k0, o0)) k) as [(o & Io & E)|[N E]].
  - left. exists o. split; [right; exact Io|exact E].
  - fold (wr L (wr1 v (k0, o0)) k). rewrite E. unfold wr1. cbn [fst snd].
    destruct (b32_eqb k k0) eqn:Q.
    + apply b32_eqb_eq in Q. subst k0. left. exists o0. split; [left; reflexivity|reflexivity].
    + apply b32_eqb_neq in Q. right. split; auto. intros o [C|C]; [congruence|exact (N o C)].
Qed.

(** [j-1; ...; 0] *)
Fixpoint down (j : nat) : list nat := match j with O => [] | S i => i :: down i end.
Lemma down_in : forall j i, In i (down j) <-> (i < j)%nat.
Proof. induction j as [|j IH]; intros i; cbn [down In]; [lia|]. rewrite IH. lia. Qed.
Lemma down_length : forall j, length (down j) = j.
Proof. induction j as [|j IH]; cbn [down length]; auto. Qed.
Lemma down_rev : forall j, rev (seq 0 j) = down j.
Proof.
  induction j as [|j IH]; [reflexivity|]. rewrite seq_S, rev_app_distr, IH. reflexivity.
Qed.
Lemma down_app : forall c d, (d <= c)%nat -> exists l, down c = l ++ down d /\ length l = (c - d)%nat /\ (forall i, In i l -> (d <= i < c)%nat).
Proof.
  induction c as [|c IH]; intros d L.
  - exists []. replace d with 0%nat by lia. split; [reflexivity|split; [reflexivity|intros i []]].
  - destruct (Nat.eq_dec d (S c)) as [->|N].
    + exists []. split; [reflexivity|]. split; [cbn [length]; lia|intros i []].
    + destruct (IH d ltac:(lia)) as (l & E & Ln & B). exists (c :: l). split; [cbn [down app]; rewrite E; reflexivity|].
      split; [cbn [length]; lia|]. intros i [<-|Ii]; [lia|]. apply B in Ii. lia.
Qed.

Section Proofs.
Variable H : list byte -> bytes32.
Variable U : list (list byte).
Hypothesis HC : ~ has_collision H U.
Hypothesis HZ : forall x, In x U -> H x <> zero32.
Variable pr : profile.
Context {St E : Type}.
Variable st : StorageT St bytes32 SPrimitive E.
Variable view : St -> bytes32 -> option SPrimitive.
Hypothesis Law : Lawful st view.
Notation T := (T H).
Notation nd := (nd H).
Notation good := (good H U).
Notation prim := sprim_of_node.
Notation P := SparseNodes.P.

Definition fallible : Prop := ~ Infallible st.

(** * Single storage calls *)
Lemma get_spec : forall k s, exists s' r, sst_get st k s = (s', Val r) /\ (forall k', view s' k' = view s k') /\
  (r = Ok (view s k) \/ (exists e, r = Err (SStorageError e)) /\ fallible).
Proof.
  intros k s. unfold sst_get. destruct (s_get st k s) as [s' [v|e]] eqn:G.
  - exists s', (Ok v). split; auto. split; [exact (law_get_view _ _ Law _ _ _ _ G)|].
    left. f_equal. exact (law_get_ok _ _ Law _ _ _ _ G).
  - exists s', (Err (SStorageError e)). split; auto. split; [exact (law_get_view _ _ Law _ _ _ _ G)|].
    right. split; eauto. intros [I _]. destruct (I k s) as (? & ? & Q). congruence.
Qed.

Lemma insert_spec : forall k p s, exists s' r L, sst_insert st k p s = (s', Val r) /\
  (forall k', view s' k' = wr L (view s) k') /\ incl L [(k, Some p)] /\
  ((r = Ok tt /\ L = [(k, Some p)]) \/ (exists e, r = Err (SStorageError e)) /\ fallible).
Proof.
  intros k p s. unfold sst_insert. destruct (s_insert st k p s) as [s' [v|e]] eqn:G.
  - exists s', (Ok tt), [(k, Some p)]. split; auto.
    destruct (law_insert_ok _ _ Law _ _ _ _ _ G) as (_ & A & B). split.
    + intros k'. cbn [wr fold_left]. unfold wr1. cbn [fst snd]. destruct (b32_eqb k' k) eqn:Q.
      * apply b32_eqb_eq in Q. subst. exact A.
      * apply B. apply b32_eqb_neq. exact Q.
    + split; [apply incl_refl|]. left. auto.
  - assert (F : fallible) by (intros [_ [I _]]; destruct (I k p s) as (? & ? & Q); congruence).
    destruct (law_insert_err _ _ Law _ _ _ _ _ G) as [A|[A B]].
    + exists s', (Err (SStorageError e)), []. split; auto. split; [exact A|]. split; [apply incl_nil_l|]. right. eauto.
    + exists s', (Err (SStorageError e)), [(k, Some p)]. split; auto. split.
      * intros k'. cbn [wr fold_left]. unfold wr1. cbn [fst snd]. destruct (b32_eqb k' k) eqn:Q.
        -- apply b32_eqb_eq in Q. subst. exact A.
        -- apply B. apply b32_eqb_neq. exact Q.
      * split; [apply incl_refl|]. right. eauto.
Qed.

Lemma remove_spec : forall k s, exists s' r L, sst_remove st k s = (s', Val r) /\
  (forall k', view s' k' = wr L (view s) k') /\ incl L [(k, None)] /\
  ((r = Ok tt /\ L = [(k, None)]) \/ (exists e, r = Err (SStorageError e)) /\ fallible).
Proof.
  intros k s. unfold sst_remove. destruct (s_remove st k s) as [s' [v|e]] eqn:G.
  - exists s', (Ok tt), [(k, None)]. split; auto.
    destruct (law_remove_ok _ _ Law _ _ _ _ G) as (_ & A & B). split.
    + intros k'. cbn [wr fold_left]. unfold wr1. cbn [fst snd]. destruct (b32_eqb k' k) eqn:Q.
      * apply b32_eqb_eq in Q. subst. exact A.
      * apply B. apply b32_eqb_neq. exact Q.
    + split; [apply incl_refl|]. left. auto.
  - assert (F : fallible) by (intros [_ [_ I]]; destruct (I k s) as (? & ? & Q); congruence).
    destruct (law_remove_err _ _ Law _ _ _ _ G) as [A|[A B]].
    + exists s', (Err (SStorageError e)), []. split; auto. split; [exact A|]. split; [apply incl_nil_l|]. right. eauto.
    + exists s', (Err (SStorageError e)), [(k, None)]. split; auto. split.
      * intros k'. cbn [wr fold_left]. unfold wr1. cbn [fst snd]. destruct (b32_eqb k' k) eqn:Q.
        -- apply b32_eqb_eq in Q. subst. exact A.
        -- apply B. apply b32_eqb_neq. exact Q.
      * split; [apply incl_refl|]. right. eauto.
Qed.

(** The write of one node of a map. *)
Definition nw (p : list bool) (m : entries) : bytes32 * option SPrimitive := (T p m, Some (prim (nd p m))).

Lemma try_from_prim : forall n, snode_try_from (prim n) = Ok n.
Proof. intros [h [|] lo hi]; reflexivity. Qed.

(** * Rebuilding *)
Lemma join_store_ok : forall (k : bytes32) i m s, good m -> (i < KB)%nat -> (2 <= length (sub (P k i) m))%nat ->
  exists s' r L, join_and_store H pr st k (nd (P k (S i)) m) (nd (sd k i) m) s = (s', Val r) /\
  (forall k', view s' k' = wr L (view s) k') /\ incl L [nw (P k i) m] /\
  ((r = Ok (nd (P k i) m) /\ L = [nw (P k i) m]) \/ (exists e, r = Err (SStorageError e)) /\ fallible).
Proof.
  intros k i m s G Li Lm. unfold join_and_store, bind, bind_try, lift, bind. rewrite P_S by exact Li. unfold sd.
  rewrite (join_nd H U HZ pr (P k i) m k (kbit k i) G Lm) by (rewrite P_length by lia; reflexivity).
  rewrite (nd_hash H U HZ) by exact G.
  destruct (insert_spec (T (P k i) m) (prim (nd (P k i) m)) s) as (s' & r & L & -> & V & IL & [[-> ->]|[[e ->] F]]).
  - exists s', (Ok (nd (P k i) m)), [nw (P k i) m]. split; [reflexivity|]. split; auto.
  - exists s', (Err (SStorageError e)), L. split; [reflexivity|]. split; auto. split; auto. right. eauto.
Qed.

Lemma merge_ok : forall (k : bytes32) j m, good m -> (j <= KB)%nat ->
  (forall i, (i < j)%nat -> (2 <= length (sub (P k i) m))%nat) -> forall s,
  exists s' r L, merge_side_nodes H pr st k (nd (P k j) m) (map (fun i => nd (sd k i) m) (down j)) s = (s', Val r) /\
  (forall k', view s' k' = wr L (view s) k') /\ incl L (map (fun i => nw (P k i) m) (down j)) /\
  ((r = Ok (nd [] m) /\ L = map (fun i => nw (P k i) m) (down j)) \/ (exists e, r = Err (SStorageError e)) /\ fallible).
Proof.
  intros k j m G. induction j as [|j IH]; intros Lj Hi s; cbn [down map merge_side_nodes].
  - exists s, (Ok (nd [] m)), []. split; [reflexivity|]. split; [reflexivity|]. split; [apply incl_nil_l|]. left. auto.
  - unfold bind_try, bind.
    destruct (join_store_ok k j m s G ltac:(lia) (Hi j ltac:(lia))) as (s1 & r1 & L1 & -> & V1 & I1 & [[-> ->]|[[e ->] F]]).
    + destruct (IH ltac:(lia) (fun i Li => Hi i ltac:(lia)) s1) as (s2 & r2 & L2 & -> & V2 & I2 & D2).
      exists s2, r2, ([nw (P k j) m] ++ L2). split; [reflexivity|]. split.
      * intros k'. rewrite V2, wr_app. apply wr_ext. exact V1.
      * split; [apply incl_app; [intros x [<-|[]]; left; reflexivity|apply incl_tl; exact I2]|].
        destruct D2 as [[-> ->]|D2]; [left; auto|right; exact D2].
    + exists s1, (Err (SStorageError e)), L1. split; [reflexivity|]. split; [exact V1|].
      split; [intros x Ix; apply I1 in Ix; destruct Ix as [<-|[]]; left; reflexivity|]. right. eauto.
Qed.

Lemma merge_app : forall k l1 l2 n s, merge_side_nodes H pr st k n (l1 ++ l2) s =
  (n' <-? merge_side_nodes H pr st k n l1 ;; merge_side_nodes H pr st k n' l2) s.
Proof.
  intros k l1 l2. induction l1 as [|a l1 IH]; intros n s; cbn [app merge_side_nodes].
  - reflexivity.
  - unfold bind_try, bind. destruct (join_and_store H pr st k n a s) as [s1 [[n1|e]| |]]; try reflexivity.
    rewrite IH. unfold bind_try, bind. reflexivity.
Qed.

(** * Reading *)
(** What is in the storage under the hash of a node of [m] is that node. *)
Definition lossy (m : entries) (v : bytes32 -> option SPrimitive) : Prop :=
  forall p, sub p m <> [] -> v (T p m) = Some (prim (nd p m)) \/ v (T p m) = None.
Definition avail (p : list bool) (m : entries) (v : bytes32 -> option SPrimitive) : Prop :=
  sub p m = [] \/ v (T p m) = Some (prim (nd p m)).
Definition lost (p : list bool) (m : entries) (v : bytes32 -> option SPrimitive) : Prop :=
  sub p m <> [] /\ v (T p m) = None.

Definition childres (p : list bool) (m : entries) (v : bytes32 -> option SPrimitive)
    (r : result (SChildError E) SNode) : Prop :=
  (r = Ok (nd p m) /\ avail p m v) \/
  (r = Err (ChildNotFound (T p m)) /\ lost p m v) \/
  ((exists e, r = Err (ChildErr (SNStorageError e))) /\ fallible).

Lemma read_child_ok : forall p m v s, good m -> lossy m v -> (forall k, view s k = v k) ->
  exists s' r, read_child st (T p m) s = (s', Val r) /\ (forall k, view s' k = v k) /\ childres p m v r.
Proof.
  intros p m v s G Lo Vs. unfold read_child. destruct (b32_eqb (T p m) zero_sum) eqn:Z.
  - apply b32_eqb_eq in Z. exists s, (Ok snode_placeholder). split; [reflexivity|]. split; auto.
    destruct (sub p m) eqn:S0.
    + left. rewrite nd_nil by exact S0. split; auto. left. exact S0.
    + exfalso. revert Z. apply (T_nonzero H U HZ); auto. rewrite S0. discriminate.
  - assert (NE : sub p m <> []).
    { intros C. apply b32_eqb_neq in Z. apply Z. destruct (T_cases H p m (good_nodup H U m G)) as [S1 E1 I1|? ? S1|S1];
        [exact E1|congruence|rewrite C in S1; cbn [length] in S1; lia]. }
    destruct (s_get st (T p m) s) as [s' [o|e]] eqn:Gt.
    + pose proof (law_get_view _ _ Law _ _ _ _ Gt) as V'. pose proof (law_get_ok _ _ Law _ _ _ _ Gt) as Ev.
      rewrite Vs in Ev. destruct (Lo p NE) as [Q|Q]; rewrite Q in Ev; subst o.
      * rewrite try_from_prim. exists s', (Ok (nd p m)). split; [reflexivity|]. split; [intros; rewrite V'; auto|].
        left. split; auto. right. exact Q.
      * exists s', (Err (ChildNotFound (T p m))). split; [reflexivity|]. split; [intros; rewrite V'; auto|].
        right. left. split; auto. split; auto.
    + exists s', (Err (ChildErr (SNStorageError e))). split; [reflexivity|].
      split; [intros; rewrite (law_get_view _ _ Law _ _ _ _ Gt); auto|]. right. right. split; eauto.
      intros [I _]. destruct (I (T p m) s) as (? & ? & Q). congruence.
Qed.

Lemma child_ok : forall p m v s (b : bool), good m -> lossy m v -> (forall k, view s k = v k) -> (2 <= length (sub p m))%nat ->
  exists s' r, (if b then storage_node_right_child st (nd p m) else storage_node_left_child st (nd p m)) s = (s', Val r) /\
  (forall k, view s' k = v k) /\ childres (p ++ [b]) m v r.
Proof.
  intros p m v s b G Lo Vs L. destruct (read_child_ok (p ++ [b]) m v s G Lo Vs) as (s' & r & R & V' & C).
  exists s', r. split; auto. destruct b.
  - unfold storage_node_right_child. rewrite (nd_is_leaf H U HZ) by exact G.
    replace (length (sub p m) <=? 1)%nat with false by (symmetry; apply Nat.leb_gt; lia).
    unfold snode_right_child_key. rewrite nd_is_node.
    replace (length (sub p m) <=? 1)%nat with false by (symmetry; apply Nat.leb_gt; lia).
    cbn [negb assert obind]. rewrite nd_two by exact L. unfold bind, lift. exact R.
  - unfold storage_node_left_child. rewrite (nd_is_leaf H U HZ) by exact G.
    replace (length (sub p m) <=? 1)%nat with false by (symmetry; apply Nat.leb_gt; lia).
    unfold snode_left_child_key. rewrite nd_is_node.
    replace (length (sub p m) <=? 1)%nat with false by (symmetry; apply Nat.leb_gt; lia).
    cbn [negb assert obind]. rewrite nd_two by exact L. unfold bind, lift. exact R.
Qed.

Lemma next_ok : forall (leaf : SNode) (k : bytes32) i m v s side, good m -> lossy m v -> (forall k, view s k = v k) ->
  snode_leaf_key leaf = Val k -> (i < KB)%nat -> (2 <= length (sub (P k i) m))%nat ->
  exists s' rp rs, path_iter_next (StorageNode st) (Build_PathIter leaf (Some (Ok (nd (P k i) m), side)) (Z.of_nat i)) s =
    (s', Val (Some (Ok (nd (P k i) m), side), Build_PathIter leaf (Some (rp, rs)) (Z.of_nat (S i)))) /\
  (forall k, view s' k = v k) /\ childres (P k (S i)) m v rp /\ childres (sd k i) m v rs.
Proof.
  intros leaf k i m v s side G Lo Vs Lk Li Lm. unfold path_iter_next.
  cbn [it_current it_leaf it_current_offset pn_is_node pn_leaf_key pn_left_child pn_right_child StorageNode].
  rewrite nd_is_node. replace (length (sub (P k i) m) <=? 1)%nat with false by (symmetry; apply Nat.leb_gt; lia).
  cbn [negb]. rewrite Lk. unfold bind, lift. cbn [obind]. rewrite instruction_ok by exact Li.
  replace (Z.of_nat (S i)) with (Z.of_nat i + 1) by lia. rewrite P_S by exact Li. unfold sd.
  destruct (kbit k i); cbn [negb].
  - destruct (child_ok (P k i) m v s true G Lo Vs Lm) as (s1 & r1 & -> & V1 & C1).
    destruct (child_ok (P k i) m v s1 false G Lo V1 Lm) as (s2 & r2 & -> & V2 & C2).
    exists s2, r1, r2. split; [reflexivity|]. auto.
  - destruct (child_ok (P k i) m v s false G Lo Vs Lm) as (s1 & r1 & -> & V1 & C1).
    destruct (child_ok (P k i) m v s1 true G Lo V1 Lm) as (s2 & r2 & -> & V2 & C2).
    exists s2, r1, r2. split; [reflexivity|]. auto.
Qed.

(** The depth at which the path of [k] ends. *)
Definition lands (k : bytes32) (m : entries) (D : nat) : Prop :=
  (D <= KB)%nat /\ (forall j, (j < D)%nat -> (2 <= length (sub (P k j) m))%nat) /\ (length (sub (P k D) m) <= 1)%nat.

Lemma lands_exists : forall k m, NoDup (keys m) -> exists D, lands k m D.
Proof.
  intros k m N.
  assert (G : forall n i, (i + n = KB)%nat -> (forall j, (j < i)%nat -> (2 <= length (sub (P k j) m))%nat) -> exists D, lands k m D).
  { induction n as [|n IH]; intros i Li Hj.
    - exists i. split; [lia|]. split; auto. apply Nat.lt_succ_r. apply Nat.nle_gt. intros C.
      pose proof (sub_short _ _ N C) as Sh. rewrite P_length in Sh by lia. lia.
    - destruct (Nat.le_gt_cases (length (sub (P k i) m)) 1) as [A|A]; [exists i; split; [lia|split; auto]|].
      apply (IH (S i) ltac:(lia)). intros j Lj. destruct (Nat.eq_dec j i) as [->|]; [lia|]. apply Hj. lia. }
  apply (G KB O); lia.
Qed.

(** A walk fails only on a lost node of the path or beside it, or on a storage error. *)
Definition walk_err (k : bytes32) (m : entries) (D : nat) (v : bytes32 -> option SPrimitive) (e : SError E) : Prop :=
  (exists p, e = SChildErr (ChildNotFound (T p m)) /\ lost p m v /\
     exists j, (j < D)%nat /\ (p = P k (S j) \/ p = sd k j)) \/
  ((exists e', e = SChildErr (ChildErr (SNStorageError e'))) /\ fallible).

Lemma walk_err_child : forall k m D v p r e, childres p m v r -> r = Err e ->
  (exists j, (j < D)%nat /\ (p = P k (S j) \/ p = sd k j)) -> walk_err k m D v (SChildErr e).
Proof.
  intros k m D v p r e [[-> _]|[[-> Lp]|[[e' ->] F]]] Er J; try discriminate; injection Er as <-.
  - left. exists p. auto.
  - right. eauto.
Qed.

Lemma collect_ok : forall leaf (k : bytes32) m v D, good m -> lossy m v -> snode_leaf_key leaf = Val k -> lands k m D ->
  forall n i, (i + n = D)%nat -> forall fuel s side, (n + 2 <= fuel)%nat -> (forall k, view s k = v k) ->
  exists s' r, path_set_collect st fuel (Build_PathIter leaf (Some (Ok (nd (P k i) m), Ok side)) (Z.of_nat i)) s = (s', Val r) /\
  (forall k, view s' k = v k) /\
  ((r = Ok ((nd (P k i) m, side) :: map (fun j => (nd (P k (S j)) m, nd (sd k j) m)) (seq i n)) /\
    forall j, (i <= j < D)%nat -> avail (P k (S j)) m v /\ avail (sd k j) m v) \/
   (exists e, r = Err e /\ walk_err k m D v e)).
Proof.
  intros leaf k m v D G Lo Lk (LD & LA & LE). induction n as [|n IH]; intros i Ei fuel s side Fu Vs.
  - destruct fuel as [|[|fuel]]; try lia. replace i with D by lia.
    cbn [path_set_collect]. unfold bind at 1. unfold path_iter_next.
    cbn [it_current it_leaf it_current_offset pn_is_node StorageNode]. rewrite nd_is_node.
    replace (length (sub (P k D) m) <=? 1)%nat with true by (symmetry; apply Nat.leb_le; lia).
    cbn [negb ret]. unfold bind_try, bind. cbn [it_current].
    eexists s, _. split; [reflexivity|]. split; auto. left. split; [reflexivity|]. intros j Lj. lia.
  - destruct fuel as [|fuel]; try lia. cbn [path_set_collect]. unfold bind at 1.
    destruct (next_ok leaf k i m v s (Ok side) G Lo Vs Lk ltac:(lia) (LA i ltac:(lia))) as (s1 & rp & rs & -> & V1 & Cp & Cs).
    unfold bind_try at 1. unfold bind at 1.
    assert (Jp : exists j, (j < D)%nat /\ (P k (S i) = P k (S j) \/ P k (S i) = sd k j)) by (exists i; split; [lia|auto]).
    assert (Js : exists j, (j < D)%nat /\ (sd k i = P k (S j) \/ sd k i = sd k j)) by (exists i; split; [lia|auto]).
    destruct rp as [np|ep].
    + destruct rs as [ns|es].
      * assert (Ap : np = nd (P k (S i)) m /\ avail (P k (S i)) m v).
        { destruct Cp as [[Q A]|[[Q _]|[[? Q] _]]]; try discriminate. injection Q as ->. auto. }
        assert (As : ns = nd (sd k i) m /\ avail (sd k i) m v).
        { destruct Cs as [[Q A]|[[Q _]|[[? Q] _]]]; try discriminate. injection Q as ->. auto. }
        destruct Ap as [-> Ap], As as [-> As].
        destruct (IH (S i) ltac:(lia) fuel s1 (nd (sd k i) m) ltac:(lia) V1) as (s2 & r2 & -> & V2 & [[-> A2]|(e & -> & W2)]).
        -- eexists s2, _. split; [reflexivity|]. split; auto. left. split; [cbn [seq map]; reflexivity|].
           intros j Lj. destruct (Nat.eq_dec j i) as [->|]; [auto|]. apply A2. lia.
        -- exists s2, (Err e). split; [reflexivity|]. split; auto. right. eauto.
      * destruct fuel as [|fuel]; try lia. cbn [path_set_collect]. unfold bind at 1. unfold path_iter_next at 1.
        cbn [it_current it_leaf it_current_offset].
        assert (W : walk_err k m D v (SChildErr es)) by exact (walk_err_child k m D v _ _ es Cs eq_refl Js).
        assert (Ap : np = nd (P k (S i)) m).
        { destruct Cp as [[Q A]|[[Q _]|[[? Q] _]]]; try discriminate. injection Q as ->. auto. }
        subst np.
        destruct (Nat.le_gt_cases (length (sub (P k (S i)) m)) 1) as [A|A].
        -- cbn [pn_is_node StorageNode]. rewrite nd_is_node.
           replace (length (sub (P k (S i)) m) <=? 1)%nat with true by (symmetry; apply Nat.leb_le; lia).
           cbn [negb ret]. eexists s1, _. split; [reflexivity|]. split; auto. right. eauto.
        -- assert (LS : (S i < KB)%nat).
           { pose proof (sub_short _ _ (good_nodup H U m G) A) as Sh. rewrite P_length in Sh by lia. exact Sh. }
           destruct (next_ok leaf k (S i) m v s1 (Err es) G Lo V1 Lk LS ltac:(lia)) as (s2 & rp2 & rs2 & Q & V2 & _).
           unfold path_iter_next in Q. cbn [it_current it_leaf it_current_offset] in Q. rewrite Q.
           eexists s2, _. split; [reflexivity|]. split; auto. right. eauto.
    + destruct fuel as [|fuel]; try lia. cbn [path_set_collect]. unfold bind at 1. unfold path_iter_next at 1.
      cbn [it_current it_leaf it_current_offset ret].
      eexists s1, _. split; [reflexivity|]. split; auto. right. eexists. split; [reflexivity|]. exact (walk_err_child k m D v _ _ ep Cp eq_refl Jp).
Qed.

Lemma nodes_seq : forall (f : nat -> SNode) n i, f i :: map (fun j => f (S j)) (seq i n) = map f (seq i (S n)).
Proof.
  intros f n i. change (seq i (S n)) with (i :: seq (S i) n). rewrite <- seq_shift, map_cons, map_map. reflexivity.
Qed.

Lemma path_set_ok : forall leaf (k : bytes32) m v D s, good m -> lossy m v -> snode_leaf_key leaf = Val k -> lands k m D ->
  (forall k, view s k = v k) ->
  exists s' r, path_set pr st (nd [] m) leaf s = (s', Val r) /\ (forall k, view s' k = v k) /\
  ((r = Ok (map (fun i => nd (P k i) m) (down (S D)), map (fun i => nd (sd k i) m) (down D)) /\
    forall j, (j < D)%nat -> avail (P k (S j)) m v /\ avail (sd k j) m v) \/
   (exists e, r = Err e /\ walk_err k m D v e)).
Proof.
  intros leaf k m v D s G Lo Lk La Vs. pose proof KB_val as KV. pose proof La as La'. destruct La as (LD & LA & LE).
  unfold path_set, path_iter_new. cbn [pn_key_size_in_bits pn_height StorageNode].
  change (@nil bool) with (P k 0). rewrite nd_height. unfold bind at 1. unfold lift.
  destruct (Nat.leb_spec (length (sub (P k 0) m)) 1) as [A|A].
  - rewrite usize_ovf_in by (unfold max_height; lia). cbn [obind].
    assert (D0 : D = 0%nat). { destruct D as [|D]; auto. pose proof (LA O ltac:(lia)). lia. } subst D.
    unfold bind_try at 1. unfold bind at 1. cbn [path_set_collect]. unfold bind at 1. unfold path_iter_next.
    cbn [it_current it_leaf it_current_offset pn_is_node StorageNode]. rewrite nd_is_node.
    replace (length (sub (P k 0) m) <=? 1)%nat with true by (symmetry; apply Nat.leb_le; lia).
    cbn [negb ret]. unfold bind_try, bind. cbn [it_current]. cbn [ret].
    eexists s, _. split; [reflexivity|]. split; auto. left. split; [reflexivity|]. intros j Lj. lia.
  - rewrite P_length by lia. rewrite usize_ovf_in by (unfold max_height; lia). cbn [obind].
    replace (max_height - (256 - Z.of_nat 0)) with (Z.of_nat 0) by (unfold max_height; lia).
    unfold bind_try, bind.
    destruct (collect_ok leaf k m v D G Lo Lk La' D O eq_refl 258%nat s (nd (P k 0) m) ltac:(rewrite KB_eq in LD; lia) Vs)
      as (s1 & r1 & -> & V1 & [[-> A1]|(e & -> & W1)]).
    + eexists s1, _. split; [reflexivity|]. split; auto. left. split; [|intros j Lj; apply A1; lia].
      cbn [ret]. do 2 f_equal.
      * cbn [map fst]. rewrite map_map. cbn [fst]. rewrite nodes_seq with (f := fun i => nd (P k i) m), <- map_rev, down_rev. reflexivity.
      * cbn [map snd rev]. rewrite map_map. cbn [snd]. rewrite removelast_last, <- map_rev, down_rev. reflexivity.
    + exists s1, (Err e). split; [reflexivity|]. split; auto. right. eauto.
Qed.
End Proofs.
