(** SparseSpecFacts.v -- facts about the sparse tree specification: the entries below a bit
    prefix, the equations of [smt], binding, and independence of the order of entries. *)
From Verif Require Import Base SpecBits SpecBinary SpecSparse BindingProofs CommonProofs.
From Coq Require Import Arith ZifyBool ZifyNat ZifyN Permutation.
Ltac Zify.zify_post_hook ::= Z.div_mod_to_equations.
Arguments Nat.mul : simpl never.

Definition KB : nat := 256.
Lemma KB_eq : KB = (8 * 32)%nat.
Proof. reflexivity. Qed.
Global Opaque KB.
Lemma kbits_length : forall k : bytes32, length (bits_of k) = KB.
Proof. intros k. rewrite bits_of_length, b32_length, KB_eq. reflexivity. Qed.

(** * Prefixes *)
Fixpoint has_prefix (p bs : list bool) : bool :=
  match p, bs with
  | [], _ => true
  | b :: p', c :: bs' => Bool.eqb b c && has_prefix p' bs'
  | _ :: _, [] => false
  end.

Lemma has_prefix_spec : forall p bs, has_prefix p bs = true <-> firstn (length p) bs = p.
Proof.
  induction p as [|b p IH]; intros [|c bs]; cbn; split; intros E; auto; try discriminate.
  - apply andb_prop in E. destruct E as [E1 E2]. apply Bool.eqb_prop in E1. apply IH in E2. congruence.
  - injection E as E1 E2. subst c. rewrite Bool.eqb_reflx. cbn [andb]. apply IH. exact E2.
Qed.

Lemma has_prefix_snoc : forall p b bs, (length p < length bs)%nat ->
  has_prefix (p ++ [b]) bs = has_prefix p bs && Bool.eqb (nth (length p) bs false) b.
Proof.
  induction p as [|c p IH]; intros b [|d bs] L; cbn in *; try lia.
  - rewrite andb_true_r. destruct b, d; reflexivity.
  - rewrite IH by lia. apply andb_assoc.
Qed.

Lemma has_prefix_long : forall p bs, (length bs < length p)%nat -> has_prefix p bs = false.
Proof.
  intros p bs L. destruct (has_prefix p bs) eqn:E; auto. apply has_prefix_spec in E.
  assert (length (firstn (length p) bs) = length p) by congruence. rewrite firstn_length in *. lia.
Qed.

Lemma has_prefix_app : forall p q bs, has_prefix (p ++ q) bs = true -> has_prefix p bs = true.
Proof.
  induction p as [|b p IH]; intros q [|c bs] E; cbn in *; auto.
  apply andb_prop in E. destruct E as [E1 E2]. rewrite E1. apply (IH q). exact E2.
Qed.

Lemma has_prefix_firstn : forall bs n, has_prefix (firstn n bs) bs = true.
Proof.
  induction bs as [|b bs IH]; intros [|n]; cbn; auto. rewrite Bool.eqb_reflx. apply IH.
Qed.

(** * The entries below a prefix *)
Section Sub.
Context {V : Type}.
Definition sub (p : list bool) (m : list (bytes32 * V)) : list (bytes32 * V) :=
  filter (fun e : bytes32 * V => has_prefix p (bits_of (fst e))) m.

Lemma sub_in : forall p m e, In e (sub p m) <-> In e m /\ has_prefix p (bits_of (fst e)) = true.
Proof. intros p m e. apply filter_In. Qed.

Lemma sub_root : forall m, sub [] m = m.
Proof. induction m as [|e m IH]; cbn in *; [reflexivity|]. f_equal. exact IH. Qed.

Lemma sub_snoc : forall p b m, (length p < KB)%nat -> with_bit (length p) b (sub p m) = sub (p ++ [b]) m.
Proof.
  intros p b m L. unfold with_bit, sub. induction m as [|e m IH]; cbn [filter]; auto.
  rewrite has_prefix_snoc by (rewrite kbits_length; exact L). fold (kbit (fst e) (length p)).
  destruct (has_prefix p (bits_of (fst e))); cbn [andb filter]; rewrite ?IH; reflexivity.
Qed.

Lemma sub_long : forall p m, (KB < length p)%nat -> sub p m = [].
Proof.
  intros p m L. unfold sub. induction m as [|e m IH]; cbn [filter]; auto.
  rewrite has_prefix_long by (rewrite kbits_length; exact L). exact IH.
Qed.

Lemma filter_imp_length : forall {A} (f g : A -> bool) l, (forall x, f x = true -> g x = true) ->
  (length (filter f l) <= length (filter g l))%nat.
Proof.
  intros A f g l I. induction l as [|x l IH]; cbn [filter]; auto.
  destruct (f x) eqn:E; [rewrite (I x E); cbn [length]; lia|]. destruct (g x); cbn [length]; lia.
Qed.

Lemma sub_app_length : forall p q m, (length (sub (p ++ q) m) <= length (sub p m))%nat.
Proof. intros p q m. apply filter_imp_length. intros e. apply has_prefix_app. Qed.

Lemma keys_filter_nodup : forall (f : bytes32 * V -> bool) m, NoDup (keys m) -> NoDup (keys (filter f m)).
Proof.
  intros f m. unfold keys. induction m as [|e m IH]; cbn [filter map]; auto. intros N. inversion N; subst.
  destruct (f e); cbn [map]; auto. constructor; auto. intros I. apply H1.
  apply in_map_iff in I. destruct I as (e' & E & I). apply filter_In in I. apply in_map_iff. exists e'. tauto.
Qed.

Lemma sub_nodup : forall p m, NoDup (keys m) -> NoDup (keys (sub p m)).
Proof. intros p m. apply keys_filter_nodup. Qed.

Lemma nodup_keys_inj : forall (m : list (bytes32 * V)) e e', NoDup (keys m) -> In e m -> In e' m -> fst e = fst e' -> e = e'.
Proof.
  intros m e e' N. unfold keys in N. induction m as [|x m IH]; intros I I' E; [destruct I|].
  cbn [map] in N. inversion N; subst. destruct I as [->|I], I' as [->|I']; auto.
  - exfalso. apply H1. rewrite E. apply in_map. exact I'.
  - exfalso. apply H1. rewrite <- E. apply in_map. exact I.
Qed.

Lemma two_elements : forall (l : list (bytes32 * V)), (2 <= length l)%nat -> NoDup (keys l) ->
  exists e e', In e l /\ In e' l /\ fst e <> fst e'.
Proof.
  intros [|e [|e' l]] L N; cbn [length] in L; try lia. exists e, e'. cbn. repeat split; auto.
  cbn in N. inversion N; subst. intros E. apply H1. left. auto.
Qed.

(** at most one key has a full prefix *)
Lemma sub_full : forall p m, (KB <= length p)%nat -> NoDup (keys m) -> (length (sub p m) <= 1)%nat.
Proof.
  intros p m L N. destruct (le_lt_dec (length (sub p m)) 1) as [|G]; auto. exfalso.
  destruct (two_elements (sub p m)) as (e & e' & I & I' & NE); [lia|apply sub_nodup; auto|].
  apply sub_in in I. apply sub_in in I'. destruct I as [_ P], I' as [_ P'].
  apply has_prefix_spec in P. apply has_prefix_spec in P'.
  rewrite firstn_all2 in P by (rewrite kbits_length; exact L).
  rewrite firstn_all2 in P' by (rewrite kbits_length; exact L).
  apply NE. apply bytes32_ext. apply bits_of_inj; [rewrite !b32_length; reflexivity|congruence].
Qed.

Lemma sub_short : forall p m, NoDup (keys m) -> (2 <= length (sub p m))%nat -> (length p < KB)%nat.
Proof.
  intros p m N L. destruct (le_lt_dec KB (length p)) as [G|]; auto.
  pose proof (sub_full p m G N). lia.
Qed.

(** the two halves *)
Lemma sub_split_in : forall p m e, (length p < KB)%nat ->
  (In e (sub p m) <-> In e (sub (p ++ [false]) m) \/ In e (sub (p ++ [true]) m)).
Proof.
  intros p m e L. rewrite !sub_in. rewrite !has_prefix_snoc by (rewrite kbits_length; exact L).
  destruct (nth (length p) (bits_of (fst e)) false), (has_prefix p (bits_of (fst e))); cbn; intuition discriminate.
Qed.

Lemma sub_split_length : forall p m, (length p < KB)%nat ->
  length (sub p m) = (length (sub (p ++ [false]) m) + length (sub (p ++ [true]) m))%nat.
Proof.
  intros p m L. unfold sub. induction m as [|e m IH]; cbn [filter]; auto.
  rewrite !has_prefix_snoc by (rewrite kbits_length; exact L).
  destruct (has_prefix p (bits_of (fst e))), (nth (length p) (bits_of (fst e)) false);
    cbn [andb Bool.eqb length]; lia.
Qed.
End Sub.

(** * The subtree at a prefix *)
Section Smt.
Variable H : list byte -> bytes32.
Notation entries := (list (bytes32 * bytes32)).
Notation smt := (smt H).
Notation smt_inputs := (smt_inputs H).

Definition T (p : list bool) (m : entries) : bytes32 := smt (KB - length p) (length p) (sub p m).
Definition I (p : list bool) (m : entries) : list (list byte) := smt_inputs (KB - length p) (length p) (sub p m).

Lemma T_root : forall m, T [] m = smt KB 0 m.
Proof. intros m. unfold T. cbn [length]. rewrite Nat.sub_0_r, sub_root. reflexivity. Qed.
Lemma I_root : forall m, I [] m = smt_inputs KB 0 m.
Proof. intros m. unfold I. cbn [length]. rewrite Nat.sub_0_r, sub_root. reflexivity. Qed.

Inductive T_shape (p : list bool) (m : entries) : Prop :=
| shape_nil : sub p m = [] -> T p m = zero32 -> I p m = [] -> T_shape p m
| shape_one : forall k h, sub p m = [(k, h)] -> T p m = H (smt_leaf_input k h) ->
    I p m = [smt_leaf_input k h] -> T_shape p m
| shape_two : (2 <= length (sub p m))%nat -> (length p < KB)%nat ->
    T p m = H (smt_node_input (T (p ++ [false]) m) (T (p ++ [true]) m)) ->
    I p m = smt_node_input (T (p ++ [false]) m) (T (p ++ [true]) m) :: I (p ++ [false]) m ++ I (p ++ [true]) m ->
    T_shape p m.

Lemma T_cases : forall p m, NoDup (keys m) -> T_shape p m.
Proof.
  intros p m N. destruct (sub p m) as [|[k h] [|e l]] eqn:E.
  - apply shape_nil; auto; unfold T, I; rewrite E; destruct (KB - length p)%nat; reflexivity.
  - apply (shape_one p m k h); auto; unfold T, I; rewrite E; destruct (KB - length p)%nat; reflexivity.
  - assert (L : (2 <= length (sub p m))%nat) by (rewrite E; cbn [length]; lia).
    pose proof (sub_short p m N L) as S.
    assert (EN : (KB - length p)%nat = Datatypes.S (KB - length (p ++ [false]))) by (rewrite app_length; cbn [length]; lia).
    assert (LS : forall b, length (p ++ [b]) = Datatypes.S (length p)) by (intros b; rewrite app_length; cbn [length]; lia).
    apply shape_two; auto.
    + unfold T. rewrite EN, E. cbn [SpecSparse.smt]. rewrite <- E, !sub_snoc by exact S. rewrite !LS. reflexivity.
    + unfold I, T. rewrite EN, E. cbn [SpecSparse.smt_inputs]. rewrite <- E, !sub_snoc by exact S. rewrite !LS. reflexivity.
Qed.

Lemma leaf_input_inj : forall k h k' h', smt_leaf_input k h = smt_leaf_input k' h' -> k = k' /\ h = h'.
Proof. intros k h k' h' E. unfold smt_leaf_input in E. apply cons_tl in E. apply b32_app_inj in E. exact E. Qed.
Lemma node_input_inj : forall k h k' h', smt_node_input k h = smt_node_input k' h' -> k = k' /\ h = h'.
Proof. intros k h k' h' E. unfold smt_node_input in E. apply cons_tl in E. apply b32_app_inj in E. exact E. Qed.
Lemma leaf_node_input : forall k h k' h', smt_leaf_input k h <> smt_node_input k' h'.
Proof. intros k h k' h' E. discriminate E. Qed.

Definition bad (l : list (list byte)) : Prop := has_collision H l \/ exists x, In x l /\ H x = zero32.
Lemma bad_incl : forall l l', incl l l' -> bad l -> bad l'.
Proof.
  intros l l' S [C|(x & Ix & E)]; [left; exact (collision_app H _ _ S C)|right; exists x; auto].
Qed.

(** keys below p agree on its bits and differ at the next one *)
Lemma prefix_nth : forall p bs i, has_prefix p bs = true -> (i < length p)%nat -> nth i bs false = nth i p false.
Proof.
  induction p as [|b p IH]; intros [|c bs] i E L; cbn in *; try lia; try discriminate.
  apply andb_prop in E. destruct E as [E1 E2]. apply Bool.eqb_prop in E1. subst c.
  destruct i; cbn; auto. apply IH; auto. lia.
Qed.

Lemma fork_depth : forall p p' (x y : bytes32), (length p < KB)%nat -> (length p' < KB)%nat ->
  has_prefix (p ++ [false]) (bits_of x) = true -> has_prefix (p ++ [true]) (bits_of y) = true ->
  has_prefix (p' ++ [false]) (bits_of x) = true -> has_prefix (p' ++ [true]) (bits_of y) = true ->
  length p = length p'.
Proof.
  assert (A : forall p p' (x y : bytes32), (length p < length p')%nat ->
    has_prefix (p ++ [false]) (bits_of x) = true -> has_prefix (p ++ [true]) (bits_of y) = true ->
    has_prefix (p' ++ [false]) (bits_of x) = true -> has_prefix (p' ++ [true]) (bits_of y) = true -> False).
  { intros p p' x y L A1 A2 A3 A4.
    apply has_prefix_app in A3. apply has_prefix_app in A4.
    pose proof (prefix_nth p' _ _ A3 L) as E3. pose proof (prefix_nth p' _ _ A4 L) as E4.
    assert (L' : forall b : bool, (length p < length (p ++ [b]))%nat) by (intros b; rewrite app_length; cbn [length]; lia).
    pose proof (prefix_nth _ _ _ A1 (L' false)) as E1. pose proof (prefix_nth _ _ _ A2 (L' true)) as E2.
    rewrite nth_middle in E1. rewrite nth_middle in E2. congruence. }
  intros p p' x y _ _ A1 A2 A3 A4. destruct (lt_eq_lt_dec (length p) (length p')) as [[L|L]|L]; auto; exfalso.
  - exact (A p p' x y L A1 A2 A3 A4).
  - exact (A p' p x y L A3 A4 A1 A2).
Qed.

Lemma length_one : forall {A} (l : list A) x, In x l -> (length l <= 1)%nat -> l = [x].
Proof. intros A [|y [|z l]] x Ix L; cbn in *; try lia; destruct Ix as [->|[]]; reflexivity. Qed.

Definition same {A} (l l' : list A) : Prop := forall e, In e l <-> In e l'.

Lemma T_binding : forall m m' p p', NoDup (keys m) -> NoDup (keys m') -> T p m = T p' m' ->
  (same (sub p m) (sub p' m') /\ ((2 <= length (sub p m))%nat -> length p = length p')) \/
  bad (I p m ++ I p' m').
Proof.
  intros m m' p p' N N'. remember (KB - length p)%nat as n eqn:En. revert p p' En.
  induction n as [n IH] using lt_wf_ind. intros p p' En E.
  destruct (T_cases p m N) as [S1 E1 I1|k h S1 E1 I1|S1 L1 E1 I1];
  destruct (T_cases p' m' N') as [S2 E2 I2|k' h' S2 E2 I2|S2 L2 E2 I2].
  - left. rewrite S1, S2. split; [intros e; tauto|cbn [length]; lia].
  - right. right. exists (smt_leaf_input k' h'). rewrite I2, in_app_iff. cbn. split; [auto|congruence].
  - right. right. eexists. rewrite I2, in_app_iff. split; [right; left; reflexivity|congruence].
  - right. right. exists (smt_leaf_input k h). rewrite I1, in_app_iff. cbn. split; [auto|congruence].
  - destruct (bytes_eq_dec (smt_leaf_input k h) (smt_leaf_input k' h')) as [Eq|Ne].
    + apply leaf_input_inj in Eq. destruct Eq as [-> ->]. left. rewrite S1, S2. split; [intros e; tauto|cbn [length]; lia].
    + right. left. exists (smt_leaf_input k h), (smt_leaf_input k' h'). rewrite I1, I2. cbn. repeat split; auto. congruence.
  - right. left. exists (smt_leaf_input k h), (smt_node_input (T (p' ++ [false]) m') (T (p' ++ [true]) m')).
    rewrite I1, I2. cbn. repeat split; auto; [apply leaf_node_input|congruence].
  - right. right. eexists. rewrite I1, in_app_iff. split; [left; left; reflexivity|congruence].
  - right. left. exists (smt_leaf_input k' h'), (smt_node_input (T (p ++ [false]) m) (T (p ++ [true]) m)).
    rewrite I1, I2. cbn [In]. rewrite in_app_iff. cbn [In app]. repeat split; auto; [apply leaf_node_input|congruence].
  - destruct (bytes_eq_dec (smt_node_input (T (p ++ [false]) m) (T (p ++ [true]) m))
                (smt_node_input (T (p' ++ [false]) m') (T (p' ++ [true]) m'))) as [Eq|Ne].
    2:{ right. left. exists (smt_node_input (T (p ++ [false]) m) (T (p ++ [true]) m)),
          (smt_node_input (T (p' ++ [false]) m') (T (p' ++ [true]) m')).
        rewrite I1, I2. split; [apply in_or_app; left; left; reflexivity|].
        split; [apply in_or_app; right; left; reflexivity|]. split; [exact Ne|congruence]. }
    apply node_input_inj in Eq. destruct Eq as [EL ER].
    assert (LS : forall (q : list bool) b, length (q ++ [b]) = Datatypes.S (length q)) by (intros q b; rewrite app_length; cbn [length]; lia).
    assert (Inc : forall b, incl (I (p ++ [b]) m ++ I (p' ++ [b]) m') (I p m ++ I p' m')).
    { intros b x Hx. rewrite I1, I2. apply in_app_or in Hx. apply in_or_app.
      destruct Hx as [Hx|Hx]; [left|right]; right; apply in_or_app; destruct b; auto. }
    destruct (IH (KB - length (p ++ [false]))%nat ltac:(rewrite LS; lia) (p ++ [false]) (p' ++ [false]) eq_refl EL)
      as [[A1 B1]|C1]; [|right; exact (bad_incl _ _ (Inc false) C1)].
    destruct (IH (KB - length (p ++ [true]))%nat ltac:(rewrite LS; lia) (p ++ [true]) (p' ++ [true]) eq_refl ER)
      as [[A2 B2]|C2]; [|right; exact (bad_incl _ _ (Inc true) C2)].
    left. split.
    + intros e. rewrite (sub_split_in p m e L1), (sub_split_in p' m' e L2), (A1 e), (A2 e). tauto.
    + intros _. rewrite !LS in B1, B2.
      destruct (le_lt_dec 2 (length (sub (p ++ [false]) m))) as [G|G1]; [specialize (B1 G); lia|].
      destruct (le_lt_dec 2 (length (sub (p ++ [true]) m))) as [G|G2]; [specialize (B2 G); lia|].
      rewrite (sub_split_length p m L1) in S1.
      destruct (sub (p ++ [false]) m) as [|x lx] eqn:Ex; [cbn [length] in *; lia|].
      destruct (sub (p ++ [true]) m) as [|y ly] eqn:Ey; [cbn [length] in *; lia|].
      assert (Ix : In x (sub (p ++ [false]) m)) by (rewrite Ex; left; reflexivity).
      assert (Iy : In y (sub (p ++ [true]) m)) by (rewrite Ey; left; reflexivity).
      assert (Ix' : In x (sub (p' ++ [false]) m')) by (apply A1; left; reflexivity).
      assert (Iy' : In y (sub (p' ++ [true]) m')) by (apply A2; left; reflexivity).
      rewrite sub_in in Ix, Iy, Ix', Iy'.
      apply (fork_depth p p' (fst x) (fst y)); tauto.
Qed.

Lemma I_snoc : forall p b m, NoDup (keys m) -> incl (I (p ++ [b]) m) (I p m).
Proof.
  intros p b m N x Hx.
  destruct (T_cases p m N) as [S1 E1 I1|k h S1 E1 I1|S1 L1 E1 I1].
  - exfalso. assert (sub (p ++ [b]) m = []).
    { apply length_zero_iff_nil. pose proof (sub_app_length p [b] m). rewrite S1 in *. cbn [length] in *. lia. }
    unfold I in Hx. rewrite H0 in Hx. destruct (KB - length (p ++ [b]))%nat; destruct Hx.
  - destruct (T_cases (p ++ [b]) m N) as [S2 E2 I2|k' h' S2 E2 I2|S2 L2 E2 I2].
    + rewrite I2 in Hx. destruct Hx.
    + assert (Q : In (k', h') (sub p m)).
      { assert (In (k', h') (sub (p ++ [b]) m)) by (rewrite S2; left; reflexivity).
        apply sub_in in H0. apply sub_in. split; [tauto|]. apply (has_prefix_app p [b]). tauto. }
      rewrite S1 in Q. destruct Q as [Q|[]]. inversion Q; subst. rewrite I1. rewrite I2 in Hx. exact Hx.
    + pose proof (sub_app_length p [b] m). rewrite S1 in *. cbn [length] in *. lia.
  - rewrite I1. right. apply in_or_app. destruct b; auto.
Qed.

Lemma I_app : forall q p m, NoDup (keys m) -> incl (I (p ++ q) m) (I p m).
Proof.
  induction q as [|b q IH]; intros p m N; [rewrite app_nil_r; apply incl_refl|].
  replace (p ++ b :: q) with ((p ++ [b]) ++ q) by (rewrite <- app_assoc; reflexivity).
  eapply incl_tran; [apply IH; exact N|apply I_snoc; exact N].
Qed.
Lemma I_sub_root : forall p m, NoDup (keys m) -> incl (I p m) (I [] m).
Proof. intros p m N. apply (I_app p [] m N). Qed.

(** * The order of the entries does not matter *)
Lemma filter_perm : forall {A} (f : A -> bool) l l', Permutation l l' -> Permutation (filter f l) (filter f l').
Proof.
  intros A f l l' P. induction P; cbn [filter]; auto.
  - destruct (f x); auto.
  - destruct (f x), (f y); auto. apply perm_swap.
  - eapply perm_trans; eauto.
Qed.

Lemma smt_perm : forall n d l l', Permutation l l' -> smt n d l = smt n d l'.
Proof.
  induction n as [|n IH]; intros d l l' P.
  - pose proof (Permutation_length P) as L.
    destruct l as [|[k h] [|e l]]; destruct l' as [|[k' h'] [|e' l']]; cbn [length] in L; try lia; auto.
    apply Permutation_length_1 in P. rewrite P. reflexivity.
  - pose proof (Permutation_length P) as L.
    destruct l as [|[k h] [|e l]]; destruct l' as [|[k' h'] [|e' l']]; cbn [length] in L; try lia; auto.
    + apply Permutation_length_1 in P. rewrite P. reflexivity.
    + cbn [SpecSparse.smt]. f_equal. f_equal; apply IH; apply filter_perm; exact P.
Qed.
End Smt.

(** * Lookups *)
Section Lookup.
Context {V : Type}.
Lemma lookup_in : forall (m : list (bytes32 * V)) k v, NoDup (keys m) -> (lookup k m = Some v <-> In (k, v) m).
Proof.
  intros m k v N. unfold keys in N. induction m as [|[k' v'] m IH]; cbn [lookup map] in *.
  - split; [discriminate|intros []].
  - inversion N; subst. destruct (b32_eqb k' k) eqn:E.
    + apply b32_eqb_eq in E. subst. split.
      * intros Q. inversion Q; subst. left; reflexivity.
      * intros [Q|Q]; [congruence|]. exfalso. apply H1. apply in_map_iff. exists (k, v). auto.
    + apply b32_eqb_neq in E. rewrite IH by auto. split; [intros Q; right; exact Q|].
      intros [Q|Q]; [congruence|exact Q].
Qed.

Lemma lookup_perm : forall (m m' : list (bytes32 * V)), NoDup (keys m) -> NoDup (keys m') ->
  (forall k, lookup k m = lookup k m') -> Permutation m m'.
Proof.
  intros m m' N N' E.
  apply NoDup_Permutation; [eapply NoDup_map_inv; exact N|eapply NoDup_map_inv; exact N'|].
  intros [k v]. rewrite <- !lookup_in by auto. rewrite E. tauto.
Qed.

Lemma mdel_in : forall k (m : list (bytes32 * V)) e, In e (mdel k m) <-> In e m /\ fst e <> k.
Proof.
  intros k m e. unfold mdel. rewrite filter_In, negb_true_iff, b32_eqb_neq. tauto.
Qed.
Lemma mdel_nodup : forall k (m : list (bytes32 * V)), NoDup (keys m) -> NoDup (keys (mdel k m)).
Proof. intros k m. apply keys_filter_nodup. Qed.
Lemma in_keys : forall k (m : list (bytes32 * V)), In k (keys m) <-> exists v, In (k, v) m.
Proof.
  intros k m. unfold keys. rewrite in_map_iff. split.
  - intros ([k' v] & E & Ie). cbn in E. subst. eauto.
  - intros [v Ie]. exists (k, v). auto.
Qed.
Lemma mdel_keys : forall k (m : list (bytes32 * V)) k', In k' (keys (mdel k m)) <-> In k' (keys m) /\ k' <> k.
Proof.
  intros k m k'. rewrite !in_keys. split.
  - intros [v Ie]. apply mdel_in in Ie. cbn in Ie. split; [exists v|]; tauto.
  - intros [[v Ie] Ne]. exists v. apply mdel_in. auto.
Qed.
Lemma mset_nodup : forall k v (m : list (bytes32 * V)), NoDup (keys m) -> NoDup (keys (mset k v m)).
Proof.
  intros k v m N. unfold mset. cbn [keys map]. constructor; [|apply mdel_nodup; exact N].
  intros Ie. apply mdel_keys in Ie. cbn in Ie. tauto.
Qed.
Lemma mdel_notin : forall k (m : list (bytes32 * V)), ~ In k (keys m) -> mdel k m = m.
Proof.
  intros k m N. unfold mdel. induction m as [|e m IH]; cbn [filter]; auto. cbn [keys map] in N.
  destruct (b32_eqb (fst e) k) eqn:E; cbn [negb].
  - apply b32_eqb_eq in E. exfalso. apply N. left. exact E.
  - f_equal. apply IH. intros Ie. apply N. right. exact Ie.
Qed.

Lemma sub_mdel : forall p k (m : list (bytes32 * V)), sub p (mdel k m) = mdel k (sub p m).
Proof.
  intros p k m. unfold sub, mdel. induction m as [|e m IH]; cbn [filter]; auto.
  destruct (b32_eqb (fst e) k) eqn:E1, (has_prefix p (bits_of (fst e))) eqn:E2; cbn [negb filter]; rewrite ?E1, ?E2;
    cbn [negb]; rewrite ?IH; auto.
Qed.
Lemma sub_mset_in : forall p (k : bytes32) v (m : list (bytes32 * V)), has_prefix p (bits_of k) = true ->
  sub p (mset k v m) = (k, v) :: mdel k (sub p m).
Proof. intros p k v m E. unfold mset. rewrite <- sub_mdel. unfold sub at 1. cbn [filter fst]. rewrite E. reflexivity. Qed.
Lemma sub_mset_out : forall p (k : bytes32) v (m : list (bytes32 * V)), has_prefix p (bits_of k) = false ->
  sub p (mset k v m) = sub p m.
Proof.
  intros p k v m E. unfold mset. unfold sub at 1. cbn [filter fst]. rewrite E. fold (sub p (mdel k m)).
  rewrite sub_mdel. apply mdel_notin. intros Ie. apply in_keys in Ie. destruct Ie as [v' Ie].
  apply sub_in in Ie. cbn in Ie. destruct Ie; congruence.
Qed.
Lemma sub_mdel_out : forall p (k : bytes32) (m : list (bytes32 * V)), has_prefix p (bits_of k) = false ->
  sub p (mdel k m) = sub p m.
Proof.
  intros p k m E. rewrite sub_mdel. apply mdel_notin. intros Ie. apply in_keys in Ie. destruct Ie as [v' Ie].
  apply sub_in in Ie. cbn in Ie. destruct Ie; congruence.
Qed.
End Lookup.
