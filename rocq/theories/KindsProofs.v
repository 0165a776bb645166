(** KindsProofs.v -- trees of different kinds with the same root. *)
From Verif Require Import Base Storage ModelCommon ModelBinary ModelSparse ModelSum SpecBits SpecBinary SpecBinaryFacts SpecSparse SpecSum SpecKinds
  Runs RunsSum RunsSparse BitsProofs CommonProofs BindingProofs BinaryMain SumProofs SumMain SparseTheorems.
From Coq Require Import Arith Sorting.Permutation Sorting.Sorted ZifyBool ZifyNat ZifyN.
Arguments Nat.pow : simpl never.
Arguments Z.pow : simpl never.
Arguments split_point : simpl never.

Section Kinds.
Variable H : list byte -> bytes32.
Notation mth := (mth H).
Notation smt := (smt H).

Definition enc (e : bytes32 * bytes32) : list byte := b32 (fst e) ++ b32 (snd e).
Definition same_start (d : nat) (l : list (bytes32 * bytes32)) : Prop :=
  forall e e', In e l -> In e' l -> firstn d (bits_of (fst e)) = firstn d (bits_of (fst e')).
Notation ordered := (StronglySorted (fun e e' : bytes32 * bytes32 => key_before (fst e) (fst e'))).

Lemma key_bits : forall k : bytes32, length (bits_of k) = 256%nat.
Proof. intros k. rewrite bits_of_length, b32_length. reflexivity. Qed.
Lemma firstn_next : forall A d (l : list A) x, (d < length l)%nat -> firstn (S d) l = firstn d l ++ [nth d l x].
Proof.
  intros A. induction d as [|d IH]; intros [|y l] x Hl; cbn [length] in Hl; try lia; [reflexivity|].
  change (firstn (S (S d)) (y :: l)) with (y :: firstn (S d) l). rewrite (IH l x) by lia. reflexivity.
Qed.
Lemma with_bit_in : forall d b (l : list (bytes32 * bytes32)) e, In e (with_bit d b l) <-> In e l /\ kbit (fst e) d = b.
Proof. intros d b l e. unfold with_bit. rewrite filter_In. rewrite eqb_true_iff. reflexivity. Qed.
Lemma same_start_bit : forall d b l, (d < 256)%nat -> same_start d l -> same_start (S d) (with_bit d b l).
Proof.
  intros d b l Hd S0 e e' He He'. apply with_bit_in in He, He'. destruct He as [I1 B1], He' as [I2 B2].
  rewrite !(firstn_next _ d _ false) by (rewrite key_bits; exact Hd). f_equal; [apply S0; assumption|].
  unfold kbit in B1, B2. congruence.
Qed.
Lemma with_bit_perm : forall d (l : list (bytes32 * bytes32)), Permutation (with_bit d false l ++ with_bit d true l) l.
Proof.
  intros d. unfold with_bit. induction l as [|e l IH]; [constructor|]. cbn [filter]. destruct (kbit (fst e) d); cbn [Bool.eqb].
  - apply Permutation_sym, Permutation_cons_app, Permutation_sym. exact IH.
  - cbn [app]. constructor. exact IH.
Qed.
Lemma sorted_app : forall A (R : A -> A -> Prop) l l', StronglySorted R l -> StronglySorted R l' ->
  (forall x y, In x l -> In y l' -> R x y) -> StronglySorted R (l ++ l').
Proof.
  intros A R. induction l as [|x l IH]; intros l' S1 S2 C; [exact S2|]. inversion S1 as [|? ? S1' F]; subst. cbn [app]. constructor.
  - apply IH; [exact S1'|exact S2|]. intros a b Ha Hb. apply C; [right; exact Ha|exact Hb].
  - apply Forall_app. split; [exact F|]. apply Forall_forall. intros y Hy. apply C; [left; reflexivity|exact Hy].
Qed.

Lemma zero_app : forall l l', incl l l' -> zero_hash H l -> zero_hash H l'.
Proof. intros l l' I (x & Ix & Z). exists x. auto. Qed.
Lemma two_inputs : forall x y l, In x l -> In y l -> x <> y -> H x = H y -> has_collision H l.
Proof. intros x y l A B C D. exists x, y. auto. Qed.

(** The leaves of the binary tree are the entries, from left to right. *)
Lemma binary_smt : forall n d l ds, (n + d = 256)%nat -> same_start d l -> mth ds = smt n d l ->
  (exists es, Permutation es l /\ ordered es /\ ds = map enc es /\ binary_shaped n d l) \/
  has_collision H (mth_inputs H ds ++ smt_inputs H n d l) \/ zero_hash H (mth_inputs H ds).
Proof.
  induction n as [|n IH]; intros d l ds Hn Hs E.
  - destruct (mth_root_input H ds) as (x & Ex & Ix & Cx). destruct l as [|[k h] [|e l]]; cbn [SpecSparse.smt] in E.
    + right. right. exists x. split; [exact Ix|congruence].
    + destruct (bytes_eq_dec x (smt_leaf_input k h)) as [Q|N].
      * left. exists [(k, h)]. split; [reflexivity|]. split; [repeat constructor|].
        destruct Cx as [(-> & ->)|[(dd & -> & ->)|(_ & ->)]]; try discriminate Q. injection Q as ->. split; [reflexivity|exact Logic.I].
      * right. left. apply (two_inputs x (smt_leaf_input k h)); [apply in_or_app; auto|apply in_or_app; right; left; reflexivity|exact N|congruence].
    + right. right. exists x. split; [exact Ix|congruence].
  - destruct (mth_root_input H ds) as (x & Ex & Ix & Cx). destruct l as [|[k h] [|e l]].
    + cbn [SpecSparse.smt] in E. right. right. exists x. split; [exact Ix|congruence].
    + cbn [SpecSparse.smt] in E. destruct (bytes_eq_dec x (smt_leaf_input k h)) as [Q|N].
      * left. exists [(k, h)]. split; [reflexivity|]. split; [repeat constructor|].
        destruct Cx as [(-> & ->)|[(dd & -> & ->)|(_ & ->)]]; try discriminate Q. injection Q as ->. split; [reflexivity|exact Logic.I].
      * right. left. apply (two_inputs x (smt_leaf_input k h)); [apply in_or_app; auto|apply in_or_app; right; left; reflexivity|exact N|congruence].
    + set (L := (k, h) :: e :: l) in *.
      assert (Es : smt (S n) d L = H (smt_node_input (smt n (S d) (with_bit d false L)) (smt n (S d) (with_bit d true L)))) by reflexivity.
      assert (Ei : smt_inputs H (S n) d L = smt_node_input (smt n (S d) (with_bit d false L)) (smt n (S d) (with_bit d true L))
        :: smt_inputs H n (S d) (with_bit d false L) ++ smt_inputs H n (S d) (with_bit d true L)) by reflexivity.
      assert (Eb : binary_shaped (S n) d L = (length (with_bit d false L) = split_point (length L) /\
        binary_shaped n (S d) (with_bit d false L) /\ binary_shaped n (S d) (with_bit d true L))) by reflexivity.
      rewrite Es in E. rewrite Ei, Eb. clear Es Ei Eb. assert (Hd : (d < 256)%nat) by lia.
      pose proof (with_bit_perm d L) as Pm. pose proof (same_start_bit d false L Hd Hs) as S0. pose proof (same_start_bit d true L Hd Hs) as S1.
      assert (Bl : forall e, In e (with_bit d false L) -> In e L /\ kbit (fst e) d = false) by (intros e0; apply with_bit_in).
      assert (Br : forall e, In e (with_bit d true L) -> In e L /\ kbit (fst e) d = true) by (intros e0; apply with_bit_in).
      revert E Pm S0 S1 Bl Br. generalize (with_bit d false L), (with_bit d true L). intros l0 l1 E Pm S0 S1 Bl Br.
      destruct (bytes_eq_dec x (smt_node_input (smt n (S d) l0) (smt n (S d) l1))) as [Q|N].
      * destruct Cx as [(-> & ->)|[(dd & -> & ->)|(Hl & ->)]]; try discriminate Q.
        injection Q as Q. apply b32_app_inj in Q. destruct Q as [Q0 Q1]. clear Ix Ex E.
        rewrite (mth_inputs_split H ds) by exact Hl. cbv zeta. set (c := split_point (length ds)) in *.
        assert (In0 : incl (mth_inputs H (firstn c ds)) ((x01 :: b32 (mth (firstn c ds)) ++ b32 (mth (skipn c ds))) :: mth_inputs H (firstn c ds) ++ mth_inputs H (skipn c ds)))
          by (intros z Hz; right; apply in_or_app; auto).
        assert (In1 : incl (mth_inputs H (skipn c ds)) ((x01 :: b32 (mth (firstn c ds)) ++ b32 (mth (skipn c ds))) :: mth_inputs H (firstn c ds) ++ mth_inputs H (skipn c ds)))
          by (intros z Hz; right; apply in_or_app; auto).
        destruct (IH (S d) l0 (firstn c ds) ltac:(lia) S0 Q0) as [(es0 & P0 & O0 & D0 & B0)|[Col|Ze]].
        2:{ right. left. eapply collision_app; [|exact Col]. apply incl_app; [apply incl_appl; exact In0|]. intros z Hz. apply in_or_app. right. right. apply in_or_app. auto. }
        2:{ right. right. eapply zero_app; [exact In0|exact Ze]. }
        destruct (IH (S d) l1 (skipn c ds) ltac:(lia) S1 Q1) as [(es1 & P1 & O1 & D1 & B1)|[Col|Ze]].
        2:{ right. left. eapply collision_app; [|exact Col]. apply incl_app; [apply incl_appl; exact In1|]. intros z Hz. apply in_or_app. right. right. apply in_or_app. auto. }
        2:{ right. right. eapply zero_app; [exact In1|exact Ze]. }
        left. exists (es0 ++ es1). split; [transitivity (l0 ++ l1); [apply Permutation_app; assumption|exact Pm]|].
        split. { apply sorted_app; [exact O0|exact O1|]. intros a b Ha Hb.
          apply (Permutation_in _ P0) in Ha. apply (Permutation_in _ P1) in Hb. destruct (Bl a Ha) as [Ia Ba]. destruct (Br b Hb) as [Ib Bb].
          exists d. split; [apply Hs; assumption|]. auto. }
        split; [rewrite map_app, <- D0, <- D1; symmetry; apply firstn_skipn|].
        split; [|split; assumption].
        pose proof (f_equal (@length _) D0) as N0. pose proof (f_equal (@length _) D1) as N1. rewrite map_length in N0, N1.
        rewrite firstn_length in N0. rewrite skipn_length in N1. apply Permutation_length in P0, P1, Pm. rewrite app_length in Pm.
        pose proof (split_point_bounds (length ds) ltac:(lia)) as Bc. fold c in Bc.
        replace (length L) with (length ds) by lia. fold c. lia.
      * right. left. apply (two_inputs x (smt_node_input (smt n (S d) l0) (smt n (S d) l1)));
          [apply in_or_app; auto|apply in_or_app; right; left; reflexivity|exact N|congruence].
Qed.

Lemma sorted_digests : forall es : list (bytes32 * list byte), ordered (digests H es) <-> StronglySorted (fun e e' => key_before (fst e) (fst e')) es.
Proof.
  induction es as [|e es IH]; [split; intros; constructor|]. unfold digests in *. cbn [map]. split; intros O; inversion O as [|? ? O' F]; subst; constructor.
  - apply IH. exact O'.
  - rewrite Forall_map in F. exact F.
  - apply IH. exact O'.
  - rewrite Forall_map. exact F.
Qed.
Lemma with_bit_digests : forall d b m, with_bit d b (digests H m) = digests H (with_bit d b m).
Proof.
  intros d b m. unfold with_bit, digests. induction m as [|e m IH]; [reflexivity|]. cbn [map filter fst]. destruct (Bool.eqb (kbit (fst e) d) b); cbn [map]; congruence.
Qed.
Lemma shaped_digests : forall n d m, binary_shaped n d (digests H m) <-> binary_shaped n d m.
Proof.
  induction n as [|n IH]; intros d [|a [|b m]]; try reflexivity.
  assert (E1 : forall V (l : list (bytes32 * V)) x y, binary_shaped (S n) d (x :: y :: l) = (length (with_bit d false (x :: y :: l)) = split_point (length (x :: y :: l)) /\
        binary_shaped n (S d) (with_bit d false (x :: y :: l)) /\ binary_shaped n (S d) (with_bit d true (x :: y :: l)))) by reflexivity.
  rewrite E1. change (digests H (a :: b :: m)) with ((fst a, H (snd a)) :: (fst b, H (snd b)) :: digests H m). rewrite E1.
  change ((fst a, H (snd a)) :: (fst b, H (snd b)) :: digests H m) with (digests H (a :: b :: m)). rewrite !with_bit_digests, !IH.
  unfold digests. rewrite !map_length. reflexivity.
Qed.
Lemma binary_digests : forall n d m ds, (n + d = 256)%nat -> same_start d (digests H m) -> mth ds = smt n d (digests H m) ->
  (exists es, Permutation es m /\ StronglySorted (fun e e' => key_before (fst e) (fst e')) es /\ ds = map (entry_data H) es /\ binary_shaped n d m) \/
  has_collision H (mth_inputs H ds ++ smt_inputs H n d (digests H m)) \/ zero_hash H (mth_inputs H ds).
Proof.
  intros n d m ds Hn Hs E. destruct (binary_smt n d (digests H m) ds Hn Hs E) as [(es & P & O & D & B)|Q]; [|right; exact Q].
  left. unfold digests in P. apply Permutation_map_inv in P. destruct P as (es' & -> & P).
  exists es'. split; [apply Permutation_sym; exact P|]. split; [apply sorted_digests; exact O|].
  split; [rewrite D, map_map; reflexivity|]. apply shaped_digests. exact B.
Qed.
Lemma binary_kv : forall ds m, mth ds = kv_root H m ->
  (exists es, Permutation es m /\ StronglySorted (fun e e' => key_before (fst e) (fst e')) es /\ ds = map (entry_data H) es /\ binary_shaped 256 0 m) \/
  has_collision H (mth_inputs H ds ++ kv_inputs H m) \/ zero_hash H (mth_inputs H ds).
Proof. exact (fun ds m => binary_digests 256 0 m ds eq_refl (fun _ _ _ _ => eq_refl)). Qed.

(** * The converse *)
Lemma sorted_split : forall d es, (d < 256)%nat -> same_start d es -> ordered es ->
  with_bit d false es ++ with_bit d true es = es.
Proof.
  intros d es Hd. induction es as [|e es IH]; intros S0 O; [reflexivity|]. inversion O as [|? ? O' F]; subst.
  assert (IH' : with_bit d false es ++ with_bit d true es = es) by (apply IH; [intros a b Ha Hb; apply S0; right; assumption|exact O']).
  unfold with_bit in *. cbn [filter]. destruct (kbit (fst e) d) eqn:K; cbn [Bool.eqb app]; [|f_equal; exact IH'].
  assert (N : forall e', In e' es -> kbit (fst e') d = true).
  { intros e' I. rewrite Forall_forall in F. destruct (F e' I) as (n & A & B & C).
    pose proof (S0 e e' (or_introl eq_refl) (or_intror I)) as Q.
    destruct (Nat.lt_trichotomy n d) as [T|[->|T]].
    - exfalso. assert (G : forall k : bytes32, nth n (bits_of k) false = nth n (firstn d (bits_of k)) false)
        by (intros k; rewrite <- (firstn_skipn d (bits_of k)) at 1; rewrite app_nth1; [reflexivity|rewrite firstn_length, key_bits; lia]).
      unfold kbit in B, C. rewrite G in B, C. rewrite Q in B. congruence.
    - congruence.
    - unfold kbit in K |- *. assert (G : forall k : bytes32, nth d (bits_of k) false = nth d (firstn n (bits_of k)) false \/ (256 <= d)%nat).
      { intros k. destruct (le_lt_dec 256 d); [auto|left]. rewrite <- (firstn_skipn n (bits_of k)) at 1. rewrite app_nth1; [reflexivity|rewrite firstn_length, key_bits; lia]. }
      destruct (G (fst e)) as [G1|]; [|lia]. destruct (G (fst e')) as [G2|]; [|lia]. rewrite G2, <- A, <- G1. exact K. }
  replace (filter (fun e0 => Bool.eqb (kbit (fst e0) d) false) es) with (@nil (bytes32 * bytes32)).
  - cbn [app]. f_equal. rewrite <- IH' at 2. replace (filter (fun e0 => Bool.eqb (kbit (fst e0) d) false) es) with (@nil (bytes32 * bytes32)); [reflexivity|].
    symmetry. clear -N. induction es as [|a es IH]; [reflexivity|]. cbn [filter]. rewrite (N a (or_introl eq_refl)). cbn [Bool.eqb]. apply IH. intros e' I. apply N. right. exact I.
  - symmetry. clear -N. induction es as [|a es IH]; [reflexivity|]. cbn [filter]. rewrite (N a (or_introl eq_refl)). cbn [Bool.eqb]. apply IH. intros e' I. apply N. right. exact I.
Qed.
Lemma perm_filter : forall A (f : A -> bool) l l', Permutation l l' -> Permutation (filter f l) (filter f l').
Proof.
  intros A f l l' P. induction P; cbn [filter]; auto.
  - destruct (f x); auto.
  - destruct (f x), (f y); auto. constructor.
  - etransitivity; eassumption.
Qed.
Lemma sorted_filter : forall A (R : A -> A -> Prop) f l, StronglySorted R l -> StronglySorted R (filter f l).
Proof.
  intros A R f l S. induction S as [|a l S IH F]; [constructor|]. cbn [filter]. destruct (f a); [|exact IH]. constructor; [exact IH|].
  apply Forall_forall. intros x I. apply filter_In in I. rewrite Forall_forall in F. apply F. apply I.
Qed.
Lemma smt_binary : forall n d l es, (n + d = 256)%nat -> same_start d l -> Permutation es l -> ordered es -> binary_shaped n d l ->
  mth (map enc es) = smt n d l.
Proof.
  induction n as [|n IH]; intros d l es Hn Hs P O B.
  - destruct l as [|[k h] [|e l]]; try contradiction. apply Permutation_sym, Permutation_length_1_inv in P. subst es. reflexivity.
  - destruct l as [|[k h] [|e l]]; [contradiction| |].
    { apply Permutation_sym, Permutation_length_1_inv in P. subst es. reflexivity. }
    set (L := (k, h) :: e :: l) in *.
    assert (Es : smt (S n) d L = H (smt_node_input (smt n (S d) (with_bit d false L)) (smt n (S d) (with_bit d true L)))) by reflexivity.
    assert (Eb : binary_shaped (S n) d L = (length (with_bit d false L) = split_point (length L) /\
        binary_shaped n (S d) (with_bit d false L) /\ binary_shaped n (S d) (with_bit d true L))) by reflexivity.
    rewrite Eb in B. rewrite Es. clear Es Eb. assert (Hd : (d < 256)%nat) by lia. destruct B as (B & B0 & B1).
    assert (Hse : same_start d es) by (intros a b Ia Ib; apply Hs; apply (Permutation_in _ P); assumption).
    pose proof (sorted_split d es Hd Hse O) as Q.
    assert (Le : (2 <= length es)%nat) by (apply Permutation_length in P; rewrite P; unfold L; cbn [length]; lia).
    assert (P0 : Permutation (with_bit d false es) (with_bit d false L)) by (apply perm_filter; exact P).
    assert (P1 : Permutation (with_bit d true es) (with_bit d true L)) by (apply perm_filter; exact P).
    rewrite <- (IH (S d) (with_bit d false L) (with_bit d false es)); [|lia|apply same_start_bit; assumption|exact P0|apply sorted_filter; exact O|exact B0].
    rewrite <- (IH (S d) (with_bit d true L) (with_bit d true es)); [|lia|apply same_start_bit; assumption|exact P1|apply sorted_filter; exact O|exact B1].
    rewrite (mth_split H (map enc es)) by (rewrite map_length; exact Le). cbv zeta. rewrite map_length.
    assert (C : split_point (length es) = length (with_bit d false es)) by (rewrite (Permutation_length P), (Permutation_length P0); symmetry; exact B).
    rewrite C. clear C B. assert (Q2 : map enc es = map enc (with_bit d false es) ++ map enc (with_bit d true es)) by (rewrite <- map_app, Q; reflexivity).
    rewrite Q2. rewrite <- (map_length enc (with_bit d false es)). generalize (map enc (with_bit d false es)), (map enc (with_bit d true es)).
    intros x y. rewrite firstn_app, skipn_app, Nat.sub_diag, firstn_all, skipn_all, app_nil_r. reflexivity.
Qed.
Lemma digests_binary : forall n d m es, (n + d = 256)%nat -> same_start d (digests H m) ->
  Permutation es m -> StronglySorted (fun e e' => key_before (fst e) (fst e')) es -> binary_shaped n d m ->
  mth (map (entry_data H) es) = smt n d (digests H m).
Proof.
  intros n d m es Hn Hs P O B.
  replace (map (entry_data H) es) with (map enc (digests H es)) by (unfold digests; rewrite map_map; reflexivity).
  apply smt_binary; [exact Hn|exact Hs|apply Permutation_map; exact P|apply sorted_digests; exact O|apply shaped_digests; exact B].
Qed.
Lemma kv_binary : forall m es, Permutation es m -> StronglySorted (fun e e' => key_before (fst e) (fst e')) es -> binary_shaped 256 0 m ->
  mth (map (entry_data H) es) = kv_root H m.
Proof. exact (fun m es => digests_binary 256 0 m es eq_refl (fun _ _ _ _ => eq_refl)). Qed.

Lemma fee_length : forall z, length (u64_to_be_bytes z) = 8%nat.
Proof. exact u64_to_be_bytes_length. Qed.

Variable fee : list leaf -> Z.
Notation mst := (mst H fee).
Definition sum_root_input := mst_root_input H fee (fun _ => False) (fun _ _ f => conj f f) (fun _ f => False_ind _ f).
Lemma binary_mst : forall ds ls, mth ds = mst ls ->
  (ds = [] /\ ls = []) \/ (exists l, ls = [l] /\ ds = [fee_data l]) \/ has_collision H (mth_inputs H ds ++ mst_inputs H fee ls).
Proof.
  intros ds ls E. destruct (mth_root_input H ds) as (x & Ex & Ix & Cx). destruct (sum_root_input ls) as (y & Ey & Iy & Cy).
  destruct (bytes_eq_dec x y) as [Q|N].
  - subst y. destruct Cx as [(-> & ->)|[(d & -> & ->)|(Hl & ->)]]; destruct Cy as [(-> & Q)|[(l & -> & Q)|(Hl' & Q)]]; try discriminate Q; auto.
    + right. left. exists l. split; [reflexivity|]. injection Q as ->. reflexivity.
    + exfalso. apply (f_equal (@length byte)) in Q. unfold sum_node_input in Q. cbn [length] in Q.
      rewrite !app_length, !fee_length, !b32_length in Q. lia.
  - right. right. apply (two_inputs x y); auto using in_or_app. congruence.
Qed.

Lemma smt_two : forall n d a b r, exists w u, smt (S n) d (a :: b :: r) = H (smt_node_input w u) /\
  exists x, smt_inputs H (S n) d (a :: b :: r) = smt_node_input w u :: x.
Proof.
  intros n d [a1 a2] b r. set (a := (a1, a2)). exists (smt n (S d) (with_bit d false (a :: b :: r))), (smt n (S d) (with_bit d true (a :: b :: r))).
  split; [reflexivity|]. eexists. reflexivity.
Qed.

Lemma sum_digests : forall n d m ls, mst ls = smt (S n) d (digests H m) ->
  (exists l k v, ls = [l] /\ m = [(k, v)] /\ fee_data l = entry_data H (k, v)) \/
  has_collision H (mst_inputs H fee ls ++ smt_inputs H (S n) d (digests H m)) \/ zero_hash H (mst_inputs H fee ls).
Proof.
  intros n d m ls E. destruct (sum_root_input ls) as (y & Ey & Iy & Cy). rewrite Ey in E.
  destruct m as [|[k v] [|e m]].
  - right. right. exists y. auto.
  - unfold digests in *. cbn [map fst snd] in *. cbn [SpecSparse.smt] in E. destruct (bytes_eq_dec y (smt_leaf_input k (H v))) as [Q|N].
    + left. destruct Cy as [(-> & Y)|[(l & -> & Y)|(Hl' & Y)]]; rewrite Y in Q; try discriminate Q.
      injection Q as Q. exists l, k, v. auto.
    + right. left. apply (two_inputs y (smt_leaf_input k (H v))); auto; apply in_or_app; [auto|right; left; reflexivity].
  - right. left. unfold digests in *. cbn [map] in *.
    set (a := (fst (k, v), H (snd (k, v)))) in *. set (b := (fst e, H (snd e))) in *. set (r := map (fun e => (fst e, H (snd e))) m) in *.
    destruct (smt_two n d a b r) as (w & u & Q1 & x & Q2). rewrite Q1 in E. rewrite Q2. clear Q1 Q2.
    apply (two_inputs y (smt_node_input w u)); [apply in_or_app; auto|apply in_or_app; right; left; reflexivity| |exact E].
    intros ->. destruct Cy as [(-> & Y)|[(l & -> & Y)|(Hl' & Y)]]; try discriminate Y.
    apply (f_equal (@length byte)) in Y. unfold sum_node_input, smt_node_input in Y. cbn [length] in Y.
    rewrite !app_length, !fee_length, !b32_length in Y. lia.
Qed.
Lemma sum_kv : forall ls m, mst ls = kv_root H m ->
  (exists l k v, ls = [l] /\ m = [(k, v)] /\ fee_data l = entry_data H (k, v)) \/
  has_collision H (mst_inputs H fee ls ++ kv_inputs H m) \/ zero_hash H (mst_inputs H fee ls).
Proof. exact (fun ls m => sum_digests 255 0 m ls). Qed.
Lemma digests_one : forall n d l k v, fee_data l = entry_data H (k, v) -> mst [l] = smt n d (digests H [(k, v)]).
Proof.
  intros n d l k v Q. assert (E : smt n d (digests H [(k, v)]) = H (smt_leaf_input k (H v))) by (destruct n; reflexivity).
  rewrite E. change (mst [l]) with (H (x00 :: fee_data l)). rewrite Q. reflexivity.
Qed.
Lemma kv_one : forall l k v, fee_data l = entry_data H (k, v) -> mst [l] = kv_root H [(k, v)].
Proof. exact (digests_one 256 0). Qed.
End Kinds.
