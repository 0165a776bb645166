(** ShortProofs.v -- the number of calls of a sparse tree by the bits that tell the key apart. *)
From Verif Require Import Base Storage ModelCommon ModelSparse SpecBits SpecBinary SpecSparse SpecAnyRun SpecDisk SpecCalls SpecShort RunsSparse StorageProofs
  BindingProofs BitsProofs PositionProofs CommonProofs SparseSpecFacts SparseNodes SparseProofs SparseOps SparseSteps SparseMain SparseTheorems SparseAnyRun SparseDisk SparseCalls.
From Coq Require Import Arith ZifyBool ZifyNat ZifyN.
Ltac Zify.zify_post_hook ::= Z.div_mod_to_equations.
Arguments Nat.mul : simpl never.
Arguments Z.of_nat : simpl never.

Lemma prefix_bits : forall (k k' : bytes32) c, has_prefix (P k c) (bits_of k') = true ->
  forall i, (i < c)%nat -> kbit k' i = kbit k i.
Proof.
  intros k k' c Hp i Li. destruct (Nat.le_gt_cases KB i) as [G|G].
  { unfold kbit. rewrite !nth_overflow by (rewrite kbits_length; exact G). reflexivity. }
  assert (Lp : (i < length (P k c))%nat) by (unfold P; rewrite firstn_length, kbits_length; lia).
  unfold kbit. rewrite (prefix_nth _ _ _ Hp Lp). symmetry. apply prefix_nth; [apply P_prefix|exact Lp].
Qed.
Lemma bits_prefix : forall (k k' : bytes32) c, (c <= KB)%nat -> (forall i, (i < c)%nat -> kbit k' i = kbit k i) ->
  has_prefix (P k c) (bits_of k') = true.
Proof.
  intros k k'. induction c as [|c IH]; intros L A; [reflexivity|].
  rewrite P_S by lia. rewrite has_prefix_snoc by (rewrite P_length, kbits_length by lia; lia).
  rewrite IH by (try lia; intros i Li; apply A; lia). rewrite P_length by lia. cbn [andb].
  change (Bool.eqb (kbit k' c) (kbit k c) = true). rewrite A by lia. apply Bool.eqb_reflx.
Qed.

Definition near (c : nat) (k : bytes32) (m : kvmap) : Prop :=
  exists k', In k' (keys m) /\ k' <> k /\ forall i, (i < c)%nat -> kbit k' i = kbit k i.

Section Short.
Variable H : list byte -> bytes32.

Lemma lands_apart : forall k (m : kvmap) D c, NoDup (keys m) -> lands k (digests H m) D -> apart c k m -> (D <= c)%nat.
Proof.
  intros k m D c N (LD & LA & _) Ap. apply Nat.nlt_ge. intros C. specialize (LA c C).
  destruct (two_elements (sub (P k c) (digests H m)) LA) as (e & e' & Ie & Ie' & Ne); [apply sub_nodup; rewrite keys_digests; exact N|].
  assert (Q : forall x, In x (sub (P k c) (digests H m)) -> fst x = k).
  { intros x Ix. apply sub_in in Ix. destruct Ix as [Ix Px]. destruct (b32_eq_dec (fst x) k) as [|Nx]; auto. exfalso.
    destruct (Ap (fst x)) as (i & Li & Di); [rewrite <- (keys_digests H m); apply in_map; exact Ix|exact Nx|].
    apply Di. exact (prefix_bits _ _ _ Px i Li). }
  apply Ne. rewrite (Q e Ie), (Q e' Ie'). reflexivity.
Qed.
Lemma lands_near : forall k (m : kvmap) D c, NoDup (keys m) -> In k (keys m) -> lands k (digests H m) D -> near c k m -> (c < D)%nat.
Proof.
  intros k m D c N Ik (LD & _ & LE) (k' & Ik' & Nk & A). apply Nat.nle_gt. intros C.
  rewrite <- (keys_digests H m) in Ik, Ik'. apply in_map_iff in Ik. apply in_map_iff in Ik'.
  destruct Ik as (e & Ee & Ie), Ik' as (e' & Ee' & Ie').
  assert (I1 : In e (sub (P k D) (digests H m))) by (apply sub_in; split; [exact Ie|rewrite Ee; apply P_prefix]).
  assert (I2 : In e' (sub (P k D) (digests H m))).
  { apply sub_in. split; [exact Ie'|]. rewrite Ee'. apply bits_prefix; [exact LD|]. intros i Li. apply A. lia. }
  destruct (sub (P k D) (digests H m)) as [|x [|y l]]; cbn [length] in LE; [destruct I1| |lia].
  destruct I1 as [<-|[]], I2 as [<-|[]]. congruence.
Qed.

Lemma apart_mset : forall c k v m, apart c k m -> apart c k (mset k v m).
Proof.
  intros c k v m A k' I N. unfold mset, keys in I. cbn [map fst] in I. destruct I as [I|I]; [congruence|].
  apply A; [|exact N]. apply in_map_iff in I. destruct I as (e & <- & I). apply mdel_in in I. apply in_map. tauto.
Qed.
Lemma near_mset : forall c k v m, near c k m -> near c k (mset k v m).
Proof.
  intros c k v m (k' & I & N & A). exists k'. split; [|auto]. unfold mset, keys. cbn [map]. right.
  apply in_map_iff in I. destruct I as (e & <- & I). apply in_map. apply mdel_in. auto.
Qed.
Lemma apart_without : forall c k m, apart c k m -> apart c k (without_landing k m).
Proof.
  intros c k m A k' I N. apply A; [|exact N]. unfold without_landing in I. destruct (landing 256 0 k m); [|exact I].
  apply in_map_iff in I. destruct I as (e & <- & I). apply mdel_in in I. apply in_map. tauto.
Qed.

(** * Counting *)
Definition nget (c : scall) : bool := match c with Get _ => true | _ => false end.
Definition nput (c : scall) : bool := match c with Put _ _ => true | _ => false end.
Definition ndel (c : scall) : bool := match c with Del _ => true | _ => false end.
Definition num (f : scall -> bool) (l : list scall) : nat := length (filter f l).
Lemma num_app : forall f a b, num f (a ++ b) = (num f a + num f b)%nat.
Proof. intros. unfold num. rewrite filter_app, app_length. reflexivity. Qed.
Lemma num_all : forall f l, (forall x, In x l -> f x = true) -> num f l = length l.
Proof.
  intros f. unfold num. induction l as [|x l IH]; intros A; [reflexivity|]. cbn [filter]. rewrite (A x (or_introl eq_refl)).
  cbn [length]. rewrite IH; [reflexivity|]. intros y Iy. apply A. right. exact Iy.
Qed.
Lemma num_none : forall f l, (forall x, In x l -> f x = false) -> num f l = 0%nat.
Proof.
  intros f. unfold num. induction l as [|x l IH]; intros A; [reflexivity|]. cbn [filter]. rewrite (A x (or_introl eq_refl)).
  apply IH. intros y Iy. apply A. right. exact Iy.
Qed.
Lemma num_le : forall f l, (num f l <= length l)%nat.
Proof. intros f l. unfold num. induction l as [|x l IH]; [apply le_n|]. cbn [filter length]. destruct (f x); cbn [length]; lia. Qed.

Lemma walk_num : forall k (m : kvmap) D, NoDup (keys m) -> lands k (digests H m) D ->
  (num nget (walk_in H k m) <= 2 * D)%nat /\ num nput (walk_in H k m) = 0%nat /\ num ndel (walk_in H k m) = 0%nat.
Proof.
  intros k m D N La. rewrite (walk_lvl H k m D N La).
  assert (G : forall x, In x (flat_map (lvl H k (digests H m)) (seq 0 D)) -> is_get x).
  { intros x Ix. apply in_flat_map in Ix. destruct Ix as (i & _ & Ix). unfold lvl in Ix. apply in_app_iff in Ix.
    destruct Ix as [Ix|Ix]; [pose proof (proj1 (rd_gets H (P k (S i)) (digests H m))) as F|pose proof (proj1 (rd_gets H (sd k i) (digests H m))) as F];
      rewrite Forall_forall in F; apply F; exact Ix. }
  split; [|split; apply num_none; intros x Ix; apply G in Ix; destruct x; first [reflexivity|destruct Ix]].
  etransitivity; [apply num_le|]. clear G.
  assert (Q : forall l, (length (flat_map (lvl H k (digests H m)) l) <= 2 * length l)%nat).
  { induction l as [|i l IH]; [cbn; lia|]. cbn [flat_map length]. unfold lvl at 1. rewrite !app_length.
    pose proof (proj2 (rd_gets H (P k (S i)) (digests H m))). pose proof (proj2 (rd_gets H (sd k i) (digests H m))). lia. }
  specialize (Q (seq 0 D)). rewrite seq_length in Q. exact Q.
Qed.
Lemma put_num : forall k (m : kvmap) D, NoDup (keys m) -> lands k (digests H m) D ->
  num nget (put_nodes H k m) = 0%nat /\ num nput (put_nodes H k m) = D /\ num ndel (put_nodes H k m) = 0%nat.
Proof.
  intros k m D N La. rewrite (put_nodes_pt H k m D N La).
  split; [|split]; [apply num_none|rewrite num_all|apply num_none].
  - intros x Ix. apply in_map_iff in Ix. destruct Ix as (i & <- & _). reflexivity.
  - rewrite map_length. rewrite <- down_rev, rev_length, seq_length. reflexivity.
  - intros x Ix. apply in_map_iff in Ix. destruct Ix as (i & <- & _). reflexivity.
  - intros x Ix. apply in_map_iff in Ix. destruct Ix as (i & <- & _). reflexivity.
Qed.
Lemma del_num : forall k (m : kvmap) D, NoDup (keys m) -> lands k (digests H m) D ->
  let l := map (fun x : bytes32 * option entry => @Del bytes32 entry (fst x)) (rev (path_in H k m)) in
  num nget l = 0%nat /\ num nput l = 0%nat /\ num ndel l = S D.
Proof.
  intros k m D N La l. unfold l. rewrite (del_path H k m D N La).
  split; [|split]; [apply num_none|apply num_none|rewrite num_all].
  - intros x Ix. apply in_map_iff in Ix. destruct Ix as (i & <- & _). reflexivity.
  - intros x Ix. apply in_map_iff in Ix. destruct Ix as (i & <- & _). reflexivity.
  - rewrite map_length. rewrite <- down_rev, rev_length, seq_length. reflexivity.
  - intros x Ix. apply in_map_iff in Ix. destruct Ix as (i & <- & _). reflexivity.
Qed.

Definition few (o : sp_op) (c : nat) (l : list scall) : Prop :=
  match o with
  | Update _ (_ :: _) => (num nget l <= 2 * c /\ num nput l <= 2 + c /\ num ndel l = 0)%nat
  | Update _ [] | Delete _ => (num nget l <= 1 + 2 * c /\ num nput l <= c /\ num ndel l <= 1 + c)%nat
  end.
Lemma script_few : forall o x c, NoDup (keys (fst x)) -> apart c (op_key o) (fst x) -> few o c (script_op H x o).
Proof.
  intros o [m d] c N Ap. cbn [fst] in *.
  assert (De : forall k, apart c k m -> let l := script_op H (m, d) (Delete k) in
    (num nget l <= 1 + 2 * c /\ num nput l <= c /\ num ndel l <= 1 + c)%nat).
  { clear Ap. intros k Ap l. unfold l. cbn [script_op]. destruct m as [|e0 m0]; [cbn; lia|].
    destruct (d k); [|cbn; lia]. set (m := e0 :: m0) in *.
    destruct (lands_exists k (digests H m)) as [D La]; [rewrite keys_digests; exact N|].
    assert (N' : NoDup (keys (without_landing k m))) by (apply without_nodup; exact N).
    destruct (lands_exists k (digests H (without_landing k m))) as [D' La']; [rewrite keys_digests; exact N'|].
    pose proof (lands_apart k m D c N La Ap). pose proof (lands_apart k _ D' c N' La' (apart_without c k m Ap)).
    destruct (walk_num k m D N La) as (A1 & A2 & A3). destruct (put_num k _ D' N' La') as (B1 & B2 & B3).
    destruct (del_num k m D N La) as (C1 & C2 & C3). cbv zeta in C1, C2, C3.
    rewrite !num_app, A2, A3, B1, B2, B3, C1, C2, C3. unfold num at 1 3 4. cbn [filter nget nput ndel length]. lia. }
  destruct o as [k [|b v]|k]; cbn [few op_key] in *; [exact (De k Ap)| |exact (De k Ap)].
  cbn [script_op]. destruct (lands_exists k (digests H m)) as [D La]; [rewrite keys_digests; exact N|].
  assert (N' : NoDup (keys (mset k (b :: v) m))) by (apply mset_nodup; exact N).
  destruct (lands_exists k (digests H (mset k (b :: v) m))) as [D' La']; [rewrite keys_digests; exact N'|].
  pose proof (lands_apart k m D c N La Ap). pose proof (lands_apart k _ D' c N' La' (apart_mset c k (b :: v) m Ap)).
  destruct (walk_num k m D N La) as (A1 & A2 & A3). destruct (put_num k _ D' N' La') as (B1 & B2 & B3).
  rewrite !num_app, A2, A3, B1, B2, B3. unfold num at 1 3 4. cbn [filter nget nput ndel length]. lia.
Qed.
Lemma script_writes : forall k b v x c, NoDup (keys (fst x)) -> just c k (fst x) ->
  num nput (script_op H x (Update k (b :: v))) = (2 + c)%nat.
Proof.
  intros k b v [m d] c N [Ap Ne]. cbn [fst script_op] in *.
  assert (N' : NoDup (keys (mset k (b :: v) m))) by (apply mset_nodup; exact N).
  destruct (lands_exists k (digests H m)) as [D La]; [rewrite keys_digests; exact N|].
  destruct (lands_exists k (digests H (mset k (b :: v) m))) as [D' La']; [rewrite keys_digests; exact N'|].
  pose proof (lands_apart k _ D' c N' La' (apart_mset c k (b :: v) m Ap)) as L1.
  assert (L2 : D' = c).
  { destruct c as [|c]; [lia|].
    pose proof (lands_near k _ D' c N' (or_introl eq_refl) La' (near_mset c k (b :: v) m Ne)). lia. }
  destruct (walk_num k m D N La) as (_ & A2 & _). destruct (put_num k _ D' N' La') as (_ & B2 & _).
  rewrite !num_app, A2, B2, L2. unfold num. cbn [filter nput length]. lia.
Qed.
Lemma script_removals : forall k x c, NoDup (keys (fst x)) -> In k (keys (fst x)) -> snd x k <> None -> just c k (fst x) ->
  num ndel (script_op H x (Delete k)) = (1 + c)%nat.
Proof.
  intros k [m d] c N Ik Dk [Ap Ne]. cbn [fst snd script_op] in *. destruct m as [|e0 m0]; [destruct Ik|].
  destruct (d k); [clear Dk|contradiction]. set (m := e0 :: m0) in *.
  destruct (lands_exists k (digests H m)) as [D La]; [rewrite keys_digests; exact N|].
  assert (N' : NoDup (keys (without_landing k m))) by (apply without_nodup; exact N).
  destruct (lands_exists k (digests H (without_landing k m))) as [D' La']; [rewrite keys_digests; exact N'|].
  pose proof (lands_apart k m D c N La Ap) as L1.
  assert (L2 : D = c).
  { destruct c as [|c]; [lia|]. pose proof (lands_near k m D c N Ik La Ne). lia. }
  destruct (walk_num k m D N La) as (_ & _ & A3). destruct (put_num k _ D' N' La') as (_ & _ & B3).
  destruct (del_num k m D N La) as (_ & _ & C3). cbv zeta in C3.
  rewrite !num_app, A3, B3, C3, L2. unfold num. cbn [filter ndel length]. lia.
Qed.

(** * What is stored under the keys of the map *)
Lemma put_path_keeps : forall p d k, d k <> None -> put_path p d k <> None.
Proof.
  induction p as [|[h [e|]] p IH]; intros d k A; [exact A| |]; cbn [put_path fold_left fst snd].
  - apply IH. unfold put. destruct (b32_eqb k h); [discriminate|exact A].
  - apply IH. exact A.
Qed.
Lemma drop_path_keeps : forall p d k, (forall x, In x p -> fst x <> k) -> d k <> None -> drop_path p d k <> None.
Proof.
  induction p as [|x p IH]; intros d k F A; [exact A|]. cbn [drop_path fold_left]. apply IH; [intros y Iy; apply F; right; exact Iy|].
  unfold drop. destruct (b32_eqb k (fst x)) eqn:Q; [|exact A]. apply b32_eqb_eq in Q. destruct (F x (or_introl eq_refl)). auto.
Qed.

Section Kept.
Variable U : list (list byte).
Definition kept (x : kvmap * disk) : Prop := forall k, k <> zero32 -> fresh H U k -> In k (keys (fst x)) -> snd x k <> None.
Lemma replay_kept : forall x o, good H U (digests H (fst x)) -> kept x -> kept (replay_op H x o).
Proof.
  intros [m d] o G A. cbn [fst] in G. assert (N : NoDup (keys m)) by (rewrite <- (keys_digests H m); apply G).
  assert (De : forall k, kept (replay_op H (m, d) (Delete k))).
  { intros k. cbn [replay_op]. destruct m as [|e0 m0]; [exact A|]. destruct (d k); [|exact A]. set (m := e0 :: m0) in *.
    intros k' Z F I. cbn [fst snd] in *. apply put_path_keeps, drop_path_keeps.
    - destruct (lands_exists k (digests H m)) as [D La]; [apply G|]. rewrite (path_met H k m D N La).
      intros x Ix. apply in_map_iff in Ix. destruct Ix as (j & <- & _). unfold met. cbn [fst].
      destruct (T_cases H (P k j) (digests H m) ltac:(apply G)) as [S1 E1 I1|k1 h1 S1 E1 I1|S1 L1 E1 I1].
      + rewrite E1. auto.
      + destruct (T_digest H U (digests H m) (P k j) G) as (y & Iy & ->); [rewrite S1; discriminate|]. apply F. exact Iy.
      + destruct (T_digest H U (digests H m) (P k j) G) as (y & Iy & ->); [intros C; rewrite C in S1; cbn in S1; lia|]. apply F. exact Iy.
    - apply A; auto. cbn [fst]. unfold without_landing in I. destruct (landing 256 0 k m); [|exact I].
      apply in_map_iff in I. destruct I as (e1 & <- & I). apply mdel_in in I. apply in_map. tauto. }
  destruct o as [k [|b v]|k]; [exact (De k)| |exact (De k)].
  intros k' Z F I. cbn [replay_op fst snd] in *. apply put_path_keeps. unfold put.
  destruct (b32_eqb k' k) eqn:Q; [discriminate|]. apply A; auto. cbn [fst].
  unfold mset, keys in I. cbn [map fst] in I. destruct I as [->|I]; [rewrite b32_eqb_refl in Q; discriminate|].
  apply in_map_iff in I. destruct I as (e & <- & I). apply mdel_in in I. apply in_map. tauto.
Qed.
Lemma replays_kept : forall os x, NoDup (keys (fst x)) -> (forall m, In m (trail H x os) -> NoDup (keys m) -> good H U (digests H m)) -> kept x ->
  kept (fold_left (replay_op H) os x).
Proof.
  induction os as [|o os IH]; intros x N G A; [exact A|]. cbn [fold_left trail] in *. apply IH.
  - apply replay_nodup. exact N.
  - intros m Im. apply G. right. exact Im.
  - apply replay_kept; [apply G; [left; reflexivity|exact N]|exact A].
Qed.
End Kept.

(** * Logs *)
Lemma tally : forall E (l : list (event bytes32 entry E)), n_reads l = num nget (map fst l) /\ n_writes l = num nput (map fst l) /\ n_removals l = num ndel (map fst l).
Proof.
  intros E l. unfold n_reads, n_writes, n_removals, num.
  induction l as [|[[k|k v|k] o] l IH]; [auto|..]; cbn [filter map fst nget nput ndel length]; destruct IH as (A & B & C); rewrite ?A, ?B, ?C; auto.
Qed.
Lemma few_prefix : forall o c a b, few o c (a ++ b) -> few o c a.
Proof. intros [k [|x v]|k] c a b; cbn [few]; rewrite !num_app; lia. Qed.
Lemma few_short : forall E o c (l : list (event bytes32 entry E)), few o c (map fst l) -> short o c l.
Proof. intros E [k [|x v]|k] c l; cbn [few short]; destruct (tally E l) as (-> & -> & ->); auto. Qed.
Lemma map_done : forall K V E (l : list (call K V)), map fst (map (@done K V E) l) = l.
Proof. intros. rewrite map_map. cbn. apply map_id. Qed.
Lemma cut_prefix : forall K V E (sc : list (call K V)) (l : list (event K V E)) b f e a, cut_short sc l b f e a -> exists rest, sc = map fst l ++ rest.
Proof.
  intros K V E sc l b f e a (rest & outs & -> & -> & <-). exists rest. unfold event in *. rewrite map_app, map_map. cbn [map fst done]. rewrite map_id.
  rewrite <- app_assoc. reflexivity.
Qed.

Lemma trail_snoc : forall o os x, trail H x (os ++ [o]) = trail H x os ++ [fst (replay_op H (fold_left (replay_op H) os x) o)].
Proof. intros o. induction os as [|o' os IH]; intros x; [reflexivity|]. cbn [app trail fold_left]. rewrite IH. reflexivity. Qed.
Lemma replays_nodup : forall os x, NoDup (keys (fst x)) -> NoDup (keys (fst (fold_left (replay_op H) os x))).
Proof. induction os as [|o os IH]; intros x N; [exact N|]. apply IH, replay_nodup, N. Qed.

Theorem C114_lemma : forall pr St E (st : StorageT St bytes32 SPrimitive E) view, Lawful st view ->
  forall os o s0, (forall k, view s0 k = None) -> hash_ok H (map op_key (os ++ [o])) (trail H nothing (os ++ [o])) ->
  forall t, sp_run H pr (Logged st) os (sp_new ([], s0)) = (t, Val (Ok tt)) ->
  exists t' r l, sp_apply H pr (Logged st) o t = (t', Val r) /\ fst (sp_storage t') = fst (sp_storage t) ++ l /\
    forall c, apart c (op_key o) (fst (replay H os)) ->
      short o c l /\
      (r = Ok tt -> just c (op_key o) (fst (replay H os)) ->
       (is_update o -> n_writes l = (2 + c)%nat) /\
       (~ is_update o -> op_key o <> zero32 -> In (op_key o) (keys (fst (replay H os))) -> n_removals l = (1 + c)%nat)).
Proof.
  intros pr St E st view Law os o s0 Em Ok0 t Rt. destruct (setup H _ _ Ok0) as (HC & HZ & Fr & Gd). set (U := universe H _) in *.
  pose proof (Logged_lawful _ _ _ _ st view Law) as LLaw.
  set (lview := fun ls : list (event bytes32 SPrimitive E) * St => view (snd ls)) in *.
  destruct (winv_new H lview U ([], s0) Em) as (W & S0 & _).
  rewrite map_app in Fr. rewrite trail_snoc in Gd.
  destruct (disk_run H pr (Logged st) lview LLaw U anyk HC HZ os nothing (sp_new ([], s0))) as (t1 & r1 & A & R).
  { constructor; cbn [fst snd nothing]; auto; apply W. }
  { intros o' _. exact Logic.I. }
  { intros o' Io. apply Fr. apply in_or_app. left. apply in_map. exact Io. }
  { intros m Im. apply Gd. apply in_or_app. left. exact Im. }
  rewrite Rt in A. injection A as <- <-. destruct R as [[_ W1]|(e & Q & _)]; [|discriminate]. clear Rt.
  fold (replay H os) in W1. destruct t as [rn [L s]].
  assert (N : NoDup (keys (fst (replay H os)))) by apply W1.
  destruct (op_calls H U HC HZ pr st view Law anyk o (replay H os) rn L s W1 Logic.I) as (rn' & s' & r & l & A & R).
  { apply Fr. apply in_or_app. right. left. reflexivity. }
  { apply Gd; [apply in_or_app; right; left; reflexivity|]. apply replay_nodup. exact N. }
  exists (Build_SpTree rn' (L ++ l, s')), r, l. split; [exact A|]. split; [reflexivity|]. intros c Ap.
  pose proof (script_few o (replay H os) c N Ap) as Fe. split.
  - apply few_short. destruct R as [[_ ->]|(b & f & e & a & Q & _)].
    + exact (eq_ind_r (few o c) Fe (map_done bytes32 entry E _)).
    + destruct (cut_prefix _ _ _ _ _ _ _ _ _ Q) as [rest Es]. rewrite Es in Fe. exact (few_prefix o c _ rest Fe).
  - intros -> Ju. destruct R as [[_ ->]|(b & f & e & a & _ & Q)].
    2:{ exfalso. destruct f, b; destruct Q as [Q _]; discriminate Q. }
    split.
    + intros Up. destruct o as [k [|b v]|k]; try destruct Up. etransitivity; [apply (tally E)|].
      etransitivity; [exact (f_equal (num nput) (map_done bytes32 entry E _))|]. apply script_writes; auto.
    + intros Up Z I. etransitivity; [apply (tally E)|]. etransitivity; [exact (f_equal (num ndel) (map_done bytes32 entry E _))|].
      assert (Kd : snd (replay H os) (op_key o) <> None).
      { apply (replays_kept U os nothing); auto.
        - constructor.
        - intros m Im. apply Gd. apply in_or_app. left. exact Im.
        - intros k _ _ [].
        - apply Fr. apply in_or_app. right. left. reflexivity. }
      destruct o as [k [|b v]|k]; cbn [op_key] in *.
      * apply (script_removals k); auto.
      * destruct Up. exact Logic.I.
      * apply script_removals; auto.
Qed.

Lemma clean_prefix : forall os os' m w, clean m w (os ++ os') -> clean m w os.
Proof. induction os as [|o os IH]; intros os' m w C; [exact Logic.I|]. cbn [app clean] in *. destruct C as [A C]. split; [exact A|exact (IH _ _ _ C)]. Qed.
Lemma maps_prefix : forall os os' m x, In x (maps m os) -> In x (maps m (os ++ os')).
Proof.
  induction os as [|o os IH]; intros os' m x I; cbn [app maps] in *.
  - destruct I as [<-|[]]. destruct os'; left; reflexivity.
  - destruct I as [<-|I]; [left; reflexivity|right; apply IH; exact I].
Qed.
Theorem C114_clean_lemma : forall pr St E (st : StorageT St bytes32 SPrimitive E) view, Lawful st view ->
  forall os o s0, (forall k, view s0 k = None) -> clean [] [] (os ++ [o]) -> hash_ok H (map op_key (os ++ [o])) (maps [] (os ++ [o])) ->
  forall t, sp_run H pr (Logged st) os (sp_new ([], s0)) = (t, Val (Ok tt)) ->
  exists t' r l, sp_apply H pr (Logged st) o t = (t', Val r) /\ fst (sp_storage t') = fst (sp_storage t) ++ l /\
    forall c, apart c (op_key o) (final os) ->
      short o c l /\
      (r = Ok tt -> just c (op_key o) (final os) ->
       (is_update o -> n_writes l = (2 + c)%nat) /\
       (~ is_update o -> op_key o <> zero32 -> In (op_key o) (keys (final os)) -> n_removals l = (1 + c)%nat)).
Proof.
  intros pr St E st view Law os o s0 Em Cl Ok0 t Rt.
  destruct (C89_clean_lemma H (os ++ [o]) Cl Ok0) as [_ Et].
  destruct (C89_clean_lemma H os (clean_prefix _ _ _ _ Cl)) as [Ef _].
  { apply (hash_ok_incl H (map op_key (os ++ [o])) (maps [] (os ++ [o])) (map op_key os) (maps [] os)); [|intros x; apply maps_prefix|exact Ok0].
    intros k Ik. rewrite map_app. apply in_or_app. left. exact Ik. }
  rewrite <- Ef. apply (C114_lemma pr St E st view Law os o s0 Em); [rewrite Et; exact Ok0|exact Rt].
Qed.
End Short.
