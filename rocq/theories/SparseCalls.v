(** SparseCalls.v -- the exact calls a sparse tree makes to its storage. *)
From Verif Require Import Base Storage ModelCommon ModelSparse SpecBits SpecBinary SpecSparse SpecAnyRun SpecDisk SpecCalls RunsSparse StorageProofs
  BindingProofs BitsProofs PositionProofs CommonProofs SparseSpecFacts SparseNodes SparseProofs SparseOps SparseSteps SparseMain SparseTheorems SparseAnyRun SparseDisk.
From Coq Require Import Arith ZifyBool ZifyNat ZifyN.
Ltac Zify.zify_post_hook ::= Z.div_mod_to_equations.
Arguments Nat.mul : simpl never.
Arguments Z.of_nat : simpl never.

Lemma Logged_lawful : forall S K V E (st : StorageT S K V E) view, Lawful st view ->
  Lawful (Logged st) (fun ls => view (snd ls)).
Proof.
  intros S K V E st view L. constructor; cbn [s_get s_insert s_remove Logged].
  - intros k [c s] s' r G. destruct (s_get st k s) as [s2 r2] eqn:Q. injection G as <- <-. cbn [snd].
    exact (law_get_view _ _ L _ _ _ _ Q).
  - intros k [c s] s' v G. destruct (s_get st k s) as [s2 r2] eqn:Q. injection G as <- ->. cbn [snd].
    exact (law_get_ok _ _ L _ _ _ _ Q).
  - intros k v [c s] s' p G. destruct (s_insert st k v s) as [s2 r2] eqn:Q. injection G as <- ->. cbn [snd].
    exact (law_insert_ok _ _ L _ _ _ _ _ Q).
  - intros k v [c s] s' p G. destruct (s_insert st k v s) as [s2 r2] eqn:Q. injection G as <- ->. cbn [snd].
    exact (law_insert_err _ _ L _ _ _ _ _ Q).
  - intros k [c s] s' p G. destruct (s_remove st k s) as [s2 r2] eqn:Q. injection G as <- ->. cbn [snd].
    exact (law_remove_ok _ _ L _ _ _ _ Q).
  - intros k [c s] s' p G. destruct (s_remove st k s) as [s2 r2] eqn:Q. injection G as <- ->. cbn [snd].
    exact (law_remove_err _ _ L _ _ _ _ Q).
Qed.

Lemma cut_app : forall {K V E} (sc sc' : list (call K V)) (l : list (event K V E)) b c e a,
  cut_short sc l b c e a -> cut_short (sc ++ sc') l b c e a.
Proof.
  intros K V E sc sc' l b c e a (rest & outs & -> & -> & Q). exists (rest ++ sc'), outs. split; [|auto].
  rewrite <- app_assoc. cbn [app]. rewrite <- app_assoc. reflexivity.
Qed.
Lemma cut_after : forall {K V E} (sc sc' : list (call K V)) (l : list (event K V E)) b c e a,
  cut_short sc' l b c e a -> cut_short (sc ++ sc') (map done sc ++ l) (sc ++ b) c e a.
Proof.
  intros K V E sc sc' l b c e a (rest & outs & -> & -> & Q). exists rest, outs. split; [|split; [|exact Q]].
  - rewrite <- app_assoc. reflexivity.
  - rewrite map_app, <- app_assoc. reflexivity.
Qed.

Section Calls.
Variable H : list byte -> bytes32.
Notation T := (T H).
Notation nd := (nd H).
Notation prim := sprim_of_node.
Notation entries := (list (bytes32 * bytes32)).

Definition rd (p : list bool) (m : entries) : list scall := match sub p m with [] => [] | _ => [Get (T p m)] end.
Definition lvl (k : bytes32) (m : entries) (i : nat) : list scall := rd (P k (S i)) m ++ rd (sd k i) m.
Definition pt (k : bytes32) (m : entries) (i : nat) : scall := Put (T (P k i) m) (prim (nd (P k i) m)).

Lemma walk_from : forall k l D, NoDup (keys l) -> lands k l D -> forall c i, (i + c = D)%nat ->
  walk H (KB - i) i k (sub (P k i) l) = flat_map (lvl k l) (seq i c).
Proof.
  intros k l D N (LD & LA & LE). induction c as [|c IH]; intros i Ei.
  - assert (i = D) by lia. subst i. cbn [seq flat_map].
    destruct (sub (P k D) l) as [|x [|]] eqn:Es; cbn [length] in LE; [| |lia]; destruct (KB - D)%nat; reflexivity.
  - specialize (LA i ltac:(lia)). cbn [seq flat_map].
    rewrite <- (IH (S i) ltac:(lia)). unfold lvl, rd. rewrite P_S by lia. unfold sd.
    pose proof (sub_snoc (P k i) (kbit k i) l ltac:(rewrite P_length; lia)) as Sk.
    pose proof (sub_snoc (P k i) (negb (kbit k i)) l ltac:(rewrite P_length; lia)) as Sn.
    rewrite P_length in Sk, Sn by lia.
    unfold SparseSpecFacts.T. rewrite !app_length, P_length by lia. cbn [length].
    replace (i + 1)%nat with (S i) by lia.
    replace (KB - i)%nat with (S (KB - S i))%nat by lia.
    destruct (sub (P k i) l) as [|e1 [|e2 l2]] eqn:Es; cbn [length] in LA; try lia.
    cbn [walk]. rewrite <- Sk, <- Sn. unfold read_of. rewrite <- app_assoc. reflexivity.
Qed.
Lemma walk_lvl : forall k (m : kvmap) D, NoDup (keys m) -> lands k (digests H m) D -> walk_in H k m = flat_map (lvl k (digests H m)) (seq 0 D).
Proof.
  intros k m D N La. unfold walk_in. rewrite <- (walk_from k (digests H m) D ltac:(rewrite keys_digests; exact N) La D 0 ltac:(lia)).
  rewrite sub_root, Nat.sub_0_r. reflexivity.
Qed.
Lemma put_nodes_pt : forall k (m : kvmap) D, NoDup (keys m) -> lands k (digests H m) D -> put_nodes H k m = map (pt k (digests H m)) (down D).
Proof.
  intros k m D N La. unfold put_nodes. rewrite (path_met H k m D N La).
  rewrite seq_S, map_app. cbn [map]. rewrite removelast_last, <- map_rev, down_rev.
  destruct La as (_ & LA & _). revert LA. generalize (digests H m) as l. intros l LA.
  assert (Q : forall x, In x (down D) -> (x < D)%nat) by (intros x; apply down_in). revert Q. generalize (down D) as r.
  induction r as [|i r IH]; intros Q; [reflexivity|]. cbn [map flat_map]. rewrite IH by (intros x Ix; apply Q; right; exact Ix).
  unfold met at 1 2. cbn [fst snd]. specialize (LA i (Q i (or_introl eq_refl))).
  destruct (sub (P k i) l) eqn:Es; [cbn [length] in LA; lia|]. reflexivity.
Qed.
Lemma del_path : forall k (m : kvmap) D, NoDup (keys m) -> lands k (digests H m) D ->
  map (fun x => Del (fst x)) (rev (path_in H k m)) = map (fun i => @Del bytes32 entry (T (P k i) (digests H m))) (down (S D)).
Proof.
  intros k m D N La. rewrite (path_met H k m D N La), <- map_rev, down_rev, map_map. reflexivity.
Qed.

Section WithU.
Variable U : list (list byte).
Hypothesis HC : ~ has_collision H U.
Hypothesis HZ : forall x, In x U -> H x <> zero32.
Notation good := (good H U).
Variable pr : profile.
Context {St E : Type}.
Variable st : StorageT St bytes32 SPrimitive E.
Variable view : St -> bytes32 -> option SPrimitive.
Hypothesis Law : Lawful st view.
Notation lst := (Logged st).
Notation log := (list (event bytes32 SPrimitive E)).

(** * Writes *)
Definition wstop (sc : list scall) (l : log) (x : SError E) : Prop :=
  exists b c e, cut_short sc l b c e [] /\ ~ is_get c /\ x = SStorageError e.
Definition plays {A} (c : M (log * St) (result (SError E) A)) (sc : list scall) (a : A) : Prop :=
  forall L s, exists s' r l, c (L, s) = ((L ++ l, s'), Val r) /\
    ((r = Ok a /\ l = map done sc) \/ (exists x, r = Err x /\ wstop sc l x)).
Definition tplays {A} (c : M (SpTree (log * St)) (result (SError E) A)) (sc : list scall) (a : A) : Prop :=
  forall rn L s, exists rn' s' r l, c (Build_SpTree rn (L, s)) = (Build_SpTree rn' (L ++ l, s'), Val r) /\
    ((r = Ok a /\ l = map done sc) \/ (exists x, r = Err x /\ wstop sc l x)).

Lemma wstop_app : forall sc sc' l x, wstop sc l x -> wstop (sc ++ sc') l x.
Proof. intros sc sc' l x (b & c & e & Q & N & ->). exists b, c, e. split; [apply cut_app; exact Q|auto]. Qed.
Lemma wstop_after : forall sc sc' l x, wstop sc' l x -> wstop (sc ++ sc') (map done sc ++ l) x.
Proof. intros sc sc' l x (b & c & e & Q & N & ->). exists (sc ++ b), c, e. split; [apply cut_after; exact Q|auto]. Qed.

Lemma plays_ret : forall A (a : A), plays (ret (Ok a)) [] a.
Proof. intros A a L s. exists s, (Ok a), []. rewrite app_nil_r. auto. Qed.
Lemma plays_try : forall A B (c : M _ (result (SError E) A)) (f : A -> M _ (result (SError E) B)) sc sc' a b,
  plays c sc a -> plays (f a) sc' b -> plays (bind_try c f) (sc ++ sc') b.
Proof.
  intros A B c f sc sc' a b Pc Pf L s. unfold bind_try, bind. destruct (Pc L s) as (s1 & r1 & l1 & -> & [[-> ->]|(x & -> & W)]).
  - destruct (Pf (L ++ map done sc) s1) as (s2 & r2 & l2 & -> & R). exists s2, r2, (map done sc ++ l2). rewrite app_assoc.
    split; [reflexivity|]. destruct R as [[-> ->]|(x & -> & W)].
    + left. rewrite map_app. auto.
    + right. exists x. split; [reflexivity|]. apply wstop_after. exact W.
  - exists s1, (Err x), l1. split; [reflexivity|]. right. exists x. split; [reflexivity|]. apply wstop_app. exact W.
Qed.
Lemma tplays_try : forall A B (c : M _ (result (SError E) A)) (f : A -> M _ (result (SError E) B)) sc sc' a b,
  tplays c sc a -> tplays (f a) sc' b -> tplays (bind_try c f) (sc ++ sc') b.
Proof.
  intros A B c f sc sc' a b Pc Pf rn L s. unfold bind_try, bind. destruct (Pc rn L s) as (rn1 & s1 & r1 & l1 & -> & [[-> ->]|(x & -> & W)]).
  - destruct (Pf rn1 (L ++ map done sc) s1) as (rn2 & s2 & r2 & l2 & -> & R). exists rn2, s2, r2, (map done sc ++ l2). rewrite app_assoc.
    split; [reflexivity|]. destruct R as [[-> ->]|(x & -> & W)].
    + left. rewrite map_app. auto.
    + right. exists x. split; [reflexivity|]. apply wstop_after. exact W.
  - exists rn1, s1, (Err x), l1. split; [reflexivity|]. right. exists x. split; [reflexivity|]. apply wstop_app. exact W.
Qed.
Lemma tplays_ret : forall A (a : A), tplays (ret (Ok a)) [] a.
Proof. intros A a rn L s. exists rn, s, (Ok a), []. rewrite app_nil_r. auto. Qed.
Lemma tplays_on : forall A (c : M _ (result (SError E) A)) sc a, plays c sc a -> tplays (on_storage c) sc a.
Proof.
  intros A c sc a Pc rn L s. unfold on_storage. cbn [sp_storage sp_root_node]. destruct (Pc L s) as (s1 & r1 & l1 & -> & R).
  exists rn, s1, r1, l1. auto.
Qed.
Lemma plays_insert : forall k v, plays (sst_insert lst k v) [Put k v] tt.
Proof.
  intros k v L s. unfold sst_insert. cbn [Logged s_insert]. destruct (s_insert st k v s) as [s' [o|e]].
  - exists s', (Ok tt), [(Put k v, None)]. split; [reflexivity|]. left. auto.
  - exists s', (Err (SStorageError e)), [(Put k v, Some e)]. split; [reflexivity|]. right. exists (SStorageError e). split; [reflexivity|].
    exists [], (Put k v), e. split; [exists [], []; auto|]. split; [exact (fun X => X)|reflexivity].
Qed.
Lemma plays_remove : forall k, plays (sst_remove lst k) [Del k] tt.
Proof.
  intros k L s. unfold sst_remove. cbn [Logged s_remove]. destruct (s_remove st k s) as [s' [o|e]].
  - exists s', (Ok tt), [(Del k, None)]. split; [reflexivity|]. left. auto.
  - exists s', (Err (SStorageError e)), [(Del k, Some e)]. split; [reflexivity|]. right. exists (SStorageError e). split; [reflexivity|].
    exists [], (Del k), e. split; [exists [], []; auto|]. split; [exact (fun X => X)|reflexivity].
Qed.
Lemma plays_join : forall (k : bytes32) i m, good m -> (i < KB)%nat -> (2 <= length (sub (P k i) m))%nat ->
  plays (join_and_store H pr lst k (nd (P k (S i)) m) (nd (sd k i) m)) [pt k m i] (nd (P k i) m).
Proof.
  intros k i m G Li Lm. unfold join_and_store, bind, lift. rewrite P_S by exact Li. unfold sd.
  rewrite (join_nd H U HZ pr (P k i) m k (kbit k i) G Lm) by (rewrite P_length by lia; reflexivity).
  rewrite (nd_hash H U HZ) by exact G.
  apply (plays_try _ _ _ (fun _ => ret (Ok (nd (P k i) m))) [pt k m i] [] tt); [apply plays_insert|apply plays_ret].
Qed.
Lemma plays_merge_part : forall (k : bytes32) m, good m -> forall l j, (j <= KB)%nat -> down j = l ++ down (j - length l) -> (length l <= j)%nat ->
  (forall i, In i l -> (2 <= length (sub (P k i) m))%nat) ->
  plays (merge_side_nodes H pr lst k (nd (P k j) m) (map (fun i => nd (sd k i) m) l)) (map (pt k m) l) (nd (P k (j - length l)) m).
Proof.
  intros k m G. induction l as [|i l IH]; intros j Lj Ej Ll Tw; cbn [map merge_side_nodes length].
  - rewrite Nat.sub_0_r. apply plays_ret.
  - destruct j as [|j]; [cbn [length] in Ll; lia|]. cbn [length] in Ej, Ll. cbn [down app] in Ej. rewrite Nat.sub_succ in *. injection Ej as -> Ej.
    apply (plays_try _ _ _ _ [pt k m i] (map (pt k m) l) (nd (P k i) m)).
    + apply plays_join; [exact G|lia|apply Tw; left; reflexivity].
    + apply IH; [lia|exact Ej|lia|]. intros i' Ii. apply Tw. right. exact Ii.
Qed.
Lemma plays_merge : forall (k : bytes32) j m, good m -> (j <= KB)%nat -> (forall i, (i < j)%nat -> (2 <= length (sub (P k i) m))%nat) ->
  plays (merge_side_nodes H pr lst k (nd (P k j) m) (map (fun i => nd (sd k i) m) (down j))) (map (pt k m) (down j)) (nd [] m).
Proof.
  intros k j m G Lj Tw. pose proof (plays_merge_part k m G (down j) j Lj) as Q. rewrite down_length, Nat.sub_diag in Q.
  change (P k 0) with (@nil bool) in Q. apply Q; [cbn [down]; rewrite app_nil_r; reflexivity|lia|]. intros i Ii. apply Tw. apply down_in. exact Ii.
Qed.
Lemma tplays_end : forall (c : M _ (result (SError E) SNode)) m sc, good m -> tplays c sc (nd [] m) ->
  tplays (bind_try c (fun n => bind (sp_set_root_node pr n) (fun _ => ret (Ok tt)))) sc tt.
Proof.
  intros c m sc G Pc. rewrite <- (app_nil_r sc). apply (tplays_try _ _ _ _ sc [] (nd [] m)); [exact Pc|].
  intros rn L s. unfold bind. rewrite (set_root_ok H U HZ) by exact G. exists (nd [] m), s, (Ok tt), []. rewrite app_nil_r. auto.
Qed.

(** * Reads *)
Definition gstop (sc : list scall) (l : log) (x : SError E) : Prop :=
  exists b k e a, cut_short sc l b (Get k) e a /\ (length a <= 2)%nat /\ Forall is_get a /\ x = SChildErr (ChildErr (SNStorageError e)).
Lemma gstop_app : forall sc sc' l x, gstop sc l x -> gstop (sc ++ sc') l x.
Proof. intros sc sc' l x (b & c & e & a & Q & N). exists b, c, e, a. split; [apply cut_app; exact Q|auto]. Qed.
Lemma gstop_after : forall sc sc' l x, gstop sc' l x -> gstop (sc ++ sc') (map done sc ++ l) x.
Proof. intros sc sc' l x (b & c & e & a & Q & N). exists (sc ++ b), c, e, a. split; [apply cut_after; exact Q|auto]. Qed.

(** The answer to the read of one child and what it adds to the log. *)
Definition child_log (p : list bool) (m : entries) (r : result (SChildError E) SNode) (l : log) : Prop :=
  (r = Ok (nd p m) /\ l = map done (rd p m)) \/
  (exists e, r = Err (ChildErr (SNStorageError e)) /\ rd p m = [Get (T p m)] /\ l = [(Get (T p m), Some e)]).
Lemma child_log_calls : forall p m r l, child_log p m r l -> map fst l = rd p m.
Proof.
  intros p m r l [[_ ->]|(e & _ & -> & ->)]; [|reflexivity]. rewrite map_map. cbn [done fst]. apply map_id.
Qed.
Lemma rd_gets : forall p m, Forall is_get (rd p m) /\ (length (rd p m) <= 1)%nat.
Proof. intros p m. unfold rd. destruct (sub p m); cbn [length]; split; auto. constructor; [exact Logic.I|constructor]. Qed.

Lemma read_child_log : forall p m L s, good m -> stored H m (view s) ->
  exists s' r l, read_child lst (T p m) (L, s) = ((L ++ l, s'), Val r) /\ (forall k, view s' k = view s k) /\ child_log p m r l.
Proof.
  intros p m L s G Sd. unfold read_child. destruct (b32_eqb (T p m) zero_sum) eqn:Z.
  - apply b32_eqb_eq in Z. exists s, (Ok snode_placeholder), []. rewrite app_nil_r. split; [reflexivity|]. split; auto. left.
    destruct (sub p m) eqn:S0.
    + rewrite nd_nil by exact S0. unfold rd. rewrite S0. auto.
    + exfalso. revert Z. apply (T_nonzero H U HZ); auto. rewrite S0. discriminate.
  - assert (NE : sub p m <> []).
    { intros C. apply b32_eqb_neq in Z. apply Z. destruct (T_cases H p m (good_nodup H U m G)) as [S1 E1 I1|? ? S1|S1];
        [exact E1|congruence|rewrite C in S1; cbn [length] in S1; lia]. }
    assert (Rd : rd p m = [Get (T p m)]) by (unfold rd; destruct (sub p m); [congruence|reflexivity]).
    cbn [Logged s_get]. destruct (s_get st (T p m) s) as [s' [o|e]] eqn:Gt; pose proof (law_get_view _ _ Law _ _ _ _ Gt) as V'.
    + pose proof (law_get_ok _ _ Law _ _ _ _ Gt) as Ev. rewrite (Sd p NE) in Ev. subst o. rewrite try_from_prim.
      exists s', (Ok (nd p m)), [(Get (T p m), None)]. split; [reflexivity|]. split; [exact V'|]. left. rewrite Rd. auto.
    + exists s', (Err (ChildErr (SNStorageError e))), [(Get (T p m), Some e)]. split; [reflexivity|]. split; [exact V'|].
      right. eauto.
Qed.
Lemma child_node_log : forall p m L s (b : bool), good m -> stored H m (view s) -> (2 <= length (sub p m))%nat ->
  exists s' r l, (if b then storage_node_right_child lst (nd p m) else storage_node_left_child lst (nd p m)) (L, s) = ((L ++ l, s'), Val r) /\
  (forall k, view s' k = view s k) /\ child_log (p ++ [b]) m r l.
Proof.
  intros p m L s b G Sd Lm. destruct (read_child_log (p ++ [b]) m L s G Sd) as (s' & r & l & R & V' & C).
  exists s', r, l. split; auto. destruct b.
  - unfold storage_node_right_child. rewrite (nd_is_leaf H U HZ) by exact G.
    replace (length (sub p m) <=? 1)%nat with false by (symmetry; apply Nat.leb_gt; lia).
    unfold snode_right_child_key. rewrite nd_is_node.
    replace (length (sub p m) <=? 1)%nat with false by (symmetry; apply Nat.leb_gt; lia).
    cbn [negb assert obind]. rewrite nd_two by exact Lm. unfold bind, lift. exact R.
  - unfold storage_node_left_child. rewrite (nd_is_leaf H U HZ) by exact G.
    replace (length (sub p m) <=? 1)%nat with false by (symmetry; apply Nat.leb_gt; lia).
    unfold snode_left_child_key. rewrite nd_is_node.
    replace (length (sub p m) <=? 1)%nat with false by (symmetry; apply Nat.leb_gt; lia).
    cbn [negb assert obind]. rewrite nd_two by exact Lm. unfold bind, lift. exact R.
Qed.
Lemma stored_same : forall m s s', (forall k, view s' k = view s k) -> stored H m (view s) -> stored H m (view s').
Proof. intros m s s' V Sd. apply (stored_ext H m (view s)); auto. Qed.

Lemma next_log : forall (leaf : SNode) (k : bytes32) i m L s side, good m -> stored H m (view s) ->
  snode_leaf_key leaf = Val k -> (i < KB)%nat -> (2 <= length (sub (P k i) m))%nat ->
  exists s' rp rs lp ls, path_iter_next (StorageNode lst) (Build_PathIter leaf (Some (Ok (nd (P k i) m), side)) (Z.of_nat i)) (L, s) =
    ((L ++ lp ++ ls, s'), Val (Some (Ok (nd (P k i) m), side), Build_PathIter leaf (Some (rp, rs)) (Z.of_nat (S i)))) /\
  (forall k, view s' k = view s k) /\ child_log (P k (S i)) m rp lp /\ child_log (sd k i) m rs ls.
Proof.
  intros leaf k i m L s side G Sd Lk Li Lm. unfold path_iter_next.
  cbn [it_current it_leaf it_current_offset pn_is_node pn_leaf_key pn_left_child pn_right_child StorageNode].
  rewrite nd_is_node. replace (length (sub (P k i) m) <=? 1)%nat with false by (symmetry; apply Nat.leb_gt; lia).
  cbn [negb]. rewrite Lk. unfold bind, lift. cbn [obind]. rewrite instruction_ok by exact Li.
  replace (Z.of_nat (S i)) with (Z.of_nat i + 1) by lia. rewrite P_S by exact Li. unfold sd.
  destruct (kbit k i); cbn [negb].
  - destruct (child_node_log (P k i) m L s true G Sd Lm) as (s1 & r1 & l1 & -> & V1 & C1).
    destruct (child_node_log (P k i) m (L ++ l1) s1 false G (stored_same m s s1 V1 Sd) Lm) as (s2 & r2 & l2 & -> & V2 & C2).
    exists s2, r1, r2, l1, l2. rewrite <- app_assoc. split; [reflexivity|]. split; [intros; rewrite V2; apply V1|auto].
  - destruct (child_node_log (P k i) m L s false G Sd Lm) as (s1 & r1 & l1 & -> & V1 & C1).
    destruct (child_node_log (P k i) m (L ++ l1) s1 true G (stored_same m s s1 V1 Sd) Lm) as (s2 & r2 & l2 & -> & V2 & C2).
    exists s2, r1, r2, l1, l2. rewrite <- app_assoc. split; [reflexivity|]. split; [intros; rewrite V2; apply V1|auto].
Qed.

Lemma collect_log : forall leaf (k : bytes32) m D, good m -> snode_leaf_key leaf = Val k -> lands k m D ->
  forall n i, (i + n = D)%nat -> forall fuel L s side, (n + 2 <= fuel)%nat -> stored H m (view s) ->
  exists s' r l, path_set_collect lst fuel (Build_PathIter leaf (Some (Ok (nd (P k i) m), Ok side)) (Z.of_nat i)) (L, s) = ((L ++ l, s'), Val r) /\
  (forall k, view s' k = view s k) /\
  ((r = Ok ((nd (P k i) m, side) :: map (fun j => (nd (P k (S j)) m, nd (sd k j) m)) (seq i n)) /\ l = map done (flat_map (lvl k m) (seq i n))) \/
   (exists x, r = Err x /\ gstop (flat_map (lvl k m) (seq i n)) l x)).
Proof.
  intros leaf k m D G Lk (LD & LA & LE). induction n as [|n IH]; intros i Ei fuel L s side Fu Sd.
  - destruct fuel as [|[|fuel]]; try lia. replace i with D by lia.
    cbn [path_set_collect]. unfold bind at 1. unfold path_iter_next.
    cbn [it_current it_leaf it_current_offset pn_is_node StorageNode]. rewrite nd_is_node.
    replace (length (sub (P k D) m) <=? 1)%nat with true by (symmetry; apply Nat.leb_le; lia).
    cbn [negb ret]. unfold bind_try, bind. cbn [it_current].
    eexists s, _, []. rewrite app_nil_r. split; [reflexivity|]. split; auto.
  - destruct fuel as [|fuel]; try lia. cbn [path_set_collect]. unfold bind at 1.
    destruct (next_log leaf k i m L s (Ok side) G Sd Lk ltac:(lia) (LA i ltac:(lia))) as (s1 & rp & rs & lp & ls & -> & V1 & Cp & Cs).
    unfold bind_try at 1. unfold bind at 1. cbn [seq flat_map].
    pose proof (stored_same m s s1 V1 Sd) as Sd1.
    destruct rp as [np|ep].
    + assert (Ap : np = nd (P k (S i)) m /\ lp = map done (rd (P k (S i)) m)).
      { destruct Cp as [[Q A]|(e & Q & _)]; [|discriminate]. injection Q as ->. auto. }
      destruct Ap as [-> ->].
      destruct rs as [ns|es].
      * assert (As : ns = nd (sd k i) m /\ ls = map done (rd (sd k i) m)).
        { destruct Cs as [[Q A]|(e & Q & _)]; [|discriminate]. injection Q as ->. auto. }
        destruct As as [-> ->].
        rewrite <- map_app. change (rd (P k (S i)) m ++ rd (sd k i) m) with (lvl k m i).
        destruct (IH (S i) ltac:(lia) fuel (L ++ map done (lvl k m i)) s1 (nd (sd k i) m) ltac:(lia) Sd1) as (s2 & r2 & l2 & -> & V2 & R).
        rewrite <- app_assoc.
        destruct R as [[-> ->]|(x & -> & W)]; exists s2; eexists; eexists (_ ++ _).
        -- split; [reflexivity|]. split; [intros; rewrite V2; apply V1|]. left. split; [reflexivity|]. rewrite map_app. reflexivity.
        -- split; [reflexivity|]. split; [intros; rewrite V2; apply V1|]. right. exists x. split; [reflexivity|]. apply gstop_after. exact W.
      * destruct Cs as [[Q _]|(e & Q & Rs & ->)]; [discriminate|]. injection Q as ->.
        destruct fuel as [|fuel]; try lia. cbn [path_set_collect]. unfold bind at 1.
        destruct (Nat.le_gt_cases (length (sub (P k (S i)) m)) 1) as [A|A].
        -- unfold path_iter_next at 1. cbn [it_current it_leaf it_current_offset]. cbn [pn_is_node StorageNode]. rewrite nd_is_node.
           replace (length (sub (P k (S i)) m) <=? 1)%nat with true by (symmetry; apply Nat.leb_le; lia).
           cbn [negb ret]. eexists s1, _, _. split; [reflexivity|]. split; auto. right. eexists. split; [reflexivity|].
           apply gstop_app. exists (rd (P k (S i)) m), (T (sd k i) m), e, []. split; [|cbn [length]; split; [lia|split; [constructor|reflexivity]]].
           exists [], []. unfold lvl. rewrite Rs. auto.
        -- assert (LS : (S i < D)%nat).
           { destruct (Nat.eq_dec (S i) D) as [Q|Q]; [rewrite Q in A; lia|lia]. }
           destruct (next_log leaf k (S i) m (L ++ map done (rd (P k (S i)) m) ++ [(Get (T (sd k i) m), Some e)]) s1 (Err (ChildErr (SNStorageError e))) G Sd1 Lk ltac:(lia) ltac:(lia))
             as (s2 & rp2 & rs2 & lp2 & ls2 & Q & V2 & Cp2 & Cs2).
           match type of Q with _ = ?rhs =>
             match goal with |- context [path_iter_next ?a ?b ?c] => assert (Q' : path_iter_next a b c = rhs) by exact Q; rewrite Q' end end.
           rewrite <- !app_assoc. cbn [app].
           eexists s2, _, _. split; [reflexivity|]. split; [intros; rewrite V2; apply V1|]. right. eexists. split; [reflexivity|].
           destruct n as [|n]; [lia|]. cbn [seq flat_map]. rewrite app_assoc. apply gstop_app.
           exists (rd (P k (S i)) m), (T (sd k i) m), e, (lvl k m (S i)).
           pose proof (rd_gets (P k (S (S i))) m) as [F1 N1]. pose proof (rd_gets (sd k (S i)) m) as [F2 N2].
           split; [|unfold lvl; rewrite app_length; split; [lia|split; [apply Forall_app; auto|reflexivity]]].
           exists [], (lp2 ++ ls2). rewrite app_nil_r. split; [|split; [reflexivity|]].
           ++ unfold lvl at 1. rewrite Rs, <- app_assoc. reflexivity.
           ++ rewrite map_app. exact (f_equal2 (@app _) (child_log_calls _ _ _ _ Cp2) (child_log_calls _ _ _ _ Cs2)).
    + destruct Cp as [[Q _]|(e & Q & Rp & ->)]; [discriminate|]. injection Q as ->.
      destruct fuel as [|fuel]; try lia. cbn [path_set_collect]. unfold bind at 1. unfold path_iter_next at 1.
      cbn [it_current it_leaf it_current_offset ret].
      eexists s1, _, _. split; [reflexivity|]. split; auto. right. eexists. split; [reflexivity|].
      apply gstop_app. exists [], (T (P k (S i)) m), e, (rd (sd k i) m). pose proof (rd_gets (sd k i) m) as [F2 N2].
      split; [|split; [exact (Nat.le_trans _ _ _ N2 (Nat.le_succ_diag_r 1))|split; [exact F2|reflexivity]]].
      exists [], ls. rewrite app_nil_r. unfold lvl. rewrite Rp. split; [reflexivity|]. split; [reflexivity|].
      exact (child_log_calls _ _ _ _ Cs).
Qed.

Lemma path_set_log : forall leaf (k : bytes32) m D L s, good m -> snode_leaf_key leaf = Val k -> lands k m D -> stored H m (view s) ->
  exists s' r l, path_set pr lst (nd [] m) leaf (L, s) = ((L ++ l, s'), Val r) /\ (forall k, view s' k = view s k) /\
  ((r = Ok (map (fun i => nd (P k i) m) (down (S D)), map (fun i => nd (sd k i) m) (down D)) /\ l = map done (flat_map (lvl k m) (seq 0 D))) \/
   (exists x, r = Err x /\ gstop (flat_map (lvl k m) (seq 0 D)) l x)).
Proof.
  intros leaf k m D L s G Lk La Sd. pose proof KB_val as KV. pose proof La as La'. destruct La as (LD & LA & LE).
  unfold path_set, path_iter_new. cbn [pn_key_size_in_bits pn_height StorageNode].
  change (@nil bool) with (P k 0). rewrite nd_height. unfold bind at 1. unfold lift.
  destruct (Nat.leb_spec (length (sub (P k 0) m)) 1) as [A|A].
  - rewrite usize_ovf_in by (unfold max_height; lia). cbn [obind].
    assert (D0 : D = 0%nat). { destruct D as [|D]; auto. pose proof (LA O ltac:(lia)). lia. } subst D.
    unfold bind_try at 1. unfold bind at 1. cbn [path_set_collect]. unfold bind at 1. unfold path_iter_next.
    cbn [it_current it_leaf it_current_offset pn_is_node StorageNode]. rewrite nd_is_node.
    replace (length (sub (P k 0) m) <=? 1)%nat with true by (symmetry; apply Nat.leb_le; lia).
    cbn [negb ret]. unfold bind_try, bind. cbn [it_current]. cbn [ret].
    eexists s, _, []. rewrite app_nil_r. split; [reflexivity|]. split; auto.
  - rewrite P_length by lia. rewrite usize_ovf_in by (unfold max_height; lia). cbn [obind].
    replace (max_height - (256 - Z.of_nat 0)) with (Z.of_nat 0) by (unfold max_height; lia).
    unfold bind_try, bind.
    destruct (collect_log leaf k m D G Lk La' D O eq_refl 258%nat L s (nd (P k 0) m) ltac:(rewrite KB_eq in LD; lia) Sd)
      as (s1 & r1 & l1 & -> & V1 & [[-> ->]|(x & -> & W1)]).
    + eexists s1, _, _. split; [reflexivity|]. split; auto. left. split; [|reflexivity].
      cbn [ret]. do 2 f_equal.
      * cbn [map fst]. rewrite map_map. cbn [fst]. rewrite nodes_seq with (f := fun i => nd (P k i) m), <- map_rev, down_rev. reflexivity.
      * cbn [map snd rev]. rewrite map_map. cbn [snd]. rewrite removelast_last, <- map_rev, down_rev. reflexivity.
    + exists s1, (Err x), l1. split; [reflexivity|]. split; auto. right. eauto.
Qed.

(** * One call *)
Lemma tplays_on_ret : forall A B (a : A) (f : A -> M _ (result (SError E) B)) sc b,
  tplays (f a) sc b -> tplays (bind_try (on_storage (ret (Ok a))) f) sc b.
Proof.
  intros A B a f sc b Pf. change sc with ([] ++ sc). apply (tplays_try _ _ _ f [] sc a); [|exact Pf]. apply tplays_on. apply plays_ret.
Qed.

Lemma update_path_log : forall k h m D, good m -> good (mset k h m) -> lands k m D ->
  exists D', lands k (mset k h m) D' /\
  tplays (update_with_path_set H pr lst (leafn k h) (map (fun i => nd (P k i) m) (down (S D))) (map (fun i => nd (sd k i) m) (down D)))
    (map (pt k (mset k h m)) (down D')) tt.
Proof.
  intros k h m D G G' (LD & LA & LE). set (m' := mset k h m) in *. unfold update_with_path_set. cbn [down map].
  change (snode_leaf_key (leafn k h)) with (Val k).
  rewrite (sides_eq H k h m D LD). fold m'. set (sides := map (fun i => nd (sd k i) m') (down D)).
  assert (Ls : length sides = D) by (unfold sides; rewrite map_length, down_length; reflexivity).
  assert (Upper : forall i, (i < D)%nat -> (2 <= length (sub (P k i) m'))%nat) by (intros i Li; apply (upd_two H U k h m G); apply LA; exact Li).
  rewrite bind_val.
  assert (Direct : (length (sub (P k D) m') <= 1)%nat -> lands k m' D /\
    tplays (bind_try (on_storage (merge_side_nodes H pr lst k (leafn k h) sides))
        (fun current_node => bind (sp_set_root_node pr current_node) (fun _ => ret (Ok tt)))) (map (pt k m') (down D)) tt).
  { intros S1. split; [split; [exact LD|split; [exact Upper|exact S1]]|]. apply (tplays_end _ m'); [exact G'|]. apply tplays_on.
    rewrite <- (nd_one H (P k D) m' k h) by (apply (sub_P_full k h m D S1)). apply plays_merge; auto. }
  destruct (nil_or_one _ LE) as [S0|[[ka ha] S0]].
  - assert (S1 : (length (sub (P k D) m') <= 1)%nat) by (unfold m'; rewrite upd_P, S0; cbn [mdel filter length]; lia).
    destruct (Direct S1) as [La' Pd]. exists D. split; [exact La'|].
    rewrite (nd_nil H _ _ S0). change (snode_leaf_key snode_placeholder) with (Val zero32). rewrite bind_val.
    destruct (negb (b32_eqb k zero32)).
    + change (snode_is_placeholder snode_placeholder) with true. cbn [negb].
      unfold snode_common_path_length. change (snode_is_placeholder snode_placeholder) with true. rewrite orb_true_r.
      replace (debug_assert pr (snode_is_leaf (leafn k h))) with (Val tt) by (unfold debug_assert; destruct (debug_assertions pr); reflexivity).
      replace (debug_assert pr (snode_is_leaf snode_placeholder)) with (Val tt) by (unfold debug_assert; destruct (debug_assertions pr); reflexivity).
      cbn [obind]. rewrite try_ok, bind_val, Ls. replace (Z.to_nat (Z.max (Z.of_nat D) 0 - Z.of_nat D)) with O by lia.
      cbn [repeat merge_side_nodes]. apply tplays_on_ret. exact Pd.
    + rewrite try_ok. exact Pd.
  - rewrite (nd_one H _ _ _ _ S0). change (snode_leaf_key (leafn ka ha)) with (Val ka). rewrite bind_val.
    assert (Ia : In (ka, ha) m /\ has_prefix (P k D) (bits_of ka) = true).
    { apply (sub_in (P k D) m (ka, ha)). rewrite S0. left. reflexivity. }
    destruct (b32_eqb k ka) eqn:Ek; cbn [negb].
    + apply b32_eqb_eq in Ek. subst ka.
      assert (S1 : (length (sub (P k D) m') <= 1)%nat).
      { unfold m'. rewrite upd_P, S0. cbn [mdel filter fst]. rewrite b32_eqb_refl. cbn [negb length]. lia. }
      destruct (Direct S1) as [La' Pd]. exists D. split; [exact La'|]. rewrite try_ok. exact Pd.
    + apply b32_eqb_neq in Ek. set (c := lcp (bits_of k) (bits_of ka)).
      assert (Fc : firstn c (bits_of k) = firstn c (bits_of ka)) by apply lcp_firstn.
      assert (Lc : (c < KB)%nat).
      { destruct (Nat.lt_ge_cases c KB) as [A|A]; auto. exfalso. apply Ek. apply bytes32_ext. apply bits_of_inj; [rewrite !b32_length; reflexivity|].
        rewrite !firstn_all2 in Fc by (rewrite kbits_length; exact A). exact Fc. }
      assert (Dc : (D <= c)%nat).
      { apply lcp_max; [rewrite kbits_length; lia..|]. destruct Ia as [_ Pa]. apply has_prefix_spec in Pa.
        rewrite P_length in Pa by exact LD. symmetry. exact Pa. }
      assert (Kc : kbit ka c = negb (kbit k c)).
      { destruct (Bool.bool_dec (kbit ka c) (kbit k c)) as [Eq|Ne]; [|destruct (kbit ka c), (kbit k c); auto; congruence].
        exfalso. assert (Q : (S c <= lcp (bits_of k) (bits_of ka))%nat).
        { apply lcp_max; [rewrite kbits_length; lia..|]. rewrite !nth_firstn_snoc by (rewrite kbits_length; lia).
          unfold kbit in Eq. rewrite Fc, Eq. reflexivity. }
        fold c in Q. lia. }
      assert (Iam' : In (ka, ha) m') by (right; apply mdel_in; split; [tauto|cbn; congruence]).
      assert (Psd : has_prefix (sd k c) (bits_of ka) = true).
      { unfold sd. rewrite has_prefix_snoc by (rewrite P_length, kbits_length; lia). rewrite P_length by lia.
        apply andb_true_intro. split; [unfold P; rewrite Fc; apply has_prefix_firstn|].
        fold (kbit ka c). rewrite Kc. apply Bool.eqb_reflx. }
      assert (PD : sub (P k D) m' = [(k, h); (ka, ha)]).
      { unfold m'. rewrite upd_P, S0. cbn [mdel filter fst]. replace (b32_eqb ka k) with false by (symmetry; apply b32_eqb_neq; congruence). reflexivity. }
      assert (Inc : forall i, (D <= i <= c)%nat -> (2 <= length (sub (P k i) m'))%nat).
      { intros i Li.
        assert (Iu : incl [(k, h); (ka, ha)] (sub (P k i) m')).
        { intros e [<-|[<-|[]]]; apply sub_in; cbn [fst].
          - split; [left; reflexivity|apply P_prefix].
          - split; [exact Iam'|]. destruct (P_le k i c ltac:(lia)) as [q Eq]. apply (has_prefix_app _ q). rewrite <- Eq.
            unfold P. rewrite Fc. apply has_prefix_firstn. }
        change 2%nat with (length [(k, h); (ka, ha)]). apply NoDup_incl_length; [|exact Iu].
        constructor; [intros [C|[]]; congruence|]. constructor; [intros []|constructor]. }
      assert (PSc : sub (P k (S c)) m' = [(k, h)]).
      { apply (sub_P_full k h m). fold m'. destruct (Nat.le_gt_cases (length (sub (P k (S c)) m')) 1) as [A|A]; auto. exfalso.
        destruct (two_elements (sub (P k (S c)) m')) as (e & e' & Ie & Ie' & Ne); [lia|apply sub_nodup; apply G'|].
        assert (Q : forall x, In x (sub (P k (S c)) m') -> x = (k, h)).
        { intros x Ix. pose proof (sub_P_in k D (S c) m' x ltac:(lia) Ix) as Ix2. rewrite PD in Ix2.
          destruct Ix2 as [<-|[<-|[]]]; [reflexivity|]. exfalso. apply sub_in in Ix. destruct Ix as [_ Ix]. cbn [fst] in Ix.
          rewrite P_S in Ix by exact Lc. rewrite has_prefix_snoc in Ix by (rewrite P_length, kbits_length; lia).
          rewrite P_length in Ix by lia. fold (kbit ka c) in Ix. rewrite Kc in Ix. destruct (kbit k c); rewrite andb_false_r in Ix; discriminate. }
        apply Ne. rewrite (Q e Ie), (Q e' Ie'). reflexivity. }
      assert (Ssd : sub (sd k c) m' = [(ka, ha)]).
      { apply length_one; [apply sub_in; split; [exact Iam'|exact Psd]|].
        pose proof (sub_split_length (P k c) m' ltac:(rewrite P_length; lia)) as Sp.
        pose proof (sub_P_le k D c m' Dc) as Le. rewrite PD in Le. cbn [length] in Le.
        assert (Q : length (sub (P k (S c)) m') = 1%nat) by (rewrite PSc; reflexivity).
        rewrite P_S in Q by exact Lc. unfold sd. destruct (kbit k c); cbn [negb] in *; lia. }
      assert (Emp : forall i, (D <= i < c)%nat -> sub (sd k i) m' = []).
      { intros i Li. apply length_zero_iff_nil.
        pose proof (sub_split_length (P k i) m' ltac:(rewrite P_length; lia)) as Sp.
        pose proof (sub_P_le k D i m' ltac:(lia)) as Le. rewrite PD in Le. cbn [length] in Le.
        pose proof (Inc (S i) ltac:(lia)) as Q. rewrite P_S in Q by lia. unfold sd. destruct (kbit k i); cbn [negb] in *; lia. }
      assert (Nsd : h <> zero32 /\ ha <> zero32).
      { split; [apply (good_digest H U m' G' k h); left; reflexivity|apply (good_digest H U m G ka ha); tauto]. }
      assert (Two : forall i, (i < S c)%nat -> (2 <= length (sub (P k i) m'))%nat).
      { intros i Li. destruct (Nat.lt_ge_cases i D) as [A|A]; [apply Upper; exact A|apply Inc; lia]. }
      exists (S c). split; [split; [lia|split; [exact Two|rewrite PSc; cbn [length]; lia]]|].
      rewrite leafn_not_placeholder by tauto. cbn [negb].
      assert (CPL : snode_common_path_length pr (leafn k h) (leafn ka ha) = Val (Z.of_nat c)).
      { unfold snode_common_path_length. rewrite !leafn_not_placeholder by tauto. cbn [orb].
        replace (debug_assert pr (snode_is_leaf (leafn k h))) with (Val tt) by (unfold debug_assert; destruct (debug_assertions pr); reflexivity).
        replace (debug_assert pr (snode_is_leaf (leafn ka ha))) with (Val tt) by (unfold debug_assert; destruct (debug_assertions pr); reflexivity).
        cbn [obind]. change (snode_leaf_key (leafn k h)) with (Val k). change (snode_leaf_key (leafn ka ha)) with (Val ka).
        cbn [obind]. apply common_prefix_count_ok. rewrite !b32_length. reflexivity. }
      destruct (down_app c D Dc) as (l & El & Ll & Bl).
      assert (Rep : repeat snode_placeholder (c - D) = map (fun i => nd (sd k i) m') l).
      { rewrite <- Ll. clear - Emp Bl HZ. induction l as [|i l IH]; cbn [length repeat map]; auto. f_equal.
        - symmetry. apply nd_nil. apply Emp. apply Bl. left. reflexivity.
        - apply IH. intros j Ij. apply Bl. right. exact Ij. }
      cbn [down]. rewrite El. change (c :: l ++ down D) with (([c] ++ l) ++ down D). rewrite map_app.
      apply (tplays_try _ _ _ _ (map (pt k m') ([c] ++ l)) (map (pt k m') (down D)) (nd (P k D) m')).
      2:{ apply (tplays_end _ m'); [exact G'|]. apply tplays_on. apply plays_merge; auto. }
      rewrite map_app.
      apply (tplays_try _ _ _ _ (map (pt k m') [c]) (map (pt k m') l) (nd (P k c) m')).
      * apply tplays_on. rewrite <- (nd_one H _ _ _ _ PSc), <- (nd_one H _ _ _ _ Ssd). apply plays_join; [exact G'|exact Lc|apply Inc; lia].
      * rewrite CPL, bind_val, Ls.
        replace (Z.to_nat (Z.max (Z.of_nat D) (Z.of_nat c) - Z.of_nat D)) with (c - D)%nat by lia.
        rewrite Rep. apply tplays_on.
        pose proof (plays_merge_part k m' G' l c ltac:(lia)) as Q. rewrite Ll in Q. replace (c - (c - D))%nat with D in Q by lia.
        apply Q; [exact El|lia|]. intros i Ii. apply Bl in Ii. apply Inc. lia.
Qed.

Lemma plays_removes : forall k m l, good m ->
  plays (remove_path_nodes H lst (map (fun i => nd (P k i) m) l)) (map (fun i => Del (T (P k i) m)) l) tt.
Proof.
  intros k m l G. induction l as [|i l IH]; cbn [map remove_path_nodes]; [apply plays_ret|].
  rewrite (nd_hash H U HZ) by exact G.
  apply (plays_try _ _ _ _ [Del (T (P k i) m)] (map (fun i => Del (T (P k i) m)) l) tt); [apply plays_remove|exact IH].
Qed.

Lemma delete_path_log : forall k hk m D, lands k m D -> good m -> good (cut (P k D) m) ->
  exists D', lands k (cut (P k D) m) D' /\
  tplays (delete_with_path_set H pr lst (leafn k hk) (map (fun i => nd (P k i) m) (down (S D))) (map (fun i => nd (sd k i) m) (down D)))
    (map (fun i => Del (T (P k i) m)) (down (S D)) ++ map (pt k (cut (P k D) m)) (down D')) tt.
Proof.
  intros k hk m D La G G'. set (m' := cut (P k D) m) in *. pose proof La as (LD & LA & LE). unfold delete_with_path_set.
  rewrite (dsides_eq H k m D La). fold m'.
  assert (Mono : forall i j, (i <= j)%nat -> (length (sub (P k j) m') <= length (sub (P k i) m'))%nat)
    by (intros i j Lij; apply sub_P_le; exact Lij).
  (* the end of the work, once the node at depth j is rebuilt *)
  assert (Fin : forall j, (j <= D)%nat -> (forall i, (i < j)%nat -> (2 <= length (sub (P k i) m'))%nat) ->
    tplays (bind_try (on_storage (merge_side_nodes H pr lst k (nd (P k j) m') (map (fun i => nd (sd k i) m') (down j))))
        (fun current_node => bind (sp_set_root_node pr current_node) (fun _ => ret (Ok tt)))) (map (pt k m') (down j)) tt).
  { intros j Lj Two. apply (tplays_end _ m'); [exact G'|]. apply tplays_on. apply plays_merge; auto. lia. }
  assert (Ph : nd (P k D) m' = snode_placeholder) by (apply nd_nil; exact (del_below k m D)).
  assert (Start : forall D' (c : M _ (result (SError E) unit)), tplays c (map (pt k m') (down D')) tt ->
    tplays (bind_try (on_storage (remove_path_nodes H lst (map (fun i => nd (P k i) m) (down (S D))))) (fun _ => c))
      (map (fun i => Del (T (P k i) m)) (down (S D)) ++ map (pt k m') (down D')) tt).
  { intros D' c Pc. apply (tplays_try _ _ _ (fun _ => c) _ _ tt); [|exact Pc]. apply tplays_on. apply plays_removes. exact G. }
  change (snode_leaf_key (leafn k hk)) with (Val k). 
  assert (Dc : D = O \/ exists d, D = S d) by (destruct (Nat.eq_dec D 0); [left; assumption|right; exists (D - 1)%nat; lia]).
  destruct Dc as [D0|[d Dd]].
  - exists O. split.
    { split; [lia|]. split; [intros j Lj; lia|]. assert (Q : sub (P k 0) m' = []) by (pose proof (del_below k m D) as B0; fold m' in B0; rewrite D0 in B0 at 1; exact B0).
      rewrite Q. cbn [length]. lia. }
    apply Start. rewrite bind_val.
    assert (Dn : down D = []) by (rewrite D0; reflexivity). rewrite Dn. cbn [map]. rewrite try_ok. rewrite <- Ph.
    assert (Q : nd (P k D) m' = nd (P k 0) m') by (rewrite D0 at 1; reflexivity). rewrite Q.
    apply (Fin O); [lia|]. intros i Li. lia.
  - assert (Dn : down D = d :: down d) by (rewrite Dd; reflexivity).
    assert (Sp : length (sub (P k d) m') = length (sub (sd k d) m')).
    { rewrite (del_split k m D La) by lia. rewrite <- Dd. rewrite (del_below k m D). reflexivity. }
    destruct (Nat.leb_spec (length (sub (sd k d) m')) 1) as [A|A].
    + assert (NE : sub (sd k d) m' <> []).
      { unfold m'. rewrite (del_side_sub k m D La) by lia. intros C. specialize (LA d ltac:(lia)).
        pose proof (sub_split_length (P k d) m ltac:(rewrite P_length; lia)) as Q.
        rewrite Dd, P_S in LE by lia. unfold sd in C. destruct (kbit k d); cbn [negb] in *; rewrite C in Q; cbn [length] in Q; lia. }
      destruct (nil_or_one _ A) as [C|[x Sx]]; [congruence|]. destruct x as [kx hx].
      assert (Sd : sub (P k d) m' = [(kx, hx)]).
      { apply length_one; [apply (del_split_in k m D La); [lia|right; unfold m' in Sx; rewrite Sx; left; reflexivity]|]. rewrite Sp. exact A. }
      assert (Nx : nd (sd k d) m' = leafn kx hx) by exact (nd_one H _ _ _ _ Sx).
      destruct (find_ok H U HZ k m D G' d ltac:(lia)) as [[Fq Em]|(i & Li & Fq & NEi & Em)]; fold m' in Fq, Em.
      * assert (S0 : sub (P k 0) m' = [(kx, hx)]) by (apply (up_empty k m D La d 0 d); [lia|lia|intros i' Li'; apply Em; lia|exact Sd]).
        exists O. split; [split; [lia|]; split; [intros j Lj; lia|rewrite S0; cbn [length]; lia]|].
        apply Start. rewrite bind_val. rewrite Dn. cbn [map]. rewrite (nd_is_leaf H U HZ) by exact G'.
        replace (length (sub (sd k d) m') <=? 1)%nat with true by (symmetry; apply Nat.leb_le; exact A).
        rewrite Fq, try_ok, Nx. rewrite <- (nd_one H _ _ _ _ S0). apply (Fin O); [lia|]. intros i Li. lia.
      * assert (Si : sub (P k (S i)) m' = [(kx, hx)]) by (apply (up_empty k m D La (d - S i) (S i) d); [lia|lia|intros i' Li'; apply Em; lia|exact Sd]).
        assert (Two : (2 <= length (sub (P k i) m'))%nat).
        { unfold m' at 1. rewrite (del_split k m D La) by lia. fold m'. rewrite Si. fold m' in NEi. destruct (sub (sd k i) m'); [congruence|]. cbn [length]. lia. }
        exists (S i). split.
        { split; [lia|]. split; [|rewrite Si; cbn [length]; lia]. intros j Lj. pose proof (Mono j i ltac:(lia)). lia. }
        apply Start. rewrite bind_val. rewrite Dn. cbn [map]. rewrite (nd_is_leaf H U HZ) by exact G'.
        replace (length (sub (sd k d) m') <=? 1)%nat with true by (symmetry; apply Nat.leb_le; exact A).
        rewrite Fq, Nx. rewrite <- (nd_one H _ _ _ _ Si). cbn [down map].
        apply (tplays_try _ _ _ _ [pt k m' i] (map (pt k m') (down i)) (nd (P k i) m', map (fun i => nd (sd k i) m') (down i))).
        -- apply (tplays_try _ _ _ _ [pt k m' i] [] (nd (P k i) m')); [|apply tplays_ret]. apply tplays_on. apply plays_join; [exact G'|lia|exact Two].
        -- apply Fin; [lia|]. intros j Lj. pose proof (Mono j i ltac:(lia)). lia.
    + exists D. split.
      { split; [exact LD|]. split; [|pose proof (del_below k m D) as B0; fold m' in B0; rewrite B0; cbn [length]; lia]. intros j Lj. pose proof (Mono j d ltac:(lia)). lia. }
      apply Start. rewrite bind_val. rewrite Dn. cbn [map]. rewrite (nd_is_leaf H U HZ) by exact G'.
      replace (length (sub (sd k d) m') <=? 1)%nat with false by (symmetry; apply Nat.leb_gt; exact A).
      rewrite try_ok. rewrite <- Ph.
      change (nd (sd k d) m' :: map (fun i => nd (sd k i) m') (down d)) with (map (fun i => nd (sd k i) m') (d :: down d)).
      change (pt k m' d :: map (pt k m') (down d)) with (map (pt k m') (d :: down d)). rewrite <- Dn.
      apply Fin; [lia|]. intros i Li. pose proof (Mono i d ltac:(lia)). lia.
Qed.

Definition op_log (c : M (SpTree (log * St)) (result (SError E) unit)) (sc : list scall) (rn : SNode) (L : log) (s : St) : Prop :=
  exists rn' s' r l, c (Build_SpTree rn (L, s)) = (Build_SpTree rn' (L ++ l, s'), Val r) /\
    ((r = Ok tt /\ l = map done sc) \/ sparse_stop sc l r).

Lemma wstop_sparse : forall sc l x, wstop sc l x -> sparse_stop sc l (@Err _ unit x).
Proof.
  intros sc l x (b & c & e & Q & N & ->). exists b, c, e, []. split; [exact Q|]. destruct c; [destruct (N Logic.I)|auto|auto].
Qed.
Lemma gstop_sparse : forall c sc l x, gstop sc l x -> sparse_stop (c :: sc) (map done [c] ++ l) (@Err _ unit x).
Proof.
  intros c sc l x (b & k & e & a & Q & N & F & ->). exists ([c] ++ b), (Get k), e, a. split; [apply (cut_after [c] sc); exact Q|].
  cbn [app]. auto.
Qed.

Lemma insert_log : forall k v L s, exists s' r l, sst_insert lst k v (L, s) = ((L ++ l, s'), Val r) /\
  ((r = Ok tt /\ l = [(Put k v, None)] /\ forall k', view s' k' = wr [(k, Some v)] (view s) k') \/
   (exists e, r = Err (SStorageError e) /\ l = [(Put k v, Some e)])).
Proof.
  intros k v L s. unfold sst_insert. cbn [Logged s_insert]. destruct (s_insert st k v s) as [s' [o|e]] eqn:G.
  - exists s', (Ok tt), [(Put k v, None)]. split; [reflexivity|]. left. split; [reflexivity|]. split; [reflexivity|].
    destruct (law_insert_ok _ _ Law _ _ _ _ _ G) as (_ & A & B). intros k'. cbn [wr fold_left]. unfold wr1. cbn [fst snd].
    destruct (b32_eqb k' k) eqn:Q; [apply b32_eqb_eq in Q; subst; exact A|]. apply B. apply b32_eqb_neq. exact Q.
  - exists s', (Err (SStorageError e)), [(Put k v, Some e)]. split; [reflexivity|]. right. eauto.
Qed.

Lemma update_log : forall k data m D L s, data <> [] -> good m -> good (mset k (H data) m) -> fresh H U k -> stored H m (view s) -> lands k m D ->
  exists D', lands k (mset k (H data) m) D' /\
  op_log (sp_update H pr lst k data)
    ([Put (snode_hash H (leafn k (H data))) (prim (leafn k (H data))); Put k (prim (leafn k (H data)))] ++
     flat_map (lvl k m) (seq 0 D) ++ map (pt k (mset k (H data) m)) (down D')) (nd [] m) L s.
Proof.
  intros k data m D L s ND G G' Fr Sd La. set (h := H data) in *.
  destruct (update_path_log k h m D G G' La) as (D' & La' & Up). 
  assert (Em : m = [] -> D = O /\ D' = O).
  { intros ->. split.
    - destruct La as (_ & LA & _). destruct D as [|D]; [reflexivity|]. specialize (LA O ltac:(lia)). cbn in LA. lia.
    - destruct La' as (_ & LA & _). destruct D' as [|D']; [reflexivity|]. specialize (LA O ltac:(lia)).
      change (P k 0) with (@nil bool) in LA. rewrite sub_root in LA. cbn [length mset mdel filter] in LA. lia. }
  exists D'. split; [exact La'|]. unfold op_log.
  set (pre := [Put (snode_hash H (leafn k h)) (prim (leafn k h)); Put k (prim (leafn k h))]).
  set (wk := flat_map (lvl k m) (seq 0 D)) in *. set (pts := map (pt k (mset k h m)) (down D')) in *.
  unfold sp_update. destruct data as [|d data]; [congruence|]. cbv zeta.
  change (snode_create_leaf H k (d :: data)) with (leafn k h).
  unfold bind_try at 1. unfold bind at 1. unfold on_storage at 1. cbn [sp_storage sp_root_node].
  destruct (insert_log (snode_hash H (leafn k h)) (prim (leafn k h)) L s) as (s1 & r1 & l1 & -> & [(-> & -> & V1)|(e & -> & ->)]).
  2:{ eexists _, s1, _, _. split; [reflexivity|]. right. exists [], (Put (snode_hash H (leafn k h)) (prim (leafn k h))), e, [].
      split; [|auto]. eexists _, []. split; [reflexivity|]. auto. }
  change (snode_leaf_key (leafn k h)) with (Val k). rewrite bind_val.
  unfold bind_try at 1. unfold bind at 1. unfold on_storage at 1. cbn [sp_storage sp_root_node].
  destruct (insert_log k (prim (leafn k h)) (L ++ [(Put (snode_hash H (leafn k h)) (prim (leafn k h)), None)]) s1) as (s2 & r2 & l2 & -> & [(-> & -> & V2)|(e & -> & ->)]).
  2:{ rewrite <- app_assoc. eexists _, s2, _, _. split; [reflexivity|]. right.
      exists [Put (snode_hash H (leafn k h)) (prim (leafn k h))], (Put k (prim (leafn k h))), e, [].
      split; [|auto]. eexists _, []. split; [reflexivity|]. auto. }
  rewrite <- app_assoc.
  match goal with |- context [Build_SpTree (nd [] m) (L ++ ?l, s2)] => change l with (@map scall (event bytes32 SPrimitive E) done pre) end.
  assert (Sd2 : stored H m (view s2)).
  { apply (stored_ext H m (wr [leaf_w H k h; user_w k h] (view s))).
    - intros k'. rewrite V2. change [leaf_w H k h; user_w k h] with ([leaf_w H k h] ++ [user_w k h]). rewrite wr_app. apply wr_ext. intros k0. symmetry. apply V1.
    - apply (stored_wr H U HC HZ); auto. constructor; [|constructor; [|constructor]].
      + left. exists (mset k h m), (P k KB). split; [exact G'|]. split; [apply sub_P_ne|].
        rewrite (leaf_write H U HZ k h m G' KB); [reflexivity|]. apply sub_P_full. apply sub_full; [rewrite P_length; lia|apply G'].
      + right. exists k, (Some (prim (leafn k h))). split; [exact Fr|reflexivity]. }
  unfold bind at 1. unfold get_state. cbn [sp_root_node]. rewrite (nd_is_placeholder H U HZ) by exact G.
  destruct (Nat.eqb_spec (length (sub [] m)) 0) as [Z|NZ].
  - assert (Em0 : m = []) by (rewrite sub_root in Z; apply length_zero_iff_nil; exact Z).
    destruct (Em Em0) as [D0 D0']. unfold wk, pts. rewrite D0, D0'. cbn [seq flat_map down map app].
    assert (R : leafn k h = nd [] (mset k h m)) by (rewrite Em0; reflexivity).
    rewrite R. unfold bind. rewrite (set_root_ok H U HZ) by exact G'. cbn [sp_storage].
    eexists _, s2, _, (map done pre). split; [reflexivity|]. left. split; reflexivity.
  - unfold bind_try at 1. unfold bind at 1. unfold on_storage at 1. cbn [sp_storage sp_root_node].
    destruct (path_set_log (leafn k h) k m D (L ++ map done pre) s2 G eq_refl La Sd2) as (s3 & r3 & l3 & Q3 & V3 & R3).
    match goal with |- context [path_set ?a ?b ?c ?d ?e] => replace (path_set a b c d e) with ((((L ++ map done pre) ++ l3, s3) : log * St, Val r3)) by (symmetry; exact Q3) end.
    destruct R3 as [[-> ->]|(x & -> & W3)].
    + destruct (Up (nd [] m) ((L ++ map done pre) ++ map done wk) s3) as (rn4 & s4 & r4 & l4 & Q4 & R4).
      eexists rn4, s4, r4, _. split; [etransitivity; [exact Q4|rewrite <- !app_assoc; reflexivity]|].
      destruct R4 as [[-> ->]|(x & -> & W4)]; [left|right].
      * split; [reflexivity|]. rewrite !map_app. reflexivity.
      * apply wstop_sparse. apply wstop_after. apply wstop_after. exact W4.
    + rewrite <- app_assoc. eexists _, s3, (Err x), _. split; [reflexivity|]. right.
      change (pre ++ wk ++ pts) with (Put (snode_hash H (leafn k h)) (prim (leafn k h)) :: ([Put k (prim (leafn k h))] ++ wk ++ pts)).
      apply gstop_sparse. apply (gstop_after [Put k (prim (leafn k h))] (wk ++ pts)). apply gstop_app. exact W3.
Qed.

Lemma delete_log : forall k m D L s, m <> [] -> good m -> stored H m (view s) -> lands k m D ->
  (view s k = None -> op_log (sp_delete H pr lst k) [Get k] (nd [] m) L s) /\
  (forall h, good (cut (P k D) m) -> view s k = Some (prim (leafn k h)) -> exists D', lands k (cut (P k D) m) D' /\
     op_log (sp_delete H pr lst k)
       ([Get k] ++ flat_map (lvl k m) (seq 0 D) ++ map (fun i => Del (T (P k i) m)) (down (S D)) ++ map (pt k (cut (P k D) m)) (down D')) (nd [] m) L s).
Proof.
  intros k m D L s NE G Sd La.
  assert (Root : b32_eqb (T [] m) zero_sum = false).
  { apply b32_eqb_neq. intros Z. revert Z. apply (T_nonzero H U HZ); auto. rewrite sub_root. exact NE. }
  assert (Fail : forall (e : E) (s1 : St) (sc : list scall), exists rn' s' r l, (Build_SpTree (nd [] m) (L ++ [(Get k, Some e)], s1), Val (@Err (SError E) unit (SStorageError e))) =
      (Build_SpTree rn' (L ++ l, s'), Val r) /\ ((r = Ok tt /\ l = map done (Get k :: sc)) \/ sparse_stop (Get k :: sc) l r)).
  { intros e s1 sc. eexists _, s1, _, _. split; [reflexivity|]. right. exists [], (Get k), e, []. split; [|auto].
    exists sc, []. auto. }
  split.
  - intros Vk. unfold op_log, sp_delete. unfold bind at 1. unfold get_state. unfold sp_root. cbn [sp_root_node].
    rewrite (nd_hash H U HZ) by exact G. rewrite Root.
    unfold bind_try at 1. unfold bind at 1. unfold on_storage at 1. cbn [sp_storage sp_root_node]. unfold sst_get. cbn [Logged s_get].
    destruct (s_get st k s) as [s1 [o|e]] eqn:Gt; [|apply (Fail e s1 [])].
    pose proof (law_get_ok _ _ Law _ _ _ _ Gt) as Eo. rewrite Vk in Eo. subst o.
    eexists _, s1, (Ok tt), _. split; [reflexivity|]. left. auto.
  - intros h G' Vk. destruct (delete_path_log k h m D La G G') as (D' & La' & Dp). exists D'. split; [exact La'|].
    set (wk := flat_map (lvl k m) (seq 0 D)) in *.
    set (ws := map (fun i => Del (T (P k i) m)) (down (S D)) ++ map (pt k (cut (P k D) m)) (down D')) in *.
    unfold op_log, sp_delete. unfold bind at 1. unfold get_state. unfold sp_root. cbn [sp_root_node].
    rewrite (nd_hash H U HZ) by exact G. rewrite Root.
    unfold bind_try at 1. unfold bind at 1. unfold on_storage at 1. cbn [sp_storage sp_root_node]. unfold sst_get. cbn [Logged s_get].
    destruct (s_get st k s) as [s1 [o|e]] eqn:Gt; [|apply (Fail e s1 (wk ++ ws))].
    pose proof (law_get_ok _ _ Law _ _ _ _ Gt) as Eo. rewrite Vk in Eo. subst o.
    pose proof (law_get_view _ _ Law _ _ _ _ Gt) as V1. cbn [outcome].
    rewrite try_from_prim. unfold bind_try at 1. unfold bind at 1. unfold on_storage at 1. cbn [sp_storage sp_root_node].
    destruct (path_set_log (leafn k h) k m D (L ++ [(Get k, None)]) s1 G eq_refl La (stored_same m s s1 V1 Sd)) as (s3 & r3 & l3 & Q3 & V3 & R3).
    match goal with |- context [path_set ?a ?b ?c ?d ?e] => replace (path_set a b c d e) with ((((L ++ [(Get k, None)]) ++ l3, s3) : log * St, Val r3)) by (symmetry; exact Q3) end.
    destruct R3 as [[-> ->]|(x & -> & W3)].
    + destruct (Dp (nd [] m) ((L ++ [(Get k, None)]) ++ map done wk) s3) as (rn4 & s4 & r4 & l4 & Q4 & R4).
      eexists rn4, s4, r4, _. split; [etransitivity; [exact Q4|rewrite <- !app_assoc; reflexivity]|].
      destruct R4 as [[-> ->]|(x & -> & W4)]; [left|right].
      * split; [reflexivity|]. rewrite !map_app. reflexivity.
      * apply wstop_sparse. apply (wstop_after [Get k]). apply wstop_after. exact W4.
    + rewrite <- app_assoc. eexists _, s3, (Err x), _. split; [reflexivity|]. right.
      apply (gstop_sparse (Get k) (wk ++ ws)). apply gstop_app. exact W3.
Qed.

(** * One operation of a run *)
Notation lview := (fun ls : log * St => view (snd ls)).
Variable Ks : bytes32 -> Prop.
Lemma op_calls : forall o x rn L s, dinv H lview U Ks x (Build_SpTree rn (L, s)) -> Ks (op_key o) -> fresh H U (op_key o) ->
  good (digests H (fst (replay_op H x o))) ->
  op_log (sp_apply H pr lst o) (script_op H x o) rn L s.
Proof.
  intros o [m d] rn L s [N C Sd Ex] Ko Fr G'. cbn [fst snd sp_storage] in *.
  pose proof (core_root _ _ _ _ _ _ C) as Rn. cbn [sp_root_node] in Rn. subst rn.
  assert (De : forall k, Ks k -> fresh H U k -> good (digests H (fst (replay_op H (m, d) (Delete k)))) ->
    op_log (sp_delete H pr lst k) (script_op H (m, d) (Delete k)) (nd [] (digests H m)) L s).
  { clear G' Fr Ko. intros k Kk Fk G'. cbn [script_op]. destruct m as [|e0 m0].
    - unfold op_log. rewrite (delete_empty H pr lst lview U Ks HZ k _ C). eexists _, s, (Ok tt), []. rewrite app_nil_r. split; [reflexivity|]. left. auto.
    - set (m := e0 :: m0) in *. destruct (lands_exists k (digests H m)) as [D La]; [apply C|].
      cbn [replay_op] in G'. fold m in G'.
      pose proof (cut_landing H k m D N La) as Ec. fold (without_landing k m) in Ec.
      assert (N' : NoDup (keys (without_landing k m))) by (apply without_nodup; exact N).
      destruct (core_users _ _ _ _ _ _ C k Kk Fk) as [Vk|[h Vk]]; cbn [sp_storage snd] in Vk.
      + destruct (delete_log k (digests H m) D L s ltac:(discriminate) (core_good _ _ _ _ _ _ C) Sd La) as [A _].
        pose proof (Ex k) as Q. rewrite Vk in Q. rewrite <- Q. apply A. exact Vk.
      + pose proof (Ex k) as Q. rewrite Vk in Q. rewrite <- Q in G' |- *. cbn [fst] in G'.
        destruct (delete_log k (digests H m) D L s ltac:(discriminate) (core_good _ _ _ _ _ _ C) Sd La) as [_ A].
        rewrite Ec in A. destruct (A h G' Vk) as (D' & La' & R).
        rewrite (walk_lvl k m D N La), (del_path k m D N La), (put_nodes_pt k _ D' N' La'). exact R. }
  destruct o as [k [|b v]|k]; cbn [sp_apply op_key] in *.
  - unfold op_log. rewrite update_nil. apply De; auto.
  - cbn [replay_op fst] in G'. rewrite digests_mset in G'.
    destruct (lands_exists k (digests H m)) as [D La]; [apply C|].
    destruct (update_log k (b :: v) (digests H m) D L s ltac:(discriminate) (core_good _ _ _ _ _ _ C) G' Fr Sd La) as (D' & La' & R).
    cbn [script_op]. rewrite (walk_lvl k m D N La).
    rewrite <- digests_mset in La', R. rewrite (put_nodes_pt k _ D' ltac:(apply mset_nodup; exact N) La').
    rewrite leafn_hash in R by (apply (good_digest H U _ G' k); left; reflexivity). exact R.
  - apply De; auto.
Qed.

Lemma run_calls : forall os x rn L s, dinv H lview U Ks x (Build_SpTree rn (L, s)) -> (forall o, In o os -> Ks (op_key o)) -> (forall o, In o os -> fresh H U (op_key o)) ->
  (forall m, In m (trail H x os) -> NoDup (keys m) -> good (digests H m)) ->
  exists rn' s' r l, sp_run H pr lst os (Build_SpTree rn (L, s)) = (Build_SpTree rn' (L ++ l, s'), Val r) /\
    ((r = Ok tt /\ l = map done (script H x os)) \/
     (exists before o rest l', os = before ++ o :: rest /\ l = map done (script H x before) ++ l' /\
        sparse_stop (script_op H (fold_left (replay_op H) before x) o) l' r)).
Proof.
  pose proof (Logged_lawful _ _ _ _ st view Law) as LLaw.
  induction os as [|o os IH]; intros x rn L s W Kr Fr Gm.
  { exists rn, s, (Ok tt), []. rewrite app_nil_r. split; [reflexivity|]. left. auto. }
  assert (Hd : forall y, In (fst y) (trail H y os)) by (intros y; destruct os; left; reflexivity).
  assert (Fo : fresh H U (op_key o)) by (apply Fr; left; reflexivity).
  assert (Ko : Ks (op_key o)) by (apply Kr; left; reflexivity).
  assert (Go : good (digests H (fst (replay_op H x o)))).
  { apply Gm; [right; apply Hd|]. apply replay_nodup. apply W. }
  destruct (disk_step H pr lst lview LLaw U Ks HC HZ o x _ W Ko Fo Go) as (t1 & r1 & A & R).
  destruct (op_calls o x rn L s W Ko Fo Go) as (rn1 & s1 & r2 & l1 & A2 & R2).
  rewrite A in A2. injection A2 as -> ->.
  cbn [sp_run]. unfold bind_try, bind. rewrite A. destruct R as [(-> & W1)|(e & -> & Se)].
  - destruct R2 as [[_ ->]|(b & c & e & a & _ & Q)].
    2:{ exfalso. destruct c, b; destruct Q as [Q _]; discriminate Q. }
    destruct (IH _ _ _ _ W1) as (rn2 & s2 & r & l & -> & R3); [intros o' Io; apply Kr; right; exact Io|intros o' Io; apply Fr; right; exact Io|intros m Im; apply Gm; right; exact Im|].
    rewrite <- app_assoc. eexists rn2, s2, r, _. split; [reflexivity|]. cbn [script]. destruct R3 as [[-> ->]|(b & o' & rest & l' & -> & -> & St')].
    + left. rewrite map_app. auto.
    + right. exists (o :: b), o', rest, l'. split; [reflexivity|]. cbn [script fold_left]. rewrite map_app, <- app_assoc. auto.
  - destruct R2 as [[Q _]|R2]; [discriminate|]. eexists rn1, s1, (Err e), _. split; [reflexivity|]. right.
    exists [], o, os, l1. split; [reflexivity|]. split; [reflexivity|exact R2].
Qed.
End WithU.

Theorem C96_lemma : forall pr St E (st : StorageT St bytes32 SPrimitive E) view, Lawful st view ->
  forall os s0, (forall k, view s0 k = None) -> hash_ok H (map op_key os) (trail H nothing os) ->
  exists t r, sp_run H pr (Logged st) os (sp_new ([], s0)) = (t, Val r) /\
    ((r = Ok tt /\ fst (sp_storage t) = map done (script H nothing os)) \/
     (exists before o rest l, os = before ++ o :: rest /\ fst (sp_storage t) = map done (script H nothing before) ++ l /\
        sparse_stop (script_op H (replay H before) o) l r)).
Proof.
  intros pr St E st view Law os s0 Em Ok0. destruct (setup H _ _ Ok0) as (HC & HZ & Fr & Gd). set (U := universe H _) in *.
  destruct (winv_new H (fun ls : list (event bytes32 SPrimitive E) * St => view (snd ls)) U ([], s0) Em) as (W & S0 & _).
  destruct (run_calls U HC HZ pr st view Law anyk os nothing snode_placeholder [] s0) as (rn & s & r & l & A & R).
  { constructor; cbn [fst snd nothing]; auto; apply W. }
  { intros o _. exact Logic.I. }
  { intros o Io. apply Fr. apply in_map. exact Io. }
  { exact Gd. }
  exists (Build_SpTree rn (l, s)), r. split; [exact A|]. exact R.
Qed.
End Calls.
