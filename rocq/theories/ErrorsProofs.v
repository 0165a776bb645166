(** ErrorsProofs.v -- errors of the storage are passed on at once. *)
From Verif Require Import Base Storage ModelCommon ModelBinary ModelSparse ModelSum SpecSparse SpecSum SpecCalls SpecErrors SparseAny RunsCalls RunsSparse EndProofs.

Lemma succeeded_app : forall K V E (a b : list (event K V E)), succeeded a -> succeeded b -> succeeded (a ++ b).
Proof. intros. apply Forall_app. auto. Qed.
Lemma succeeded_nil : forall K V E, succeeded (@nil (event K V E)).
Proof. constructor. Qed.

Section Gen.
Context {K V E Er St : Type}.
Variable lg : St -> list (event K V E).
Variable is : E -> Er -> Prop.
Variable stop : list (event K V E) -> call K V -> E -> list (event K V E) -> Er -> Prop.
Hypothesis mono : forall p before c e later er, stop before c e later er -> stop (p ++ before) c e later er.

Definition good {A} (l : list (event K V E)) (o : out (result Er A)) : Prop :=
  (succeeded l /\ (forall er e, o = Val (Err er) -> ~ is e er)) \/ o = Fuel \/
  (exists before c e later er, l = before ++ (c, Some e) :: later /\ succeeded before /\ o = Val (Err er) /\ stop before c e later er).
Definition run {A} (f : M St (result Er A)) : Prop := forall s, reports lg good f s.
Definition quiet {A} (f : M St A) : Prop := forall s, lg (fst (f s)) = lg s.

Lemma good_after : forall A p l (o : out (result Er A)), succeeded p -> good l o -> good (p ++ l) o.
Proof.
  intros A p l o P [[G N]|[F|(b & c & e & x & er & -> & B & -> & Q)]].
  - left. split; [apply succeeded_app; auto|exact N].
  - right. left. exact F.
  - right. right. exists (p ++ b), c, e, x, er. rewrite app_assoc. split; [reflexivity|]. split; [apply succeeded_app; auto|]. auto.
Qed.
Lemma good_nil : forall A (o : out (result Er A)), (forall er e, o = Val (Err er) -> ~ is e er) -> good [] o.
Proof. intros A o N. left. split; [constructor|exact N]. Qed.

Lemma run_ok : forall A (a : A), run (ret (Ok a)).
Proof. intros A a s. exists []. split; [symmetry; apply app_nil_r|]. apply good_nil. discriminate. Qed.
Lemma run_err : forall A er, (forall e, ~ is e er) -> run (A := A) (ret (Err er)).
Proof. intros A er N s. exists []. split; [symmetry; apply app_nil_r|]. apply good_nil. cbn. intros er' e Q. injection Q as <-. apply N. Qed.
Lemma run_panic : forall A, run (A := A) panic.
Proof. intros A s. exists []. split; [symmetry; apply app_nil_r|]. apply good_nil. discriminate. Qed.
Lemma run_fuel : forall A, run (A := A) fuel_out.
Proof. intros A s. exists []. split; [symmetry; apply app_nil_r|]. right. left. reflexivity. Qed.
Lemma run_bind : forall A B (f : M St A) (g : A -> M St (result Er B)), quiet f -> (forall a, run (g a)) -> run (bind f g).
Proof.
  intros A B f g Q G s. specialize (Q s). unfold reports, bind. destruct (f s) as [s' [a| |]]; cbn [fst snd] in *.
  - destruct (G a s') as (l & L & P). exists l. rewrite L, Q. auto.
  - exists []. split; [rewrite app_nil_r; exact Q|]. apply good_nil. discriminate.
  - exists []. split; [rewrite app_nil_r; exact Q|]. right. left. reflexivity.
Qed.
Lemma run_try : forall A B (f : M St (result Er A)) (g : A -> M St (result Er B)), run f -> (forall a, run (g a)) -> run (bind_try f g).
Proof.
  intros A B f g F G s. destruct (F s) as (l & L & P). unfold reports, bind_try, bind. destruct (f s) as [s' [[a|er]| |]]; cbn [fst snd ret] in *.
  - destruct P as [[P _]|[P|(b & c & e & x & er & _ & _ & P & _)]]; try discriminate.
    destruct (G a s') as (l' & L' & P'). exists (l ++ l'). rewrite L', L, app_assoc. split; [reflexivity|]. apply good_after; assumption.
  - exists l. split; [exact L|]. destruct P as [[P N]|[P|(b & c & e & x & er' & Q & B' & P & S')]]; try discriminate.
    + left. split; [exact P|]. intros er' e Q. injection Q as <-. apply N. reflexivity.
    + injection P as <-. right. right. exists b, c, e, x, er. auto.
  - exists l. split; [exact L|]. destruct P as [[P N]|[P|(b & c & e & x & er' & Q & B' & P & S')]]; try discriminate.
    left. split; [exact P|discriminate].
  - exists l. split; [exact L|]. right. left. reflexivity.
Qed.
Lemma quiet_lift : forall A (o : out A), quiet (lift o).
Proof. intros A o s. reflexivity. Qed.
Lemma quiet_state : quiet get_state.
Proof. intros s. reflexivity. Qed.
Lemma quiet_bind : forall A B (f : M St A) (g : A -> M St B), quiet f -> (forall a, quiet (g a)) -> quiet (bind f g).
Proof.
  intros A B f g Q G s. specialize (Q s). unfold bind. destruct (f s) as [s' [a| |]]; cbn [fst] in *; [|exact Q..]. rewrite G. exact Q.
Qed.
Lemma run_if : forall A (b : bool) (f g : M St (result Er A)), run f -> run g -> run (if b then f else g).
Proof. intros A [|] f g F G; assumption. Qed.
End Gen.
Arguments good {K V E Er} is stop {A} l o.

Definition at_once {K V E Er} (is : E -> Er -> Prop) (before : list (event K V E)) (c : call K V) (e : E) (later : list (event K V E)) (er : Er) : Prop :=
  later = [] /\ is e er.
Lemma at_once_mono : forall K V E Er (is : E -> Er -> Prop) p before (c : call K V) e later er,
  at_once is before c e later er -> at_once is (p ++ before) c e later er.
Proof. auto. Qed.
Lemma good_passed : forall K V E Er A is (l : list (event K V E)) (o : out (result Er A)), o <> Fuel -> good is (at_once is) l o -> passed_on is l o.
Proof.
  intros K V E Er A is l o NF [G|[F|(b & c & e & x & er & -> & B & Q & -> & Q')]]; [|contradiction|]; split; auto.
  right. exists b, c, e, er. auto.
Qed.

Section Binary.
Variable H : list byte -> bytes32.
Variable pr : profile.
Context {S E : Type}.
Variable st : StorageT S Z BPrimitive E.
Notation LS := (list (event Z BPrimitive E) * S)%type.
Notation brun := (run (St := BTree LS) b_log b_is (at_once b_is)).
Notation srun := (run (St := LS) fst b_is (at_once b_is)).

Lemma e_bst_get : forall k, srun (bst_get (Logged st) k).
Proof.
  intros k [l s]. unfold bst_get. cbn. destruct (s_get st k s) as [s' [o|e]] eqn:Q; unfold reports; cbn; rewrite Q; cbn.
  - exists [(Get k, None)]. split; [reflexivity|]. left. split; [repeat constructor|discriminate].
  - exists [(Get k, Some e)]. split; [reflexivity|]. right. right. exists [], (Get k), e, [], (BStorageError e). repeat split. constructor.
Qed.
Lemma e_bt_get : forall k, brun (bt_get (Logged st) k).
Proof.
  intros k [s h n]. destruct (e_bst_get k s) as (l & L & P). unfold reports, bt_get, b_log. cbn [bt_storage].
  destruct (bst_get (Logged st) k s) as [s' r]. cbn [fst snd bt_storage] in *. exists l. auto.
Qed.
Lemma e_bt_insert : forall k v, brun (bt_insert (Logged st) k v).
Proof.
  intros k v [[l s] h n]. unfold reports, bt_insert, b_log. cbn. destruct (s_insert st k v s) as [s' [o|e]]; cbn.
  - exists [(Put k v, None)]. split; [reflexivity|]. left. split; [repeat constructor|discriminate].
  - exists [(Put k v, Some e)]. split; [reflexivity|]. right. right. exists [], (Put k v), e, [], (BStorageError e). repeat split. constructor.
Qed.
Lemma e_join : forall f, brun (bt_join_all_subtrees_loop H pr (Logged st) f).
Proof.
  induction f as [|f IH]; cbn [bt_join_all_subtrees_loop]; [apply run_fuel|]. apply run_bind; [apply quiet_state|]. intros t.
  destruct (bt_head t) as [|x [|y l]]; [apply run_panic|apply run_ok|]. apply run_if; [|apply run_ok].
  apply run_bind; [intros s; reflexivity|]. intros _. apply run_bind; [apply quiet_lift|]. intros j.
  apply run_try; [apply at_once_mono|apply e_bt_insert|]. intros _. apply run_bind; [intros s; reflexivity|]. intros _. exact IH.
Qed.
Lemma e_push : forall d, brun (bt_push H pr (Logged st) d).
Proof.
  intros d. unfold bt_push. apply run_bind; [apply quiet_state|]. intros t. apply run_bind; [apply quiet_lift|]. intros n.
  apply run_try; [apply at_once_mono|apply e_bt_insert|]. intros _. apply run_bind; [apply quiet_state|]. intros t'.
  apply run_bind; [intros s; reflexivity|]. intros _. apply run_try; [apply at_once_mono| |].
  - unfold bt_join_all_subtrees. apply run_bind; [apply quiet_state|]. intros t2. apply e_join.
  - intros _. apply run_bind; [apply quiet_state|]. intros t3. apply run_bind; [apply quiet_lift|]. intros c.
    apply run_bind; [intros s; reflexivity|]. intros _. apply run_ok.
Qed.
Lemma e_prove_loop : forall sc l ps, brun (bt_prove_loop (Logged st) sc l ps).
Proof.
  intros sc. induction l as [|k l IH]; intros ps; cbn [bt_prove_loop]; [apply run_ok|]. apply run_try; [apply at_once_mono|apply e_bt_get|]. intros o.
  destruct (match smap_lookup Z.eqb sc k with Some p => Some p | None => o end); [apply IH|apply run_err; discriminate].
Qed.
Lemma e_prove : forall i, brun (bt_prove H pr (Logged st) i).
Proof.
  intros i. unfold bt_prove. apply run_bind; [apply quiet_state|]. intros t. apply run_bind; [apply quiet_lift|]. intros n.
  apply run_if; [apply run_err; discriminate|]. apply run_bind; [apply quiet_lift|]. intros rp. apply run_bind; [apply quiet_lift|]. intros lp.
  apply run_try; [apply at_once_mono|apply e_bt_get|]. intros [p|]; [|apply run_err; discriminate].
  apply run_bind; [apply quiet_lift|]. intros path. cbv zeta. apply run_bind; [apply quiet_lift|].
  intros [[rn|] sc]; [|apply run_panic]. apply run_try; [apply at_once_mono|apply e_prove_loop|]. intros ps. apply run_ok.
Qed.
Lemma e_build : forall ps l, srun (bt_build_loop (Logged st) ps l).
Proof.
  induction ps as [|k ps IH]; intros l; cbn [bt_build_loop]; [apply run_ok|]. apply run_try; [apply at_once_mono|apply e_bst_get|].
  intros [p|]; [apply IH|apply run_err; discriminate].
Qed.
Lemma e_load : forall n, srun (bt_load pr (Logged st) n).
Proof.
  intros n. unfold bt_load. apply run_bind; [apply quiet_lift|]. intros ps. apply run_try; [apply at_once_mono|apply e_build|]. intros h.
  apply run_bind; [apply quiet_state|]. intros s. apply run_ok.
Qed.
End Binary.

Lemma passed_run : forall K V E Er St A lg (is : E -> Er -> Prop) (f : M St (result Er A)) s,
  snd (f s) <> Fuel -> run (K := K) (V := V) lg is (at_once is) f -> reports lg (passed_on is) f s.
Proof. intros K V E Er St A lg is f s NF R. destruct (R s) as (l & L & G). exists l. split; [exact L|]. apply good_passed; assumption. Qed.

Lemma C112_binary_lemma : forall H pr S E (st : StorageT S Z BPrimitive E) (t : BTree (list (event Z BPrimitive E) * S)),
  (forall d, reports b_log (passed_on b_is) (bt_push H pr (Logged st) d) t) /\
  (forall i, reports b_log (passed_on b_is) (bt_prove H pr (Logged st) i) t) /\
  (forall n ls, reports fst (passed_on b_is) (bt_load pr (Logged st) n) ls).
Proof.
  intros H pr S E st t. repeat split; intros; apply passed_run.
  - apply bt_push_ends.
  - apply e_push.
  - apply bt_prove_ends.
  - apply e_prove.
  - apply bt_load_ends.
  - apply e_load.
Qed.

Section Sum.
Variable H : list byte -> bytes32.
Variable pr : profile.
Context {S E : Type}.
Variable st : StorageT S bytes32 MNode E.
Notation LS := (list (event bytes32 MNode E) * S)%type.
Notation mrun := (run (St := MTree LS) m_log m_is (at_once m_is)).

Lemma e_mt_insert : forall k v, mrun (mt_insert (Logged st) k v).
Proof.
  intros k v [[l s] h]. unfold reports, mt_insert, m_log. cbn. destruct (s_insert st k v s) as [s' [o|e]]; cbn.
  - exists [(Put k v, None)]. split; [reflexivity|]. left. split; [repeat constructor|discriminate].
  - exists [(Put k v, Some e)]. split; [reflexivity|]. right. right. exists [], (Put k v), e, [], e. repeat split. constructor.
Qed.
Lemma e_mt_join : forall x y, mrun (mt_join_subtrees H pr (Logged st) x y).
Proof.
  intros x y. unfold mt_join_subtrees. apply run_bind; [apply quiet_lift|]. intros h. apply run_bind; [apply quiet_lift|]. intros n.
  apply run_try; [apply at_once_mono|apply e_mt_insert|]. intros _. apply run_ok.
Qed.
Lemma e_mt_root_loop : forall l c, mrun (mt_root_node_loop H pr (Logged st) c l).
Proof. induction l as [|x l IH]; intros c; cbn [mt_root_node_loop]; [apply run_ok|]. apply run_try; [apply at_once_mono|apply e_mt_join|exact IH]. Qed.
Lemma e_mt_root : mrun (mt_root H pr (Logged st)).
Proof.
  unfold mt_root, mt_root_node. apply run_try; [apply at_once_mono| |intros [n|]; apply run_ok]. apply run_bind; [apply quiet_state|]. intros t.
  destruct (mt_head t) as [|x l]; [apply run_ok|]. apply run_try; [apply at_once_mono|apply e_mt_root_loop|]. intros n. apply run_ok.
Qed.
Lemma e_mt_join_all : forall f, mrun (mt_join_all_subtrees_loop H pr (Logged st) f).
Proof.
  induction f as [|f IH]; cbn [mt_join_all_subtrees_loop]; [apply run_fuel|]. apply run_bind; [apply quiet_state|]. intros t.
  destruct (mt_head t) as [|x [|y l]]; [apply run_panic|apply run_ok|]. apply run_if; [|apply run_ok].
  apply run_bind; [intros s; reflexivity|]. intros _. apply run_try; [apply at_once_mono|apply e_mt_join|]. intros j.
  apply run_bind; [intros s; reflexivity|]. intros _. exact IH.
Qed.
Lemma e_mt_push : forall f d, mrun (mt_push H pr (Logged st) f d).
Proof.
  intros f d. unfold mt_push. cbv zeta. apply run_try; [apply at_once_mono|apply e_mt_insert|]. intros _. apply run_bind; [apply quiet_state|]. intros t.
  apply run_bind; [intros s; reflexivity|]. intros _. apply run_try; [apply at_once_mono| |intros _; apply run_ok].
  unfold mt_join_all_subtrees. apply run_bind; [apply quiet_state|]. intros t2. apply e_mt_join_all.
Qed.
End Sum.

Lemma C112_sum_lemma : forall H pr S E (st : StorageT S bytes32 MNode E) (t : MTree (list (event bytes32 MNode E) * S)),
  (forall fee d, reports m_log (passed_on m_is) (mt_push H pr (Logged st) fee d) t) /\
  reports m_log (passed_on m_is) (mt_root H pr (Logged st)) t.
Proof.
  intros H pr S E st t. split; intros; apply passed_run.
  - apply mt_push_ends.
  - apply e_mt_push.
  - apply mt_root_ends.
  - apply e_mt_root.
Qed.

(** * The sparse tree *)
Definition late {E} (before : list (event bytes32 SPrimitive E)) (c : call bytes32 SPrimitive) (e : E)
    (later : list (event bytes32 SPrimitive E)) (er : SError E) : Prop :=
  (later = [] /\ er = SStorageError e) \/
  (is_get c /\ Forall (fun x => is_get (fst x)) later /\ (length later <= 2)%nat /\ er = SChildErr (ChildErr (SNStorageError e))) \/
  (is_get c /\ Forall (fun x => is_get (fst x)) later /\
   exists before' k between, before = before' ++ done (Get k) :: between /\ Forall (fun x => is_get (fst x)) between /\
     (length between + length later <= 1)%nat /\ bad_entry k er).
Lemma late_mono : forall E p before c (e : E) later er, late before c e later er -> late (p ++ before) c e later er.
Proof.
  intros E p before c e later er [L|[L|(G & F & b & k & w & -> & R)]]; [left; exact L|right; left; exact L|].
  right. right. split; [exact G|]. split; [exact F|]. exists (p ++ b), k, w. rewrite app_assoc. auto.
Qed.

Section Sparse.
Variable H : list byte -> bytes32.
Variable pr : profile.
Context {S E : Type}.
Variable st : StorageT S bytes32 SPrimitive E.
Notation ev := (event bytes32 SPrimitive E).
Notation LS := (list ev * S)%type.
Notation trun := (run (St := SpTree LS) s_log s_is late).
Notation srun := (run (St := LS) fst s_is late).

(** What a read of a child logs and answers. *)
Inductive rd : list ev -> result (SChildError E) SNode -> Prop :=
| rd_none : forall n, rd [] (Ok n)
| rd_ok : forall k n, rd [(Get k, None)] (Ok n)
| rd_bad : forall k er, bad_entry k (SChildErr er) -> rd [(Get k, None)] (Err er)
| rd_fail : forall k e, rd [(Get k, Some e)] (Err (ChildErr (SNStorageError e))).

Lemma read_rd : forall k s, exists s' l r, read_child (Logged st) k s = (s', Val r) /\ fst s' = fst s ++ l /\ rd l r.
Proof.
  intros k [l s]. unfold read_child. destruct (b32_eqb k zero_sum).
  - exists (l, s), [], (Ok snode_placeholder). split; [reflexivity|]. split; [symmetry; apply app_nil_r|constructor].
  - cbn. destruct (s_get st k s) as [s' [[p|]|e]]; cbn.
    + destruct (snode_try_from p) as [n|d]; eexists; eexists; eexists; (split; [reflexivity|]); (split; [cbn; reflexivity|]);
        [apply rd_ok|apply rd_bad; right; exists d; reflexivity].
    + eexists; eexists; eexists; (split; [reflexivity|]); (split; [cbn; reflexivity|]). apply rd_bad. left. reflexivity.
    + eexists; eexists; eexists; (split; [reflexivity|]); (split; [cbn; reflexivity|]). apply rd_fail.
Qed.
Lemma left_rd : forall n s, snode_is_node n = true -> snode_is_leaf n = false ->
  exists s' l r, storage_node_left_child (Logged st) n s = (s', Val r) /\ fst s' = fst s ++ l /\ rd l r.
Proof.
  intros n s N L. unfold storage_node_left_child, snode_left_child_key. rewrite L, N. cbn [assert obind]. unfold bind, lift.
  apply read_rd.
Qed.
Lemma right_rd : forall n s, snode_is_node n = true -> snode_is_leaf n = false ->
  exists s' l r, storage_node_right_child (Logged st) n s = (s', Val r) /\ fst s' = fst s ++ l /\ rd l r.
Proof.
  intros n s N L. unfold storage_node_right_child, snode_right_child_key. rewrite L, N. cbn [assert obind]. unfold bind, lift.
  apply read_rd.
Qed.

(** One step of the walk from a node. *)
Lemma next_rd : forall it n side k s, it_current it = Some (Ok n, side) -> snode_leaf_key (it_leaf it) = Val k ->
  exists s' it' l, path_iter_next (StorageNode (Logged st)) it s = (s', Val (it_current it, it')) /\ fst s' = fst s ++ l /\
    it_leaf it' = it_leaf it /\
    ((l = [] /\ it_current it' = None) \/ (l = [] /\ it_current it' = Some (Err NodeIsLeaf, Err NodeIsLeaf)) \/
     (exists l1 l2 r1 r2, l = l1 ++ l2 /\ rd l1 r1 /\ rd l2 r2 /\ it_current it' = Some (r1, r2))).
Proof.
  intros it n side k s C LK. unfold path_iter_next. rewrite C. cbn [pn_is_node pn_leaf_key pn_left_child pn_right_child StorageNode].
  destruct (snode_is_node n) eqn:N.
  2: { eexists; eexists; exists []. split; [reflexivity|]. split; [symmetry; apply app_nil_r|]. split; [reflexivity|]. left. auto. }
  rewrite LK. unfold bind at 1, lift at 1. cbn [obind].
  destruct (get_instruction _ (it_current_offset it)) as [[|]|].
  3: { eexists; eexists; exists []. split; [reflexivity|]. split; [symmetry; apply app_nil_r|]. split; [reflexivity|]. left. auto. }
  - destruct (snode_is_leaf n) eqn:L.
    + unfold storage_node_left_child, storage_node_right_child. rewrite L. eexists; eexists; exists []. split; [reflexivity|].
      split; [symmetry; apply app_nil_r|]. split; [reflexivity|]. right. left. auto.
    + destruct (left_rd n s N L) as (s1 & l1 & r1 & Q1 & L1 & R1). destruct (right_rd n s1 N L) as (s2 & l2 & r2 & Q2 & L2 & R2).
      unfold bind. rewrite Q1, Q2. eexists; eexists; exists (l1 ++ l2). split; [reflexivity|].
      split; [rewrite L2, L1, app_assoc; reflexivity|]. split; [reflexivity|]. right. right. exists l1, l2, r1, r2. auto.
  - destruct (snode_is_leaf n) eqn:L.
    + unfold storage_node_left_child, storage_node_right_child. rewrite L. eexists; eexists; exists []. split; [reflexivity|].
      split; [symmetry; apply app_nil_r|]. split; [reflexivity|]. right. left. auto.
    + destruct (right_rd n s N L) as (s1 & l1 & r1 & Q1 & L1 & R1). destruct (left_rd n s1 N L) as (s2 & l2 & r2 & Q2 & L2 & R2).
      unfold bind. rewrite Q1, Q2. eexists; eexists; exists (l1 ++ l2). split; [reflexivity|].
      split; [rewrite L2, L1, app_assoc; reflexivity|]. split; [reflexivity|]. right. right. exists l1, l2, r1, r2. auto.
Qed.
Lemma rd_short : forall l r, rd l r -> Forall (fun x => is_get (fst x)) l /\ (length l <= 1)%nat.
Proof. intros l r []; (split; [repeat constructor|cbn; lia]). Qed.

(** The walk ends at an error of the child on the path. *)
Lemma collect_path_err : forall f it e x s, it_current it = Some (Err e, x) ->
  path_set_collect (Logged st) f it s = (s, Val (Err (SChildErr e))) \/ path_set_collect (Logged st) f it s = (s, Fuel).
Proof.
  intros [|f] it e x s C; [right; reflexivity|left]. cbn [path_set_collect]. unfold path_iter_next. rewrite C. reflexivity.
Qed.
(** The walk ends at an error of the other child, after reading ahead. *)
Lemma collect_side_err : forall f it n e k s, it_current it = Some (Ok n, Err e) -> snode_leaf_key (it_leaf it) = Val k ->
  exists s' l o, path_set_collect (Logged st) f it s = (s', o) /\ fst s' = fst s ++ l /\ Forall (fun x => is_get (fst x)) l /\ (length l <= 2)%nat /\
    (o = Val (Err (SChildErr e)) \/ o = Fuel).
Proof.
  intros [|f] it n e k s C LK.
  - exists s, [], Fuel. split; [reflexivity|]. split; [symmetry; apply app_nil_r|]. split; [constructor|]. split; [cbn; lia|]. right. reflexivity.
  - cbn [path_set_collect]. destruct (next_rd it n (Err e) k s C LK) as (s' & it' & l & Q & L & _ & D). unfold bind. rewrite Q, C.
    exists s', l, (Val (Err (SChildErr e))). split; [reflexivity|]. split; [exact L|].
    destruct D as [[-> _]|[[-> _]|(l1 & l2 & r1 & r2 & -> & R1 & R2 & _)]]; [split; [constructor|split; [cbn; lia|auto]]..|].
    apply rd_short in R1, R2. destruct R1 as [F1 N1], R2 as [F2 N2]. split; [apply Forall_app; auto|]. rewrite app_length. split; [lia|auto].
Qed.

(** A list of at most two reads: all succeeded, or one of them is the first to fail. *)
Lemma reads_split : forall l : list ev, succeeded l \/ exists a c e b, l = a ++ (c, Some e) :: b /\ succeeded a.
Proof.
  induction l as [|[c [e|]] l IH]; [left; constructor|right; exists [], c, e, l; split; [reflexivity|constructor]|].
  destruct IH as [G|(a & c' & e' & b & -> & G)]; [left; constructor; auto|right]. exists ((c, None) :: a), c', e', b. split; [reflexivity|]. constructor; auto.
Qed.
(** An entry was missing or wrong; the reads made ahead do not matter. *)
Lemma good_bad : forall A k er ahead, bad_entry k er -> Forall (fun x : ev => is_get (fst x)) ahead -> (length ahead <= 2)%nat ->
  good (A := A) s_is late ((Get k, None) :: ahead) (Val (Err er)).
Proof.
  intros A k er ahead B F N. destruct (reads_split ahead) as [G|(a & c & e & b & -> & G)].
  - left. split; [constructor; auto|]. intros er' e Q. injection Q as <-. destruct B as [->|(d & ->)]; intros [X|X]; discriminate.
  - right. right. apply Forall_app in F. destruct F as [Fa Fb]. inversion Fb; subst. exists ((Get k, None) :: a), c, e, b, er.
    split; [reflexivity|]. split; [constructor; auto|]. split; [reflexivity|]. right. right. split; [assumption|]. split; [assumption|].
    exists [], k, a. rewrite app_length in N. cbn [length] in N. repeat split; auto. unfold event in *. lia.
Qed.
Lemma good_fail : forall A k e ahead, Forall (fun x : ev => is_get (fst x)) ahead -> (length ahead <= 2)%nat ->
  good (A := A) s_is late ((Get k, Some e) :: ahead) (Val (Err (SChildErr (ChildErr (SNStorageError e))))).
Proof.
  intros A k e ahead F N. right. right. exists [], (Get k), e, ahead. eexists. split; [reflexivity|]. split; [constructor|]. split; [reflexivity|].
  right. left. repeat split; auto.
Qed.

Lemma collect_run : forall f it s, it_current it = None \/ (exists n m, it_current it = Some (Ok n, Ok m)) ->
  reports fst (good s_is late) (path_set_collect (Logged st) f it) s.
Proof.
  induction f as [|f IH]; intros it s C; [exact (run_fuel fst s_is late _ s)|]. cbn [path_set_collect].
  destruct C as [C|(n & m & C)].
  { unfold path_iter_next. rewrite C. exact (run_ok fst s_is late _ _ s). }
  destruct (snode_leaf_key (it_leaf it)) as [k| |] eqn:LK.
  2,3: unfold path_iter_next; rewrite C; cbn [pn_is_node pn_leaf_key StorageNode]; destruct (snode_is_node n);
    [rewrite LK; unfold reports, bind; cbn; exists []; (split; [symmetry; apply app_nil_r|]);
       first [right; left; reflexivity|left; split; [constructor|discriminate]]|].
  - destruct (next_rd it n (Ok m) k s C LK) as (s' & it' & l & Q & L & LF & D). unfold reports, bind at 1 2. rewrite Q, C.
    assert (U : exists l2, fst (fst (path_set_collect (Logged st) f it' s')) = fst s' ++ l2 /\
      good s_is late (l ++ l2) (snd (path_set_collect (Logged st) f it' s'))).
    { destruct D as [[-> C']|[[-> C']|(l1 & l2 & r1 & r2 & -> & R1 & R2 & C')]].
      - destruct (IH it' s' (or_introl C')) as (l2 & L2 & G2). exists l2. auto.
      - exists []. destruct (collect_path_err f it' _ _ s' C') as [->| ->]; cbn [fst snd]; (split; [symmetry; apply app_nil_r|]).
        + left. split; [constructor|]. intros er e Q'. injection Q' as <-. intros [X|X]; discriminate.
        + right. left. reflexivity.
      - assert (OK : forall l, rd l r1 -> (exists x, r1 = Ok x) -> succeeded l).
        { intros l0 R [x X]. destruct R; try discriminate X; repeat constructor. }
        destruct r1 as [n1|e1].
        + specialize (OK l1 R1 (ex_intro _ n1 eq_refl)). rewrite <- LF in LK.
          destruct r2 as [n2|e2].
          * destruct (IH it' s' (or_intror (ex_intro _ n1 (ex_intro _ n2 C')))) as (l3 & L3 & G3). exists l3. split; [exact L3|].
            apply good_after; [apply late_mono| |exact G3]. apply succeeded_app; [exact OK|]. inversion R2; subst; repeat constructor.
          * destruct (collect_side_err f it' n1 e2 k s' C' LK) as (s3 & l3 & o & Q3 & L3 & F3 & N3 & O3). rewrite Q3. cbn [fst snd].
            exists l3. split; [exact L3|]. rewrite <- app_assoc. apply good_after; [apply late_mono|exact OK|].
            destruct O3 as [->| ->]; [|right; left; reflexivity]. inversion R2; subst; cbn [app]; [apply good_bad|apply good_fail]; assumption.
        + exists []. destruct (collect_path_err f it' _ _ s' C') as [->| ->]; cbn [fst snd]; (split; [symmetry; apply app_nil_r|]);
            [|right; left; reflexivity]. rewrite app_nil_r. apply rd_short in R2. destruct R2 as [F2 N2].
          inversion R1; subst; cbn [app]; [apply good_bad|apply good_fail]; auto; lia. }
    destruct U as (l2 & L2 & G2). exists (l ++ l2). unfold bind_try, bind. rewrite app_assoc, <- L.
    destruct (path_set_collect (Logged st) f it' s') as [s2 [[r|er]| |]]; cbn [fst snd ret] in *; (split; [exact L2|]).
    + destruct G2 as [[G' _]|[G'|(b & c & e & x & er & _ & _ & G' & _)]]; try discriminate. left. split; [exact G'|discriminate].
    + destruct G2 as [[G' N]|[G'|(b & c & e & x & er' & Q' & B' & G' & S')]]; try discriminate.
      * left. split; [exact G'|]. intros er' e Q'. injection Q' as <-. apply N. reflexivity.
      * injection G' as <-. right. right. exists b, c, e, x, er. auto.
    + destruct G2 as [[G' N]|[G'|(b & c & e & x & er' & Q' & B' & G' & S')]]; try discriminate. left. split; [exact G'|discriminate].
    + right. left. reflexivity.
  - exact (run_try fst s_is late (@late_mono E) _ _ _ _ (fun s' => IH (Build_PathIter (it_leaf it) None (it_current_offset it)) s' (or_introl eq_refl)) (fun r => run_ok fst s_is late _ _) s).
  - exact (run_try fst s_is late (@late_mono E) _ _ _ _ (fun s' => IH (Build_PathIter (it_leaf it) None (it_current_offset it)) s' (or_introl eq_refl)) (fun r => run_ok fst s_is late _ _) s).
Qed.

Lemma e_path_set : forall root leaf, srun (path_set pr (Logged st) root leaf).
Proof.
  intros root leaf. unfold path_set, path_iter_new. destruct (usize_ovf pr _) as [off| |]; cbn [obind].
  2: intros s; exact (run_panic fst s_is late _ s).
  2: intros s; exact (run_fuel fst s_is late _ s).
  apply run_try; [apply late_mono| |].
  - intros s. apply collect_run. right. exists root, root. reflexivity.
  - intros l. apply run_ok.
Qed.
Lemma e_on : forall A (f : M LS (result (SError E) A)), srun f -> trun (on_storage f).
Proof.
  intros A f F [n s]. destruct (F s) as (l & L & G). unfold reports, on_storage, s_log. cbn [sp_storage].
  destruct (f s) as [s' r]. cbn [fst snd sp_storage] in *. exists l. auto.
Qed.
Lemma e_get : forall k, srun (sst_get (Logged st) k).
Proof.
  intros k [l s]. unfold reports, sst_get. cbn. destruct (s_get st k s) as [s' [o|e]]; cbn.
  - exists [(Get k, None)]. split; [reflexivity|]. left. split; [repeat constructor|discriminate].
  - exists [(Get k, Some e)]. split; [reflexivity|]. right. right. exists [], (Get k), e, [], (SStorageError e). repeat split; [constructor|left; auto].
Qed.
Lemma e_insert : forall k v, srun (sst_insert (Logged st) k v).
Proof.
  intros k v [l s]. unfold reports, sst_insert. cbn. destruct (s_insert st k v s) as [s' [o|e]]; cbn.
  - exists [(Put k v, None)]. split; [reflexivity|]. left. split; [repeat constructor|discriminate].
  - exists [(Put k v, Some e)]. split; [reflexivity|]. right. right. exists [], (Put k v), e, [], (SStorageError e). repeat split; [constructor|left; auto].
Qed.
Lemma e_remove : forall k, srun (sst_remove (Logged st) k).
Proof.
  intros k [l s]. unfold reports, sst_remove. cbn. destruct (s_remove st k s) as [s' [o|e]]; cbn.
  - exists [(Del k, None)]. split; [reflexivity|]. left. split; [repeat constructor|discriminate].
  - exists [(Del k, Some e)]. split; [reflexivity|]. right. right. exists [], (Del k), e, [], (SStorageError e). repeat split; [constructor|left; auto].
Qed.
Ltac try_ := apply run_try; [apply late_mono| |].
Ltac lift_ := apply run_bind; [apply quiet_lift|].
Ltac state_ := apply run_bind; [apply quiet_state|].
Lemma e_sjoin : forall k a b, srun (join_and_store H pr (Logged st) k a b).
Proof. intros k a b. unfold join_and_store. lift_. intros n. try_; [apply e_insert|]. intros _. apply run_ok. Qed.
Lemma e_merge : forall k l n, srun (merge_side_nodes H pr (Logged st) k n l).
Proof. intros k. induction l as [|a l IH]; intros n; cbn [merge_side_nodes]; [apply run_ok|]. try_; [apply e_sjoin|exact IH]. Qed.
Lemma e_remove_path : forall l, srun (remove_path_nodes H (Logged st) l).
Proof. induction l as [|a l IH]; cbn [remove_path_nodes]; [apply run_ok|]. try_; [apply e_remove|intros _; exact IH]. Qed.
Lemma q_set : forall n, quiet (St := SpTree LS) s_log (sp_set_root_node pr n).
Proof. intros n. unfold sp_set_root_node. apply quiet_bind; [apply quiet_lift|]. intros _ s. reflexivity. Qed.
Lemma e_update_path : forall leaf ps ss, trun (update_with_path_set H pr (Logged st) leaf ps ss).
Proof.
  intros leaf ps ss. unfold update_with_path_set. lift_. intros path. destruct ps as [|a ps]; [apply run_panic|]. lift_. intros ak. try_.
  - apply run_if; [|apply run_ok]. try_.
    + apply run_if; [apply e_on, e_sjoin|apply run_ok].
    + intros c. lift_. intros d. apply e_on, e_merge.
  - intros c. try_; [apply e_on, e_merge|]. intros c'. apply run_bind; [apply q_set|]. intros _. apply run_ok.
Qed.
Lemma e_delete_path : forall leaf ps ss, trun (delete_with_path_set H pr (Logged st) leaf ps ss).
Proof.
  intros leaf ps ss. unfold delete_with_path_set. try_; [apply e_on, e_remove_path|]. intros _. lift_. intros path. try_.
  - destruct ss as [|f rest]; [apply run_ok|]. apply run_if; [|apply run_ok].
    destruct (find_non_placeholder rest) as [[n|] r']; [|apply run_ok]. try_; [apply e_on, e_sjoin|]. intros c. apply run_ok.
  - intros [c ss']. try_; [apply e_on, e_merge|]. intros c'. apply run_bind; [apply q_set|]. intros _. apply run_ok.
Qed.
Lemma e_delete : forall k, trun (sp_delete H pr (Logged st) k).
Proof.
  intros k. unfold sp_delete. state_. intros t. apply run_if; [apply run_ok|].
  try_; [apply e_on, e_get|]. intros [p|]; [|apply run_ok].
  destruct (snode_try_from p); [|apply run_err; intros e' [X|X]; discriminate].
  try_; [apply e_on, e_path_set|]. intros [ps ss]. apply e_delete_path.
Qed.
Lemma e_update : forall k v, trun (sp_update H pr (Logged st) k v).
Proof.
  intros k [|b v]; unfold sp_update.
  - try_; [apply e_delete|]. intros _. apply run_ok.
  - cbv zeta. try_; [apply e_on, e_insert|]. intros _. lift_. intros lk.
    try_; [apply e_on, e_insert|]. intros _. state_. intros t.
    apply run_if; [apply run_bind; [apply q_set|intros _; apply run_ok]|].
    try_; [apply e_on, e_path_set|]. intros [ps ss]. apply e_update_path.
Qed.
Lemma e_sload : forall r, run (St := LS) fst s_is (at_once s_is) (sp_load (Logged st) r).
Proof.
  intros r. unfold sp_load. apply run_try; [apply at_once_mono| |].
  - intros [l s]. unfold reports, sst_get. cbn. destruct (s_get st r s) as [s' [o|e]]; cbn.
    + exists [(Get r, None)]. split; [reflexivity|]. left. split; [repeat constructor|discriminate].
    + exists [(Get r, Some e)]. split; [reflexivity|]. right. right. exists [], (Get r), e, [], (SStorageError e). repeat split; [constructor|left; reflexivity].
  - intros [p|]; [|apply run_err; intros e [X|X]; discriminate]. destruct (snode_try_from p); [|apply run_err; intros e' [X|X]; discriminate].
    apply run_bind; [apply quiet_state|]. intros s. apply run_ok.
Qed.
End Sparse.

Lemma good_late : forall E A l (o : out (result (SError E) A)), o <> Fuel -> good s_is late l o -> passed_on_late l o.
Proof. intros E A l o NF [G|[F|G]]; [|contradiction|]; (split; [exact NF|]); [left|right]; exact G. Qed.

Lemma C112_sparse_lemma : forall H pr S E (st : StorageT S bytes32 SPrimitive E) (t : SpTree (list (event bytes32 SPrimitive E) * S)),
  (forall k v, reports s_log passed_on_late (sp_update H pr (Logged st) k v) t) /\
  (forall k, reports s_log passed_on_late (sp_delete H pr (Logged st) k) t) /\
  (forall r ls, reports fst (passed_on s_is) (sp_load (Logged st) r) ls).
Proof.
  intros H pr S E st t.
  assert (NU : forall o, snd (sp_apply H pr (Logged st) o t) <> Fuel).
  { intros o Q. apply (sp_calls_end H pr _ _ (Logged st) [o] t). cbn [sp_run_all]. unfold bind.
    destruct (sp_apply H pr (Logged st) o t) as [t' r]. cbn [snd] in Q. subst r. reflexivity. }
  split; [|split].
  - intros k v. destruct (e_update H pr st k v t) as (l & L & G). exists l. split; [exact L|]. apply good_late; [apply (NU (Update k v))|exact G].
  - intros k. destruct (e_delete H pr st k t) as (l & L & G). exists l. split; [exact L|]. apply good_late; [apply (NU (Delete k))|exact G].
  - intros r ls. apply passed_run; [|apply e_sload]. apply (proj2 (C78_sparse_lemma H pr _ _ (Logged st))).
Qed.
