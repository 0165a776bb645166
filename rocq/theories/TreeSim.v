(** TreeSim.v -- binary and sum trees on storages that answer alike. *)
From Verif Require Import Base Storage ModelCommon ModelBinary ModelSum SpecSum SpecAlike RunsCalls Sim.

Section Binary.
Variable H : list byte -> bytes32.
Variable pr : profile.
Context {S1 S2 E : Type}.
Variable R : S1 -> S2 -> Prop.
Variable st1 : StorageT S1 Z BPrimitive E.
Variable st2 : StorageT S2 Z BPrimitive E.
Hypothesis AG : gets_alike R st1 st2.
Hypothesis AI : inserts_alike R st1 st2.
Notation trel := (bt_alike R).

Lemma q_bst_get : forall k, resp R (bst_get st1 k) (bst_get st2 k).
Proof.
  intros k a b Rab. destruct (AG k a b Rab) as [R' Q]. unfold bst_get, runs_alike.
  destruct (s_get st1 k a) as [a' [o|e]], (s_get st2 k b) as [b' [o'|e']]; cbn [fst snd] in *; split; congruence || exact R'.
Qed.
Lemma q_bt_get : forall k, resp trel (bt_get st1 k) (bt_get st2 k).
Proof.
  intros k [s1 h1 n1] [s2 h2 n2] (Rh & Rn & Rs). cbn [bt_storage bt_head bt_leaves_count] in *. destruct (q_bst_get k s1 s2 Rs) as [R' Q].
  unfold bt_get, runs_alike. cbn [bt_storage bt_head bt_leaves_count].
  destruct (bst_get st1 k s1), (bst_get st2 k s2); cbn [fst snd] in *. split; [split; auto|exact Q].
Qed.
Lemma q_bt_insert : forall k v, resp trel (bt_insert st1 k v) (bt_insert st2 k v).
Proof.
  intros k v [s1 h1 n1] [s2 h2 n2] (Rh & Rn & Rs). cbn [bt_storage bt_head bt_leaves_count] in *. destruct (AI k v s1 s2 Rs) as [R' Q].
  unfold bt_insert, runs_alike. cbn [bt_storage bt_head bt_leaves_count].
  destruct (s_insert st1 k v s1) as [a' [o|e]], (s_insert st2 k v s2) as [b' [o'|e']]; cbn [fst snd same_kind] in *;
    try contradiction; (split; [split; auto|congruence]).
Qed.
Lemma q_set_head : forall h, resp trel (bt_set_head h) (bt_set_head h).
Proof. intros h a b (Rh & Rn & Rs). split; [split; auto|reflexivity]. Qed.
Lemma q_set_count : forall n, resp trel (bt_set_leaves_count n) (bt_set_leaves_count n).
Proof. intros n a b (Rh & Rn & Rs). split; [split; auto|reflexivity]. Qed.

Lemma q_join : forall f, resp trel (bt_join_all_subtrees_loop H pr st1 f) (bt_join_all_subtrees_loop H pr st2 f).
Proof.
  induction f as [|f IH]; cbn [bt_join_all_subtrees_loop]; [apply resp_fuel|]. apply resp_get_state. intros a b (Rh & Rn & Rs). rewrite Rh.
  destruct (bt_head b) as [|x [|y l]]; [apply resp_panic|apply resp_ret|].
  destruct (pos_height (bn_position x) =? pos_height (bn_position y)); [|apply resp_ret].
  apply resp_bind; [apply q_set_head|]. intros _. apply resp_bind; [apply resp_lift|]. intros j.
  apply resp_try; [apply q_bt_insert|]. intros _. apply resp_bind; [apply q_set_head|]. intros _. exact IH.
Qed.
Lemma q_push : forall d, resp trel (bt_push H pr st1 d) (bt_push H pr st2 d).
Proof.
  intros d. unfold bt_push. apply resp_get_state. intros a b (Rh & Rn & Rs). rewrite Rn. apply resp_bind; [apply resp_lift|]. intros n.
  apply resp_try; [apply q_bt_insert|]. intros _. apply resp_get_state. intros a' b' (Rh' & Rn' & Rs'). rewrite Rh'.
  apply resp_bind; [apply q_set_head|]. intros _. apply resp_try.
  - unfold bt_join_all_subtrees. apply resp_get_state. intros a2 b2 (Rh2 & Rn2 & Rs2). rewrite Rh2. apply q_join.
  - intros _. apply resp_get_state. intros a3 b3 (Rh3 & Rn3 & Rs3). rewrite Rn3. apply resp_bind; [apply resp_lift|]. intros c.
    apply resp_bind; [apply q_set_count|]. intros _. apply resp_ret.
Qed.
Lemma q_prove_loop : forall sc l ps, resp trel (bt_prove_loop st1 sc l ps) (bt_prove_loop st2 sc l ps).
Proof.
  intros sc. induction l as [|k l IH]; intros ps; cbn [bt_prove_loop]; [apply resp_ret|]. apply resp_try; [apply q_bt_get|]. intros o.
  destruct (match smap_lookup Z.eqb sc k with Some p => Some p | None => o end); [apply IH|apply resp_ret].
Qed.
Lemma root_node_same : forall (a : BTree S1) (b : BTree S2) sc, bt_head a = bt_head b -> bt_root_node H pr a sc = bt_root_node H pr b sc.
Proof. intros a b sc Q. unfold bt_root_node. rewrite Q. reflexivity. Qed.
Lemma q_prove : forall i, resp trel (bt_prove H pr st1 i) (bt_prove H pr st2 i).
Proof.
  intros i. unfold bt_prove. apply resp_get_state. intros a b (Rh & Rn & Rs). rewrite Rn. apply resp_bind; [apply resp_lift|]. intros n.
  destruct (n >? bt_leaves_count b); [apply resp_ret|]. apply resp_bind; [apply resp_lift|]. intros rp.
  apply resp_bind; [apply resp_lift|]. intros lp. apply resp_try; [apply q_bt_get|]. intros [p|]; [|apply resp_ret].
  apply resp_bind; [apply resp_lift|]. intros path. cbv zeta. rewrite (root_node_same a b _ Rh). apply resp_bind; [apply resp_lift|].
  intros [[rn|] sc]; [|apply resp_panic]. apply resp_try; [apply q_prove_loop|]. intros ps. apply resp_ret.
Qed.
Lemma q_do : forall c, resp trel (bt_do H pr st1 c) (bt_do H pr st2 c).
Proof.
  intros [d|i|]; cbn [bt_do].
  - apply resp_bind; [apply q_push|]. intros r. apply resp_ret.
  - apply resp_bind; [apply q_prove|]. intros r. apply resp_ret.
  - apply resp_get_state. intros a b (Rh & Rn & Rs). unfold bt_root. rewrite (root_node_same a b _ Rh).
    apply resp_bind; [apply resp_lift|]. intros h. apply resp_ret.
Qed.
Lemma q_calls : forall cs, resp trel (bt_calls H pr st1 cs) (bt_calls H pr st2 cs).
Proof.
  induction cs as [|c cs IH]; cbn [bt_calls]; [apply resp_ret|]. apply resp_bind; [apply q_do|]. intros a.
  apply resp_bind; [exact IH|]. intros l. apply resp_ret.
Qed.
Lemma q_build : forall ps l, resp R (bt_build_loop st1 ps l) (bt_build_loop st2 ps l).
Proof.
  induction ps as [|k ps IH]; intros l; cbn [bt_build_loop]; [apply resp_ret|]. apply resp_try; [apply q_bst_get|].
  intros [p|]; [apply IH|apply resp_ret].
Qed.
Lemma q_load : forall n s1 s2, R s1 s2 -> loads_alike R trel (bt_load pr st1 n s1) (bt_load pr st2 n s2).
Proof.
  intros n s1 s2 Rs. unfold bt_load, bind_try, bind, lift, loads_alike. destruct (bt_peak_positions pr n) as [ps| |]; cbn; auto.
  destruct (q_build ps [] s1 s2 Rs) as [R' Q].
  destruct (bt_build_loop st1 ps [] s1) as [a' [[h|e]| |]], (bt_build_loop st2 ps [] s2) as [b' o]; cbn [fst snd] in *; subst o; cbn; auto.
  split; [exact R'|]. split; auto.
Qed.
End Binary.

Section Sum.
Variable H : list byte -> bytes32.
Variable pr : profile.
Context {S1 S2 E : Type}.
Variable R : S1 -> S2 -> Prop.
Variable st1 : StorageT S1 bytes32 MNode E.
Variable st2 : StorageT S2 bytes32 MNode E.
Hypothesis AI : inserts_alike R st1 st2.
Notation trel := (mt_alike R).

Lemma q_mt_insert : forall k v, resp trel (mt_insert st1 k v) (mt_insert st2 k v).
Proof.
  intros k v [s1 h1] [s2 h2] (Rh & Rs). cbn [mt_storage mt_head] in *. destruct (AI k v s1 s2 Rs) as [R' Q].
  unfold mt_insert, runs_alike. cbn [mt_storage mt_head].
  destruct (s_insert st1 k v s1) as [a' [o|e]], (s_insert st2 k v s2) as [b' [o'|e']]; cbn [fst snd same_kind] in *;
    try contradiction; (split; [split; auto|congruence]).
Qed.
Lemma q_mt_set : forall h, resp trel (mt_set_head h) (mt_set_head h).
Proof. intros h a b (Rh & Rs). split; [split; auto|reflexivity]. Qed.
Lemma q_mt_join : forall x y, resp trel (mt_join_subtrees H pr st1 x y) (mt_join_subtrees H pr st2 x y).
Proof.
  intros x y. unfold mt_join_subtrees. apply resp_bind; [apply resp_lift|]. intros h. apply resp_bind; [apply resp_lift|]. intros n.
  apply resp_try; [apply q_mt_insert|]. intros _. apply resp_ret.
Qed.
Lemma q_mt_root_loop : forall l c, resp trel (mt_root_node_loop H pr st1 c l) (mt_root_node_loop H pr st2 c l).
Proof. induction l as [|x l IH]; intros c; cbn [mt_root_node_loop]; [apply resp_ret|]. apply resp_try; [apply q_mt_join|exact IH]. Qed.
Lemma q_mt_root : resp trel (mt_root H pr st1) (mt_root H pr st2).
Proof.
  unfold mt_root, mt_root_node. apply resp_try; [|intros [n|]; apply resp_ret]. apply resp_get_state. intros a b (Rh & Rs). rewrite Rh.
  destruct (mt_head b) as [|x l]; [apply resp_ret|]. apply resp_try; [apply q_mt_root_loop|]. intros n. apply resp_ret.
Qed.
Lemma q_mt_join_all : forall f, resp trel (mt_join_all_subtrees_loop H pr st1 f) (mt_join_all_subtrees_loop H pr st2 f).
Proof.
  induction f as [|f IH]; cbn [mt_join_all_subtrees_loop]; [apply resp_fuel|]. apply resp_get_state. intros a b (Rh & Rs). rewrite Rh.
  destruct (mt_head b) as [|x [|y l]]; [apply resp_panic|apply resp_ret|]. destruct (mn_height x =? mn_height y); [|apply resp_ret].
  apply resp_bind; [apply q_mt_set|]. intros _. apply resp_try; [apply q_mt_join|]. intros j.
  apply resp_bind; [apply q_mt_set|]. intros _. exact IH.
Qed.
Lemma q_mt_push : forall f d, resp trel (mt_push H pr st1 f d) (mt_push H pr st2 f d).
Proof.
  intros f d. unfold mt_push. cbv zeta. apply resp_try; [apply q_mt_insert|]. intros _. apply resp_get_state. intros a b (Rh & Rs). rewrite Rh.
  apply resp_bind; [apply q_mt_set|]. intros _. apply resp_try; [|intros _; apply resp_ret].
  unfold mt_join_all_subtrees. apply resp_get_state. intros a2 b2 (Rh2 & Rs2). rewrite Rh2. apply q_mt_join_all.
Qed.
Lemma q_mt_do : forall o, resp trel (mt_do H pr st1 o) (mt_do H pr st2 o).
Proof.
  intros [l|]; cbn [mt_do]; [apply resp_try; [apply q_mt_push|]|apply resp_try; [apply q_mt_root|]]; intros; apply resp_ret.
Qed.
Lemma q_mt_calls : forall os, resp trel (mt_run_all H pr st1 os) (mt_run_all H pr st2 os).
Proof.
  induction os as [|c os IH]; cbn [mt_run_all]; [apply resp_ret|]. apply resp_bind; [apply q_mt_do|]. intros a.
  apply resp_bind; [exact IH|]. intros l. apply resp_ret.
Qed.
End Sum.

Lemma C77_binary_lemma : forall H pr S1 S2 E (R : S1 -> S2 -> Prop)
  (st1 : StorageT S1 Z BPrimitive E) (st2 : StorageT S2 Z BPrimitive E),
  gets_alike R st1 st2 -> inserts_alike R st1 st2 ->
  (forall cs t1 t2, bt_alike R t1 t2 ->
     runs_alike (bt_alike R) (bt_calls H pr st1 cs t1) (bt_calls H pr st2 cs t2)) /\
  (forall n s1 s2, R s1 s2 -> loads_alike R (bt_alike R) (bt_load pr st1 n s1) (bt_load pr st2 n s2)).
Proof.
  intros H pr S1 S2 E R st1 st2 G I. split; [exact (q_calls H pr R st1 st2 G I)|exact (q_load pr R st1 st2 G)].
Qed.
Lemma C77_sum_lemma : forall H pr S1 S2 E (R : S1 -> S2 -> Prop)
  (st1 : StorageT S1 bytes32 MNode E) (st2 : StorageT S2 bytes32 MNode E),
  inserts_alike R st1 st2 ->
  forall os t1 t2, mt_alike R t1 t2 ->
  runs_alike (mt_alike R) (mt_run_all H pr st1 os t1) (mt_run_all H pr st2 os t2).
Proof. intros H pr S1 S2 E R st1 st2 I. exact (q_mt_calls H pr R st1 st2 I). Qed.
