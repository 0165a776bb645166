(** WidthProofs.v -- heights stay u32, and builds whose usize differ in width agree. *)
From Verif Require Import Base Storage ModelCommon ModelBinary ModelSparse ModelSum ModelVerify SpecProfile SpecSparse SpecSum Runs RunsSum RunsSparse
  PositionProofs ProfileProofs.
Require Import ZifyBool ZifyNat ZifyN.

(** * Heights stay u32 *)
Section Heights.
Variable H : list byte -> bytes32.
Variable pr : profile.
Context {S E : Type}.
Variable st : StorageT S bytes32 SPrimitive E.
Variable good : S -> Prop.
Hypothesis T : Typed st good.

Definition th {A} (m : M S A) (P : A -> Prop) : Prop :=
  forall s, good s -> good (fst (m s)) /\ forall a, snd (m s) = Val a -> P a.
Definition tt_ {A} (m : M (SpTree S) A) (P : A -> Prop) : Prop :=
  forall t, typed_tree good t -> typed_tree good (fst (m t)) /\ forall a, snd (m t) = Val a -> P a.
Definition okv {X A} (P : A -> Prop) (r : result X A) : Prop := match r with Ok a => P a | Err _ => True end.

Lemma th_bind : forall A B (m : M S A) (f : A -> M S B) P Q, th m P -> (forall a, P a -> th (f a) Q) -> th (bind m f) Q.
Proof.
  intros A B m f P Q Hm Hf s G. specialize (Hm s G). unfold bind. destruct (m s) as [s1 [a| |]]; cbn [fst snd] in *;
    [exact (Hf a (proj2 Hm a eq_refl) s1 (proj1 Hm))|split; [tauto|discriminate]..].
Qed.
Lemma th_try : forall X A B (m : M S (result X A)) (f : A -> M S (result X B)) P Q, th m (okv P) -> (forall a, P a -> th (f a) (okv Q)) -> th (bind_try m f) (okv Q).
Proof.
  intros X A B m f P Q Hm Hf. apply (th_bind _ _ _ _ (okv P)); [exact Hm|]. intros [a|e] Ha; [exact (Hf a Ha)|].
  intros s G. split; [exact G|]. intros x [= <-]. exact Logic.I.
Qed.
Lemma th_ret : forall A (a : A) (P : A -> Prop), P a -> th (ret a) P.
Proof. intros A a P Pa s G. split; [exact G|]. intros x [= <-]. exact Pa. Qed.
Lemma th_lift : forall A (a : out A) (P : A -> Prop), (forall x, a = Val x -> P x) -> th (lift a) P.
Proof. intros A a P Pa s G. split; [exact G|]. exact Pa. Qed.
Lemma tt_bind : forall A B (m : M (SpTree S) A) (f : A -> M (SpTree S) B) P Q, tt_ m P -> (forall a, P a -> tt_ (f a) Q) -> tt_ (bind m f) Q.
Proof.
  intros A B m f P Q Hm Hf s G. specialize (Hm s G). unfold bind. destruct (m s) as [s1 [a| |]]; cbn [fst snd] in *;
    [exact (Hf a (proj2 Hm a eq_refl) s1 (proj1 Hm))|split; [tauto|discriminate]..].
Qed.
Lemma tt_try : forall X A B (m : M (SpTree S) (result X A)) (f : A -> M (SpTree S) (result X B)) P Q, tt_ m (okv P) -> (forall a, P a -> tt_ (f a) (okv Q)) -> tt_ (bind_try m f) (okv Q).
Proof.
  intros X A B m f P Q Hm Hf. apply (tt_bind _ _ _ _ (okv P)); [exact Hm|]. intros [a|e] Ha; [exact (Hf a Ha)|].
  intros s G. split; [exact G|]. intros x [= <-]. exact Logic.I.
Qed.
Lemma tt_ret : forall A (a : A) (P : A -> Prop), P a -> tt_ (ret a) P.
Proof. intros A a P Pa s G. split; [exact G|]. intros x [= <-]. exact Pa. Qed.
Lemma tt_lift : forall A (a : out A) (P : A -> Prop), (forall x, a = Val x -> P x) -> tt_ (lift a) P.
Proof. intros A a P Pa s G. split; [exact G|]. exact Pa. Qed.
Lemma tt_on : forall A (m : M S A) P, th m P -> tt_ (on_storage m) P.
Proof.
  intros A m P Hm [n s] [Gn Gs]. specialize (Hm s Gs). unfold on_storage. cbn [sp_storage sp_root_node] in *.
  destruct (m s) as [s1 o]. cbn [fst snd] in *. split; [split; [exact Gn|tauto]|tauto].
Qed.

Lemma th_get : forall k, th (sst_get st k) (okv (fun o => match o with Some p => u32_entry p | None => True end)).
Proof.
  intros k s G. unfold sst_get. destruct (s_get st k s) as [s' [o|e]] eqn:R; destruct (typed_get _ _ T _ _ _ _ G R) as [G' P]; cbn [fst snd];
    (split; [exact G'|]); intros a [= <-]; [exact P|exact Logic.I].
Qed.
Lemma th_insert : forall k p, u32_entry p -> th (sst_insert st k p) (fun _ => True).
Proof.
  intros k p Hp s G. unfold sst_insert. destruct (s_insert st k p s) as [s' r] eqn:R. pose proof (typed_insert _ _ T _ _ _ _ _ G Hp R).
  destruct r; split; auto.
Qed.
Lemma th_remove : forall k, th (sst_remove st k) (fun _ => True).
Proof.
  intros k s G. unfold sst_remove. destruct (s_remove st k s) as [s' r] eqn:R. pose proof (typed_remove _ _ T _ _ _ _ G R).
  destruct r; split; auto.
Qed.
Lemma th_weak : forall A (m : M S A) (P Q : A -> Prop), th m P -> (forall a, P a -> Q a) -> th m Q.
Proof. intros A m P Q Hm I s G. destruct (Hm s G) as [G' P']. split; [exact G'|]. intros a R. apply I, P', R. Qed.
Lemma th_any : forall X A (m : M S (result X A)), th m (fun _ => True) -> th m (okv (fun _ => True)).
Proof. intros X A m Hm. apply (th_weak _ _ _ _ Hm). intros [a|e] _; exact Logic.I. Qed.

Lemma placeholder_u32 : u32_node snode_placeholder.
Proof. unfold u32_node. cbn. lia. Qed.
Lemma try_u32 : forall p n, u32_entry p -> snode_try_from p = Ok n -> u32_node n.
Proof.
  intros [[[h x] lo] hi] n Hp R. unfold snode_try_from in R. destruct (prefix_try_from x); [|discriminate]. injection R as <-. exact Hp.
Qed.
Lemma node_u32 : forall n, u32_node n -> u32_entry (sprim_of_node n).
Proof. intros n Hn. exact Hn. Qed.
Lemma th_read : forall k, th (read_child st k) (okv u32_node).
Proof.
  intros k. unfold read_child. destruct (b32_eqb k zero_sum); [apply th_ret; exact placeholder_u32|]. intros s G.
  destruct (s_get st k s) as [s' [[p|]|e]] eqn:R; destruct (typed_get _ _ T _ _ _ _ G R) as [G' P].
  - destruct (snode_try_from p) as [n|e] eqn:Q; (split; [exact G'|]); intros a [= <-]; [exact (try_u32 _ _ P Q)|exact Logic.I].
  - split; [exact G'|]. intros a [= <-]. exact Logic.I.
  - split; [exact G'|]. intros a [= <-]. exact Logic.I.
Qed.
Lemma th_left : forall n, th (storage_node_left_child st n) (okv u32_node).
Proof.
  intros n. unfold storage_node_left_child. destruct (snode_is_leaf n); [apply th_ret; exact Logic.I|].
  apply (th_bind _ _ _ _ (fun _ => True)); [apply th_lift; auto|]. intros k _. apply th_read.
Qed.
Lemma th_right : forall n, th (storage_node_right_child st n) (okv u32_node).
Proof.
  intros n. unfold storage_node_right_child. destruct (snode_is_leaf n); [apply th_ret; exact Logic.I|].
  apply (th_bind _ _ _ _ (fun _ => True)); [apply th_lift; auto|]. intros k _. apply th_read.
Qed.
Definition cur_u32 (c : option (result (SChildError E) SNode * result (SChildError E) SNode)) : Prop :=
  match c with Some (a, b) => okv u32_node a /\ okv u32_node b | None => True end.
Lemma th_next : forall it, cur_u32 (it_current it) -> th (path_iter_next (StorageNode st) it) (fun x => cur_u32 (fst x) /\ cur_u32 (it_current (snd x))).
Proof.
  intros [leaf cur off] Hc. cbn [it_current] in Hc. unfold path_iter_next. cbn [it_current it_leaf it_current_offset pn_leaf_key pn_is_node pn_left_child pn_right_child StorageNode].
  destruct cur as [[[pn|e] o]|]; try (apply th_ret; split; [exact Hc|exact Logic.I]).
  destruct (snode_is_node pn); [|apply th_ret; split; [exact Hc|exact Logic.I]].
  apply (th_bind _ _ _ _ (fun _ => True)); [apply th_lift; auto|]. intros path _.
  destruct (get_instruction path off) as [[]|]; [| |apply th_ret; split; [exact Hc|exact Logic.I]].
  - apply (th_bind _ _ _ _ (okv u32_node)); [apply th_left|]. intros l Hl. apply (th_bind _ _ _ _ (okv u32_node)); [apply th_right|]. intros r Hr.
    apply th_ret. split; [exact Hc|]. split; assumption.
  - apply (th_bind _ _ _ _ (okv u32_node)); [apply th_right|]. intros r Hr. apply (th_bind _ _ _ _ (okv u32_node)); [apply th_left|]. intros l Hl.
    apply th_ret. split; [exact Hc|]. split; assumption.
Qed.
Definition pair_u32 (x : SNode * SNode) : Prop := u32_node (fst x) /\ u32_node (snd x).
Lemma th_collect : forall f it, cur_u32 (it_current it) -> th (path_set_collect st f it) (okv (Forall pair_u32)).
Proof.
  induction f as [|f IH]; intros it Hc; cbn [path_set_collect]; [intros s G; split; [exact G|discriminate]|].
  eapply th_bind; [apply th_next; exact Hc|]. intros [[[[a|e] [b|e']]|] it'] [H1 H2]; cbn [fst snd] in H1, H2;
    try (apply th_ret; exact Logic.I); [|apply th_ret; constructor].
  eapply th_try; [apply IH; exact H2|]. intros rest Hr. apply th_ret. constructor; [exact H1|exact Hr].
Qed.
Lemma forall_removelast : forall A (P : A -> Prop) l, Forall P l -> Forall P (removelast l).
Proof. intros A P l F. induction F as [|x [|y l] Px F IH]; cbn [removelast] in *; auto. Qed.
Lemma th_path_set : forall a b, u32_node a -> th (path_set pr st a b) (okv (fun x => Forall u32_node (snd x))).
Proof.
  intros a b Ha. unfold path_set. apply (th_bind _ _ _ _ (fun it => cur_u32 (it_current it))).
  - apply th_lift. intros it R. unfold path_iter_new in R. destruct (usize_ovf _ _); try discriminate. injection R as <-. split; exact Ha.
  - intros it Hc. eapply th_try; [apply th_collect; exact Hc|]. intros l Hl. apply th_ret. cbn [okv snd].
    apply forall_removelast, Forall_rev. rewrite Forall_map. eapply Forall_impl; [|exact Hl]. intros x [_ Hx]. exact Hx.
Qed.
Lemma create_u32 : forall k a b n, snode_create_node_on_path H pr k a b = Val n -> u32_node n.
Proof.
  assert (J : forall k d a b h n, 0 <= h < 2 ^ 32 -> join_by_instruction H k d a b h = Val n -> u32_node n).
  { intros k d a b h n Hh R. unfold join_by_instruction in R. destruct (get_instruction k d) as [[]|]; try discriminate; injection R as <-; exact Hh. }
  intros k a b n R. unfold snode_create_node_on_path in R. destruct (snode_is_leaf a && snode_is_leaf b).
  - destruct (snode_common_path_length pr a b) as [d| |] eqn:C; try discriminate. cbn [obind] in R. apply (common_range H) in C.
    unfold max_height in R. rewrite usize_ovf_in in R by lia. cbn [obind] in R. eapply J; [|exact R]. lia.
  - destruct (u32_ovf pr (Z.max (sn_height a) (sn_height b) + 1)) as [h| |] eqn:U; try discriminate. cbn [obind] in R. apply u32_out in U.
    destruct (usize_ovf pr (max_height - h)) as [d| |]; try discriminate. exact (J _ _ _ _ _ _ U R).
Qed.
Lemma th_join : forall k a b, th (join_and_store H pr st k a b) (okv u32_node).
Proof.
  intros k a b. unfold join_and_store. eapply th_bind; [apply th_lift; apply create_u32|]. intros n Hn. cbv beta in Hn.
  apply (th_try _ _ _ _ _ (fun _ => True)); [apply th_any, th_insert, node_u32, Hn|]. intros _ _. apply th_ret. exact Hn.
Qed.
Lemma th_merge : forall k l a, u32_node a -> th (merge_side_nodes H pr st k a l) (okv u32_node).
Proof.
  intros k. induction l as [|x l IH]; intros a Ha; cbn [merge_side_nodes]; [apply th_ret; exact Ha|].
  eapply th_try; [apply th_join|]. intros n Hn. apply IH. exact Hn.
Qed.
Lemma tt_set : forall n, u32_node n -> tt_ (sp_set_root_node pr n) (fun _ => True).
Proof.
  intros n Hn t [G1 G2]. unfold sp_set_root_node, bind, lift, get_state, put_state. destruct (debug_assert _ _); cbn [fst snd]; split; auto; split; auto.
Qed.
Lemma tt_update_path : forall n l l', u32_node n -> Forall u32_node l' -> tt_ (update_with_path_set H pr st n l l') (okv (fun _ => True)).
Proof.
  intros n l l' Hn Hl. unfold update_with_path_set. apply (tt_bind _ _ _ _ (fun _ => True)); [apply tt_lift; auto|]. intros path _.
  destruct l as [|a l]; [intros t G; split; [exact G|discriminate]|]. apply (tt_bind _ _ _ _ (fun _ => True)); [apply tt_lift; auto|]. intros ka _.
  apply (tt_try _ _ _ _ _ u32_node).
  - destruct (negb (b32_eqb path ka)); [|apply tt_ret; exact Hn]. apply (tt_try _ _ _ _ _ u32_node).
    + destruct (negb (snode_is_placeholder a)); [apply tt_on, th_join|apply tt_ret; exact Hn].
    + intros c Hc. apply (tt_bind _ _ _ _ (fun _ => True)); [apply tt_lift; auto|]. intros d _. apply tt_on, th_merge. exact Hc.
  - intros c Hc. apply (tt_try _ _ _ _ _ u32_node); [apply tt_on, th_merge; exact Hc|]. intros c' Hc'.
    apply (tt_bind _ _ _ _ (fun _ => True)); [apply tt_set; exact Hc'|]. intros _ _. apply tt_ret. exact Logic.I.
Qed.
Lemma th_remove_path : forall l, th (remove_path_nodes H st l) (fun _ => True).
Proof.
  induction l as [|x l IH]; cbn [remove_path_nodes]; [apply th_ret; exact Logic.I|].
  eapply th_weak; [apply (th_try _ _ _ _ _ (fun _ => True) (fun _ => True)); [apply th_any, th_remove|intros _ _; apply th_any, IH]|auto].
Qed.
Lemma find_forall : forall l o l', find_non_placeholder l = (o, l') -> Forall u32_node l -> Forall u32_node l'.
Proof.
  induction l as [|x l IH]; intros o l' R F; cbn [find_non_placeholder] in R; [injection R as _ <-; constructor|].
  inversion F; subst. destruct (negb (snode_is_placeholder x)); [injection R as _ <-; assumption|]. exact (IH _ _ R H3).
Qed.
Lemma tt_delete_path : forall n l l', Forall u32_node l' -> tt_ (delete_with_path_set H pr st n l l') (okv (fun _ => True)).
Proof.
  intros n l l' Hl. unfold delete_with_path_set. apply (tt_try _ _ _ _ _ (fun _ => True)); [apply tt_on, th_any, th_remove_path|]. intros _ _.
  apply (tt_bind _ _ _ _ (fun _ => True)); [apply tt_lift; auto|]. intros path _.
  apply (tt_try _ _ _ _ _ (fun x => u32_node (fst x))).
  - destruct l' as [|a l']; [apply tt_ret; exact placeholder_u32|]. inversion Hl; subst.
    destruct (snode_is_leaf a); [|apply tt_ret; exact placeholder_u32].
    destruct (find_non_placeholder l') as [[b|] l2]; [|apply tt_ret; assumption].
    apply (tt_try _ _ _ _ _ u32_node); [apply tt_on, th_join|]. intros c Hc. apply tt_ret. exact Hc.
  - intros [c l2] Hc. apply (tt_try _ _ _ _ _ u32_node); [apply tt_on, th_merge; exact Hc|]. intros c' Hc'.
    apply (tt_bind _ _ _ _ (fun _ => True)); [apply tt_set; exact Hc'|]. intros _ _. apply tt_ret. exact Logic.I.
Qed.
Lemma tt_get : tt_ (@get_state (SpTree S)) (typed_tree good).
Proof. intros t G. split; [exact G|]. intros a [= <-]. exact G. Qed.
Lemma tt_delete : forall k, tt_ (sp_delete H pr st k) (okv (fun _ => True)).
Proof.
  intros k. unfold sp_delete. eapply tt_bind; [apply tt_get|]. intros t [Gn Gs]. destruct (b32_eqb (sp_root H t) zero_sum); [apply tt_ret; exact Logic.I|].
  eapply tt_try; [apply tt_on, th_get|]. intros [p|] _; [|apply tt_ret; exact Logic.I].
  destruct (snode_try_from p) as [n|e]; [|apply tt_ret; exact Logic.I].
  eapply tt_try; [apply tt_on, th_path_set; exact Gn|]. intros [a b] Hab. apply tt_delete_path. exact Hab.
Qed.
Lemma tt_update : forall k v, tt_ (sp_update H pr st k v) (okv (fun _ => True)).
Proof.
  intros k [|x v]; unfold sp_update.
  - eapply tt_try; [apply tt_delete|]. intros _ _. apply tt_ret. exact Logic.I.
  - cbv zeta. set (n := snode_create_leaf H k (x :: v)). assert (Hn : u32_node n) by (unfold u32_node; cbn; lia).
    apply (tt_try _ _ _ _ _ (fun _ => True)); [apply tt_on, th_any, th_insert, node_u32, Hn|]. intros _ _.
    apply (tt_bind _ _ _ _ (fun _ => True)); [apply tt_lift; auto|]. intros lk _.
    apply (tt_try _ _ _ _ _ (fun _ => True)); [apply tt_on, th_any, th_insert, node_u32, Hn|]. intros _ _.
    eapply tt_bind; [apply tt_get|]. intros t [Gn Gs]. destruct (snode_is_placeholder (sp_root_node t)).
    + apply (tt_bind _ _ _ _ (fun _ => True)); [apply tt_set; exact Hn|]. intros _ _. apply tt_ret. exact Logic.I.
    + eapply tt_try; [apply tt_on, th_path_set; exact Gn|]. intros [a b] Hab. apply tt_update_path; [exact Hn|exact Hab].
Qed.
Lemma typed_apply : forall o t, typed_tree good t -> typed_tree good (fst (sp_apply H pr st o t)).
Proof. intros [k v|k] t G; cbn [sp_apply]; [exact (proj1 (tt_update k v t G))|exact (proj1 (tt_delete k t G))]. Qed.
Lemma typed_run : forall os t, typed_tree good t -> typed_tree good (fst (sp_run_all H pr st os t)).
Proof.
  induction os as [|o os IH]; intros t G; cbn [sp_run_all]; [exact G|]. unfold bind. pose proof (typed_apply o t G) as K.
  destruct (sp_apply H pr st o t) as [t1 [r| |]]; cbn [fst] in *; auto. specialize (IH t1 K).
  destruct (sp_run_all H pr st os t1) as [t2 [rs| |]]; exact IH.
Qed.
Lemma typed_load : forall root s s' t, good s -> sp_load st root s = (s', Val (Ok t)) -> typed_tree good t.
Proof.
  intros root s s' t G R. unfold sp_load, bind_try, bind, ret, get_state in R. pose proof (th_get root s G) as [G1 P].
  destruct (sst_get st root s) as [s1 [[[p|]|e]| |]]; cbn [fst snd] in *; try discriminate.
  destruct (snode_try_from p) as [n|e] eqn:Q; [|discriminate]. injection R as <- <-. specialize (P _ eq_refl). cbn [okv] in P.
  split; [exact (try_u32 _ _ P Q)|exact G1].
Qed.
End Heights.

(** * From the generic lemmas to the statements *)
Lemma least_switch : forall p q, at_least p q ->
  switch true (overflow_checks p) (overflow_checks q) /\ switch true (debug_assertions p) (debug_assertions q).
Proof.
  intros [a b w] [a' b' w'] [H1 H2]. cbn in *. split; unfold switch.
  - destruct a; [right; auto|left]. destruct a'; [exact (H1 eq_refl)|reflexivity].
  - destruct b; [right; auto|left]. destruct b'; [exact (H2 eq_refl)|reflexivity].
Qed.
Lemma same_switch : forall p q, same_switches p q ->
  switch false (overflow_checks p) (overflow_checks q) /\ switch false (debug_assertions p) (debug_assertions q).
Proof. intros p q [H1 H2]. split; left; assumption. Qed.
Lemma o_true : forall A (a b : out A), oref true a b -> out_refines a b.
Proof. intros A a b [[_ Q]|Q]; [left|right]; exact Q. Qed.
Lemma r_true : forall S A (a b : S * out A), rref true a b -> run_refines a b.
Proof. intros S A a b [[_ Q]|Q]; [left|right]; exact Q. Qed.
Lemma o_false : forall A (a b : out A), oref false a b -> a = b.
Proof. intros A a b [[C _]|Q]; [discriminate C|exact Q]. Qed.
Lemma r_false : forall S A (a b : S * out A), rref false a b -> a = b.
Proof. intros S A a b [[C _]|Q]; [discriminate C|exact Q]. Qed.

Lemma C76_positions_lemma : forall b c, at_least b c -> forall p q n d,
  out_refines (pos_from_leaf_index b p) (pos_from_leaf_index c p) /\
  out_refines (pos_sibling b p) (pos_sibling c p) /\
  out_refines (pos_parent b p) (pos_parent c p) /\
  out_refines (pos_uncle b p) (pos_uncle c p) /\
  out_refines (pos_child b p d) (pos_child c p d) /\
  out_refines (position_iter b p q) (position_iter c p q) /\
  out_refines (position_path b p q n) (position_path c p q n).
Proof.
  intros b c [HO HD]%least_switch p q n d. repeat apply conj; apply o_true;
    [apply r_from_leaf|apply r_sibling|apply r_parent|apply r_uncle|apply r_child|apply r_iter|apply r_path]; assumption.
Qed.
Lemma C76_binary_lemma : forall b c, at_least b c -> forall H St E (st : StorageT St Z BPrimitive E) (t : BTree St) s n i d ds,
  run_refines (bt_load b st n s) (bt_load c st n s) /\
  run_refines (bt_push H b st d t) (bt_push H c st d t) /\
  run_refines (bt_push_all H b st ds t) (bt_push_all H c st ds t) /\
  run_refines (bt_prove H b st i t) (bt_prove H c st i t) /\
  out_refines (bt_root H b t) (bt_root H c t).
Proof.
  intros b c [HO HD]%least_switch H St E st t s n i d ds. repeat apply conj; (apply o_true || apply r_true);
    [apply r_bt_load|apply r_bt_push|apply r_bt_push_all|apply r_bt_prove|apply r_bt_root]; assumption.
Qed.
Lemma C76_sparse_lemma : forall b c, at_least b c ->
  forall H St E (st : StorageT St bytes32 SPrimitive E) (t : SpTree St) k v os,
  (usize_width b = usize_width c \/ u32_node (sp_root_node t) ->
     run_refines (sp_update H b st k v t) (sp_update H c st k v t) /\
     run_refines (sp_delete H b st k t) (sp_delete H c st k t)) /\
  (usize_width b = usize_width c \/ (exists good, Typed st good /\ typed_tree good t) ->
     run_refines (sp_run_all H b st os t) (sp_run_all H c st os t)).
Proof.
  intros b c [HO HD]%least_switch H St E st t k v os. split.
  - intros F. split; apply r_true; [apply r_update|apply r_delete]; assumption.
  - intros [W|(good & T & G)]; apply r_true.
    + apply (r_run_all true b c HO HD H st (fun _ => True)); auto. intros t' _. left. exact W.
    + apply (r_run_all true b c HO HD H st (typed_tree good)); auto; [intros t' [F _]; right; exact F|].
      intros o t' G'. apply typed_apply; assumption.
Qed.
Lemma C76_sum_lemma : forall b c, at_least b c -> forall H St E (st : StorageT St bytes32 MNode E) (t : MTree St) f d os,
  run_refines (mt_push H b st f d t) (mt_push H c st f d t) /\
  run_refines (mt_root H b st t) (mt_root H c st t) /\
  run_refines (mt_run H b st os t) (mt_run H c st os t).
Proof.
  intros b c [HO HD]%least_switch H St E st t f d os. repeat apply conj; apply r_true; [apply r_mt_push|apply r_mt_root|apply r_mt_run]; assumption.
Qed.
Lemma C76_verify_lemma : forall b c, at_least b c -> forall H r ps i n t d,
  out_refines (verify H b r ps i n) (verify H c r ps i n) /\
  out_refines (rt_push H b d t) (rt_push H c d t) /\
  out_refines (rt_root H b t) (rt_root H c t) /\
  out_refines (rt_prove H b t) (rt_prove H c t).
Proof.
  intros b c [HO HD]%least_switch H r ps i n t d. repeat apply conj; apply o_true; [apply r_verify|apply r_rt_push|apply r_rt_root|apply r_rt_prove]; assumption.
Qed.

Lemma C99_positions_lemma : forall b c, same_switches b c -> forall p q n d,
  pos_from_leaf_index b p = pos_from_leaf_index c p /\
  pos_sibling b p = pos_sibling c p /\ pos_parent b p = pos_parent c p /\ pos_uncle b p = pos_uncle c p /\
  pos_child b p d = pos_child c p d /\
  position_iter b p q = position_iter c p q /\ position_path b p q n = position_path c p q n.
Proof.
  intros b c [HO HD]%same_switch p q n d. repeat apply conj; apply o_false;
    [apply r_from_leaf|apply r_sibling|apply r_parent|apply r_uncle|apply r_child|apply r_iter|apply r_path]; assumption.
Qed.
Lemma C99_binary_lemma : forall b c, same_switches b c -> forall H St E (st : StorageT St Z BPrimitive E) (t : BTree St) s n i d,
  bt_load b st n s = bt_load c st n s /\ bt_push H b st d t = bt_push H c st d t /\
  bt_prove H b st i t = bt_prove H c st i t /\ bt_root H b t = bt_root H c t.
Proof.
  intros b c [HO HD]%same_switch H St E st t s n i d. repeat apply conj; (apply o_false || apply r_false);
    [apply r_bt_load|apply r_bt_push|apply r_bt_prove|apply r_bt_root]; assumption.
Qed.
Lemma C99_sparse_lemma : forall b c, same_switches b c ->
  forall H St E (st : StorageT St bytes32 SPrimitive E) (t : SpTree St) k v, u32_node (sp_root_node t) ->
  sp_update H b st k v t = sp_update H c st k v t /\ sp_delete H b st k t = sp_delete H c st k t.
Proof.
  intros b c [HO HD]%same_switch H St E st t k v F. split; apply r_false; [apply r_update|apply r_delete]; try assumption; right; exact F.
Qed.
Lemma C99_history_lemma : forall b c, same_switches b c ->
  forall H St E (st : StorageT St bytes32 SPrimitive E) good, Typed st good ->
  (forall s, good s -> typed_tree good (sp_new s)) /\
  (forall root s s' t, good s -> sp_load st root s = (s', Val (Ok t)) -> typed_tree good t) /\
  (forall os t, typed_tree good t ->
     sp_run_all H b st os t = sp_run_all H c st os t /\ typed_tree good (fst (sp_run_all H b st os t))).
Proof.
  intros b c [HO HD]%same_switch H St E st good T. split; [|split].
  - intros s G. split; [exact placeholder_u32|exact G].
  - intros root s s' t G R. eapply typed_load; eassumption.
  - intros os t G. split; [|apply typed_run; assumption]. apply r_false.
    apply (r_run_all false b c HO HD H st (typed_tree good)); auto; [intros t' [F _]; right; exact F|].
    intros o t' G'. apply typed_apply; assumption.
Qed.
Lemma C99_sum_lemma : forall b c, same_switches b c -> forall H St E (st : StorageT St bytes32 MNode E) (t : MTree St) f d,
  mt_push H b st f d t = mt_push H c st f d t /\ mt_root H b st t = mt_root H c st t.
Proof. intros b c [HO HD]%same_switch H St E st t f d. split; apply r_false; [apply r_mt_push|apply r_mt_root]; assumption. Qed.
Lemma C99_verify_lemma : forall b c, same_switches b c -> forall H r ps i n t d,
  verify H b r ps i n = verify H c r ps i n /\ rt_push H b d t = rt_push H c d t /\
  rt_root H b t = rt_root H c t /\ rt_prove H b t = rt_prove H c t.
Proof.
  intros b c [HO HD]%same_switch H r ps i n t d. repeat apply conj; apply o_false; [apply r_verify|apply r_rt_push|apply r_rt_root|apply r_rt_prove]; assumption.
Qed.

(** Every storage obeying the map laws and holding u32 heights is typed. *)
Lemma C99_lawful_lemma : forall St E (st : StorageT St bytes32 SPrimitive E) view, Lawful st view ->
  Typed st (fun s => forall k p, view s k = Some p -> u32_entry p).
Proof.
  intros St E st view L. constructor.
  - intros k s s' r G R. split.
    + intros k' p V. rewrite (law_get_view _ _ L _ _ _ _ R) in V. exact (G _ _ V).
    + destruct r as [[p|]|e]; auto. apply (law_get_ok _ _ L) in R. exact (G _ _ (eq_sym R)).
  - intros k p s s' r G Hp R k' q V.
    assert (W : (forall k'', view s' k'' = view s k'') \/ (view s' k = Some p /\ forall k'', k'' <> k -> view s' k'' = view s k'')).
    { destruct r as [o|e]; [right; exact (proj2 (law_insert_ok _ _ L _ _ _ _ _ R))|exact (law_insert_err _ _ L _ _ _ _ _ R)]. }
    destruct W as [W|[W1 W2]]; [rewrite W in V; exact (G _ _ V)|].
    destruct (b32_eqb k' k) eqn:Q.
    + apply b32_eqb_eq in Q. subst k'. rewrite W1 in V. injection V as <-. exact Hp.
    + rewrite W2 in V; [exact (G _ _ V)|]. intros ->. rewrite b32_eqb_refl in Q. discriminate Q.
  - intros k s s' r G R k' q V.
    assert (W : (forall k'', view s' k'' = view s k'') \/ (view s' k = None /\ forall k'', k'' <> k -> view s' k'' = view s k'')).
    { destruct r as [o|e]; [right; exact (proj2 (law_remove_ok _ _ L _ _ _ _ R))|exact (law_remove_err _ _ L _ _ _ _ R)]. }
    destruct W as [W|[W1 W2]]; [rewrite W in V; exact (G _ _ V)|].
    destruct (b32_eqb k' k) eqn:Q.
    + apply b32_eqb_eq in Q. subst k'. rewrite W1 in V. discriminate V.
    + rewrite W2 in V; [exact (G _ _ V)|]. intros ->. rewrite b32_eqb_refl in Q. discriminate Q.
Qed.
