(** SumAny.v -- sum trees on storages that fail at will: answers and storage content. *)
From Verif Require Import Base Storage ModelCommon ModelSum SpecBinary SpecBinaryFacts SpecPosition SpecSum SpecSumAny
  SpecAlike PositionProofs PathProofs HeadsProofs RunsSum RunsCalls SumProofs SumMain CommonProofs BindingProofs TreeSim.
From Coq Require Import Arith ZifyBool ZifyNat ZifyN.
Arguments Z.pow : simpl never.
Arguments Z.mul : simpl never.
Arguments Z.add : simpl never.
Arguments Z.sub : simpl never.
Arguments Z.of_nat : simpl never.
Arguments Nat.pow : simpl never.
Arguments Nat.mul : simpl never.
Arguments Nat.add : simpl never.
Arguments split_point : simpl never.

(** * Sublists *)
Lemma sub_nil : forall ls, In [] (sublists ls).
Proof. induction ls as [|l ls IH]; cbn [sublists]; [left; reflexivity|]. apply in_or_app. auto. Qed.
Lemma sub_app : forall A B a b, In a (sublists A) -> In b (sublists B) -> In (a ++ b) (sublists (A ++ B)).
Proof.
  induction A as [|l A IH]; intros B a b Ha Hb; cbn [sublists app] in *.
  - destruct Ha as [<-|[]]. exact Hb.
  - apply in_app_or in Ha. apply in_or_app. destruct Ha as [Ha|Ha]; [left|right; auto].
    apply in_map_iff in Ha. destruct Ha as (a' & <- & Ha). apply in_map_iff. exists (a' ++ b). auto.
Qed.
Lemma sub_snoc : forall A a x, In a (sublists A) -> In (a ++ [x]) (sublists (A ++ [x])).
Proof. intros A a x Ha. apply sub_app; auto. left. reflexivity. Qed.
Lemma sub_more : forall A B a, In a (sublists A) -> In a (sublists (A ++ B)).
Proof. intros A B a Ha. rewrite <- (app_nil_r a). apply sub_app; auto. apply sub_nil. Qed.
Lemma sub_split : forall A a b, In (a ++ b) (sublists A) -> In a (sublists A) /\ In b (sublists A).
Proof.
  induction A as [|l A IH]; intros a b Hab; cbn [sublists] in *.
  - destruct Hab as [E|[]]. symmetry in E. apply app_eq_nil in E. destruct E as [-> ->]. split; left; reflexivity.
  - apply in_app_or in Hab. destruct Hab as [Hab|Hab].
    + apply in_map_iff in Hab. destruct Hab as (c & E & Hc). destruct a as [|a0 a]; cbn [app] in E.
      * split; [apply in_or_app; right; apply sub_nil|]. subst b. apply in_or_app. left. apply in_map. exact Hc.
      * injection E as -> ->. destruct (IH _ _ Hc) as [H1 H2].
        split; apply in_or_app; [left; apply in_map|right]; auto.
    + destruct (IH _ _ Hab) as [H1 H2]. split; apply in_or_app; right; auto.
Qed.
Lemma sub_block : forall A a h b, In a (sublists A) -> In (block h b a) (sublists A).
Proof.
  intros A a h b Ha. unfold block.
  rewrite <- (firstn_skipn (b * 2 ^ h) a) in Ha. apply sub_split in Ha. destruct Ha as [_ Ha].
  rewrite <- (firstn_skipn (2 ^ h) (skipn (b * 2 ^ h) a)) in Ha. apply sub_split in Ha. apply Ha.
Qed.
Lemma sub_halves : forall A a k, In a (sublists A) -> In (firstn k a) (sublists A) /\ In (skipn k a) (sublists A).
Proof. intros A a k Ha. rewrite <- (firstn_skipn k a) in Ha. apply sub_split. exact Ha. Qed.
Lemma sub_length : forall A a, In a (sublists A) -> (length a <= length A)%nat.
Proof.
  induction A as [|l A IH]; intros a Ha; cbn [sublists] in Ha.
  - destruct Ha as [<-|[]]. cbn. lia.
  - apply in_app_or in Ha. destruct Ha as [Ha|Ha].
    + apply in_map_iff in Ha. destruct Ha as (c & <- & Hc). apply IH in Hc. cbn [length]. lia.
    + apply IH in Ha. cbn [length]. lia.
Qed.
Lemma sub_fees : forall A a, fees_ok A -> In a (sublists A) -> fees_ok a /\ total_fee a <= total_fee A.
Proof.
  induction A as [|l A IH]; intros a F Ha; cbn [sublists] in Ha.
  - destruct Ha as [<-|[]]. split; auto. lia.
  - inversion F as [|? ? Fl FA]; subst. pose proof (total_fee_nonneg A FA). apply in_app_or in Ha. destruct Ha as [Ha|Ha].
    + apply in_map_iff in Ha. destruct Ha as (c & <- & Hc). destruct (IH _ FA Hc) as [H1 H2].
      split; [constructor; auto|]. unfold total_fee in *. cbn [fold_right]. lia.
    + destruct (IH _ FA Ha) as [H1 H2]. split; auto. unfold total_fee in *. cbn [fold_right]. lia.
Qed.
Lemma sub_fit : forall pr A a, fees_fit pr A -> In a (sublists A) -> fees_fit pr a.
Proof.
  intros pr A a [F T] Ha. destruct (sub_fees A a F Ha) as [F' T']. split; auto. destruct T as [T|T]; auto. right. lia.
Qed.

Definition entry_of (v : MNode) := (mn_height v, mn_hash v, mn_fee v, mn_left_child_key v, mn_right_child_key v).
Lemma entry_node_for : forall H ls, entry_of (node_for H wrapped_fee ls) = sum_entry H ls.
Proof. reflexivity. Qed.
Lemma entry_inj : forall v w, entry_of v = entry_of w -> v = w.
Proof. intros [] [] E. unfold entry_of in E. cbn in E. injection E. intros; subst; reflexivity. Qed.

Section Any.
Variable H : list byte -> bytes32.
Hypothesis He : H [] = empty_sum.
Variable pr : profile.
Context {St E : Type}.
Variable st : StorageT St bytes32 MNode E.
Variable view : St -> bytes32 -> option MNode.
Hypothesis L : Lawful st view.
Notation mst := (mst H wrapped_fee).
Notation rnode := (rnode H wrapped_fee).
Notation node_for := (node_for H wrapped_fee).
Notation wr := (wr H wrapped_fee).

Lemma push_any : forall ds x t, Heads (rnode ds) 0 (length ds) (mt_head t) ->
  fees_fit pr (ds ++ [x]) -> Z.of_nat (length ds + 1) <= 2 ^ 64 ->
  exists t' r W, mt_push H pr st (fst x) (snd x) t = (t', Val r) /\
    blocks_of (ds ++ [x]) W /\ (forall k, view (mt_storage t') k = wr W (view (mt_storage t)) k) /\
    ((r = Ok tt /\ Heads (rnode (ds ++ [x])) 0 (length (ds ++ [x])) (mt_head t')) \/
     (exists e, r = Err e /\
       ((Nat.Odd (length ds) /\ mt_head t' = []) \/ mt_head t' = mt_head t))).
Proof.
  intros ds x t Hh F HN.
  destruct (mpush_ok H wrapped_fee pr (fees_fit pr) (fit_app pr) (fit_one pr) (fit_app_fee pr) st view L ds x t Hh F HN)
    as (t' & r & W & E1 & B & V & D).
  exists t', r, W. split; auto. split; auto. split; auto.
  destruct D as [(-> & D & _)|((e & ->) & _ & Ev)].
  - left. split; auto. rewrite app_length. exact D.
  - right. exists e. split; auto. destruct (Nat.Even_or_Odd (length ds)) as [Even|Odd]; [right; auto|].
    apply push_err_head in E1. destruct E1 as [E1|E1]; [right|left]; auto.
Qed.

(** The answers, and the entries written. *)
Lemma run_any : forall os ds A t, Heads (rnode ds) 0 (length ds) (mt_head t) ->
  In ds (sublists A) -> fees_fit pr (A ++ pushed os) -> Z.of_nat (length (A ++ pushed os)) <= 2 ^ 64 ->
  exists t' rs ds' W, mt_run_all H pr st os t = (t', Val rs) /\ sum_history H ds os rs ds' /\
    In ds' (sublists (A ++ pushed os)) /\ Heads (rnode ds') 0 (length ds') (mt_head t') /\
    Forall (fun ls => In ls (sublists (A ++ pushed os)) /\ ls <> []) W /\
    (forall k, view (mt_storage t') k = wr W (view (mt_storage t)) k).
Proof.
  induction os as [|o os IH]; intros ds A t Hh Hs F HN.
  - cbn [pushed] in *. rewrite app_nil_r in *. exists t, [], ds, []. repeat split; auto. constructor.
  - destruct o as [x|]; cbn [mt_run_all mt_do pushed] in *.
    + replace (A ++ x :: pushed os) with ((A ++ [x]) ++ pushed os) in * by (rewrite <- app_assoc; reflexivity).
      assert (Hsx : In (ds ++ [x]) (sublists (A ++ [x]))) by (apply sub_snoc; exact Hs).
      assert (Fx : fees_fit pr (ds ++ [x])) by (apply (sub_fit pr _ _ F); apply sub_more; exact Hsx).
      assert (HNx : Z.of_nat (length ds + 1) <= 2 ^ 64).
      { apply sub_length in Hsx. rewrite !app_length in *. cbn [length] in *. lia. }
      destruct (push_any ds x t Hh Fx HNx) as (t1 & r1 & W1 & E1 & B1 & V1 & D1).
      assert (BW : Forall (fun ls => In ls (sublists ((A ++ [x]) ++ pushed os)) /\ ls <> []) W1).
      { eapply Forall_impl; [|exact B1]. intros ls (h & b & -> & NE). split; auto. apply sub_more, sub_block. exact Hsx. }
      unfold bind at 1. unfold bind_try at 1. unfold bind at 1. rewrite E1.
      assert (Go : forall ds1 (a : result E (option (Z * bytes32))), Heads (rnode ds1) 0 (length ds1) (mt_head t1) ->
        In ds1 (sublists (A ++ [x])) ->
        (forall rs ds', sum_history H ds1 os rs ds' -> sum_history H ds (Push x :: os) (a :: rs) ds') ->
        exists t' rs ds' W,
          (let (s', o) := (l <- mt_run_all H pr st os ;; ret (a :: l)) t1 in (s', o)) = (t', Val rs) /\
          sum_history H ds (Push x :: os) rs ds' /\
          In ds' (sublists ((A ++ [x]) ++ pushed os)) /\ Heads (rnode ds') 0 (length ds') (mt_head t') /\
          Forall (fun ls => In ls (sublists ((A ++ [x]) ++ pushed os)) /\ ls <> []) W /\
          (forall k, view (mt_storage t') k = wr W (view (mt_storage t)) k)).
      { intros ds1 a Hh1 Hs1 Hist. destruct (IH ds1 (A ++ [x]) t1 Hh1 Hs1 F HN) as (t2 & rs & ds' & W2 & E2 & S2 & I2 & Hh2 & B2 & V2).
        exists t2, (a :: rs), ds', (W1 ++ W2). unfold bind. rewrite E2. split; [reflexivity|].
        split; [apply Hist; exact S2|]. split; auto. split; auto. split; [apply Forall_app; auto|].
        intros k. rewrite V2, wr_app. apply wr_ext. exact V1. }
      destruct D1 as [[-> Hh1]|(e & -> & [[Od Hd]|Hd])].
      * unfold ret at 1. destruct (Go (ds ++ [x]) (Ok None) Hh1 Hsx) as (t2 & rs & ds' & W & Eq & R); [intros; constructor; auto|].
        exists t2, rs, ds', W. rewrite <- Eq. split; auto. unfold bind, ret.
        destruct (mt_run_all H pr st os t1) as [? [?| |]]; reflexivity.
      * unfold ret at 1. destruct (Go [] (Err e)) as (t2 & rs & ds' & W & Eq & R).
        { rewrite Hd. constructor. } { apply sub_nil. } { intros. apply SH_lost; auto. }
        exists t2, rs, ds', W. rewrite <- Eq. split; auto. unfold bind, ret.
        destruct (mt_run_all H pr st os t1) as [? [?| |]]; reflexivity.
      * unfold ret at 1. destruct (Go ds (Err e)) as (t2 & rs & ds' & W & Eq & R).
        { rewrite Hd. exact Hh. } { apply sub_more. exact Hs. } { intros. apply SH_failed; auto. }
        exists t2, rs, ds', W. rewrite <- Eq. split; auto. unfold bind, ret.
        destruct (mt_run_all H pr st os t1) as [? [?| |]]; reflexivity.
    + assert (F1 : fees_fit pr ds) by (apply (sub_fit pr _ _ F); apply sub_more; exact Hs).
      assert (HN1 : Z.of_nat (length ds) <= sum_limit).
      { pose proof (sub_length _ _ Hs). rewrite app_length in HN. unfold sum_limit. lia. }
      destruct (mroot_ok H wrapped_fee pr (fees_fit pr) (fit_app pr) (fit_app_fee pr) st view L ds t Hh F1 HN1 He eq_refl)
        as (s1 & r1 & W1 & E1 & B1 & V1 & D1).
      assert (BW : Forall (fun ls => In ls (sublists (A ++ pushed os)) /\ ls <> []) W1).
      { eapply Forall_impl; [|exact B1]. intros ls (h & b & -> & NE). split; auto. apply sub_more, sub_block. exact Hs. }
      destruct (IH ds A (Build_MTree s1 (mt_head t)) Hh Hs F HN) as (t2 & rs & ds' & W2 & E2 & S2 & I2 & Hh2 & B2 & V2).
      unfold bind at 1. unfold bind_try at 1. unfold bind at 1. rewrite E1.
      exists t2. destruct D1 as [->|((e & ->) & _)]; eexists (_ :: rs), ds', (W1 ++ W2); unfold ret at 1; cbv iota beta;
        (unfold bind at 1; rewrite E2; split; [reflexivity|]; split; [constructor; exact S2|]; split; auto; split; auto;
         split; [apply Forall_app; auto|]; intros k; rewrite V2, wr_app; apply wr_ext; exact V1).
Qed.

(** * The storage is closed: the children of a stored node are stored *)
Definition kids (v : MNode) : list bytes32 :=
  match mn_left_child_key v with Some k => [k] | None => [] end ++ match mn_right_child_key v with Some k => [k] | None => [] end.
Definition stored (s : St) (k : bytes32) : Prop := view s k <> None.
Definition closed (s : St) : Prop := forall k v, view s k = Some v -> Forall (stored s) (kids v).
Definition inv (t : MTree St) : Prop := closed (mt_storage t) /\ Forall (fun n => stored (mt_storage t) (mn_hash n)) (mt_head t).
Definition grows (t t' : MTree St) : Prop := forall k, stored (mt_storage t) k -> stored (mt_storage t') k.

Lemma insert_closed : forall v t t' r, closed (mt_storage t) -> Forall (stored (mt_storage t)) (kids v) ->
  mt_insert st (mn_hash v) v t = (t', r) ->
  closed (mt_storage t') /\ grows t t' /\ mt_head t' = mt_head t /\ (forall u, r = Val (Ok u) -> stored (mt_storage t') (mn_hash v)).
Proof.
  intros v t t' r C K E0. unfold mt_insert in E0.
  destruct (s_insert st (mn_hash v) v (mt_storage t)) as [s' a] eqn:Ei.
  assert (Q : (forall k, view s' k = view (mt_storage t) k) \/
              (view s' (mn_hash v) = Some v /\ forall k, k <> mn_hash v -> view s' k = view (mt_storage t) k)).
  { destruct a as [p|e]; [right; apply (law_insert_ok _ _ L _ _ _ _ _ Ei)|apply (law_insert_err _ _ L _ _ _ _ _ Ei)]. }
  assert (G : forall k, stored (mt_storage t) k -> stored s' k).
  { intros k Hk. unfold stored in *. destruct Q as [Q|[Q1 Q2]]; [rewrite Q; exact Hk|].
    destruct (b32_eqb k (mn_hash v)) eqn:B.
    - apply b32_eqb_eq in B. subst k. rewrite Q1. discriminate.
    - apply b32_eqb_neq in B. rewrite Q2 by exact B. exact Hk. }
  assert (C' : closed s').
  { intros k w Hw. assert (W : view (mt_storage t) k = Some w \/ w = v).
    { destruct Q as [Q|[Q1 Q2]]; [left; rewrite <- Q; exact Hw|].
      destruct (b32_eqb k (mn_hash v)) eqn:B.
      - apply b32_eqb_eq in B. subst k. right. congruence.
      - apply b32_eqb_neq in B. left. rewrite <- Q2 by exact B. exact Hw. }
    destruct W as [W| ->]; (eapply Forall_impl; [exact G|]); [apply (C k w W)|exact K]. }
  destruct a as [p|e]; inversion E0; subst; cbn [mt_storage mt_head]; repeat split; auto.
  - intros _ _. destruct (law_insert_ok _ _ L _ _ _ _ _ Ei) as (_ & A & _). unfold stored. rewrite A. discriminate.
  - intros u D. discriminate D.
Qed.

Lemma join_closed : forall a b t t' r, closed (mt_storage t) ->
  stored (mt_storage t) (mn_hash a) -> stored (mt_storage t) (mn_hash b) ->
  mt_join_subtrees H pr st a b t = (t', r) ->
  closed (mt_storage t') /\ grows t t' /\ mt_head t' = mt_head t /\ (forall n, r = Val (Ok n) -> stored (mt_storage t') (mn_hash n)).
Proof.
  intros a b t t' r C Ka Kb E0. unfold mt_join_subtrees in E0. unfold bind, bind_try, lift, ret in E0.
  assert (Same : forall x : out (result E MNode), (forall n, x <> Val (Ok n)) -> (t, x) = (t', r) ->
    closed (mt_storage t') /\ grows t t' /\ mt_head t' = mt_head t /\ (forall n, r = Val (Ok n) -> stored (mt_storage t') (mn_hash n))).
  { intros x Nx Ex. inversion Ex; subst. repeat split; auto. intros k Hk; exact Hk. intros n D. exfalso. exact (Nx n D). }
  destruct (u32_ovf pr (mn_height a + 1)) as [h| |]; try (eapply Same; [|exact E0]; intros n D; discriminate D).
  destruct (mnode_create_node H pr h (mn_fee a) (mn_hash a) (mn_fee b) (mn_hash b)) as [n| |] eqn:En;
    try (eapply Same; [|exact E0]; intros n D; discriminate D).
  assert (K : Forall (stored (mt_storage t)) (kids n)).
  { unfold mnode_create_node in En. destruct (u64_ovf pr (mn_fee a + mn_fee b)) as [f| |]; cbn [obind] in En; try discriminate En.
    injection En as <-. unfold kids. cbn. repeat constructor; auto. }
  unfold bind in E0. destruct (mt_insert st (mn_hash n) n t) as [t1 o] eqn:Ei.
  destruct (insert_closed n t t1 o C K Ei) as (A1 & A2 & A3 & A4).
  destruct o as [[u|e]| |]; inversion E0; subst; repeat split; auto; intros m D; try discriminate D.
  injection D as <-. eapply A4. reflexivity.
Qed.

Lemma loop_closed : forall f t t' r, inv t -> mt_join_all_subtrees_loop H pr st f t = (t', r) -> inv t' /\ grows t t'.
Proof.
  induction f as [|f IH]; intros t t' r [C Hd] E0; cbn [mt_join_all_subtrees_loop] in E0.
  - inversion E0; subst. split; [split; auto|]. intros k Hk; exact Hk.
  - unfold bind at 1, get_state at 1 in E0.
    destruct (mt_head t) as [|x [|y l]] eqn:Eh.
    + inversion E0; subst. split; [split; auto; rewrite Eh; auto|]. intros k Hk; exact Hk.
    + inversion E0; subst. split; [split; auto; rewrite Eh; auto|]. intros k Hk; exact Hk.
    + inversion Hd as [|? ? Hx Hd1]; subst. inversion Hd1 as [|? ? Hy Hl]; subst.
      destruct (mn_height x =? mn_height y).
      2:{ inversion E0; subst. split; [split; auto; rewrite Eh; auto|]. intros k Hk; exact Hk. }
      unfold bind at 1, mt_set_head at 1 in E0. unfold bind_try at 1 in E0. unfold bind at 1 in E0.
      destruct (mt_join_subtrees H pr st y x (Build_MTree (mt_storage t) [])) as [t1 o] eqn:Ej.
      destruct (join_closed y x (Build_MTree (mt_storage t) []) t1 o C Hy Hx Ej) as (A1 & A2 & A3 & A4). cbn [mt_head] in A3.
      destruct o as [[n|e]| |].
      * unfold bind at 1, mt_set_head at 1 in E0. apply IH in E0.
        { destruct E0 as [E1 E2]. split; auto. intros k Hk. apply E2. cbn [mt_storage]. apply A2. exact Hk. }
        split; [exact A1|]. cbn [mt_head mt_storage]. constructor; [apply (A4 n eq_refl)|].
        eapply Forall_impl; [|exact Hl]. intros m Hm. apply A2. exact Hm.
      * inversion E0; subst. split; [split; auto; rewrite A3; constructor|]. exact A2.
      * inversion E0; subst. split; [split; auto; rewrite A3; constructor|]. exact A2.
      * inversion E0; subst. split; [split; auto; rewrite A3; constructor|]. exact A2.
Qed.

Lemma inv_grows : forall t t', inv t -> closed (mt_storage t') -> grows t t' -> mt_head t' = mt_head t -> inv t'.
Proof.
  intros t t' [C Hd] C' G Eh. split; auto. rewrite Eh. eapply Forall_impl; [|exact Hd]. intros n Hn. apply G. exact Hn.
Qed.

Lemma push_closed : forall f d t t' r, inv t -> mt_push H pr st f d t = (t', r) -> inv t' /\ grows t t'.
Proof.
  intros f d t t' r I E0. unfold mt_push in E0. cbv zeta in E0. unfold bind_try at 1 in E0. unfold bind at 1 in E0.
  destruct (mt_insert st (mn_hash (mnode_create_leaf H f d)) (mnode_create_leaf H f d) t) as [t1 o] eqn:Ei.
  destruct (insert_closed (mnode_create_leaf H f d) t t1 o (proj1 I) (Forall_nil _) Ei) as (A1 & A2 & A3 & A4).
  destruct o as [[u|e]| |]; try (inversion E0; subst; split; auto; eapply inv_grows; eauto).
  unfold bind at 1, get_state at 1 in E0. unfold bind at 1, mt_set_head at 1 in E0.
  unfold mt_join_all_subtrees in E0. unfold bind_try at 1 in E0. unfold bind at 1 in E0.
  unfold bind at 1, get_state at 1 in E0.
  match type of E0 with context [mt_join_all_subtrees_loop H pr st ?g ?t0] =>
    destruct (mt_join_all_subtrees_loop H pr st g t0) as [t2 o2] eqn:El end.
  apply loop_closed in El.
  - destruct El as [B1 B2]. assert (G : grows t t2) by (intros k Hk; apply B2; cbn [mt_storage]; apply A2; exact Hk).
    destruct o2 as [[u2|e2]| |]; inversion E0; subst; auto.
  - split; [exact A1|]. cbn [mt_head mt_storage]. constructor; [apply (A4 u eq_refl)|].
    apply (inv_grows t t1 I A1 A2 A3).
Qed.

Lemma root_loop_closed : forall next cur t t' r, inv t -> stored (mt_storage t) (mn_hash cur) ->
  Forall (fun n => stored (mt_storage t) (mn_hash n)) next ->
  mt_root_node_loop H pr st cur next t = (t', r) ->
  inv t' /\ grows t t' /\ (forall n, r = Val (Ok n) -> stored (mt_storage t') (mn_hash n)).
Proof.
  induction next as [|y next IH]; intros cur t t' r I Hc Hn E0; cbn [mt_root_node_loop] in E0.
  - inversion E0; subst. split; auto. split; [intros k Hk; exact Hk|]. intros n D. injection D as <-. exact Hc.
  - inversion Hn as [|? ? Hy Hn']; subst. unfold bind_try at 1 in E0. unfold bind at 1 in E0.
    destruct (mt_join_subtrees H pr st y cur t) as [t1 o] eqn:Ej.
    destruct (join_closed y cur t t1 o (proj1 I) Hy Hc Ej) as (A1 & A2 & A3 & A4).
    pose proof (inv_grows t t1 I A1 A2 A3) as I1.
    destruct o as [[n|e]| |]; try (inversion E0; subst; split; auto; split; auto; intros n D; discriminate D).
    apply IH in E0; auto.
    + destruct E0 as (B1 & B2 & B3). split; auto. split; auto. intros k Hk. apply B2, A2, Hk.
    + eapply Forall_impl; [|exact Hn']. intros m Hm. apply A2. exact Hm.
Qed.

Lemma root_closed : forall t t' r, inv t -> mt_root H pr st t = (t', r) ->
  inv t' /\ grows t t' /\ (forall f h, r = Val (Ok (f, h)) -> mt_head t <> [] -> stored (mt_storage t') h).
Proof.
  intros t t' r I E0. unfold mt_root, mt_root_node in E0. unfold bind_try at 1 in E0. unfold bind at 1 in E0.
  unfold bind at 1, get_state at 1 in E0. destruct (mt_head t) as [|x next] eqn:Eh.
  - inversion E0; subst. split; auto. split; [intros k Hk; exact Hk|]. intros f h _ N. contradiction.
  - pose proof (proj2 I) as Hd. rewrite Eh in Hd. inversion Hd as [|? ? Hx Hn]; subst.
    unfold bind_try at 1 in E0. unfold bind at 1 in E0.
    destruct (mt_root_node_loop H pr st x next t) as [t1 o] eqn:El.
    destruct (root_loop_closed next x t t1 o I Hx Hn El) as (A1 & A2 & A3).
    destruct o as [[n|e]| |]; inversion E0; subst; split; auto; split; auto; intros f h D _; try discriminate D.
    injection D as <- <-. apply (A3 n eq_refl).
Qed.

Lemma do_closed : forall o t t' r, inv t -> mt_do H pr st o t = (t', r) -> inv t' /\ grows t t'.
Proof.
  intros [x|] t t' r I E0; cbn [mt_do] in E0; unfold bind_try, bind in E0.
  - destruct (mt_push H pr st (fst x) (snd x) t) as [t1 [[u|e]| |]] eqn:Ep; inversion E0; subst; eapply push_closed; eauto.
  - destruct (mt_root H pr st t) as [t1 [[u|e]| |]] eqn:Ep; inversion E0; subst;
      destruct (root_closed _ _ _ I Ep) as (A & B & _); auto.
Qed.

Lemma run_closed : forall os t t' r, inv t -> mt_run_all H pr st os t = (t', r) -> inv t' /\ grows t t'.
Proof.
  induction os as [|o os IH]; intros t t' r I E0; cbn [mt_run_all] in E0.
  - inversion E0; subst. split; auto. intros k Hk; exact Hk.
  - unfold bind at 1 in E0. destruct (mt_do H pr st o t) as [t1 a] eqn:Ed.
    destruct (do_closed o t t1 a I Ed) as [I1 G1].
    destruct a as [a| |]; try (inversion E0; subst; split; auto; fail).
    unfold bind in E0. destruct (mt_run_all H pr st os t1) as [t2 b] eqn:Er.
    destruct (IH t1 t2 b I1 Er) as [I2 G2]. assert (G : grows t t2) by (intros k Hk; apply G2, G1, Hk).
    destruct b; inversion E0; subst; auto.
Qed.

Lemma inv_new : forall s0, (forall k, view s0 k = None) -> inv (mt_new s0).
Proof. intros s0 Em. split; [|constructor]. intros k v Hv. cbn in Hv. rewrite Em in Hv. discriminate Hv. Qed.

(** * The theorems *)
Lemma C79_storage_lemma : forall os s0 t o, (forall k, view s0 k = None) ->
  fees_fit pr (pushed os) -> Z.of_nat (length (pushed os)) <= 2 ^ 64 ->
  mt_run_all H pr st os (mt_new s0) = (t, o) ->
  forall k v, view (mt_storage t) k = Some v ->
  exists ls, In ls (sublists (pushed os)) /\ ls <> [] /\ k = mst ls /\ entry_of v = sum_entry H ls /\
    ((2 <= length ls)%nat -> let n := split_point (length ls) in
       view (mt_storage t) (mst (firstn n ls)) <> None /\ view (mt_storage t) (mst (skipn n ls)) <> None).
Proof.
  intros os s0 t o Em F HN R k v Hv.
  destruct (run_any os [] [] (mt_new s0)) as (t1 & rs & ds' & W & E1 & _ & _ & _ & B & V); auto; [constructor|left; reflexivity|].
  rewrite R in E1. inversion E1; subst t1 o. cbn [app] in B.
  destruct (run_closed os (mt_new s0) t _ (inv_new s0 Em) R) as [[C _] _].
  pose proof (C k v Hv) as K. rewrite V in Hv.
  destruct (wr_cases H wrapped_fee W (view (mt_storage (mt_new s0))) k) as [(ls & I & Ek & Ew)|[_ Ew]]; rewrite Ew in Hv.
  2:{ cbn in Hv. rewrite Em in Hv. discriminate Hv. }
  injection Hv as <-. rewrite Forall_forall in B. destruct (B ls I) as [B1 B2].
  exists ls. split; auto. split; auto. split; auto. split; [reflexivity|].
  intros Hl n. unfold kids, SumProofs.node_for in K. cbn [mn_left_child_key mn_right_child_key] in K.
  replace (length ls <=? 1)%nat with false in K by lia. cbn [app] in K.
  inversion K as [|? ? K1 K2]; subst. inversion K2 as [|? ? K3 _]; subst. split; assumption.
Qed.

Lemma sublist_incl : forall A a, In a (sublists A) -> a <> [] ->
  incl (mst_inputs H wrapped_fee a) (sublist_inputs H A).
Proof.
  intros A a Ha N z Hz. unfold sublist_inputs. apply in_concat. exists (mst_inputs H wrapped_fee a). split; auto.
  apply in_map. apply filter_In. split; auto. destruct a; [contradiction|reflexivity].
Qed.

Lemma stored_unique : forall A a b, fees_fit pr A -> ~ has_collision H (sublist_inputs H A) ->
  In a (sublists A) -> In b (sublists A) -> a <> [] -> b <> [] -> mst a = mst b -> a = b.
Proof.
  intros A a b F NC Ha Hb Na Nb Em.
  destruct (mst_binding H wrapped_fee (fees_fit pr) (fit_app pr) (fit_one_range pr) a b
    (sub_fit pr A a F Ha) (sub_fit pr A b F Hb) Em) as [Q|Col]; auto.
  exfalso. apply NC. eapply collision_app; [|exact Col]. intros z Hz. apply in_app_or in Hz.
  destruct Hz as [Hz|Hz]; [apply (sublist_incl A a Ha Na z Hz)|apply (sublist_incl A b Hb Nb z Hz)].
Qed.

Lemma C79_subtrees_lemma : forall os s0 t o, (forall k, view s0 k = None) ->
  fees_fit pr (pushed os) -> Z.of_nat (length (pushed os)) <= 2 ^ 64 ->
  ~ has_collision H (sublist_inputs H (pushed os)) ->
  mt_run_all H pr st os (mt_new s0) = (t, o) ->
  forall ls v, In ls (sublists (pushed os)) -> ls <> [] -> view (mt_storage t) (mst ls) = Some v ->
  entry_of v = sum_entry H ls /\
  ((2 <= length ls)%nat -> let n := split_point (length ls) in
     exists a b, view (mt_storage t) (mst (firstn n ls)) = Some a /\ entry_of a = sum_entry H (firstn n ls) /\
                 view (mt_storage t) (mst (skipn n ls)) = Some b /\ entry_of b = sum_entry H (skipn n ls)).
Proof.
  intros os s0 t o Em F HN NC R.
  assert (A : forall ls v, In ls (sublists (pushed os)) -> ls <> [] -> view (mt_storage t) (mst ls) = Some v ->
    entry_of v = sum_entry H ls /\ ((2 <= length ls)%nat -> let n := split_point (length ls) in
      view (mt_storage t) (mst (firstn n ls)) <> None /\ view (mt_storage t) (mst (skipn n ls)) <> None)).
  { intros ls v Hs N Hv.
    destruct (C79_storage_lemma os s0 t o Em F HN R _ _ Hv) as (ls' & Hs' & N' & Ek & Ev & K).
    assert (ls = ls') by (apply (stored_unique (pushed os)); auto). subst ls'. auto. }
  intros ls v Hs N Hv. destruct (A ls v Hs N Hv) as [Ev K]. split; auto. intros Hl n.
  destruct (K Hl) as [K1 K2]. fold n in K1, K2.
  destruct (sub_halves (pushed os) ls n Hs) as [S1 S2].
  destruct (split_point_bounds _ Hl) as [[Q1 Q2] _]. fold n in Q1, Q2.
  assert (N1 : firstn n ls <> []) by (intros D; apply (f_equal (@length leaf)) in D; rewrite firstn_length in D; cbn [length] in D; lia).
  assert (N2 : skipn n ls <> []) by (intros D; apply (f_equal (@length leaf)) in D; rewrite skipn_length in D; cbn [length] in D; lia).
  destruct (view (mt_storage t) (mst (firstn n ls))) as [a|] eqn:Va; [|contradiction].
  destruct (view (mt_storage t) (mst (skipn n ls))) as [b|] eqn:Vb; [|contradiction].
  exists a, b. repeat split; auto; [apply (A _ _ S1 N1 Va)|apply (A _ _ S2 N2 Vb)].
Qed.

(** An answered root of a non-empty tree is stored. *)
Lemma C79_root_lemma : forall os s0 t o f r t', (forall k, view s0 k = None) ->
  fees_fit pr (pushed os) -> Z.of_nat (length (pushed os)) <= 2 ^ 64 ->
  mt_run_all H pr st os (mt_new s0) = (t, o) ->
  mt_root H pr st t = (t', Val (Ok (f, r))) ->
  exists ds, In ds (sublists (pushed os)) /\ f = wrapped_fee ds /\ r = mst ds /\
    (ds <> [] -> view (mt_storage t') r <> None).
Proof.
  intros os s0 t o f r t' Em F HN R Er.
  destruct (run_any os [] [] (mt_new s0)) as (t1 & rs & ds & W & E1 & _ & Hs & Hh & _ & _); auto; [constructor|left; reflexivity|].
  rewrite R in E1. inversion E1; subst t1 o. cbn [app] in Hs.
  destruct (run_closed os (mt_new s0) t _ (inv_new s0 Em) R) as [I _].
  assert (HN1 : Z.of_nat (length ds) <= sum_limit) by (pose proof (sub_length _ _ Hs); unfold sum_limit; lia).
  destruct (mroot_ok H wrapped_fee pr (fees_fit pr) (fit_app pr) (fit_app_fee pr) st view L ds t Hh (sub_fit pr _ _ F Hs) HN1 He eq_refl)
    as (s1 & r1 & W1 & E2 & _ & _ & D).
  rewrite E2 in Er. inversion Er; subst t' r1. destruct D as [D|((e & D) & _)]; [|discriminate D].
  injection D as -> ->. exists ds. split; auto. split; auto. split; auto. intros N.
  destruct (root_closed _ _ _ I E2) as (_ & _ & Q). apply (Q _ _ eq_refl).
  intros Eh. rewrite Eh in Hh. apply Heads_nil_inv in Hh. apply length_zero_iff_nil in Hh. contradiction.
Qed.
End Any.

(** * Any storage at all: a ghost copy of the writes makes it lawful *)
Section Ghost.
Context {St E : Type}.
Variable st : StorageT St bytes32 MNode E.
Definition gview (g : St * (bytes32 -> option MNode)) : bytes32 -> option MNode := snd g.
Definition Ghost : StorageT (St * (bytes32 -> option MNode)) bytes32 MNode E :=
  {| s_get := fun k g => (g, Ok (snd g k));
     s_insert := fun k v g => let '(s', r) := s_insert st k v (fst g) in
       match r with
       | Ok _ => ((s', fun k' => if b32_eqb k' k then Some v else snd g k'), Ok (snd g k))
       | Err e => ((s', snd g), Err e)
       end;
     s_remove := fun k g => ((fst g, fun k' => if b32_eqb k' k then None else snd g k'), Ok (snd g k)) |}.
Lemma Ghost_lawful : Lawful Ghost gview.
Proof.
  split; unfold Ghost, gview; cbn [s_get s_insert s_remove].
  - intros k s s' r Q k'. inversion Q. reflexivity.
  - intros k s s' v Q. inversion Q. reflexivity.
  - intros k v s s' p Q. destruct (s_insert st k v (fst s)) as [s1 [q|e]]; inversion Q; subst. cbn [snd].
    split; auto. rewrite b32_eqb_refl. split; auto. intros k' N. rewrite (proj2 (b32_eqb_neq k' k)) by exact N. reflexivity.
  - intros k v s s' e Q. destruct (s_insert st k v (fst s)) as [s1 [q|e1]]; inversion Q; subst. left. reflexivity.
  - intros k s s' p Q. inversion Q; subst. cbn [snd]. split; auto. rewrite b32_eqb_refl. split; auto.
    intros k' N. rewrite (proj2 (b32_eqb_neq k' k)) by exact N. reflexivity.
  - intros k s s' e Q. inversion Q.
Qed.
Lemma Ghost_alike : inserts_alike (fun s g => s = fst g) st Ghost.
Proof.
  intros k v s g ->. unfold Ghost. cbn [s_insert]. destruct (s_insert st k v (fst g)) as [s1 [q|e]]; cbn; auto.
Qed.
End Ghost.

Lemma C79_history_lemma : forall H pr St E (st : StorageT St bytes32 MNode E), H [] = empty_sum ->
  forall os s0, fees_fit pr (pushed os) -> Z.of_nat (length (pushed os)) <= 2 ^ 64 ->
  exists t rs ds, mt_run_all H pr st os (mt_new s0) = (t, Val rs) /\ sum_history H [] os rs ds.
Proof.
  intros H pr St E st He os s0 F HN.
  destruct (run_any H He pr (Ghost st) gview (Ghost_lawful st) os [] [] (mt_new (s0, fun _ => None)))
    as (t & rs & ds & W & E1 & S & _); auto; [constructor|left; reflexivity|].
  destruct (C77_sum_lemma H pr _ _ _ _ st (Ghost st) (Ghost_alike st) os (mt_new s0) (mt_new (s0, fun _ => None))) as [_ Q].
  { split; reflexivity. }
  rewrite E1 in Q. cbn [snd] in Q. destruct (mt_run_all H pr st os (mt_new s0)) as [t' o]. cbn [snd] in Q. subst o.
  exists t', rs, ds. auto.
Qed.
