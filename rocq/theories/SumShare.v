(** SumShare.v -- several objects of the sum tree at work on one storage. *)
From Verif Require Import Base Storage ModelCommon ModelSum SpecBinary SpecBinaryFacts SpecPosition SpecSum SpecSumAny SpecSumShare
  SpecAlike PositionProofs PathProofs HeadsProofs RunsSum RunsCalls RunsSumShare SumProofs SumMain CommonProofs BindingProofs TreeSim SumAny.
From Coq Require Import Arith ZifyBool ZifyNat ZifyN.
Arguments Z.pow : simpl never.
Arguments Z.of_nat : simpl never.
Arguments split_point : simpl never.

Lemma calls_same : forall A i (o : A) os, calls_on i ((i, o) :: os) = o :: calls_on i os.
Proof. intros A i o os. unfold calls_on. cbn [filter fst]. rewrite Nat.eqb_refl. reflexivity. Qed.
Lemma calls_other : forall A i j (o : A) os, i <> j -> calls_on j ((i, o) :: os) = calls_on j os.
Proof. intros A i j o os N. unfold calls_on. cbn [filter fst]. rewrite (proj2 (Nat.eqb_neq i j) N). reflexivity. Qed.
Lemma answers_same : forall A B i (o : A) os (a : B) rs, answers_on i ((i, o) :: os) (a :: rs) = a :: answers_on i os rs.
Proof. intros A B i o os a rs. unfold answers_on. cbn [combine filter fst]. rewrite Nat.eqb_refl. reflexivity. Qed.
Lemma answers_other : forall A B i j (o : A) os (a : B) rs, i <> j -> answers_on j ((i, o) :: os) (a :: rs) = answers_on j os rs.
Proof. intros A B i j o os a rs N. unfold answers_on. cbn [combine filter fst]. rewrite (proj2 (Nat.eqb_neq i j) N). reflexivity. Qed.

Lemma history_cons : forall H E ds o (a : result E (option (Z * bytes32))) ds1 os rs ds',
  sum_history H ds [o] [a] ds1 -> sum_history H ds1 os rs ds' -> sum_history H ds (o :: os) (a :: rs) ds'.
Proof.
  intros H E ds o a ds1 os rs ds' A B.
  inversion A; subst;
    match goal with Q : sum_history H _ [] [] _ |- _ => inversion Q; subst end.
  - apply SH_push; exact B.
  - apply SH_failed; exact B.
  - apply SH_lost; assumption.
  - apply SH_root; exact B.
  - apply SH_no_root; exact B.
Qed.

Definition upd {A} (f : nat -> A) (i : nat) (x : A) : nat -> A := fun j => if Nat.eqb j i then x else f j.
Lemma upd_same : forall A (f : nat -> A) i x, upd f i x i = x.
Proof. intros. unfold upd. rewrite Nat.eqb_refl. reflexivity. Qed.
Lemma upd_other : forall A (f : nat -> A) i j x, i <> j -> upd f i x j = f j.
Proof. intros A f i j x N. unfold upd. rewrite (proj2 (Nat.eqb_neq j i)) by congruence. reflexivity. Qed.
Lemma set_same : forall objs i h, sum_set objs i h i = h.
Proof. intros. unfold sum_set. rewrite Nat.eqb_refl. reflexivity. Qed.
Lemma set_other : forall objs i j h, i <> j -> sum_set objs i h j = objs j.
Proof. intros objs i j h N. unfold sum_set. rewrite (proj2 (Nat.eqb_neq j i)) by congruence. reflexivity. Qed.

Section Share.
Variable H : list byte -> bytes32.
Hypothesis He : H [] = empty_sum.
Variable pr : profile.
Context {St E : Type}.
Variable st : StorageT St bytes32 MNode E.
Variable view : St -> bytes32 -> option MNode.
Hypothesis L : Lawful st view.
Notation mst := (mst H wrapped_fee).
Notation rnode := (rnode H wrapped_fee).
Notation wr := (wr H wrapped_fee).
Notation stored := (stored view).
Notation closed := (closed view).

Lemma do_any : forall o ds A t, Heads (rnode ds) 0 (length ds) (mt_head t) ->
  In ds (sublists A) -> fees_fit pr (A ++ pushed [o]) -> Z.of_nat (length (A ++ pushed [o])) <= 2 ^ 64 ->
  exists t' a ds' W, mt_do H pr st o t = (t', Val a) /\ sum_history H ds [o] [a] ds' /\
    In ds' (sublists (A ++ pushed [o])) /\ Heads (rnode ds') 0 (length ds') (mt_head t') /\
    Forall (fun ls => In ls (sublists (A ++ pushed [o])) /\ ls <> []) W /\
    (forall k, view (mt_storage t') k = wr W (view (mt_storage t)) k).
Proof.
  intros o ds A t Hh Hs F HN.
  destruct (run_any H He pr st view L [o] ds A t Hh Hs F HN) as (t' & rs & ds' & W & R & Hy & Q).
  cbn [mt_run_all] in R. unfold bind in R. destruct (mt_do H pr st o t) as [t1 [a| |]] eqn:D; try discriminate R.
  unfold ret in R. inversion R; subst. exists t', a, ds', W. auto.
Qed.

Lemma pushed_cons : forall o os, pushed (o :: os) = pushed [o] ++ pushed os.
Proof. intros [x|] os; reflexivity. Qed.

Definition good (s : St) (objs : nat -> list MNode) : Prop :=
  closed s /\ forall i, Forall (fun n => stored s (mn_hash n)) (objs i).

(** One call: the object follows the specification, the others are as before. *)
Lemma crowd_any : forall os ds A objs s,
  (forall i, Heads (rnode (ds i)) 0 (length (ds i)) (objs i)) -> (forall i, In (ds i) (sublists (A i))) ->
  (forall i, fees_fit pr (A i ++ pushed (calls_on i os))) -> (forall i, Z.of_nat (length (A i ++ pushed (calls_on i os))) <= 2 ^ 64) ->
  good s objs ->
  exists s' rs ds' W, sum_crowd H pr st objs os s = (s', Val rs) /\ length rs = length os /\
    (forall i, sum_history H (ds i) (calls_on i os) (answers_on i os rs) (ds' i)) /\
    Forall (fun ls => exists i, In ls (sublists (A i ++ pushed (calls_on i os))) /\ ls <> []) W /\
    (forall k, view s' k = wr W (view s) k) /\ closed s' /\ (forall k, stored s k -> stored s' k) /\
    (forall i f r, In (Ok (Some (f, r))) (answers_on i os rs) ->
       exists d, In d (sublists (A i ++ pushed (calls_on i os))) /\ f = wrapped_fee d /\ r = mst d /\ (d <> [] -> stored s' r)).
Proof.
  induction os as [|[i o] os IH]; intros ds A objs s Hh Hs F HN G.
  - exists s, [], ds, []. split; [reflexivity|]. split; [reflexivity|]. split; [intros i; constructor|]. split; [constructor|].
    split; [reflexivity|]. split; [apply G|]. split; [auto|]. intros i f r [].
  - pose proof (F i) as Fi. pose proof (HN i) as Ni. rewrite calls_same, pushed_cons in Fi, Ni.
    rewrite app_assoc in Fi, Ni.
    destruct (do_any o (ds i) (A i) (Build_MTree s (objs i)) (Hh i) (Hs i)) as (t1 & a & d1 & W1 & R1 & Y1 & S1 & H1 & B1 & V1).
    { apply (sub_fit pr _ _ Fi). rewrite <- (app_nil_r (A i ++ pushed [o])) at 1. apply sub_app; [|apply sub_nil].
      clear. induction (A i ++ pushed [o]) as [|x l IHl]; cbn [sublists]; [left; reflexivity|]. apply in_or_app. left. apply in_map. exact IHl. }
    { rewrite app_length in Ni. lia. }
    assert (I0 : inv view (Build_MTree s (objs i))) by (split; [apply G|apply (proj2 G i)]).
    destruct (do_closed H pr st view L o _ _ _ I0 R1) as [I1 G1]. cbn [grows] in G1. unfold grows in G1. cbn [mt_storage] in G1, V1.
    set (ds1 := upd ds i d1). set (A1 := upd A i (A i ++ pushed [o])). set (objs1 := sum_set objs i (mt_head t1)).
    assert (Ec : forall j, A1 j ++ pushed (calls_on j os) = A j ++ pushed (calls_on j ((i, o) :: os))).
    { intros j. unfold A1. destruct (Nat.eq_dec i j) as [<-|N].
      - rewrite upd_same, calls_same, (pushed_cons o (calls_on i os)), app_assoc. reflexivity.
      - rewrite upd_other, calls_other by exact N. reflexivity. }
    destruct (IH ds1 A1 objs1 (mt_storage t1)) as (s2 & rs & ds2 & W2 & R2 & L2 & Y2 & B2 & V2 & C2 & G2 & Z2).
    { intros j. unfold ds1, objs1. destruct (Nat.eq_dec i j) as [<-|N].
      - rewrite upd_same, set_same. exact H1.
      - rewrite upd_other, set_other by exact N. apply Hh. }
    { intros j. unfold ds1, A1. destruct (Nat.eq_dec i j) as [<-|N].
      - rewrite !upd_same. exact S1.
      - rewrite !upd_other by exact N. apply Hs. }
    { intros j. rewrite Ec. apply F. }
    { intros j. rewrite Ec. apply HN. }
    { split; [apply I1|]. intros j. unfold objs1. destruct (Nat.eq_dec i j) as [<-|N].
      - rewrite set_same. apply I1.
      - rewrite set_other by exact N. eapply Forall_impl; [|apply (proj2 G j)]. intros n Hn. apply G1. exact Hn. }
    exists s2, (a :: rs), ds2, (W1 ++ W2).
    split. { cbn [sum_crowd]. unfold bind, sum_act. rewrite R1. cbn [fst snd]. fold objs1. rewrite R2. reflexivity. }
    split; [cbn [length]; lia|].
    split. { intros j. specialize (Y2 j). unfold ds1 in Y2. destruct (Nat.eq_dec i j) as [<-|N].
      - rewrite upd_same in Y2. rewrite calls_same, answers_same. exact (history_cons H E _ _ _ _ _ _ _ Y1 Y2).
      - rewrite upd_other in Y2 by exact N. rewrite calls_other, answers_other by exact N. exact Y2. }
    split. { apply Forall_app. split.
      - eapply Forall_impl; [|exact B1]. intros ls [Q1 Q2]. exists i. split; [|exact Q2]. rewrite <- Ec. unfold A1. rewrite upd_same.
        apply sub_more. exact Q1.
      - eapply Forall_impl; [|exact B2]. intros ls (j & Q1 & Q2). exists j. rewrite <- Ec. auto. }
    split. { intros k. rewrite V2, wr_app. apply wr_ext. exact V1. }
    split; [exact C2|]. split; [intros k Hk; apply G2, G1; exact Hk|].
    intros j f r Q. destruct (Nat.eq_dec i j) as [<-|N].
    + rewrite answers_same in Q. destruct Q as [Q|Q].
      * subst a. destruct o as [x|]; [inversion Y1|]. inversion Y1; subst.
        exists (ds i). split; [rewrite <- Ec; unfold A1; rewrite upd_same; apply sub_more, sub_more; apply Hs|].
        split; [reflexivity|]. split; [reflexivity|]. intros Nd. apply G2.
        cbn [mt_do] in R1. unfold bind_try, bind in R1.
        destruct (mt_root H pr st (Build_MTree s (objs i))) as [t2 [[p|e]| |]] eqn:Er; inversion R1; subst.
        destruct (root_closed H pr st view L _ _ _ I0 Er) as (_ & _ & K). apply (K _ _ eq_refl).
        cbn [mt_head]. intros Eh. pose proof (Hh i) as Hi. rewrite Eh in Hi. apply Heads_nil_inv in Hi. apply length_zero_iff_nil in Hi. contradiction.
      * destruct (Z2 i f r Q) as (d & D1 & D2). exists d. rewrite <- Ec. auto.
    + rewrite answers_other in Q by exact N. destruct (Z2 j f r Q) as (d & D1 & D2). exists d. rewrite <- Ec. auto.
Qed.

Lemma crowd_new : forall os s0, (forall k, view s0 k = None) ->
  (forall i, fees_fit pr (pushed (calls_on i os))) -> (forall i, Z.of_nat (length (pushed (calls_on i os))) <= 2 ^ 64) ->
  exists s' rs ds' W, sum_crowd H pr st fresh_objects os s0 = (s', Val rs) /\ length rs = length os /\
    (forall i, sum_history H [] (calls_on i os) (answers_on i os rs) (ds' i)) /\
    Forall (fun ls => exists i, In ls (sublists (pushed (calls_on i os))) /\ ls <> []) W /\
    (forall k, view s' k = wr W (view s0) k) /\ closed s' /\
    (forall i f r, In (Ok (Some (f, r))) (answers_on i os rs) ->
       exists d, In d (sublists (pushed (calls_on i os))) /\ f = wrapped_fee d /\ r = mst d /\ (d <> [] -> stored s' r)).
Proof.
  intros os s0 Em F HN.
  destruct (crowd_any os (fun _ => []) (fun _ => []) fresh_objects s0) as (s' & rs & ds' & W & Q1 & Q2 & Q3 & Q4 & Q5 & Q6 & _ & Q7); auto.
  - intros i. constructor.
  - intros i. left. reflexivity.
  - split; [|intros i; constructor]. intros k v Hv. rewrite Em in Hv. discriminate Hv.
  - exists s', rs, ds', W. repeat (split; [assumption|]). assumption.
Qed.

Lemma C107_storage_lemma : forall os s0 s' rs, (forall k, view s0 k = None) ->
  (forall i, fees_fit pr (pushed (calls_on i os))) -> (forall i, Z.of_nat (length (pushed (calls_on i os))) <= 2 ^ 64) ->
  sum_crowd H pr st fresh_objects os s0 = (s', Val rs) ->
  (forall k v, view s' k = Some v -> exists i ls, In ls (sublists (pushed (calls_on i os))) /\ ls <> [] /\ k = mst ls /\
     entry_of v = sum_entry H ls /\
     ((2 <= length ls)%nat -> let n := split_point (length ls) in
        view s' (mst (firstn n ls)) <> None /\ view s' (mst (skipn n ls)) <> None)) /\
  (forall i f r, In (Ok (Some (f, r))) (answers_on i os rs) ->
     exists ds, In ds (sublists (pushed (calls_on i os))) /\ f = wrapped_fee ds /\ r = mst ds /\ (ds <> [] -> view s' r <> None)).
Proof.
  intros os s0 s' rs Em F HN R.
  destruct (crowd_new os s0 Em F HN) as (s1 & rs1 & ds' & W & R1 & _ & _ & B & V & C & Z).
  rewrite R in R1. inversion R1; subst s1 rs1. split; [|exact Z].
  intros k v Hv. pose proof (C k v Hv) as K. rewrite V in Hv.
  destruct (wr_cases H wrapped_fee W (view s0) k) as [(ls & I & Ek & Ew)|[_ Ew]]; rewrite Ew in Hv.
  2:{ rewrite Em in Hv. discriminate Hv. }
  injection Hv as <-. rewrite Forall_forall in B. destruct (B ls I) as (i & B1 & B2).
  exists i, ls. split; auto. split; auto. split; auto. split; [reflexivity|].
  intros Hl n. unfold kids, SumProofs.node_for in K. cbn [mn_left_child_key mn_right_child_key] in K.
  replace (length ls <=? 1)%nat with false in K by lia. cbn [app] in K.
  inversion K as [|? ? K1 K2]; subst. inversion K2 as [|? ? K3 _]; subst. split; assumption.
Qed.

Lemma calls_none : forall A i (os : list (nat * A)), ~ In i (map fst os) -> calls_on i os = [].
Proof.
  intros A i os. induction os as [|[j o] os IH]; intros N; [reflexivity|].
  cbn [map fst In] in N. rewrite calls_other by tauto. apply IH. tauto.
Qed.

Lemma shared_unique : forall os i j a b, (forall i, fees_fit pr (pushed (calls_on i os))) -> ~ has_collision H (object_inputs H os) ->
  In a (sublists (pushed (calls_on i os))) -> In b (sublists (pushed (calls_on j os))) -> a <> [] -> b <> [] -> mst a = mst b -> a = b.
Proof.
  intros os i j a b F NC Ha Hb Na Nb Em.
  destruct (mst_binding H wrapped_fee (fees_fit pr) (fit_app pr) (fit_one_range pr) a b
    (sub_fit pr _ a (F i) Ha) (sub_fit pr _ b (F j) Hb) Em) as [Q|Col]; auto.
  exfalso. apply NC.
  assert (X : forall i a, In a (sublists (pushed (calls_on i os))) -> a <> [] -> incl (mst_inputs H wrapped_fee a) (object_inputs H os)).
  { intros i0 a0 I0 N0 z Hz. unfold object_inputs. apply in_concat. exists (sublist_inputs H (pushed (calls_on i0 os))).
    split; [|apply (sublist_incl H _ a0 I0 N0 z Hz)].
    apply (in_map (fun i => sublist_inputs H (pushed (calls_on i os)))).
    apply nodup_In. destruct (in_dec Nat.eq_dec i0 (map fst os)) as [Y|N]; [exact Y|]. rewrite calls_none in I0 by exact N.
    destruct I0 as [<-|[]]. contradiction. }
  eapply collision_app; [|exact Col]. intros z Hz. apply in_app_or in Hz. destruct Hz as [Hz|Hz]; [apply (X i a)|apply (X j b)]; auto.
Qed.

Lemma C107_subtrees_lemma : forall os s0 s' rs, (forall k, view s0 k = None) ->
  (forall i, fees_fit pr (pushed (calls_on i os))) -> (forall i, Z.of_nat (length (pushed (calls_on i os))) <= 2 ^ 64) ->
  ~ has_collision H (object_inputs H os) -> sum_crowd H pr st fresh_objects os s0 = (s', Val rs) ->
  forall i ls v, In ls (sublists (pushed (calls_on i os))) -> ls <> [] -> view s' (mst ls) = Some v ->
  entry_of v = sum_entry H ls /\
  ((2 <= length ls)%nat -> let n := split_point (length ls) in
     exists a b, view s' (mst (firstn n ls)) = Some a /\ entry_of a = sum_entry H (firstn n ls) /\
                 view s' (mst (skipn n ls)) = Some b /\ entry_of b = sum_entry H (skipn n ls)).
Proof.
  intros os s0 s' rs Em F HN NC R.
  assert (A : forall i ls v, In ls (sublists (pushed (calls_on i os))) -> ls <> [] -> view s' (mst ls) = Some v ->
    entry_of v = sum_entry H ls /\ ((2 <= length ls)%nat -> let n := split_point (length ls) in
      view s' (mst (firstn n ls)) <> None /\ view s' (mst (skipn n ls)) <> None)).
  { intros i ls v Hs N Hv.
    destruct (proj1 (C107_storage_lemma os s0 s' rs Em F HN R) _ _ Hv) as (j & ls' & Hs' & N' & Ek & Ev & K).
    assert (ls = ls') by (apply (shared_unique os i j); auto). subst ls'. auto. }
  intros i ls v Hs N Hv. destruct (A i ls v Hs N Hv) as [Ev K]. split; auto. intros Hl n.
  destruct (K Hl) as [K1 K2]. fold n in K1, K2.
  destruct (sub_halves _ ls n Hs) as [S1 S2].
  destruct (split_point_bounds _ Hl) as [[Q1 Q2] _]. fold n in Q1, Q2.
  assert (N1 : firstn n ls <> []) by (intros D; apply (f_equal (@length leaf)) in D; rewrite firstn_length in D; cbn [length] in D; lia).
  assert (N2 : skipn n ls <> []) by (intros D; apply (f_equal (@length leaf)) in D; rewrite skipn_length in D; cbn [length] in D; lia).
  destruct (view s' (mst (firstn n ls))) as [a|] eqn:Va; [|contradiction].
  destruct (view s' (mst (skipn n ls))) as [b|] eqn:Vb; [|contradiction].
  exists a, b. repeat split; auto; [apply (A i _ _ S1 N1 Va)|apply (A i _ _ S2 N2 Vb)].
Qed.
End Share.

(** * Any storage at all *)
Lemma crowd_alike : forall H pr S1 S2 E (R : S1 -> S2 -> Prop) (st1 : StorageT S1 bytes32 MNode E) (st2 : StorageT S2 bytes32 MNode E),
  inserts_alike R st1 st2 -> forall os objs s1 s2, R s1 s2 ->
  snd (sum_crowd H pr st1 objs os s1) = snd (sum_crowd H pr st2 objs os s2).
Proof.
  intros H pr S1 S2 E R st1 st2 A. induction os as [|[i o] os IH]; intros objs s1 s2 Q; [reflexivity|].
  cbn [sum_crowd]. unfold bind at 1 3, sum_act.
  assert (Q0 : mt_alike R (Build_MTree s1 (objs i)) (Build_MTree s2 (objs i))) by (split; [reflexivity|exact Q]).
  destruct (q_mt_do H pr R st1 st2 A o _ _ Q0) as [Qt Qa].
  destruct (mt_do H pr st1 o (Build_MTree s1 (objs i))) as [t1 a1]. destruct (mt_do H pr st2 o (Build_MTree s2 (objs i))) as [t2 a2].
  cbn [fst snd] in Qt, Qa. destruct Qt as [Qh Qs]. subst a2.
  destruct a1 as [a| |]; try reflexivity. cbn [fst snd]. rewrite Qh.
  specialize (IH (sum_set objs i (mt_head t2)) (mt_storage t1) (mt_storage t2) Qs). unfold bind.
  destruct (sum_crowd H pr st1 (sum_set objs i (mt_head t2)) os (mt_storage t1)) as [u1 b1].
  destruct (sum_crowd H pr st2 (sum_set objs i (mt_head t2)) os (mt_storage t2)) as [u2 b2]. cbn [snd] in IH. subst b2.
  destruct b1; reflexivity.
Qed.

Lemma C107_answers_lemma : forall H pr St E (st : StorageT St bytes32 MNode E), H [] = empty_sum ->
  forall os s0, (forall i, fees_fit pr (pushed (calls_on i os))) -> (forall i, Z.of_nat (length (pushed (calls_on i os))) <= 2 ^ 64) ->
  exists s' rs, sum_crowd H pr st fresh_objects os s0 = (s', Val rs) /\ length rs = length os /\
    forall i, exists ds, sum_history H [] (calls_on i os) (answers_on i os rs) ds.
Proof.
  intros H pr St E st He os s0 F HN.
  destruct (crowd_new H He pr (Ghost st) gview (Ghost_lawful st) os (s0, fun _ => None) (fun _ => eq_refl) F HN)
    as (s' & rs & ds & W & R & Ln & Y & _).
  pose proof (crowd_alike H pr _ _ _ _ st (Ghost st) (Ghost_alike st) os fresh_objects s0 (s0, fun _ => None) eq_refl) as Q.
  rewrite R in Q. destruct (sum_crowd H pr st fresh_objects os s0) as [s1 o]. cbn [snd] in Q. subst o.
  exists s1, rs. split; [reflexivity|]. split; [exact Ln|]. intros i. exists (ds i). apply Y.
Qed.
