(** PartProofs.v -- updates on a storage that has the paths of the keys and maybe nothing else. *)
From Verif Require Import Base Storage ModelCommon ModelSparse SpecBits SpecBinary SpecSparse SpecAnyRun SpecDisk SpecPart RunsSparse StorageProofs
  BindingProofs BitsProofs PositionProofs CommonProofs SparseSpecFacts SparseNodes SparseProofs SparseOps SparseSteps SparseMain SparseTheorems SparseAnyRun SparseDisk HistoryProofs.
From Coq Require Import Arith ZifyBool ZifyNat ZifyN.

Section Part.
Variable H : list byte -> bytes32.
Variable pr : profile.
Context {St E : Type}.
Variable st : StorageT St bytes32 SPrimitive E.
Variable view : St -> bytes32 -> option SPrimitive.
Hypothesis Law : Lawful st view.
Hypothesis Inf : Infallible st.
Notation V t := (view (sp_storage t)).
Notation entries := (list (bytes32 * bytes32)).
Notation prim := sprim_of_node.

Definition pathed (k : bytes32) (m : entries) (v : bytes32 -> option SPrimitive) : Prop :=
  avail H [] m v /\ forall j, (j < KB)%nat -> (2 <= length (sub (P k j) m))%nat -> avail H (P k (S j)) m v /\ avail H (sd k j) m v.

Section WithU.
Variable U : list (list byte).
Hypothesis HC : ~ has_collision H U.
Hypothesis HZ : forall x, In x U -> H x <> zero32.

Lemma one_avail : forall p q (m : entries) v e, NoDup (keys m) -> sub p m = [e] -> sub q m = [e] -> avail H p m v -> avail H q m v.
Proof.
  intros p q m v [k h] N Sp Sq [A|A]; [congruence|]. right.
  destruct (T_cases H p m N) as [S1 E1 _|k1 h1 S1 E1 _|S1 _ _ _]; [congruence| |rewrite Sp in S1; cbn in S1; lia].
  destruct (T_cases H q m N) as [S2 E2 _|k2 h2 S2 E2 _|S2 _ _ _]; [congruence| |rewrite Sq in S2; cbn in S2; lia].
  rewrite E2. rewrite E1 in A. rewrite (nd_one H _ _ _ _ S2). rewrite (nd_one H _ _ _ _ S1) in A.
  assert (k1 = k2 /\ h1 = h2) as [-> ->] by (split; congruence). exact A.
Qed.

Lemma update_part : forall Ks k data m t, data <> [] -> core H U anyk view m t -> good H U (mset k (H data) m) -> fresh H U k -> In k Ks ->
  (forall k', In k' Ks -> pathed k' m (V t)) ->
  exists t', sp_update H pr st k data t = (t', Val (Ok tt)) /\ core H U anyk view (mset k (H data) m) t' /\
    forall k', In k' Ks -> pathed k' (mset k (H data) m) (V t').
Proof.
  intros Ks k data m t ND C G' Fr Ik Pa. pose proof C as [Rn So G Us].
  destruct (lands_exists k m (good_nodup H U m G)) as [D La]. pose proof La as (LD & LA & LE).
  destruct (update_step H U anyk HC HZ pr st view Law k data m t ND C G' Logic.I Fr) as (t' & r & Ru & Rc & _).
  destruct (update_ok H U HC HZ pr st view Law k data m t D ND G G' Fr So Rn La) as (t2 & r2 & L & Ru2 & VL & WL & R).
  rewrite Ru in Ru2. injection Ru2 as <- <-. exists t'.
  destruct R as [(-> & _ & AL & _)|(e & -> & _ & Er)].
  2:{ exfalso. destruct Er as [[_ F]|[(p & _ & [NE Lp] & j & Lj & Pp)|[_ F]]]; [contradiction| |contradiction].
      destruct (proj2 (Pa k Ik) j ltac:(lia) (LA j Lj)) as [A1 A2].
      assert (A : avail H p m (V t)) by (destruct Pp as [-> | ->]; assumption). destruct A as [A|A]; [contradiction|].
      match type of Lp with wr ?l ?v ?x = None => destruct (wr_cases l v x) as [(o & Io & Eo)|[_ Q]] end; [|congruence].
      rewrite Eo in Lp. subst o. destruct Io as [Q|[Q|[]]]; discriminate Q. }
  split; [exact Ru|]. destruct Rc as [(_ & C' & _)|(e & Q & _)]; [|discriminate Q]. split; [exact C'|].
  set (h := H data) in *. set (m' := mset k h m) in *.
  assert (KL : Forall (keeps H U) L) by (apply Forall_forall; intros w Iw; apply (upd_keeps H U k h m w G' Fr); auto).
  (* nodes on the path are written, others stay *)
  assert (On : forall p, has_prefix p (bits_of k) = true -> avail H p m' (V t')).
  { intros p Ep. right. rewrite VL. destruct (P_of_prefix p k Ep) as [Lp Eq].
    assert (NE : sub p m' <> []) by (rewrite Eq; apply sub_P_ne).
    apply (present_wr H U HC HZ); auto. apply AL. right.
    exists (length p). rewrite <- Eq. split; [exact Lp|]. split; [exact NE|reflexivity]. }
  assert (Off : forall p, has_prefix p (bits_of k) = false -> avail H p m (V t) -> avail H p m' (V t')).
  { intros p Ep A. destruct (upd_off H k h m p Ep) as [En ET]. fold m' in En, ET.
    assert (Es : sub p m' = sub p m) by (apply sub_mset_out; exact Ep).
    destruct A as [A|A]; [left; congruence|]. destruct (sub p m') eqn:Q; [left; exact Q|]. right. rewrite VL.
    apply (keep_entry H U HC HZ); auto; [rewrite Q; discriminate|]. rewrite En, ET. exact A. }
  intros k' Ik'. split; [apply On; reflexivity|]. intros j Lj L2.
  assert (Al : forall b, avail H (P k' j ++ [b]) m' (V t')).
  { intros b. set (p := P k' j ++ [b]). destruct (has_prefix p (bits_of k)) eqn:Ep; [apply On; exact Ep|]. apply (Off p Ep).
    destruct (Nat.le_gt_cases 2 (length (sub (P k' j) m))) as [A|A].
    - destruct (proj2 (Pa k' Ik') j Lj A) as [A1 A2]. rewrite P_S in A1 by lia. unfold sd in A2. unfold p.
      destruct (kbit k' j), b; assumption.
    - destruct (sub p m) as [|e l] eqn:Sp; [left; exact Sp|].
      assert (Lp : (length (sub p m) <= length (sub (P k' j) m))%nat) by apply sub_app_length.
      assert (Ie : In e (sub (P k' j) m)).
      { assert (I0 : In e (sub p m)) by (rewrite Sp; left; reflexivity). apply sub_in in I0. apply sub_in. split; [tauto|]. apply (has_prefix_app _ [b]). tauto. }
      rewrite Sp in Lp. cbn [length] in Lp.
      destruct l as [|e2 l]; [|cbn [length] in Lp; lia].
      assert (Pk : has_prefix (P k' j) (bits_of k) = true).
      { destruct (has_prefix (P k' j) (bits_of k)) eqn:Q; [reflexivity|]. exfalso. unfold m' in L2. rewrite sub_mset_out in L2 by exact Q. lia. }
      destruct (P_of_prefix _ _ Pk) as [_ Eq]. rewrite P_length in Eq by lia. rewrite Eq in A, Ie.
      assert (DJ : (D <= j)%nat). { apply Nat.nlt_ge. intros X. specialize (LA j X). lia. }
      assert (SD : sub (P k D) m = [e]).
      { pose proof (sub_P_in k D j m e DJ Ie) as I1. destruct (sub (P k D) m) as [|x [|]]; cbn [length] in LE; [destruct I1| |lia].
        destruct I1 as [->|[]]. reflexivity. }
      apply (one_avail (P k D) p m (V t) e); auto; [apply G|].
      destruct D as [|D0]; [exact (proj1 (Pa k Ik))|]. apply (proj2 (Pa k Ik) D0); [lia|]. apply LA. lia. }
  rewrite P_S by lia. unfold sd. split; apply Al.
Qed.

Lemma updates_part : forall us m t, core H U anyk view (digests H m) t -> NoDup (keys m) -> (forall o, In o us -> is_update o) ->
  (forall o, In o us -> fresh H U (op_key o)) -> (forall m0, In m0 (maps m us) -> NoDup (keys m0) -> good H U (digests H m0)) ->
  (forall o, In o us -> pathed (op_key o) (digests H m) (V t)) ->
  exists t', sp_run H pr st us t = (t', Val (Ok tt)) /\ core H U anyk view (digests H (fold_left apply_op us m)) t'.
Proof.
  induction us as [|o us IH]; intros m t C N Up Fr Gm Pa; [exists t; split; [reflexivity|exact C]|].
  pose proof (Up o (or_introl eq_refl)) as Uo. destruct o as [k [|b v]|k]; try destruct Uo.
  assert (N1 : NoDup (keys (mset k (b :: v) m))) by (apply mset_nodup; exact N).
  destruct (update_part (map op_key (Update k (b :: v) :: us)) k (b :: v) (digests H m) t ltac:(discriminate) C) as (t1 & R1 & C1 & Pa1).
  { rewrite <- digests_mset. apply Gm; [|exact N1]. right. destruct us; left; reflexivity. }
  { exact (Fr _ (or_introl eq_refl)). }
  { left. reflexivity. }
  { intros k' Ik'. apply in_map_iff in Ik'. destruct Ik' as (o & <- & Io). exact (Pa o Io). }
  rewrite <- digests_mset in C1, Pa1.
  destruct (IH (mset k (b :: v) m) t1 C1 N1) as (t2 & R2 & C2).
  { intros o Io. apply Up. right. exact Io. }
  { intros o Io. apply Fr. right. exact Io. }
  { intros m0 I0. apply Gm. right. exact I0. }
  { intros o Io. apply Pa1. apply in_map. right. exact Io. }
  exists t2. split; [|exact C2]. cbn [sp_run sp_apply]. unfold bind_try, bind. rewrite R1. exact R2.
Qed.
End WithU.

Theorem C116_lemma : forall os us s0 t s, (forall k, view s0 k = None) -> (forall o, In o us -> is_update o) ->
  sp_run H pr st os (sp_new s0) = (t, Val (Ok tt)) ->
  let m := fst (replay H os) in
  hash_ok H (map op_key (os ++ us)) (trail H nothing os ++ maps m us) ->
  (forall k, view s k = V t k \/ view s k = None) ->
  (forall o, In o us -> has_path H (op_key o) m (view s)) ->
  exists t', sp_run H pr st us (Build_SpTree (sp_root_node t) s) = (t', Val (Ok tt)) /\
    sp_root H t' = kv_root H (fold_left apply_op us m).
Proof.
  intros os us s0 t s Em Up R m Ok0 Ls Hp. destruct (setup H _ _ Ok0) as (HC & HZ & Fr & Gd).
  assert (D : dinv H view (universe H (trail H nothing os ++ maps m us)) anyk (replay H os) t).
  { apply (reach_ok H pr st view Law _ _ os s0 t Ok0); auto; [intros k; rewrite map_app, in_app_iff; tauto|intros m0; rewrite in_app_iff; tauto]. }
  set (U := universe H _) in *. destruct D as [N [Rn So G Us] _ _]. fold m in N, Rn, G.
  assert (So' : sound H U (view s)).
  { intros m0 p G0 NE. destruct (Ls (T H p m0)) as [->| ->]; [apply So; auto|right; reflexivity]. }
  assert (Co : core H U anyk view (digests H m) (Build_SpTree (sp_root_node t) s)).
  { constructor; cbn [sp_storage sp_root_node]; auto. intros k' K' F'. destruct (Ls k') as [->| ->]; [apply Us; assumption|left; reflexivity]. }
  assert (Av : forall p, (sub p (digests H m) <> [] -> view s (T H p (digests H m)) <> None) -> avail H p (digests H m) (view s)).
  { intros p A. destruct (sub p (digests H m)) eqn:Q; [left; exact Q|]. right.
    destruct (So' (digests H m) p G ltac:(rewrite Q; discriminate)) as [X|X]; [exact X|]. destruct A; [discriminate|exact X]. }
  destruct (updates_part U HC HZ us m _ Co N Up) as (t' & R' & C').
  - intros o Io. apply Fr. apply in_map. apply in_or_app. right. exact Io.
  - intros m0 I0. apply Gd. apply in_or_app. right. exact I0.
  - intros o Io. destruct (Hp o Io) as [Hr Hn]. cbn [sp_storage]. split.
    + apply Av. intros NE. rewrite T_kv. apply Hr. intros Z. apply NE. rewrite sub_root, Z. reflexivity.
    + intros j Lj L2.
      assert (Al : forall b, avail H (P (op_key o) j ++ [b]) (digests H m) (view s)).
      { intros b. apply Av. intros NE. apply Hn. exists j, b. split; [rewrite KB_eq in Lj; lia|]. rewrite !agree_sub by lia. split; [exact L2|].
        pose proof (sub_snoc (P (op_key o) j) b (digests H m) ltac:(rewrite P_length; lia)) as Sn. rewrite P_length in Sn by lia. rewrite Sn.
        split; [exact NE|]. unfold T. rewrite app_length, P_length by lia. cbn [length]. rewrite Nat.add_1_r.
        replace (KB - S j)%nat with (256 - S j)%nat by (rewrite KB_eq; reflexivity). reflexivity. }
      rewrite P_S by lia. unfold sd. split; apply Al.
  - exists t'. split; [exact R'|]. exact (core_kv_root H view U HZ _ _ C').
Qed.

Theorem C116_load_lemma : forall os us s0 t s, (forall k, view s0 k = None) -> us <> [] -> (forall o, In o us -> is_update o) ->
  sp_run H pr st os (sp_new s0) = (t, Val (Ok tt)) ->
  let m := fst (replay H os) in m <> [] ->
  hash_ok H (map op_key (os ++ us)) (trail H nothing os ++ maps m us) ->
  (forall k, view s k = V t k \/ view s k = None) ->
  (forall o, In o us -> has_path H (op_key o) m (view s)) ->
  exists t1 t', sp_load st (kv_root H m) s = (sp_storage t1, Val (Ok t1)) /\ sp_root H t1 = kv_root H m /\
    sp_run H pr st us t1 = (t', Val (Ok tt)) /\ sp_root H t' = kv_root H (fold_left apply_op us m).
Proof.
  intros os us s0 t s Em Ne Up R m NE Ok0 Ls Hp. pose proof (setup H _ _ Ok0) as (HC & HZ & Fr & Gd).
  assert (D : dinv H view (universe H (trail H nothing os ++ maps m us)) anyk (replay H os) t).
  { apply (reach_ok H pr st view Law _ _ os s0 t Ok0); auto; [intros k; rewrite map_app, in_app_iff; tauto|intros m0; rewrite in_app_iff; tauto]. }
  set (U := universe H _) in *. destruct D as [N C _ _]. fold m in N, C. pose proof C as [Rn So G Us].
  assert (NEd : sub [] (digests H m) <> []) by (rewrite sub_root; clear - NE; destruct m as [|[k0 v0] m1]; [contradiction|discriminate]).
  assert (Vr : view s (kv_root H m) = Some (prim (nd H [] (digests H m)))).
  { destruct us as [|o us]; [contradiction|]. pose proof (proj1 (Hp o (or_introl eq_refl)) NE) as A. rewrite <- T_kv in A |- *.
    destruct (Ls (T H [] (digests H m))) as [X|X]; [|contradiction]. rewrite X in A |- *.
    destruct (So (digests H m) [] G NEd) as [Y|Y]; [exact Y|contradiction]. }
  destruct (get_spec st view Law (kv_root H m) s) as (s1 & r1 & Q & V1 & [->|[[e ->] F]]); [|destruct (F Inf)].
  destruct (C116_lemma os us s0 t s1 Em Up R Ok0) as (t' & R' & Ro).
  { intros k. rewrite V1. apply Ls. }
  { intros o Io. destruct (Hp o Io) as [A B]. split; [intros X; rewrite V1; apply A; exact X|intros h X; rewrite V1; apply B; exact X]. }
  exists (Build_SpTree (sp_root_node t) s1), t'. split; [|split; [|split; [exact R'|exact Ro]]].
  - unfold sp_load, bind_try, bind. rewrite Q, Vr, try_from_prim. rewrite <- Rn. reflexivity.
  - change (sp_root H t = kv_root H m). exact (core_kv_root H view U HZ _ _ C).
Qed.
End Part.
