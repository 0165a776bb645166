(** SparseMain.v -- histories of calls on a sparse tree. *)
From Verif Require Import Base Storage ModelCommon ModelSparse SpecBits SpecBinary SpecSparse RunsSparse
  SpecPosition BindingProofs BitsProofs PositionProofs CommonProofs StorageProofs
  SparseSpecFacts SparseNodes SparseProofs SparseOps SparseSteps.
From Coq Require Import Arith ZifyBool ZifyNat ZifyN Permutation.
Ltac Zify.zify_post_hook ::= Z.div_mod_to_equations.

(** * Maps and their digests *)
Section Digests.
Variable H : list byte -> bytes32.
Notation digests := (digests H).

Lemma keys_digests : forall m, keys (digests m) = keys m.
Proof. intros m. unfold keys, digests. rewrite map_map. reflexivity. Qed.
Lemma digests_mdel : forall k m, digests (mdel k m) = mdel k (digests m).
Proof.
  intros k m. unfold digests, mdel. induction m as [|e m IH]; cbn [map filter fst]; auto.
  destruct (negb (b32_eqb (fst e) k)); cbn [map]; rewrite IH; reflexivity.
Qed.
Lemma digests_mset : forall k v m, digests (mset k v m) = mset k (H v) (digests m).
Proof. intros k v m. unfold mset. rewrite <- digests_mdel. reflexivity. Qed.
Lemma digests_sub : forall p m, sub p (digests m) = digests (sub p m).
Proof.
  intros p m. unfold digests, sub. induction m as [|e m IH]; cbn [map filter fst]; auto.
  destruct (has_prefix p (bits_of (fst e))); cbn [map]; rewrite IH; reflexivity.
Qed.
Lemma digests_length : forall m, length (digests m) = length m.
Proof. intros m. apply map_length. Qed.

Lemma apply_nodup : forall o m, NoDup (keys m) -> NoDup (keys (apply_op m o)).
Proof. intros [k [|b v]|k] m N; cbn [apply_op]; auto using mdel_nodup, mset_nodup. Qed.
Lemma real_nodup : forall o m w, NoDup (keys m) -> NoDup (keys (real_op m w o)).
Proof.
  intros [k [|b v]|k] m w N; cbn [real_op]; auto using mset_nodup;
    (destruct (existsb (b32_eqb k) w); [destruct (landing 256 0 k m)|]; auto using mdel_nodup).
Qed.

Lemma landing_lands : forall k (m : kvmap) D, NoDup (keys m) -> lands k (digests m) D ->
  landing 256 0 k m = match sub (P k D) m with [] => None | e :: _ => Some (fst e) end.
Proof.
  intros k m D N (LD & LA & LE).
  assert (G : forall n d, (n + d = KB)%nat -> (d <= D)%nat ->
    landing n d k (sub (P k d) m) = match sub (P k D) m with [] => None | e :: _ => Some (fst e) end).
  { induction n as [|n IH]; intros d Ed Ld.
    - replace d with D in * by lia. rewrite digests_sub, digests_length in LE.
      destruct (sub (P k D) m) as [|e [|]]; cbn [length] in LE; try lia; reflexivity.
    - destruct (Nat.eq_dec d D) as [->|Nd].
      + rewrite digests_sub, digests_length in LE.
        destruct (sub (P k D) m) as [|e [|]]; cbn [length] in LE; try lia; reflexivity.
      + specialize (LA d ltac:(lia)). rewrite digests_sub, digests_length in LA.
        specialize (IH (S d) ltac:(lia) ltac:(lia)). rewrite P_S in IH by lia.
        rewrite <- (sub_snoc (P k d) (kbit k d) m) in IH by (rewrite P_length; lia). rewrite P_length in IH by lia.
        destruct (sub (P k d) m) as [|e [|e' l]]; cbn [length] in LA; try lia. cbn [landing]. exact IH. }
  assert (E0 : sub (P k 0) m = m) by apply sub_root.
  specialize (G KB O ltac:(lia) ltac:(lia)). rewrite E0 in G. rewrite KB_eq in G. exact G.
Qed.

(** Cutting at the end of the path is deleting what [landing] finds. *)
Lemma cut_landing : forall k (m : kvmap) D, NoDup (keys m) -> lands k (digests m) D ->
  cut (P k D) (digests m) = digests (match landing 256 0 k m with Some k' => mdel k' m | None => m end).
Proof.
  intros k m D N La. rewrite (landing_lands k m D N La). destruct La as (LD & LA & LE).
  rewrite digests_sub, digests_length in LE.
  destruct (sub (P k D) m) as [|[k' v] [|]] eqn:Es; cbn [length] in LE; try lia.
  - apply cut_nil. rewrite digests_sub, Es. reflexivity.
  - rewrite digests_mdel. apply (cut_one _ _ k' (H v)); [rewrite keys_digests; exact N|]. rewrite digests_sub, Es. reflexivity.
Qed.
Lemma landing_present : forall k (m : kvmap), NoDup (keys m) -> In k (keys m) -> landing 256 0 k m = Some k.
Proof.
  intros k m N Ik. destruct (lands_exists k (digests m)) as [D La]; [rewrite keys_digests; exact N|].
  rewrite (landing_lands k m D N La). apply in_keys in Ik. destruct Ik as [v Iv].
  assert (Iv' : In (k, H v) (digests m)) by (unfold digests; apply in_map_iff; exists (k, v); auto).
  pose proof (lands_present k (H v) (digests m) D ltac:(rewrite keys_digests; exact N) La Iv') as Q.
  rewrite digests_sub in Q. destruct (sub (P k D) m) as [|[k1 v1] [|]]; try discriminate. cbn [digests map fst snd] in Q.
  assert (k1 = k) by congruence. subst. reflexivity.
Qed.
End Digests.

Lemma update_nil : forall H pr S E (st : StorageT S bytes32 SPrimitive E) k t, sp_update H pr st k [] t = sp_delete H pr st k t.
Proof.
  intros H pr S E st k t. unfold sp_update. unfold bind_try, bind.
  destruct (sp_delete H pr st k t) as [t' [[[]|e]| |]]; reflexivity.
Qed.

Section Histories.
Variable H : list byte -> bytes32.
Variable U : list (list byte).
Hypothesis HC : ~ has_collision H U.
Hypothesis HZ : forall x, In x U -> H x <> zero32.
Variable pr : profile.
Context {St E : Type}.
Variable st : StorageT St bytes32 SPrimitive E.
Variable view : St -> bytes32 -> option SPrimitive.
Hypothesis Law : Lawful st view.
Notation digests := (digests H).
Notation good := (good H U).
Notation fallible := (fallible st).
Notation fresh := (fresh H U).
Notation stored := (stored H).
Notation core := (core H U anyk view).
Notation missing := (missing H).
Notation V t := (view (sp_storage t)).

(** The tree holds the map [m], the keys that may have been written are [w]. *)
Record winv (m : kvmap) (w : list bytes32) (t : SpTree St) : Prop := {
  wi_nodup : NoDup (keys m);
  wi_core : core (digests m) t;
  wi_has : forall k, In k (keys m) -> fresh k -> V t k <> None;
  wi_unwritten : forall k, fresh k -> ~ In k w -> V t k = None
}.

Definition clean_op (m : kvmap) (w : list bytes32) (o : sp_op) : Prop :=
  match o with
  | Update _ (_ :: _) => True
  | Update k [] | Delete k => In k (keys m) \/ ~ In k w
  end.

Lemma clean_delete : forall k m w t, winv m w t -> fresh k -> In k (keys m) \/ ~ In k w -> good (digests (mdel k m)) ->
  exists t' r, sp_delete H pr st k t = (t', Val r) /\
  ((r = Ok tt /\ winv (mdel k m) w t' /\ (stored (digests m) (V t) -> stored (digests (mdel k m)) (V t'))) \/
   (exists e, r = Err e /\ winv m w t' /\ ((storage_error e /\ fallible) \/ missing (digests m) (V t) e))) /\
  (forall k', fresh k' -> V t' k' = V t k').
Proof.
  intros k m w t [N C Has Unw] Fr Cl G'.
  destruct (existsb (b32_eqb k) (keys m)) eqn:Ex.
  - apply existsb_exists in Ex. destruct Ex as (k' & Ik & Ek). apply b32_eqb_eq in Ek. subst k'. clear Cl.
    destruct (lands_exists k (digests m)) as [D La]; [rewrite keys_digests; exact N|].
    pose proof (cut_landing H k m D N La) as Ec. rewrite (landing_present H k m N Ik) in Ec.
    assert (NE : sub (P k D) (digests m) <> []).
    { apply in_keys in Ik. destruct Ik as [v Iv].
      assert (Iv' : In (k, H v) (digests m)) by (unfold SpecSparse.digests; apply in_map_iff; exists (k, v); auto).
      rewrite (lands_present k (H v) (digests m) D ltac:(rewrite keys_digests; exact N) La Iv'). discriminate. }
    destruct (delete_step H U anyk HC HZ pr st view Law k (digests m) D t C Logic.I Fr La ltac:(rewrite Ec; exact G')) as (t' & r & -> & R & Vu & Vd).
    assert (Vf : forall k', fresh k' -> V t' k' = V t k') by (intros k' F'; apply Vu; auto).
    exists t', r. split; [reflexivity|]. split; [|exact Vf]. rewrite Ec in R.
    destruct R as [(-> & _ & [Em|Vn] & _)|[(-> & Vk & C' & Sm)|(e & -> & C' & Er)]].
    + exfalso. destruct m; [destruct Ik|discriminate Em].
    + exfalso. exact (Has k Ik Fr Vn).
    + left. split; [reflexivity|]. split; [|exact Sm]. constructor; [apply mdel_nodup; exact N|exact C'| |].
      * intros k' Ik' F'. rewrite Vf by exact F'. apply Has; auto. apply mdel_keys in Ik'. tauto.
      * intros k' F' Nw. rewrite Vf by exact F'. auto.
    + right. exists e. split; [reflexivity|]. split; [|exact Er]. constructor; auto.
      * intros k' Ik' F'. rewrite Vf by exact F'. auto.
      * intros k' F' Nw. rewrite Vf by exact F'. auto.
  - assert (Nk : ~ In k (keys m)).
    { intros Ik. assert (existsb (b32_eqb k) (keys m) = true) by (apply existsb_exists; exists k; split; [exact Ik|apply b32_eqb_refl]). congruence. }
    rewrite (mdel_notin k m Nk). assert (Vk : V t k = None) by (apply Unw; [exact Fr|tauto]).
    destruct (delete_none H pr st view Law k t Vk) as (t' & r & -> & Rt & Vs & R). exists t', r. split; [reflexivity|].
    split; [|intros; apply Vs].
    assert (W' : winv m w t').
    { constructor; auto.
      - destruct C as [A B D F]. constructor; [congruence|apply (sound_ext H U (V t)); auto|exact D|].
        intros k' K' F'. rewrite Vs. apply F; assumption.
      - intros k' Ik' F'. rewrite Vs. auto.
      - intros k' F' Nw. rewrite Vs. auto. }
    destruct R as [->|(e & -> & F)].
    + left. split; [reflexivity|]. split; [exact W'|]. intros Sm. apply (stored_ext H _ (V t)); auto.
    + right. exists (SStorageError e). split; [reflexivity|]. split; [exact W'|]. left. split; [left; eauto|exact F].
Qed.

(** One call, on a storage that may have lost nodes and may fail. *)
Theorem op_step : forall o m w t, winv m w t -> fresh (op_key o) -> clean_op m w o -> good (digests (apply_op m o)) ->
  exists t' r, sp_apply H pr st o t = (t', Val r) /\
  ((r = Ok tt /\ winv (apply_op m o) (op_writes o ++ w) t' /\
     (stored (digests m) (V t) -> stored (digests (apply_op m o)) (V t'))) \/
   (exists e, r = Err e /\ winv m (op_writes o ++ w) t' /\
     ((storage_error e /\ fallible) \/ missing (digests m) (V t) e))) /\
  (is_update o -> (forall m0, good m0 -> stored m0 (V t) -> stored m0 (V t')) /\
     forall k', fresh k' -> V t k' <> None -> V t' k' <> None).
Proof.
  intros o m w t W Fr Cl G'.
  assert (Del : forall k, op_key o = k -> (forall t, sp_apply H pr st o t = sp_delete H pr st k t) -> apply_op m o = mdel k m ->
    op_writes o = [] -> In k (keys m) \/ ~ In k w -> ~ is_update o ->
    exists t' r, sp_apply H pr st o t = (t', Val r) /\
    ((r = Ok tt /\ winv (apply_op m o) (op_writes o ++ w) t' /\
       (stored (digests m) (V t) -> stored (digests (apply_op m o)) (V t'))) \/
     (exists e, r = Err e /\ winv m (op_writes o ++ w) t' /\
       ((storage_error e /\ fallible) \/ missing (digests m) (V t) e))) /\
    (is_update o -> (forall m0, good m0 -> stored m0 (V t) -> stored m0 (V t')) /\
       forall k', fresh k' -> V t k' <> None -> V t' k' <> None)).
  { intros k <- Ea Em Ew Cl' Nu. rewrite Ea, Em in *. rewrite Ew. cbn [app].
    destruct (clean_delete (op_key o) m w t W Fr Cl' G') as (t' & r & -> & R & _). exists t', r. split; [reflexivity|].
    split; [exact R|]. intros C. contradiction. }
  destruct o as [k [|b v]|k].
  - apply (Del k); auto. intros t0. apply update_nil.
  - cbn [sp_apply op_key op_writes apply_op app] in *. clear Del. destruct W as [N C Has Unw].
    rewrite digests_mset in G' |- *.
    destruct (update_step H U anyk HC HZ pr st view Law k (b :: v) (digests m) t ltac:(discriminate) C G' Logic.I Fr) as (t' & r & -> & R & Vo & Vk & Keep).
    exists t', r. split; [reflexivity|]. split; [|intros _; split; [exact Keep|]].
    2:{ intros k' F' Nn. destruct (b32_eq_dec k' k) as [->|Ne]; [apply Vk; exact Nn|rewrite Vo by auto; exact Nn]. }
    assert (Unw' : forall k', fresh k' -> ~ In k' (k :: w) -> V t' k' = None).
    { intros k' F' Nw. rewrite Vo; [apply Unw; auto|exact F'|]; intros C1; apply Nw; [right; exact C1|left; congruence]. }
    destruct R as [(-> & C' & Vn & Sm)|(e & -> & C' & Er)].
    + left. split; [reflexivity|]. split; [|exact Sm]. constructor; [apply mset_nodup; exact N|rewrite digests_mset; exact C'| |exact Unw'].
      intros k' Ik F'. destruct (b32_eq_dec k' k) as [->|Ne]; [rewrite Vn; discriminate|]. rewrite Vo by auto. apply Has; auto.
      destruct Ik as [Ik|Ik]; [cbn in Ik; congruence|]. apply mdel_keys in Ik. tauto.
    + right. exists e. split; [reflexivity|]. split; [|exact Er]. constructor; auto.
      intros k' Ik F'. destruct (b32_eq_dec k' k) as [->|Ne]; [apply Vk; apply Has; auto|]. rewrite Vo by auto. apply Has; auto.
  - apply (Del k); auto.
Qed.

(** * Histories until the first failure *)
(** User entries hold the digest of the current data. *)
Definition exact (m : kvmap) (v : bytes32 -> option SPrimitive) : Prop :=
  forall k d, In (k, d) m -> fresh k -> v k = Some (sprim_of_node (leafn k (H d))).

Lemma exact_step : forall o m w t t', winv m w t -> fresh (op_key o) -> clean_op m w o -> good (digests (apply_op m o)) ->
  sp_apply H pr st o t = (t', Val (Ok tt)) -> exact m (V t) -> exact (apply_op m o) (V t').
Proof.
  intros o m w t t' W Fr Cl G' Rn Ex.
  assert (Del : forall k, op_key o = k -> sp_delete H pr st k t = (t', Val (Ok tt)) -> apply_op m o = mdel k m ->
    In k (keys m) \/ ~ In k w -> exact (apply_op m o) (V t')).
  { intros k Ek R Em Cl'. rewrite Em in *. rewrite Ek in Fr.
    destruct (clean_delete k m w t W Fr Cl' G') as (t1 & r1 & R1 & _ & Vf). rewrite R in R1. injection R1 as <- <-.
    intros k' d Ik F'. rewrite Vf by exact F'. apply Ex; auto. apply mdel_in in Ik. tauto. }
  destruct o as [k [|b v]|k].
  - apply (Del k); auto. cbn [sp_apply] in Rn. rewrite update_nil in Rn. exact Rn.
  - cbn [sp_apply op_key apply_op] in *. destruct W as [N C Has Unw]. rewrite digests_mset in G'.
    destruct (update_step H U anyk HC HZ pr st view Law k (b :: v) (digests m) t ltac:(discriminate) C G' Logic.I Fr) as (t1 & r1 & R1 & R & Vo & _).
    rewrite Rn in R1. injection R1 as <- <-.
    destruct R as [(_ & _ & Vk & _)|(e & Q & _)]; [|discriminate].
    intros k' d [Ik|Ik] F'; [injection Ik as <- <-; exact Vk|]. apply mdel_in in Ik. cbn [fst] in Ik.
    rewrite Vo by tauto. apply Ex; tauto.
  - apply (Del k); auto.
Qed.

Theorem run_clean : forall os m w t, winv m w t -> stored (digests m) (V t) -> exact m (V t) ->
  (forall o, In o os -> fresh (op_key o)) -> (forall m0, In m0 (maps m os) -> NoDup (keys m0) -> good (digests m0)) -> clean m w os ->
  exists t' r, sp_run H pr st os t = (t', Val r) /\
  ((r = Ok tt /\ winv (fold_left apply_op os m) (written os ++ w) t' /\
    stored (digests (fold_left apply_op os m)) (V t') /\ exact (fold_left apply_op os m) (V t')) \/
   (exists e, r = Err e /\ storage_error e /\ fallible)).
Proof.
  intros os. induction os as [|o os IH]; intros m w t W Sm Ex Fr Gm Cl.
  - exists t, (Ok tt). split; [reflexivity|]. left. cbn. auto.
  - cbn [clean] in Cl. destruct Cl as [Co Cl]. cbn [sp_run maps fold_left] in *. unfold bind_try, bind.
    pose proof (apply_nodup o m (wi_nodup m w t W)) as Nd.
    assert (Go : good (digests (apply_op m o))).
    { apply Gm; auto. right. destruct os; left; reflexivity. }
    assert (Co' : clean_op m w o) by (destruct o as [? [|]|]; exact Co).
    destruct (op_step o m w t W (Fr o (or_introl eq_refl)) Co' Go) as (t1 & r1 & A1 & R & _).
    pose proof (exact_step o m w t t1 W (Fr o (or_introl eq_refl)) Co' Go) as E1. rewrite A1 in *.
    destruct R as [(-> & W1 & S1)|(e & -> & _ & [[X F]|X])].
    + destruct (IH (apply_op m o) (op_writes o ++ w) t1 W1 (S1 Sm) (E1 eq_refl Ex)) as (t' & r & -> & R').
      * intros o' Io. apply Fr. right. exact Io.
      * intros m0 I0. apply Gm. right. exact I0.
      * exact Cl.
      * exists t', r. split; [reflexivity|]. destruct R' as [(-> & W' & S' & E')|R']; [left|right; exact R'].
        split; [reflexivity|]. split; [|auto]. destruct W' as [A B C D]. constructor; auto.
        intros k F Nk. apply D; auto. intros I. apply Nk. unfold written in *. cbn [map concat].
        repeat rewrite in_app_iff in *. tauto.
    + exists t1, (Err e). split; [reflexivity|]. right. eauto.
    + exfalso. exact (stored_not_missing H _ _ _ Sm X).
Qed.

(** * Histories with failures *)

Theorem run_flags : forall os m w t t' rs, winv m w t -> sp_run_all H pr st os t = (t', Val rs) ->
  (forall o, In o os -> fresh (op_key o)) ->
  (forall m0, In m0 (attempts m (flags os rs)) -> NoDup (keys m0) -> good (digests m0)) -> clean_flags m w (flags os rs) ->
  exists w', winv (achieved m (flags os rs)) w' t' /\
    (stored (digests m) (V t) -> (forall o, In o os -> is_update o) ->
     stored (digests (achieved m (flags os rs))) (V t') /\ forall e, In (Err e) rs -> storage_error e /\ fallible).
Proof.
  induction os as [|o os IH]; intros m w t t' rs W R Fr Gm Cl.
  - cbn in R. injection R as <- <-. exists w. split; [exact W|]. intros Sm _. split; [exact Sm|intros e []].
  - cbn [sp_run_all] in R. unfold bind in R.
    destruct (sp_apply H pr st o t) as [t1 [r1| |]] eqn:A1; try discriminate.
    destruct (sp_run_all H pr st os t1) as [t2 [rs2| |]] eqn:A2; try discriminate.
    cbn [ret] in R. injection R as <- <-. cbn [flags map combine] in *. fold (flags os rs2) in *.
    cbn [clean_flags fst] in Cl. destruct Cl as [Co Cl]. cbn [attempts achieved fold_left fst] in *.
    pose proof (apply_nodup o m (wi_nodup m w t W)) as Nd.
    assert (Go : good (digests (apply_op m o))) by (apply Gm; auto; right; left; reflexivity).
    destruct (op_step o m w t W (Fr o (or_introl eq_refl)) ltac:(destruct o as [? [|]|]; exact Co) Go) as (t1' & r1' & A1' & Rr & Mo).
    rewrite A1 in A1'. injection A1' as <- <-.
    assert (W1 : winv (apply_if m (o, is_ok r1)) (op_writes o ++ w) t1).
    { destruct Rr as [(-> & W1 & _)|(e & -> & W1 & _)]; exact W1. }
    destruct (IH _ _ _ _ _ W1 A2) as (w' & W' & Su); auto.
    + intros o' Io. apply Fr. right. exact Io.
    + intros m0 I0. apply Gm. right. right. exact I0.
    + exists w'. split; [exact W'|]. intros Sm Up.
      destruct Rr as [(-> & _ & S1)|(e1 & -> & _ & Er)].
      * destruct (Su (S1 Sm) (fun o' Io => Up o' (or_intror Io))) as [Sa Sb]. split; [exact Sa|].
        intros e [Q|Ie]; [discriminate|apply Sb; exact Ie].
      * destruct (Su (proj1 (Mo (Up o (or_introl eq_refl))) _ (core_good H U anyk view _ _ (wi_core m w t W)) Sm) (fun o' Io => Up o' (or_intror Io))) as [Sa Sb].
        split; [exact Sa|]. intros e [Q|Ie]; [|apply Sb; exact Ie]. injection Q as <-.
        destruct Er as [Er|Er]; [exact Er|exfalso; exact (stored_not_missing H _ _ _ Sm Er)].
Qed.

(** * Arbitrary deletes *)
Theorem run_real : Infallible st -> forall os m w t, winv m w t -> stored (digests m) (V t) ->
  (forall k, In k w -> fresh k -> V t k <> None) ->
  (forall o, In o os -> fresh (op_key o)) -> (forall k, In k (map op_key os ++ w) -> k <> zero32) ->
  (forall m0, In m0 (real_maps m w os) -> NoDup (keys m0) -> good (digests m0)) ->
  exists t', sp_run H pr st os t = (t', Val (Ok tt)) /\ sp_root_node t' = nd H [] (digests (real_final m w os)) /\
    good (digests (real_final m w os)).
Proof.
  intros Inf os. induction os as [|o os IH]; intros m w t W Sm Wr Fr Nz Gm.
  - exists t. split; [reflexivity|]. cbn. destruct W as [A [B C D F] _ _]. auto.
  - cbn [sp_run real_maps real_final] in *. unfold bind_try, bind.
    pose proof (real_nodup o m w (wi_nodup m w t W)) as Nd.
    assert (Go : good (digests (real_op m w o))) by (apply Gm; auto; right; destruct os; left; reflexivity).
    (* one step *)
    assert (St1 : exists t1, sp_apply H pr st o t = (t1, Val (Ok tt)) /\ winv (real_op m w o) (op_writes o ++ w) t1 /\
      stored (digests (real_op m w o)) (V t1) /\ forall k, In k (op_writes o ++ w) -> fresh k -> V t1 k <> None).
    { assert (Del : forall k, op_key o = k -> (forall t, sp_apply H pr st o t = sp_delete H pr st k t) ->
        real_op m w o = (if existsb (b32_eqb k) w then match landing 256 0 k m with Some k' => mdel k' m | None => m end else m) ->
        op_writes o = [] ->
        exists t1, sp_apply H pr st o t = (t1, Val (Ok tt)) /\ winv (real_op m w o) (op_writes o ++ w) t1 /\
          stored (digests (real_op m w o)) (V t1) /\ forall k, In k (op_writes o ++ w) -> fresh k -> V t1 k <> None).
      { intros k Ek Ea Er Ew. rewrite Ea, Er, Ew in *. cbn [app]. pose proof (Fr o (or_introl eq_refl)) as Fk. rewrite Ek in Fk.
        destruct W as [N C Has Unw].
        destruct (existsb (b32_eqb k) w) eqn:Ex.
        - apply existsb_exists in Ex. destruct Ex as (k0 & Ik & E0). apply b32_eqb_eq in E0. subst k0.
          destruct (lands_exists k (digests m)) as [D La]; [rewrite keys_digests; exact N|].
          pose proof (cut_landing H k m D N La) as Ec.
          destruct (delete_step H U anyk HC HZ pr st view Law k (digests m) D t C Logic.I Fk La ltac:(rewrite Ec; exact Go)) as (t' & r & -> & R & Vu & Vd).
          assert (Vw : forall k', In k' w -> fresh k' -> V t' k' = V t k').
          { intros k' I' F'. apply Vu; auto. left. apply Nz. apply in_or_app. right. exact I'. }
          rewrite Ec in R. destruct R as [(-> & C' & [Em|Vn] & Vs)|[(-> & _ & C' & S')|(e & -> & _ & [[_ F]|X])]].
          + assert (Em' : m = []) by (destruct m; [reflexivity|discriminate Em]). subst m. cbn [landing]. exists t'. split; [reflexivity|].
            split; [|split].
            * constructor; [exact N|exact C'|intros k' []|]. intros k' F' Nw. rewrite Vs. auto.
            * apply (stored_ext H _ (V t)); auto.
            * intros k' I' F'. rewrite Vs. auto.
          + exfalso. exact (Wr k Ik Fk Vn).
          + exists t'. split; [reflexivity|]. split; [|split; [auto|]].
            * constructor; auto.
              -- intros k' Ik' F'. assert (Ikm : In k' (keys m)).
                 { destruct (landing 256 0 k m); [apply mdel_keys in Ik'; tauto|exact Ik']. }
                 assert (Iw : In k' w).
                 { destruct (existsb (b32_eqb k') w) eqn:Ex; [apply existsb_exists in Ex; destruct Ex as (k2 & I2 & E2); apply b32_eqb_eq in E2; congruence|].
                   exfalso. apply (Has k' Ikm F'). apply Unw; auto. intros I2.
                   assert (existsb (b32_eqb k') w = true) by (apply existsb_exists; exists k'; split; [exact I2|apply b32_eqb_refl]). congruence. }
                 rewrite Vw by auto. auto.
              -- intros k' F' Nw. destruct (Vd k' F') as [Q|Q]; [rewrite Q; auto|exact Q].
            * intros k' I' F'. rewrite Vw by auto. auto.
          + exfalso. exact (F Inf).
          + exfalso. exact (stored_not_missing H _ _ _ Sm X).
        - assert (Nk : ~ In k w).
          { intros Ik. assert (existsb (b32_eqb k) w = true) by (apply existsb_exists; exists k; split; [exact Ik|apply b32_eqb_refl]). congruence. }
          destruct (delete_none H pr st view Law k t (Unw k Fk Nk)) as (t' & r & -> & Rt & Vs & R).
          destruct R as [->|(e & -> & F)]; [|exfalso; exact (F Inf)].
          exists t'. split; [reflexivity|]. split; [|split].
          + constructor; auto.
            * destruct C as [A B D F]. constructor; [congruence|apply (sound_ext H U (V t)); auto|exact D|].
              intros k' K' F'. rewrite Vs. apply F; assumption.
            * intros k' Ik' F'. rewrite Vs. auto.
            * intros k' F' Nw. rewrite Vs. auto.
          + apply (stored_ext H _ (V t)); auto.
          + intros k' I' F'. rewrite Vs. auto. }
      destruct o as [k [|b v]|k].
      - apply (Del k); auto. intros t0. apply update_nil.
      - clear Del. destruct (op_step (Update k (b :: v)) m w t W (Fr _ (or_introl eq_refl)) Logic.I Go) as (t1 & r1 & -> & R & Mo).
        destruct R as [(-> & W1 & S1)|(e & -> & _ & [[_ F]|X])]; [|exfalso; exact (F Inf)|exfalso; exact (stored_not_missing H _ _ _ Sm X)].
        exists t1. split; [reflexivity|]. split; [exact W1|]. split; [exact (S1 Sm)|].
        intros k' [<-|I'] F'; [apply (wi_has _ _ _ W1); auto; left; reflexivity|]. apply (proj2 (Mo Logic.I)); auto.
      - apply (Del k); auto. }
    destruct St1 as (t1 & -> & W1 & S1 & Wr1).
    apply (IH _ _ t1 W1 S1 Wr1).
    + intros o' Io. apply Fr. right. exact Io.
    + intros k Ik. apply Nz. apply in_app_or in Ik. cbn [map]. destruct Ik as [Ik|Ik]; [right; apply in_or_app; left; exact Ik|].
      apply in_app_or in Ik. destruct Ik as [Ik|Ik]; [|right; apply in_or_app; right; exact Ik].
      left. clear - Ik. destruct o as [? [|]|]; cbn [op_writes op_key In] in *; tauto.
    + intros m0 I0. apply Gm. right. exact I0.
Qed.
End Histories.
