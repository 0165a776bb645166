(** WitnessOpen.v -- a concrete run of trees used in turns on one storage. *)
From Verif Require Import Base Sha256 Storage ModelText ModelCommon ModelSparse SpecBits SpecBinary SpecSparse SpecAnyRun SpecLost SpecOpen RunsSparse RunsOpen
  StorageProofs WitnessSparse.

Inductive act := Do (o : sp_op) | New | Load (j : nat) | Take (j : nat) | Lose (ks : list bytes32).
Definition play1 (ns : list SNode) (t : SpTree SScratch) (a : act) : option (event (SError Empty_set) * SpTree SScratch) :=
  match a with
  | Do o => match sp_apply sha256 Debug SStorageMap o t with (t1, Val r) => Some (Called o r, t1) | _ => None end
  | New => Some (Started, sp_new (sp_storage t))
  | Load j =>
      if b32_eqb (snode_hash sha256 (nth j ns snode_placeholder)) zero32 then None else
      match sp_load SStorageMap (snode_hash sha256 (nth j ns snode_placeholder)) (sp_storage t) with
      | (s, Val (Ok t1)) => Some (Opened j (Ok tt), t1)
      | (s, Val (Err e)) => Some (Opened j (Err e), Build_SpTree (sp_root_node t) s)
      | _ => None
      end
  | Take j => Some (Resumed j, Build_SpTree (nth j ns snode_placeholder) (sp_storage t))
  | Lose ks => Some (Lost, Build_SpTree (sp_root_node t) (fold_left (smap_erase b32_eqb) ks (sp_storage t)))
  end.
Fixpoint play (acts : list act) (ns : list SNode) (t : SpTree SScratch)
  : option (list (event (SError Empty_set)) * list bytes32 * SpTree SScratch) :=
  match acts with
  | [] => Some ([], [], t)
  | a :: acts' =>
      match play1 ns t a with
      | None => None
      | Some (e, t1) =>
          let r := sp_root sha256 t1 in
          match play acts' (ns ++ [sp_root_node t1]) t1 with None => None | Some (evs, roots, t') => Some (e :: evs, r :: roots, t') end
      end
  end.
Lemma erased : forall ks s k, sview (fold_left (smap_erase b32_eqb) ks s) k = sview s k \/ sview (fold_left (smap_erase b32_eqb) ks s) k = None.
Proof.
  induction ks as [|k0 ks IH]; intros s k; cbn [fold_left]; [left; reflexivity|].
  destruct (IH (smap_erase b32_eqb s k0) k) as [->|Q]; [|right; exact Q].
  unfold sview. rewrite (smap_lookup_erase b32_eqb b32_eqb_eq). destruct (b32_eqb k k0); auto.
Qed.
Lemma play_run : forall acts ns t evs roots t', play acts ns t = Some (evs, roots, t') ->
  open_run sha256 Debug SStorageMap sview ns t evs roots t'.
Proof.
  induction acts as [|a acts IH]; intros ns t evs roots t' Q; cbn [play] in Q; [injection Q as <- <- <-; constructor|].
  destruct (play1 ns t a) as [[e t1]|] eqn:P; [|discriminate Q]. cbv zeta in Q.
  destruct (play acts (ns ++ [sp_root_node t1]) t1) as [[[evs1 roots1] t2]|] eqn:R; [|discriminate Q]. injection Q as <- <- <-.
  apply IH in R. destruct a as [o| |j|j|ks]; cbn [play1] in P.
  - destruct (sp_apply sha256 Debug SStorageMap o t) as [t3 [r| |]] eqn:A; try discriminate P. injection P as <- <-. econstructor; eassumption.
  - injection P as <- <-. econstructor; [reflexivity|exact R].
  - destruct (b32_eqb (snode_hash sha256 (nth j ns snode_placeholder)) zero32) eqn:Z; [discriminate P|].
    assert (Nz : snode_hash sha256 (nth j ns snode_placeholder) <> zero32) by (intros C; apply b32_eqb_eq in C; congruence).
    destruct (sp_load SStorageMap (snode_hash sha256 (nth j ns snode_placeholder)) (sp_storage t)) as [s [[t3|e3]| |]] eqn:A; try discriminate P; injection P as <- <-.
    + econstructor; eassumption.
    + eapply OR_refused; [exact Nz|exact A|reflexivity|exact R].
  - injection P as <- <-. apply OR_resume; [reflexivity|exact R].
  - injection P as <- <-. econstructor; [|reflexivity|exact R]. apply erased.
Qed.

(** Two trees; the delete of [kC] on the first uses the entry that the second has written, and
    removes [kA].  Then the leaf of [kB] is lost; in the end the second tree is taken up again. *)
Definition twisted : list act :=
  [Do (Update kA va); Do (Update kB vb); New; Do (Update kC vc); Load 2; Do (Delete kC);
   Lose [hB]; Load 1; Do (Update kC vc); Do (Update kA va); Take 4; Do (Update kB vb)].
Definition twisted_maps : list kvmap :=
  [[(kA, va)]; [(kB, vb); (kA, va)]; []; [(kC, vc)]; [(kB, vb); (kA, va)]; [(kB, vb)]; [(kB, vb)]; [(kB, vb)]; [(kC, vc); (kB, vb)]; [(kC, vc); (kB, vb)]; [(kC, vc)]; [(kB, vb); (kC, vc)]].
Definition outline (e : event (SError Empty_set)) : option bool :=
  match e with
  | Called _ (Ok _) | Opened _ (Ok _) => Some true
  | Called _ (Err (SChildErr (ChildNotFound h))) => if b32_eqb h hB then Some false else None
  | Opened _ (Err (SLoadError _)) => Some false
  | Resumed _ => Some true
  | _ => None
  end.
Definition twisted_ops : list sp_op := concat (map (fun a => match a with Do o => [o] | _ => [] end) twisted).
Fixpoint uniq (ms : list kvmap) : list kvmap :=
  match ms with [] => [] | m :: ms' => if existsb (kv_eqb m) ms' then uniq ms' else m :: uniq ms' end.
Lemma twisted_ok : hash_ok sha256 [kA; kB; kC] (uniq (possible [] twisted_ops)).
Proof. apply (listed_ok _ _ _ digests_used_ok). vm_compute. reflexivity. Qed.

Lemma play_calls : forall acts ns t evs roots t', play acts ns t = Some (evs, roots, t') ->
  calls_of evs = concat (map (fun a => match a with Do o => [o] | _ => [] end) acts).
Proof.
  induction acts as [|a acts IH]; intros ns t evs roots t' Q; cbn [play] in Q; [injection Q as <- <- <-; reflexivity|].
  destruct (play1 ns t a) as [[e t1]|] eqn:P; [|discriminate Q]. cbv zeta in Q.
  destruct (play acts (ns ++ [sp_root_node t1]) t1) as [[[evs1 roots1] t2]|] eqn:R; [|discriminate Q]. injection Q as <- <- <-.
  apply IH in R. unfold calls_of in *. cbn [map concat]. rewrite R. f_equal. destruct a as [o| |j|j|ks]; cbn [play1] in P.
  - destruct (sp_apply sha256 Debug SStorageMap o t) as [t3 [r| |]]; try discriminate P. injection P as <- <-. reflexivity.
  - injection P as <- <-. reflexivity.
  - destruct (b32_eqb (snode_hash sha256 (nth j ns snode_placeholder)) zero32); [discriminate P|].
    destruct (sp_load SStorageMap (snode_hash sha256 (nth j ns snode_placeholder)) (sp_storage t)) as [s [[t3|e3]| |]]; try discriminate P; injection P as <- <-; reflexivity.
  - injection P as <- <-. reflexivity.
  - injection P as <- <-. reflexivity.
Qed.

Lemma C104_witness : exists evs roots t,
  open_run sha256 Debug SStorageMap sview [snode_placeholder] (sp_new smap_new) evs roots t /\
  hash_ok sha256 (map op_key (calls_of evs)) (possible [] (calls_of evs)) /\
  map outline evs = [Some true; Some true; None; Some true; Some true; Some true; None; Some false; Some true; Some false; Some true; Some true] /\
  forallb (fun p => b32_eqb (fst p) (kv_root sha256 (snd p))) (combine roots twisted_maps) = true /\ length roots = length twisted_maps.
Proof.
  assert (X : option_map (fun x => (map outline (fst (fst x)),
      forallb (fun p => b32_eqb (fst p) (kv_root sha256 (snd p))) (combine (snd (fst x)) twisted_maps), length (snd (fst x)))) (play twisted [snode_placeholder] (sp_new smap_new)) =
    Some ([Some true; Some true; None; Some true; Some true; Some true; None; Some false; Some true; Some false; Some true; Some true], true, length twisted_maps))
    by (vm_compute; reflexivity).
  destruct (play twisted [snode_placeholder] (sp_new smap_new)) as [[[evs roots] t]|] eqn:P; [|discriminate X].
  cbn [option_map fst snd] in X.
  exists evs, roots, t. split; [exact (play_run _ _ _ _ _ _ P)|]. split.
  - rewrite (play_calls _ _ _ _ _ _ P). apply (within_ok _ _ _ _ twisted_ok). vm_compute. reflexivity.
  - injection X as X1 X2 X3. auto.
Qed.
