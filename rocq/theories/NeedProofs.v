(** NeedProofs.v -- what a delete needs of a storage that lost entries. *)
From Verif Require Import Base Storage ModelCommon ModelSparse SpecBits SpecBinary SpecSparse SpecAnyRun SpecDisk RunsSparse StorageProofs
  BindingProofs BitsProofs PositionProofs CommonProofs SparseSpecFacts SparseNodes SparseProofs SparseOps SparseSteps SparseMain SparseTheorems SparseAnyRun SparseDisk HistoryProofs.
From Coq Require Import Arith ZifyBool ZifyNat ZifyN.

Theorem C115_lemma : forall H pr St E (st : StorageT St bytes32 SPrimitive E) view, Lawful st view -> Infallible st ->
  forall os s0 t s k, (forall k, view s0 k = None) -> sp_run H pr st os (sp_new s0) = (t, Val (Ok tt)) ->
  let m := fst (replay H os) in
  hash_ok H (k :: map op_key os) (trail H nothing os ++ [without_landing k m]) ->
  (forall k', view s k' = view (sp_storage t) k' \/ view s k' = None) ->
  exists t' r, sp_delete H pr st k (Build_SpTree (sp_root_node t) s) = (t', Val r) /\
  (m = [] \/ view s k = None -> r = Ok tt /\ sp_root H t' = sp_root H t /\ forall k', view (sp_storage t') k' = view s k') /\
  (m <> [] -> view s k <> None ->
   (r = Ok tt /\ sp_root H t' = kv_root H (without_landing k m) /\
    forall h, near_path H k (digests H m) h -> view s h <> None) \/
   (exists h, r = Err (SChildErr (ChildNotFound h)) /\ view s h = None /\ near_path H k (digests H m) h /\
      sp_root H t' = sp_root H t /\ forall k', view (sp_storage t') k' = view s k')) /\
  (In k (keys m) -> without_landing k m = mdel k m).
Proof.
  intros H pr St E st view Law Inf os s0 t s k Em R m Ok0 Ls. destruct (setup H _ _ Ok0) as (HC & HZ & Fr & Gd).
  pose proof (reach_ok H pr st view Law _ _ os s0 t Ok0 (fun k Ik => or_intror Ik)) as D.
  specialize (D ltac:(intros m0 I0; apply in_or_app; left; exact I0) Em R). set (U := universe H _) in *.
  assert (Fk : fresh H U k) by (apply Fr; left; reflexivity).
  destruct D as [N [Rn So G Us] _ _]. fold m in N, Rn, G.
  assert (N' : NoDup (keys (without_landing k m))) by (apply without_nodup; exact N).
  assert (G' : good H U (digests H (without_landing k m))) by (apply Gd; [apply in_or_app; right; left; reflexivity|exact N']).
  destruct (lands_exists k (digests H m)) as [D La]; [apply G|].
  pose proof (cut_landing H k m D N La) as Ec. fold (without_landing k m) in Ec.
  assert (So' : sound H U (view s)).
  { intros m0 p G0 NE. destruct (Ls (T H p m0)) as [->| ->]; [apply So; auto|right; reflexivity]. }
  assert (Us' : users H U anyk (view s)).
  { intros k' K' F'. destruct (Ls k') as [->| ->]; [apply Us; assumption|left; reflexivity]. }
  assert (Co : core H U anyk view (digests H m) (Build_SpTree (sp_root_node t) s)) by (constructor; assumption).
  destruct (delete_ok H U HZ pr st view Law k (digests H m) D (Build_SpTree (sp_root_node t) s) La G ltac:(rewrite Ec; exact G') So' Rn (Us' k Logic.I Fk))
    as (t' & r & Rd & C).
  cbn [sp_storage sp_root_node] in *. exists t', r. split; [exact Rd|]. split; [|split].
  - intros [Z|Z].
    + assert (Co' := Co). fold m in Co'. rewrite Z in Co'. rewrite (delete_empty H pr st view U anyk HZ k _ Co') in Rd. injection Rd as <- <-. auto.
    + destruct (delete_none H pr st view Law k (Build_SpTree (sp_root_node t) s) Z) as (t2 & r2 & R2 & Q1 & Q2 & Q3).
      rewrite Rd in R2. injection R2 as <- <-. cbn [sp_storage sp_root_node] in *.
      destruct Q3 as [->|(e & _ & F)]; [|contradiction]. split; [reflexivity|]. split; [unfold sp_root; rewrite Q1; reflexivity|exact Q2].
  - intros Nm Nk. destruct C as [(_ & _ & _ & [Q|Q])|[(-> & _ & Rt & Av & _)|(e & -> & Rt & Er & L & VL & _ & Fa)]].
    + destruct m; [contradiction|discriminate Q].
    + contradiction.
    + left. split; [reflexivity|]. split.
      * unfold sp_root. rewrite Rt, (nd_hash H U HZ) by (rewrite Ec; exact G'). rewrite Ec. apply T_kv.
      * intros h Np. destruct (near_path_sub H k _ h Np) as (d & Ld & L2 & p & Pp & NE & ->).
        assert (Dd : (d < D)%nat).
        { destruct (Nat.lt_ge_cases d D) as [A|A]; auto. exfalso. destruct La as (_ & _ & LE).
          pose proof (sub_P_le k D d (digests H m) A). lia. }
        destruct (Av d Dd) as [A1 A2]. assert (A : avail H p (digests H m) (view s)) by (destruct Pp as [-> | ->]; assumption).
        destruct A as [A|A]; [congruence|]. rewrite A. discriminate.
    + right. destruct Er as [[_ F]|[(p & -> & [NE Lp] & j & Lj & Pp)|[_ F]]]; [contradiction| |contradiction].
      exists (T H p (digests H m)). split; [reflexivity|]. split; [exact Lp|]. split; [|split].
      * destruct La as (LD & LA & _). specialize (LA j Lj). assert (Lj' : (j < KB)%nat) by lia.
        assert (Pp' : exists b, p = P k j ++ [b]) by (destruct Pp as [->| ->]; [rewrite P_S by lia|unfold sd]; eauto).
        destruct Pp' as [b ->]. exists j, b. split; [rewrite KB_eq in Lj'; lia|]. rewrite !agree_sub by lia. split; [exact LA|].
        pose proof (sub_snoc (P k j) b (digests H m) ltac:(rewrite P_length; lia)) as Sn. rewrite P_length in Sn by lia. rewrite Sn.
        split; [exact NE|]. unfold T. rewrite app_length, P_length by lia. cbn [length]. rewrite Nat.add_1_r.
        replace (KB - S j)%nat with (256 - S j)%nat by (rewrite KB_eq; reflexivity). reflexivity.
      * unfold sp_root. rewrite Rt. reflexivity.
      * intros k'. rewrite VL. destruct L as [|w L]; [reflexivity|]. destruct Fa; [discriminate|exact Inf].
  - intros Ik. unfold without_landing. rewrite (landing_present H k m N Ik). reflexivity.
Qed.
