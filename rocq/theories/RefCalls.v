(** RefCalls.v -- every sequence of calls on the reference tree. *)
From Verif Require Import Base ModelCommon ModelBinary ModelVerify SpecBinary SpecBinaryFacts HeadsProofs RefTree RunsRef SpecRef.
From Coq Require Import Arith ZifyBool ZifyNat ZifyN.
Arguments Z.of_nat : simpl never.
Arguments Z.pow : simpl never.

Section Calls.
Variable H : list byte -> bytes32.
Variable pr : profile.
Hypothesis empty_root : H [] = empty_sum.

Lemma rt_inv_empty : forall i, rt_inv H [] i (Build_RTree [] 0 (Z.of_nat i) []).
Proof.
  intros i. split; [constructor|]. split; [reflexivity|]. split; [reflexivity|]. left. split; [cbn; lia|reflexivity].
Qed.

Lemma rt_inv_nil : forall i t, rt_inv H [] i t -> t = Build_RTree [] 0 (Z.of_nat i) [].
Proof.
  intros i [hd lc pi ps] (Hh & Ec & Ei & Se). cbn [rt_head rt_leaves_count rt_proof_index rt_proof_set length] in *.
  apply Heads_zero_inv in Hh. subst hd lc pi. destruct Se as [[_ ->]|(k & q & _ & Tp)]; [reflexivity|].
  exfalso. destruct Tp as [A _]. cbn [length] in A. pose proof (pow2_pos k). lia.
Qed.

Lemma rt_inv_head : forall ds i t, rt_inv H ds i t -> (ds = [] <-> rt_head t = []).
Proof.
  intros ds i t (Hh & _). split; intros E.
  - subst ds. apply Heads_zero_inv in Hh. exact Hh.
  - rewrite E in Hh. apply Heads_nil_inv in Hh. apply length_zero_iff_nil. exact Hh.
Qed.

Lemma calls_inv : forall cs ds i t, rt_inv H ds i t -> ref_indices_ok cs -> Z.of_nat (length ds + length cs) < 2 ^ 64 ->
  match ref_answers H ds (Z.of_nat i) cs with
  | None => rt_calls H pr cs t = Panic
  | Some (rs, ds', i') => exists t' n, i' = Z.of_nat n /\ rt_calls H pr cs t = Val (t', rs) /\ rt_inv H ds' n t' /\
      (length ds' <= length ds + length cs)%nat
  end.
Proof.
  induction cs as [|c cs IH]; intros ds i t I Ok L; cbn [ref_answers rt_calls].
  - exists t, i. cbn [length]. split; [reflexivity|]. split; [reflexivity|]. split; [exact I|lia].
  - inversion Ok as [|? ? Oc Ok']; subst. cbn [length] in L.
    destruct c as [j|d| |]; cbn [rt_answer_call].
    + unfold rt_set_proof_index. destruct ds as [|d ds].
      * apply rt_inv_nil in I. subst t. cbn [rt_head obind].
        specialize (IH [] (Z.to_nat j) (Build_RTree [] 0 (Z.of_nat (Z.to_nat j)) []) (rt_inv_empty _) Ok' ltac:(cbn [length]; lia)).
        rewrite Z2Nat.id in IH by exact Oc. cbn [rt_leaves_count rt_proof_set].
        destruct (ref_answers H [] j cs) as [[[rs ds'] i']|].
        -- destruct IH as (t' & n & -> & -> & I' & L'). exists t', n. cbn [length obind] in *. repeat split; auto; try apply I'. lia.
        -- rewrite IH. reflexivity.
      * destruct (rt_head t) eqn:Et; [|reflexivity]. apply (rt_inv_head _ _ _ I) in Et. discriminate Et.
    + destruct (push_inv H pr ds i d t ltac:(lia) I) as (t1 & -> & I1). cbn [obind].
      specialize (IH (ds ++ [d]) i t1 I1 Ok' ltac:(rewrite app_length; cbn [length]; lia)).
      destruct (ref_answers H (ds ++ [d]) (Z.of_nat i) cs) as [[[rs ds'] i']|].
      * destruct IH as (t' & n & -> & -> & I' & L'). exists t', n. rewrite app_length in L'. cbn [length obind] in *.
        split; [reflexivity|]. split; [reflexivity|]. split; [exact I'|lia].
      * rewrite IH. reflexivity.
    + rewrite (inv_root H pr ds i t) by (auto; lia). cbn [obind].
      specialize (IH ds i t I Ok' ltac:(lia)).
      destruct (ref_answers H ds (Z.of_nat i) cs) as [[[rs ds'] i']|].
      * destruct IH as (t' & n & -> & -> & I' & L'). exists t', n. cbn [length obind].
        split; [reflexivity|]. split; [reflexivity|]. split; [exact I'|lia].
      * rewrite IH. reflexivity.
    + cbn [obind]. destruct I as (Hh & Ec & I2). rewrite Ec. assert (I : rt_inv H ds i t) by (split; [exact Hh|split; [exact Ec|exact I2]]).
      specialize (IH ds i t I Ok' ltac:(lia)).
      destruct (ref_answers H ds (Z.of_nat i) cs) as [[[rs ds'] i']|].
      * destruct IH as (t' & n & -> & -> & I' & L'). exists t', n. cbn [length obind].
        split; [reflexivity|]. split; [reflexivity|]. split; [exact I'|lia].
      * rewrite IH. reflexivity.
Qed.

Lemma C94_lemma : forall cs, ref_indices_ok cs -> Z.of_nat (length cs) < 2 ^ 64 ->
  match ref_answers H [] 0 cs with
  | None => rt_calls H pr cs rt_new = Panic
  | Some (rs, ds, i) => exists t, rt_calls H pr cs rt_new = Val (t, rs) /\
      rt_prove H pr t = Val (mth H ds, match nth_error ds (Z.to_nat i) with
                                       | Some d => hash_leaf H d :: audit_path H (Z.to_nat i) ds
                                       | None => [] end)
  end.
Proof.
  intros cs Ok L. pose proof (calls_inv cs [] 0 rt_new (rt_inv_empty 0) Ok L) as A.
  change (Z.of_nat 0) with 0 in A. destruct (ref_answers H [] 0 cs) as [[[rs ds] i]|]; [|exact A].
  destruct A as (t & n & -> & R & I & Ld). exists t. split; [exact R|]. rewrite Nat2Z.id. cbn [length] in Ld.
  apply (inv_prove H pr ds n t); auto. lia.
Qed.
End Calls.
