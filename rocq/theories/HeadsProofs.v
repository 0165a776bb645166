(** HeadsProofs.v -- the list of subtrees of a growing tree as a binary counter.
    [Heads P h m l]: [l] holds, smallest first, one element for each set bit of [m]
    (bit [k] standing for a block of height [h + k]); together they cover the blocks
    [0 .. m-1] of height [h].  [P h b x]: [x] is the right element for block (h, b). *)
From Verif Require Import Base SpecBinary SpecBinaryFacts SpecPosition PathProofs.
From Coq Require Import Arith ZifyBool ZifyNat ZifyN.
Ltac Zify.zify_post_hook ::= Z.div_mod_to_equations.
Arguments Nat.pow : simpl never.
Arguments Nat.mul : simpl never.
Arguments Nat.div : simpl never.
Arguments Nat.add : simpl never.
Local Open Scope nat_scope.

Section Heads.
Context {T : Type}.

Inductive Heads (P : nat -> nat -> T -> Prop) : nat -> nat -> list T -> Prop :=
| Heads_zero : forall h, Heads P h 0 []
| Heads_even : forall h m l, 0 < m -> Heads P (S h) m l -> Heads P h (2 * m) l
| Heads_odd : forall h m x l, Heads P (S h) m l -> P h (2 * m) x -> Heads P h (2 * m + 1) (x :: l).

Lemma Heads_impl : forall (P Q : nat -> nat -> T -> Prop) h m l,
  (forall h' b x, (b + 1) * 2 ^ h' <= m * 2 ^ h -> P h' b x -> Q h' b x) ->
  Heads P h m l -> Heads Q h m l.
Proof.
  intros P Q h m l HPQ Hh. induction Hh.
  - constructor.
  - constructor; [assumption|]. apply IHHh. intros h' b x Hb. apply HPQ.
    rewrite pow2_S in Hb. lia.
  - constructor.
    + apply IHHh. intros h' b y Hb. apply HPQ. rewrite pow2_S in Hb. lia.
    + apply HPQ; [|assumption]. lia.
Qed.

Lemma Heads_zero_inv : forall P h l, Heads P h 0 l -> l = [].
Proof.
  intros P h l Hh. inversion Hh; subst; auto; lia.
Qed.

Lemma Heads_nil_inv : forall P h m, Heads P h m [] -> m = 0.
Proof.
  intros P h m Hh. remember (@nil T) as l eqn:El. induction Hh; auto; [|discriminate].
  specialize (IHHh El). lia.
Qed.

Lemma Heads_even_inv : forall P h c l, Heads P h (2 * c) l -> Heads P (S h) c l.
Proof.
  intros P h c l Hh. inversion Hh; subst; try lia.
  - replace c with 0 by lia. constructor.
  - replace c with m by lia. assumption.
Qed.

Lemma Heads_odd_inv : forall P h c y l, Heads P h (2 * c + 1) (y :: l) ->
  P h (2 * c) y /\ Heads P (S h) c l.
Proof.
  intros P h c y l Hh. inversion Hh; subst; try lia.
  replace c with m by lia. auto.
Qed.

Lemma Heads_double : forall P h m l, Heads P (S h) m l -> Heads P h (2 * m) l.
Proof.
  intros P h m l Hh. destruct (Nat.eq_dec m 0) as [->|N].
  - apply Heads_zero_inv in Hh. subst. constructor.
  - constructor; [lia|assumption].
Qed.

Lemma Heads_down : forall P h m l, Heads P h m l -> Heads P 0 (m * 2 ^ h) l.
Proof.
  intros P. induction h as [|h IH]; intros m l Hh.
  - change (2 ^ 0) with 1. rewrite Nat.mul_1_r. exact Hh.
  - apply Heads_double in Hh. apply IH in Hh. rewrite pow2_S.
    replace (m * (2 * 2 ^ h)) with (2 * m * 2 ^ h) by ring. exact Hh.
Qed.

(** The first element of a non-empty list. *)
Lemma Heads_cons_inv : forall P h m x l, Heads P h m (x :: l) ->
  exists k b, h <= k /\ m * 2 ^ h = (2 * b + 1) * 2 ^ k /\ P k (2 * b) x /\ Heads P (S k) b l.
Proof.
  intros P h m x l Hh. remember (x :: l) as xl eqn:E. induction Hh.
  - discriminate.
  - destruct (IHHh E) as (k & b & A & B & C & D). exists k, b. repeat split; auto.
    + lia.
    + rewrite pow2_S in B. lia.
  - inversion E; subst. exists h, m. repeat split; auto.
Qed.

Lemma Heads_det : forall P : nat -> nat -> T -> Prop, (forall h b x y, P h b x -> P h b y -> x = y) ->
  forall h m l, Heads P h m l -> forall l', Heads P h m l' -> l = l'.
Proof.
  intros P Pdet h m l Hh. induction Hh; intros l' Hl'.
  - apply Heads_zero_inv in Hl'. auto.
  - inversion Hl'; subst; try lia. apply IHHh. replace m with m0 by lia. assumption.
  - inversion Hl'; subst; try lia. assert (m0 = m) by lia. subst m0. f_equal.
    + eapply Pdet; eauto.
    + apply IHHh; assumption.
Qed.

(** Rebuilding the list from the peaks. *)
Lemma Heads_peaks : forall P n h l, Heads P h (ancestor n h) l ->
  forall xs, Forall2 (fun p x => P (fst p) (snd p) x) (peaks h n) xs ->
  Heads P 0 n (rev xs ++ l).
Proof.
  intros P n. induction h as [|h IH]; intros l Hh xs HF; cbn [peaks] in HF.
  - inversion HF; subst. cbn. rewrite ancestor_0 in Hh. exact Hh.
  - destruct (ancestor_cases n h) as [(E1 & _ & O)|(E1 & _ & O)]; rewrite O in HF.
    + apply IH; [|exact HF]. rewrite E1. apply Heads_double. exact Hh.
    + inversion HF as [|p x ps xs' Hx HF']; subst. cbn [rev].
      rewrite <- app_assoc. cbn [app]. apply IH; [|exact HF'].
      rewrite E1. constructor; [exact Hh|]. cbn [fst snd] in Hx.
      rewrite E1 in Hx. replace (2 * ancestor n (S h) + 1 - 1) with (2 * ancestor n (S h)) in Hx by lia.
      exact Hx.
Qed.

Lemma Heads_to_peaks : forall P n h l, Heads P 0 n l -> n < 2 ^ h ->
  Forall2 (fun p x => P (fst p) (snd p) x) (peaks h n) (rev l).
Proof.
  intros P n.
  assert (A : forall h l, Heads P 0 n l -> exists l1 l2, l = l1 ++ l2 /\
     Heads P h (ancestor n h) l2 /\
     Forall2 (fun p x => P (fst p) (snd p) x) (peaks h n) (rev l1)).
  { induction h as [|h IH]; intros l Hl.
    - exists [], l. repeat split; auto; [rewrite ancestor_0; exact Hl|constructor].
    - destruct (IH l Hl) as (l1 & l2 & -> & H2 & HF). cbn [peaks].
      destruct (ancestor_cases n h) as [(E1 & _ & O)|(E1 & _ & O)]; rewrite O; rewrite E1 in H2.
      + exists l1, l2. repeat split; auto.
        inversion H2; subst; try lia.
        * replace (ancestor n (S h)) with 0 by lia. constructor.
        * replace (ancestor n (S h)) with m by lia. assumption.
      + inversion H2; subst; try lia. assert (m = ancestor n (S h)) by lia. subst m.
        exists (l1 ++ [x]), l. repeat split; auto.
        * rewrite <- app_assoc. reflexivity.
        * rewrite rev_app_distr. cbn. constructor; [|exact HF]. cbn [fst snd].
          rewrite E1. replace (2 * ancestor n (S h) + 1 - 1) with (2 * ancestor n (S h)) by lia.
          assumption. }
  intros h l Hl Hn. destruct (A h l Hl) as (l1 & l2 & -> & H2 & HF).
  rewrite ancestor_top in H2 by exact Hn. apply Heads_zero_inv in H2. subst l2.
  rewrite app_nil_r. exact HF.
Qed.

(** Peaks are complete blocks. *)
Lemma peaks_complete : forall n h k b, In (k, b) (peaks h n) -> (b + 1) * 2 ^ k <= n /\ k < h.
Proof.
  intros n. induction h as [|h IH]; intros k b Hin; cbn [peaks] in Hin; [contradiction|].
  destruct (Nat.odd (ancestor n h)) eqn:O.
  - destruct Hin as [E|Hin].
    + inversion E; subst. pose proof (ancestor_le n k).
      assert (0 < ancestor n k) by (destruct (ancestor n k); [discriminate|lia]).
      replace (ancestor n k - 1 + 1) with (ancestor n k) by lia. lia.
    + apply IH in Hin. lia.
  - apply IH in Hin. lia.
Qed.
End Heads.

(** The sides of the path to the first absent leaf are the peaks. *)
Lemma sides_peaks : forall n h, sides (n + 1) h n = peaks h n.
Proof.
  intros n. induction h as [|h IH]; [reflexivity|]. cbn [sides peaks node_exists].
  pose proof (ancestor_le n h) as L. pose proof (ancestor_gt n h) as G.
  destruct (ancestor_cases n h) as [(E1 & E2 & O)|(E1 & E2 & O)]; rewrite O.
  - rewrite E1 in G. replace ((2 * ancestor n (S h) + 1) * 2 ^ h <? n + 1) with false; [exact IH|].
    symmetry. apply Nat.ltb_ge. lia.
  - rewrite E1 in L. replace ((2 * ancestor n (S h) + 1) * 2 ^ h <? n + 1) with true
      by (symmetry; apply Nat.ltb_lt; lia).
    rewrite IH. f_equal. rewrite E2, E1.
    replace (2 * ancestor n (S h) + 1 - 1) with (2 * ancestor n (S h)) by lia.
    set (a := ancestor n (S h)) in *.
    assert (X : node_exists (n + 1) h (2 * a) = true).
    { destruct h as [|h']; cbn [node_exists]; apply Nat.ltb_lt.
      - change (2 ^ 0) with 1 in L. lia.
      - rewrite pow2_S in L. pose proof (pow2_pos h'). nia. }
    destruct h; cbn [represent]; rewrite X; reflexivity.
Qed.
