(** BindingProofs.v -- the Merkle root determines the leaves, unless two of the byte
    strings hashed collide; soundness of walking up from a leaf. *)
From Verif Require Import Base SpecBinary SpecBinaryFacts SpecPosition SpecVerify PathProofs.
From Coq Require Import Arith ZifyBool ZifyNat ZifyN.
Ltac Zify.zify_post_hook ::= Z.div_mod_to_equations.
Arguments Nat.pow : simpl never.
Arguments Nat.mul : simpl never.
Arguments Nat.div : simpl never.
Arguments Nat.add : simpl never.

Lemma bytes_eq_dec : forall x y : list byte, {x = y} + {x <> y}.
Proof. apply list_eq_dec. apply Byte.byte_eq_dec. Qed.

Lemma b32_app_inj : forall a b c d : bytes32, b32 a ++ b32 b = b32 c ++ b32 d -> a = c /\ b = d.
Proof.
  intros a b c d E.
  assert (A : b32 a = b32 c).
  { assert (firstn 32 (b32 a ++ b32 b) = firstn 32 (b32 c ++ b32 d)) by (rewrite E; reflexivity).
    rewrite !firstn_app, !b32_length, Nat.sub_diag, !firstn_O, !app_nil_r in H.
    rewrite (firstn_all2 (b32 a)), (firstn_all2 (b32 c)) in H by (rewrite b32_length; lia). exact H. }
  rewrite A in E. apply app_inv_head in E. split; apply bytes32_ext; assumption.
Qed.

Section Binding.
Variable H : list byte -> bytes32.
Notation mth := (mth H).
Notation mth_inputs := (mth_inputs H).

Lemma mth_inputs_fuel_step : forall f ds, (2 <= length ds)%nat ->
  mth_inputs_fuel H (S f) ds =
    let k := split_point (length ds) in
    (x01 :: b32 (mth (firstn k ds)) ++ b32 (mth (skipn k ds)))
      :: mth_inputs_fuel H f (firstn k ds) ++ mth_inputs_fuel H f (skipn k ds).
Proof. intros f [|a [|b ds]] Hl; cbn [length] in Hl; try lia. reflexivity. Qed.

Lemma mth_inputs_fuel_enough : forall f ds, (length ds <= f)%nat -> mth_inputs_fuel H f ds = mth_inputs ds.
Proof.
  assert (A : forall f g ds, (length ds <= f)%nat -> (length ds <= g)%nat ->
    mth_inputs_fuel H f ds = mth_inputs_fuel H g ds).
  { induction f as [|f IH]; intros g ds Hf Hg.
    - destruct ds; cbn [length] in Hf; [|lia]. destruct g; reflexivity.
    - destruct ds as [|a [|b ds]]; [destruct g; reflexivity|destruct g; reflexivity|].
      destruct g as [|g]; [cbn [length] in Hg; lia|].
      rewrite !mth_inputs_fuel_step by (cbn [length]; lia). cbv zeta.
      destruct (split_point_bounds (length (a :: b :: ds)) ltac:(cbn [length]; lia)) as [B1 B2].
      f_equal. f_equal; apply IH; rewrite ?firstn_length, ?skipn_length; lia. }
  intros f ds Hf. apply A; auto.
Qed.

Lemma mth_inputs_split : forall ds, (2 <= length ds)%nat ->
  mth_inputs ds =
    let k := split_point (length ds) in
    (x01 :: b32 (mth (firstn k ds)) ++ b32 (mth (skipn k ds)))
      :: mth_inputs (firstn k ds) ++ mth_inputs (skipn k ds).
Proof.
  intros ds Hl. unfold SpecBinary.mth_inputs at 1.
  destruct ds as [|a ds']; [cbn [length] in Hl; lia|].
  change (length (a :: ds')) with (S (length ds')). rewrite mth_inputs_fuel_step by exact Hl. cbv zeta.
  destruct (split_point_bounds _ Hl) as [B1 B2].
  rewrite !mth_inputs_fuel_enough by (rewrite ?firstn_length, ?skipn_length; cbn [length] in *; lia).
  reflexivity.
Qed.

(** The last byte string hashed for the root. *)
Lemma mth_root_input : forall ds, exists x, mth ds = H x /\ In x (mth_inputs ds) /\
  ((ds = [] /\ x = []) \/ (exists d, ds = [d] /\ x = x00 :: d) \/
   ((2 <= length ds)%nat /\ x = x01 :: b32 (mth (firstn (split_point (length ds)) ds))
                               ++ b32 (mth (skipn (split_point (length ds)) ds)))).
Proof.
  intros ds. destruct ds as [|d [|d2 ds]].
  - exists []. repeat split; [left; reflexivity|]. left. auto.
  - exists (x00 :: d). repeat split; [left; reflexivity|]. right. left. eauto.
  - assert (Hl : (2 <= length (d :: d2 :: ds))%nat) by (cbn [length]; lia).
    eexists. split; [rewrite mth_split by exact Hl; unfold hash_node; reflexivity|].
    split; [rewrite mth_inputs_split by exact Hl; left; reflexivity|]. right. right. split; [exact Hl|reflexivity].
Qed.

Lemma collision_app : forall l l' , incl l l' -> has_collision H l -> has_collision H l'.
Proof. intros l l' I (x & y & A & B & C & D). exists x, y. repeat split; auto. Qed.

Lemma mth_binding : forall ds ds', mth ds = mth ds' ->
  ds = ds' \/ has_collision H (mth_inputs ds ++ mth_inputs ds').
Proof.
  assert (A : forall n ds ds', (length ds <= n)%nat -> mth ds = mth ds' ->
    ds = ds' \/ has_collision H (mth_inputs ds ++ mth_inputs ds')).
  { induction n as [|n IH]; intros ds ds' Hn E;
    destruct (mth_root_input ds) as (x & Ex & Ix & Cx);
    destruct (mth_root_input ds') as (y & Ey & Iy & Cy);
    (destruct (bytes_eq_dec x y) as [Exy|N];
     [|right; exists x, y; repeat split; auto; [apply in_or_app; auto|apply in_or_app; auto|congruence]]).
    - destruct ds as [|d ds]; [|cbn [length] in Hn; lia].
      destruct Cx as [[_ ->]|[(d & C & _)|[C _]]]; [|discriminate C|cbn [length] in C; lia].
      subst y. destruct Cy as [[-> _]|[(d & _ & C)|[_ C]]]; [left; reflexivity|discriminate C|discriminate C].
    - subst y. destruct Cx as [[-> ->]|[(d & -> & ->)|[Hl ->]]].
      + destruct Cy as [[-> _]|[(d & _ & C)|[_ C]]]; [left; reflexivity|discriminate C|discriminate C].
      + destruct Cy as [[_ C]|[(d' & -> & C)|[_ C]]]; [discriminate C| |discriminate C].
        inversion C; subst. left. reflexivity.
      + destruct Cy as [[_ C]|[(d' & -> & C)|[Hl' C]]]; [discriminate C|discriminate C|].
        injection C as C. apply b32_app_inj in C. destruct C as [C1 C2].
        set (k := split_point (length ds)) in *. set (k' := split_point (length ds')) in *.
        destruct (split_point_bounds _ Hl) as [B1 B2]. fold k in B1, B2.
        assert (I1 : incl (mth_inputs (firstn k ds) ++ mth_inputs (firstn k' ds')) (mth_inputs ds ++ mth_inputs ds')).
        { rewrite (mth_inputs_split ds Hl), (mth_inputs_split ds' Hl'). cbv zeta. fold k k'.
          intros z Hz. apply in_app_or in Hz. apply in_or_app. destruct Hz as [Hz|Hz]; [left|right]; right; apply in_or_app; auto. }
        assert (I2 : incl (mth_inputs (skipn k ds) ++ mth_inputs (skipn k' ds')) (mth_inputs ds ++ mth_inputs ds')).
        { rewrite (mth_inputs_split ds Hl), (mth_inputs_split ds' Hl'). cbv zeta. fold k k'.
          intros z Hz. apply in_app_or in Hz. apply in_or_app. destruct Hz as [Hz|Hz]; [left|right]; right; apply in_or_app; auto. }
        assert (L1 : (length (firstn k ds) <= n)%nat) by (rewrite firstn_length; lia).
        assert (L2 : (length (skipn k ds) <= n)%nat) by (rewrite skipn_length; lia).
        destruct (IH _ _ L1 C1) as [E1|C']; [|right; exact (collision_app _ _ I1 C')].
        destruct (IH _ _ L2 C2) as [E2|C']; [|right; exact (collision_app _ _ I2 C')].
        left. rewrite <- (firstn_skipn k ds), <- (firstn_skipn k' ds'), E1, E2. reflexivity. }
  intros ds ds' E. apply (A (length ds)); auto.
Qed.

(** * Walking down *)
(** The leaf index reached from the root of [n] leaves; [None] if the walk meets a leaf
    too early or does not end at one. *)
Fixpoint follow (n : nat) (rdirs : list bool) : option nat :=
  match rdirs with
  | [] => if (n =? 1)%nat then Some 0%nat else None
  | d :: rdirs' =>
      if (n <=? 1)%nat then None
      else let k := split_point n in
           if d then option_map (fun j => (k + j)%nat) (follow (n - k) rdirs')
           else follow k rdirs'
  end.

Lemma climb_snoc : forall dirs sibs cur d s, length dirs = length sibs ->
  climb H cur (dirs ++ [d]) (sibs ++ [s]) = H (step_input d (climb H cur dirs sibs) s).
Proof.
  induction dirs as [|b dirs IH]; intros [|p sibs] cur d s Hl; cbn [length] in Hl; try lia; cbn [app climb].
  - reflexivity.
  - apply IH. lia.
Qed.

Lemma climb_inputs_snoc : forall dirs sibs cur d s, length dirs = length sibs ->
  climb_inputs H cur (dirs ++ [d]) (sibs ++ [s]) =
    climb_inputs H cur dirs sibs ++ [step_input d (climb H cur dirs sibs) s].
Proof.
  induction dirs as [|b dirs IH]; intros [|p sibs] cur d s Hl; cbn [length] in Hl; try lia;
    cbn [app climb climb_inputs].
  - reflexivity.
  - f_equal. apply IH. lia.
Qed.

Lemma climb_sound : forall d rdirs rsibs ds, length rdirs = length rsibs -> ds <> [] ->
  climb H (hash_leaf H d) (rev rdirs) (rev rsibs) = mth ds ->
  (exists j, follow (length ds) rdirs = Some j /\ nth_error ds j = Some d) \/
  has_collision H (mth_inputs ds ++ (x00 :: d) :: climb_inputs H (hash_leaf H d) (rev rdirs) (rev rsibs)).
Proof.
  intros d. induction rdirs as [|b rdirs IH]; intros [|p rsibs] ds Hl Hne E; cbn [length] in Hl; try lia.
  - cbn [rev climb climb_inputs follow] in *.
    destruct (mth_root_input ds) as (x & Ex & Ix & Cx).
    destruct (bytes_eq_dec x (x00 :: d)) as [->|N].
    + destruct Cx as [[-> _]|[(d' & -> & C)|[_ C]]]; [contradiction| |discriminate C].
      inversion C; subst. left. exists O. auto.
    + right. exists x, (x00 :: d). repeat split; auto.
      * apply in_or_app. auto.
      * apply in_or_app. right. left. reflexivity.
      * unfold hash_leaf in E. congruence.
  - cbn [rev] in *. rewrite climb_snoc in E by (rewrite !rev_length; lia).
    rewrite climb_inputs_snoc by (rewrite !rev_length; lia).
    set (cur := climb H (hash_leaf H d) (rev rdirs) (rev rsibs)) in *.
    destruct (mth_root_input ds) as (x & Ex & Ix & Cx).
    destruct (bytes_eq_dec x (step_input b cur p)) as [->|N].
    + destruct Cx as [[-> _]|[(d' & -> & C)|[Hl2 C]]]; [contradiction|destruct b; discriminate C|].
      set (k := split_point (length ds)) in *.
      destruct (split_point_bounds _ Hl2) as [B1 B2]. fold k in B1, B2.
      cbn [follow]. replace (length ds <=? 1)%nat with false by (symmetry; apply Nat.leb_gt; lia). fold k.
      pose proof (mth_inputs_split ds Hl2) as Ms. cbv zeta in Ms. fold k in Ms.
      assert (Inc : forall part, incl (mth_inputs part) (mth_inputs ds) ->
        incl (mth_inputs part ++ (x00 :: d) :: climb_inputs H (hash_leaf H d) (rev rdirs) (rev rsibs))
             (mth_inputs ds ++ (x00 :: d) :: climb_inputs H (hash_leaf H d) (rev rdirs) (rev rsibs) ++ [step_input b cur p])).
      { intros part Hp z Hz. apply in_app_or in Hz. apply in_or_app. destruct Hz as [Hz|[Hz|Hz]]; auto.
        - right. left. exact Hz.
        - right. right. apply in_or_app. auto. }
      destruct b; cbn [step_input] in C; injection C as C; apply b32_app_inj in C; destruct C as [C1 C2].
      * assert (Ne : skipn k ds <> []).
        { intros Z. apply (f_equal (@length _)) in Z. rewrite skipn_length in Z. cbn [length] in Z. lia. }
        destruct (IH rsibs (skipn k ds) ltac:(lia) Ne C2) as [(j & Fj & Nj)|Col].
        -- left. rewrite skipn_length in Fj. rewrite Fj. cbn [option_map].
           exists (k + j)%nat. split; [reflexivity|].
           rewrite <- Nj. rewrite <- (firstn_skipn k ds) at 1.
           rewrite nth_error_app2 by (rewrite firstn_length; lia). f_equal. rewrite firstn_length. lia.
        -- right. eapply collision_app; [|exact Col]. apply Inc. rewrite Ms.
           intros z Hz. right. apply in_or_app. auto.
      * assert (Ne : firstn k ds <> []).
        { intros Z. apply (f_equal (@length _)) in Z. rewrite firstn_length in Z. cbn [length] in Z. lia. }
        destruct (IH rsibs (firstn k ds) ltac:(lia) Ne C1) as [(j & Fj & Nj)|Col].
        -- left. rewrite firstn_length in Fj. replace (Nat.min k (length ds)) with k in Fj by lia.
           exists j. split; [exact Fj|].
           rewrite <- (firstn_skipn k ds). rewrite nth_error_app1; [exact Nj|].
           apply nth_error_Some. congruence.
        -- right. eapply collision_app; [|exact Col]. apply Inc. rewrite Ms.
           intros z Hz. right. apply in_or_app. auto.
    + right. exists x, (step_input b cur p). repeat split; auto.
      * apply in_or_app. auto.
      * apply in_or_app. right. right. apply in_or_app. right. left. reflexivity.
      * congruence.
Qed.
End Binding.

(** * Which leaf the directions lead to *)
Definition bits (i s : nat) : list bool := map (fun h => Nat.odd (ancestor i h)) (seq 0 s).

Lemma split_point_pow2 : forall s, split_point (2 ^ S s) = (2 ^ s)%nat.
Proof.
  intros s. apply split_point_pow; [|lia]. rewrite pow2_S. pose proof (pow2_pos s). lia.
Qed.

Lemma bits_S : forall i s, bits i (S s) = bits i s ++ [Nat.odd (ancestor i s)].
Proof. intros i s. unfold bits. rewrite seq_S, map_app. reflexivity. Qed.

Lemma bits_length : forall i s, length (bits i s) = s.
Proof. intros. unfold bits. rewrite map_length, seq_length. reflexivity. Qed.

(** Low bits do not see multiples of a larger power. *)
Lemma ancestor_shift : forall i s h c, (h <= s)%nat ->
  ancestor (c * 2 ^ s + i) h = (c * 2 ^ (s - h) + ancestor i h)%nat.
Proof.
  intros i s h c Hh. unfold ancestor.
  replace (c * 2 ^ s)%nat with (c * 2 ^ (s - h) * 2 ^ h)%nat.
  2:{ rewrite <- Nat.mul_assoc, <- Nat.pow_add_r. do 2 f_equal. lia. }
  rewrite Nat.div_add_l; auto. pose proof (pow2_pos h). lia.
Qed.

Lemma bits_shift : forall i s c, bits (c * 2 ^ s + i) s = bits i s.
Proof.
  intros i s c. unfold bits. apply map_ext_in. intros h Hin. apply in_seq in Hin.
  rewrite ancestor_shift by lia. replace (s - h)%nat with (S (s - h - 1)) by lia. rewrite pow2_S.
  rewrite Nat.odd_add, Nat.mul_assoc, Nat.odd_mul, Nat.odd_mul.
  change (Nat.odd 2) with false. rewrite andb_false_r. cbn. destruct (Nat.odd (ancestor i h)); reflexivity.
Qed.

Lemma follow_pow2 : forall s rdirs j, follow (2 ^ s) rdirs = Some j -> length rdirs = s.
Proof.
  induction s as [|s IH]; intros rdirs j F.
  - change (2 ^ 0)%nat with 1%nat in F. destruct rdirs; [reflexivity|]. cbn [follow] in F. discriminate F.
  - pose proof (pow2_pos s). destruct rdirs as [|d rdirs]; cbn [follow] in F.
    + rewrite pow2_S in F. replace (2 * 2 ^ s =? 1)%nat with false in F by (symmetry; apply Nat.eqb_neq; lia). discriminate F.
    + rewrite split_point_pow2 in F. rewrite pow2_S in F.
      replace (2 * 2 ^ s <=? 1)%nat with false in F by (symmetry; apply Nat.leb_gt; lia).
      replace (2 * 2 ^ s - 2 ^ s)%nat with (2 ^ s)%nat in F by lia.
      cbn [length]. f_equal. destruct d.
      * destruct (follow (2 ^ s) rdirs) as [j'|] eqn:F'; [|discriminate F]. eapply IH; eauto.
      * eapply IH; eauto.
Qed.

Lemma follow_bits : forall s i, (i < 2 ^ s)%nat -> follow (2 ^ s) (rev (bits i s)) = Some i.
Proof.
  induction s as [|s IH]; intros i Hi.
  - change (2 ^ 0)%nat with 1%nat in *. cbn. f_equal. lia.
  - pose proof (pow2_pos s). rewrite bits_S, rev_app_distr. cbn [rev app follow].
    rewrite split_point_pow2. rewrite pow2_S in *.
    replace (2 * 2 ^ s <=? 1)%nat with false by (symmetry; apply Nat.leb_gt; lia).
    replace (2 * 2 ^ s - 2 ^ s)%nat with (2 ^ s)%nat by lia.
    destruct (le_lt_dec (2 ^ s) i) as [G|G].
    + assert (A : ancestor i s = 1%nat).
      { unfold ancestor. symmetry. apply Nat.div_unique with (r := (i - 2 ^ s)%nat); lia. }
      rewrite A. cbn [Nat.odd Nat.even negb].
      assert (B : bits i s = bits (i - 2 ^ s) s).
      { rewrite <- (bits_shift (i - 2 ^ s) s 1). f_equal. lia. }
      rewrite B, IH by lia. cbn [option_map]. f_equal. lia.
    + rewrite (ancestor_top i s G). cbn [Nat.odd Nat.even negb]. apply IH. exact G.
Qed.

Lemma follow_long : forall rdirs s m j, (m <= 2 ^ s)%nat -> follow m rdirs = Some j -> (length rdirs <= s)%nat.
Proof.
  induction rdirs as [|d rdirs IH]; intros s m j Hm F; cbn [length]; [lia|]. cbn [follow] in F.
  destruct (Nat.leb_spec m 1) as [|Hm1]; [discriminate F|].
  destruct s as [|s]; [change (2 ^ 0)%nat with 1%nat in Hm; lia|]. rewrite pow2_S in Hm.
  destruct (split_point_bounds m ltac:(lia)) as [B1 B2].
  assert (B3 : (split_point m <= 2 ^ s)%nat).
  { destruct (le_lt_dec (2 ^ s) (split_point m)) as [C|C]; [|lia].
    destruct (Nat.eq_dec (split_point m) (2 ^ s)) as [->|N]; [lia|]. exfalso.
    unfold split_point in *. destruct (le_lt_dec (Nat.log2 (m - 1)) s) as [X|X].
    - apply pow2_le in X. lia.
    - assert (2 ^ S s <= 2 ^ Nat.log2 (m - 1))%nat by (apply pow2_le; lia). rewrite pow2_S in *. lia. }
  enough (length rdirs <= s)%nat by lia. destruct d.
  - destruct (follow (m - split_point m) rdirs) as [j'|] eqn:F'; [|discriminate F].
    eapply (IH s _ j'); [|exact F']. lia.
  - eapply (IH s _ j); [|exact F]. exact B3.
Qed.

(** A power of two below a multiple: multiples of [2^s] larger than [2^s] split at one. *)
Lemma split_point_multiple : forall s c, (2 <= c)%nat ->
  exists u, (u <= c - 1)%nat /\ (0 < u)%nat /\ split_point (c * 2 ^ s) = (u * 2 ^ s)%nat /\ exists j, (s <= j)%nat /\ split_point (c * 2 ^ s) = (2 ^ j)%nat.
Proof.
  intros s c Hc. pose proof (pow2_pos s) as Hp.
  destruct (split_point_bounds (c * 2 ^ s) ltac:(nia)) as [B1 B2].
  assert (L : (2 ^ s <= split_point (c * 2 ^ s))%nat) by (apply split_point_largest; nia).
  unfold split_point in *. set (j := Nat.log2 (c * 2 ^ s - 1)) in *.
  assert (Hj : (s <= j)%nat).
  { destruct (le_lt_dec s j); auto. assert (2 ^ S j <= 2 ^ s)%nat by (apply pow2_le; lia).
    rewrite pow2_S in *. pose proof (pow2_pos j). lia. }
  assert (E : (2 ^ j = 2 ^ (j - s) * 2 ^ s)%nat) by (rewrite <- Nat.pow_add_r; f_equal; lia).
  exists (2 ^ (j - s))%nat. pose proof (pow2_pos (j - s)). repeat split; auto.
  - rewrite E in B1. nia.
  - exists j. auto.
Qed.

Lemma follow_short : forall rdirs s c j, (0 < c)%nat -> follow (c * 2 ^ s) rdirs = Some j ->
  (s <= length rdirs)%nat /\ (c <> 1%nat -> (s < length rdirs)%nat).
Proof.
  induction rdirs as [|d rdirs IH]; intros s c j Hc F.
  - cbn [follow] in F. destruct (Nat.eqb_spec (c * 2 ^ s) 1) as [E|E]; [|discriminate F].
    apply Nat.eq_mul_1 in E. destruct E as [-> E]. split; [|lia].
    destruct s; [lia|]. rewrite pow2_S in E. pose proof (pow2_pos s). lia.
  - destruct (Nat.eq_dec c 1) as [->|Nc].
    + rewrite Nat.mul_1_l in F. apply follow_pow2 in F. split; lia.
    + cut (s <= length rdirs)%nat; [cbn [length]; lia|].
      cbn [follow] in F. destruct (Nat.leb_spec (c * 2 ^ s) 1) as [|_]; [discriminate F|].
      destruct (split_point_multiple s c ltac:(lia)) as (u & U1 & U0 & U2 & jj & J1 & J2).
      destruct d.
      * destruct (follow (c * 2 ^ s - split_point (c * 2 ^ s)) rdirs) as [j'|] eqn:F'; [|discriminate F].
        rewrite U2 in F'. rewrite <- Nat.mul_sub_distr_r in F'.
        apply IH in F'; [tauto|lia].
      * rewrite J2 in F. apply follow_pow2 in F. lia.
Qed.

(** Case 1: the largest complete block around [i] ends the tree. *)
Lemma follow_end : forall t s c i j, (c * 2 ^ s <= i < (c + 1) * 2 ^ s)%nat ->
  follow ((c + 1) * 2 ^ s) (repeat true t ++ rev (bits i s)) = Some j -> j = i.
Proof.
  induction t as [|t IH]; intros s c i j Hi F; cbn [repeat app] in F.
  - destruct c as [|c].
    + replace ((0 + 1) * 2 ^ s)%nat with (2 ^ s)%nat in F by lia.
      rewrite follow_bits in F by lia. congruence.
    + exfalso. apply follow_short in F; [|lia]. rewrite rev_length, bits_length in F. lia.
  - destruct c as [|c].
    + exfalso. replace ((0 + 1) * 2 ^ s)%nat with (2 ^ s)%nat in F by lia.
      apply follow_pow2 in F. cbn [length] in F. rewrite app_length, repeat_length, rev_length, bits_length in F. lia.
    + cbn [follow] in F. destruct (Nat.leb_spec ((S c + 1) * 2 ^ s) 1) as [|_]; [discriminate F|].
      destruct (split_point_multiple s (S c + 1) ltac:(lia)) as (u & U1 & U0 & U2 & _).
      rewrite U2 in F. rewrite <- Nat.mul_sub_distr_r in F.
      destruct (follow _ _) as [j'|] eqn:F'; [|discriminate F]. cbn [option_map] in F. injection F as <-.
      replace (S c + 1 - u)%nat with ((S c - u) + 1)%nat in F' by lia.
      assert (B : bits i s = bits (i - u * 2 ^ s) s).
      { rewrite <- (bits_shift (i - u * 2 ^ s) s u). f_equal. nia. }
      rewrite B in F'. apply IH in F'; nia.
Qed.

(** Case 2: it does not end the tree, and the block twice its size is not complete. *)
Lemma follow_inner : forall t s c n i j, (2 * c * 2 ^ s <= i < (2 * c + 1) * 2 ^ s)%nat ->
  ((2 * c + 1) * 2 ^ s < n < (2 * c + 2) * 2 ^ s)%nat ->
  follow n (repeat true t ++ false :: rev (bits i s)) = Some j -> j = i.
Proof.
  induction t as [|t IH]; intros s c n i j Hi Hn F; cbn [repeat app] in F; cbn [follow] in F;
    (destruct (Nat.leb_spec n 1) as [|Hn1]; [discriminate F|]); pose proof (pow2_pos s) as Hp;
    destruct (split_point_bounds n ltac:(lia)) as [B1 B2].
  - destruct c as [|c].
    + rewrite (split_point_pow n s) in F by (rewrite ?pow2_S; lia).
      rewrite follow_bits in F by lia. congruence.
    + exfalso.
      assert (Hj : (2 ^ S s <= split_point n)%nat) by (apply split_point_largest; [lia|]; rewrite pow2_S; nia).
      unfold split_point in *. apply follow_pow2 in F. rewrite rev_length, bits_length in F.
      rewrite F in Hj. rewrite pow2_S in Hj. lia.
  - destruct c as [|c].
    + exfalso. rewrite (split_point_pow n s) in F by (rewrite ?pow2_S; lia).
      destruct (follow _ _) as [j'|] eqn:F'; [|discriminate F].
      apply (follow_long _ s) in F'; [|lia].
      rewrite app_length, repeat_length in F'. cbn [length] in F'. rewrite rev_length, bits_length in F'. lia.
    + set (jj := Nat.log2 (n - 1)).
      assert (Ek : split_point n = (2 ^ jj)%nat) by reflexivity.
      assert (Hj : (2 ^ S s <= split_point n)%nat) by (apply split_point_largest; [lia|]; rewrite pow2_S; nia).
      assert (Hjj : (S s <= jj)%nat).
      { destruct (le_lt_dec (S s) jj); auto. assert (2 ^ jj < 2 ^ S s)%nat by (apply Nat.pow_lt_mono_r; lia). lia. }
      assert (Eu : (2 ^ jj = 2 * 2 ^ (jj - S s) * 2 ^ s)%nat).
      { rewrite <- pow2_S, <- Nat.pow_add_r. f_equal. lia. }
      set (u := (2 ^ (jj - S s))%nat) in *.
      rewrite Ek, Eu in F.
      destruct (follow _ _) as [j'|] eqn:F'; [|discriminate F]. cbn [option_map] in F. injection F as <-.
      assert (Hu : (u <= S c)%nat) by nia.
      assert (B : bits i s = bits (i - 2 * u * 2 ^ s) s).
      { rewrite <- (bits_shift (i - 2 * u * 2 ^ s) s (2 * u)). f_equal. nia. }
      rewrite B in F'. apply (IH s (S c - u)%nat) in F'; nia.
Qed.
