(** UntrustedProofs.v -- a root that is right makes the stored subtrees right. *)
From Verif Require Import Base Storage ModelCommon ModelBinary SpecBinary SpecBinaryFacts SpecPosition SpecBinaryAny
  SpecUntrusted PositionProofs PathProofs HeadsProofs BindingProofs StorageProofs Runs RunsCalls RunsRecover
  BinaryProofs BinaryReadProofs BinaryMain BinaryLimits RecoverProofs BinaryAny.
From Coq Require Import Arith ZifyBool ZifyNat ZifyN.
Ltac Zify.zify_post_hook ::= Z.div_mod_to_equations.
Arguments Z.pow : simpl never.
Arguments Z.mul : simpl never.
Arguments Z.add : simpl never.
Arguments Z.sub : simpl never.
Arguments Z.of_nat : simpl never.
Arguments Nat.pow : simpl never.
Arguments Nat.mul : simpl never.
Arguments Nat.div : simpl never.
Arguments Nat.add : simpl never.

Lemma peaks_more : forall n k h, (n < 2 ^ h)%nat -> peaks (k + h) n = peaks h n.
Proof.
  intros n k h Hn. induction k as [|k IH]; [reflexivity|].
  change (S k + h)%nat with (S (k + h)). cbn [peaks].
  assert (E : ancestor n (k + h) = 0%nat).
  { unfold ancestor. apply Nat.div_small. eapply Nat.lt_le_trans; [exact Hn|apply pow2_le; lia]. }
  rewrite E. exact IH.
Qed.

Lemma peaks_enough : forall n, peaks (root_height n) n = peaks n n.
Proof.
  intros n. pose proof (root_height_spec n) as A.
  assert (B : (root_height n <= n)%nat).
  { apply root_height_le. pose proof (Nat.pow_gt_lin_r 2 n). lia. }
  symmetry. replace (peaks n n) with (peaks ((n - root_height n) + root_height n) n) by (f_equal; lia).
  apply peaks_more. lia.
Qed.

Lemma Heads_halve : forall {T} (P : nat -> nat -> T -> Prop) h m l, Heads P h (2 * m) l -> Heads P (S h) m l.
Proof.
  intros T P h m l Hh. inversion Hh as [h0 E|h0 m' l' Hm Hh' E|h0 m' x l' Hh' Px E]; subst.
  - replace m with 0%nat by lia. constructor.
  - replace m with m' by lia. exact Hh'.
  - lia.
Qed.

Section Binding.
Variable H : list byte -> bytes32.
Notation mth := (mth H).
Notation mth_inputs := (mth_inputs H).

Lemma bin_block_inputs : forall ds h b, block h b ds <> [] -> incl (mth_inputs (block h b ds)) (mth_inputs ds).
Proof.
  assert (A : forall n ds h b, (length ds <= n)%nat -> block h b ds <> [] ->
    incl (mth_inputs (block h b ds)) (mth_inputs ds)).
  { induction n as [|n IH]; intros ds h b Hn NE.
    - destruct ds; [|cbn [length] in Hn; lia]. exfalso. apply NE. unfold block. rewrite skipn_nil, firstn_nil. reflexivity.
    - pose proof (pow2_pos h) as Hp.
      assert (Hb : (b * 2 ^ h < length ds)%nat).
      { destruct (le_lt_dec (length ds) (b * 2 ^ h)) as [C|]; auto. exfalso. apply NE.
        apply length_zero_iff_nil. rewrite block_length_eq. lia. }
      destruct (le_lt_dec (length ds) (2 ^ h)) as [Le|Gt].
      + assert (b = O) by nia. subst b. rewrite block_all by lia. apply incl_refl.
      + assert (Hl : (2 <= length ds)%nat) by lia.
        destruct (split_point_bounds _ Hl) as [[B1 B2] B3].
        assert (EK : exists u, split_point (length ds) = (u * 2 ^ h)%nat).
        { pose proof (split_point_largest (length ds) h Hl Gt) as LK. unfold split_point in *.
          set (j := Nat.log2 (length ds - 1)) in *.
          assert (h <= j)%nat. { destruct (le_lt_dec h j); auto. assert (2 ^ S j <= 2 ^ h)%nat by (apply pow2_le; lia).
            rewrite pow2_S in *. pose proof (pow2_pos j). lia. }
          exists (2 ^ (j - h))%nat. rewrite <- Nat.pow_add_r. f_equal. lia. }
        destruct EK as [u EK]. rewrite (mth_inputs_split H ds Hl). cbv zeta.
        set (k := split_point (length ds)) in *.
        destruct (le_lt_dec u b) as [Ge|Lt].
        * assert (EB : block h b ds = block h (b - u) (skipn k ds)).
          { unfold block. rewrite <- skipn_plus. f_equal. f_equal. nia. }
          rewrite EB in *. intros z Hz. right. apply in_or_app. right.
          apply (IH (skipn k ds) h (b - u)%nat); auto. rewrite skipn_length. lia.
        * assert (EB : block h b ds = block h b (firstn k ds)).
          { rewrite <- (firstn_skipn k ds) at 1. apply block_app. rewrite firstn_length. nia. }
          rewrite EB in *. intros z Hz. right. apply in_or_app. left.
          apply (IH (firstn k ds) h b); auto. rewrite firstn_length. lia. }
  intros ds h b. apply (A (length ds)). lia.
Qed.

Lemma join_input_in : forall h b ds, ((2 * b + 1) * 2 ^ h < length ds)%nat ->
  In (x01 :: b32 (mth (block h (2 * b) ds)) ++ b32 (mth (block h (2 * b + 1) ds))) (mth_inputs ds).
Proof.
  intros h b ds Hb. pose proof (pow2_pos h) as Hp.
  assert (L1 : length (block h (2 * b) ds) = (2 ^ h)%nat) by (apply block_length; lia).
  assert (L2 : (0 < length (block h (2 * b + 1) ds) <= 2 ^ h)%nat).
  { split; [|apply block_length_le]. rewrite block_length_eq. lia. }
  apply (bin_block_inputs ds (S h) b).
  - rewrite block_S. intros C. apply (f_equal (@length _)) in C. rewrite app_length in C. cbn [length] in C. lia.
  - rewrite block_S. rewrite mth_inputs_split by (rewrite app_length; lia). cbv zeta. left.
    rewrite app_length, (split_point_pow _ h) by (rewrite ?pow2_S; lia).
    rewrite <- L1. rewrite firstn_app, skipn_app, Nat.sub_diag, firstn_all, skipn_all. cbn [firstn skipn app].
    rewrite app_nil_r. reflexivity.
Qed.

(** The root of subtree hashes, smallest first. *)
Fixpoint join_root (x : bytes32) (xs : list bytes32) : bytes32 :=
  match xs with
  | [] => x
  | y :: ys => join_root (H (x01 :: b32 y ++ b32 x)) ys
  end.

Definition placed (h b : nat) (x : BNode) : Prop := bn_position x = index_of h b.
Definition strict (ds : list (list byte)) (h b : nat) (x : BNode) : Prop :=
  bn_position x = index_of h b /\ bn_hash x = mth (block h b ds).

Lemma join_binding : forall ds h m next, Heads placed h m next -> forall cur,
  (m * 2 ^ h < length ds)%nat -> (length ds <= (m + 1) * 2 ^ h)%nat ->
  join_root cur (map bn_hash next) = mth ds ->
  has_collision H (mth_inputs ds ++ join_inputs H cur (map bn_hash next)) \/
  (cur = mth (block h m ds) /\ Heads (strict ds) h m next).
Proof.
  intros ds h m next Hh. induction Hh as [h|h m l Hm Hh IH|h m x l Hh IH Px]; intros cur Lo Hi E.
  - right. cbn [map join_root] in E. rewrite block_all by lia. split; [exact E|constructor].
  - destruct (IH cur) as [C|[C1 C2]]; auto.
    + rewrite pow2_S. lia.
    + rewrite pow2_S. lia.
    + right. rewrite block_S_left in C1 by lia. split; [exact C1|]. constructor; auto.
  - cbn [map join_root] in E. cbn [map join_inputs].
    set (z := x01 :: b32 (bn_hash x) ++ b32 cur) in *.
    destruct (IH (H z)) as [C|[C1 C2]].
    + rewrite pow2_S. lia.
    + rewrite pow2_S. lia.
    + exact E.
    + left. eapply collision_app; [|exact C]. intros w Hw. apply in_app_or in Hw. apply in_or_app.
      destruct Hw as [Hw|Hw]; [left|right; right]; exact Hw.
    + rewrite mth_block_S in C1 by lia. unfold hash_node in C1.
      set (z' := x01 :: b32 (mth (block h (2 * m) ds)) ++ b32 (mth (block h (2 * m + 1) ds))) in *.
      destruct (bytes_eq_dec z z') as [Ez|Nz].
      * right. unfold z, z' in Ez. injection Ez as Ez. apply b32_app_inj in Ez. destruct Ez as [Ex Ec].
        split; [exact Ec|]. constructor; [exact C2|]. split; [exact Px|exact Ex].
      * left. exists z, z'. split; [apply in_or_app; right; left; reflexivity|].
        split; [apply in_or_app; left; apply join_input_in; lia|]. split; [exact Nz|exact C1].
Qed.

Lemma build_root_hash : forall pr next cur sc n sc', build_root_node H pr cur next sc = Val (n, sc') ->
  bn_hash n = join_root (bn_hash cur) (map bn_hash next).
Proof.
  intros pr. induction next as [|y next IH]; intros cur sc n sc' E; cbn [build_root_node] in E.
  - injection E as <- _. reflexivity.
  - unfold bnode_create_node in E at 1. destruct (pos_parent pr (bn_position y)) as [p| |]; cbn [obind] in E; try discriminate E.
    apply IH in E. cbn [bn_hash] in E. exact E.
Qed.

Section Load.
Context {St E : Type}.
Variable pr : profile.
Variable st : StorageT St Z BPrimitive E.
Variable view : St -> Z -> option BPrimitive.
Hypothesis L : Lawful st view.
Hypothesis empty_root : H [] = empty_sum.

Lemma C92_lemma : forall ds s s' t cs, in_place view s ->
  bt_load pr st (Z.of_nat (length ds)) s = (s', Val (Ok t)) -> bt_root H pr t = Val (mth ds) ->
  indices_ok cs -> Z.of_nat (length ds + length cs) < leaf_limit pr ->
  has_collision H (mth_inputs ds ++ joins H (stored_hashes view (length ds) s)) \/
  exists t' cs1 rs ds' n', bin_history H ds (length ds) cs1 (E:=E) rs ds' n' /\ bt_leaves_count t' = Z.of_nat n' /\
    ((cs = cs1 /\ bt_calls H pr st cs t = (t', Val rs)) \/
     (exists i cs2, cs = cs1 ++ CProve i :: cs2 /\ ds' = [] /\ i < Z.of_nat n' /\
        bt_calls H pr st cs t = (t', Panic))).
Proof.
  intros ds s s' t cs IP El Er Hix HC.
  assert (HCo : count_ok pr (length ds)) by (apply count_ok_limit; lia).
  destruct (load_cases pr st view L (length ds) s HCo) as (s1 & r & El1 & _ & C).
  rewrite El in El1. injection El1 as <- <-.
  destruct C as [(prims & F2 & Et)|[(ps1 & p & ps2 & _ & C & _)|(e & C & _)]]; try discriminate C.
  injection Et as ->.
  rewrite peaks_enough in F2.
  assert (Hsh : stored_hashes view (length ds) s = map bn_hash (rev (map bnode_of_prim prims))).
  { unfold stored_hashes. rewrite map_rev, map_map. f_equal.
    clear - F2. induction F2 as [|p x ps xs Hx F2 IH]; [reflexivity|].
    cbn [flat_map map]. rewrite Hx, IH. reflexivity. }
  assert (HP : Heads placed 0 (length ds) (rev (map bnode_of_prim prims))).
  { rewrite <- (app_nil_r (rev _)). apply Heads_peaks with (h := length ds).
    - rewrite ancestor_top by (pose proof (Nat.pow_gt_lin_r 2 (length ds)); lia). constructor.
    - clear - F2 IP. induction F2 as [|p x ps xs Hx F2 IH]; cbn [map]; constructor; auto.
      unfold placed. apply IP in Hx. exact Hx. }
  rewrite Hsh. set (hd := rev (map bnode_of_prim prims)) in *.
  assert (S : has_collision H (mth_inputs ds ++ joins H (map bn_hash hd)) \/ Heads (strict ds) 0 (length ds) hd).
  { destruct hd as [|x l] eqn:Ehd.
    - right. apply Heads_nil_inv in HP. rewrite HP. constructor.
    - unfold bt_root, bt_root_node in Er. cbn [bt_head] in Er.
      destruct (build_root_node H pr x l smap_new) as [[n sc]| |] eqn:Eb; cbn [obind] in Er; try discriminate Er.
      injection Er as Er. apply build_root_hash in Eb. rewrite Eb in Er. cbn [map joins].
      destruct (Heads_cons_inv _ _ _ _ _ HP) as (k & b & _ & Hm & Hx & Hl).
      change (2 ^ 0)%nat with 1%nat in Hm. rewrite Nat.mul_1_r in Hm.
      pose proof (pow2_pos k) as Hpk.
      destruct (join_binding ds k (2 * b) l) with (cur := bn_hash x) as [Q|[Q1 Q2]]; auto.
      + apply Heads_double. exact Hl.
      + nia.
      + lia.
      + right. replace (length ds) with ((2 * b + 1) * 2 ^ k)%nat by lia. apply Heads_down. constructor; [apply Heads_halve; exact Q2|]. split; [exact Hx|exact Q1]. }
  destruct S as [S|S]; [left; exact S|right].
  apply calls_any; auto.
  - eapply Heads_impl; [|exact S]. cbn [bt_head]. intros h' b x Hb [A B]. split; [exact B|].
    exists b. split; [exact A|]. change (2 ^ 0)%nat with 1%nat in Hb. pose proof (pow2_pos h'). split; nia.
Qed.
End Load.
End Binding.
