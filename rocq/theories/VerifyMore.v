(** VerifyMore.v -- which proof sets the verifier accepts: only the audit path, for any
    claimed number of leaves. *)
From Verif Require Import Base Sha256 Storage ModelCommon ModelBinary ModelVerify SpecBinary SpecBinaryFacts
  SpecPosition SpecVerify Runs PositionProofs PathProofs BindingProofs VerifyProofs BinaryMain BinaryExtra.
From Coq Require Import Arith ZifyBool ZifyNat ZifyN.
Ltac Zify.zify_post_hook ::= Z.div_mod_to_equations.
Arguments Nat.pow : simpl never.
Arguments Nat.mul : simpl never.
Arguments Z.pow : simpl never.

Section More.
Variable H : list byte -> bytes32.
Notation mth := (mth H).
Notation audit_path := (audit_path H).

(** [climb_sound] with the siblings. *)
Lemma climb_unique : forall d rdirs rsibs ds, length rdirs = length rsibs -> ds <> [] ->
  climb H (hash_leaf H d) (rev rdirs) (rev rsibs) = mth ds ->
  (exists j, follow (length ds) rdirs = Some j /\ nth_error ds j = Some d /\ rev rsibs = audit_path j ds) \/
  has_collision H (mth_inputs H ds ++ (x00 :: d) :: climb_inputs H (hash_leaf H d) (rev rdirs) (rev rsibs)).
Proof.
  intros d. induction rdirs as [|b rdirs IH]; intros [|p rsibs] ds Hl Hne E; cbn [length] in Hl; try lia.
  - cbn [rev climb climb_inputs follow] in *.
    destruct (mth_root_input H ds) as (x & Ex & Ix & Cx).
    destruct (bytes_eq_dec x (x00 :: d)) as [->|N].
    + destruct Cx as [[-> _]|[(d' & -> & C)|[_ C]]]; [contradiction| |discriminate C].
      inversion C; subst. left. exists O. auto.
    + right. exists x, (x00 :: d). repeat split; auto.
      * apply in_or_app. auto.
      * apply in_or_app. right. left. reflexivity.
      * unfold hash_leaf in E. congruence.
  - cbn [rev] in *. rewrite climb_snoc in E by (rewrite !rev_length; lia).
    rewrite climb_inputs_snoc by (rewrite !rev_length; lia).
    set (cur := climb H (hash_leaf H d) (rev rdirs) (rev rsibs)) in *.
    destruct (mth_root_input H ds) as (x & Ex & Ix & Cx).
    destruct (bytes_eq_dec x (step_input b cur p)) as [->|N].
    + destruct Cx as [[-> _]|[(d' & -> & C)|[Hl2 C]]]; [contradiction|destruct b; discriminate C|].
      pose proof (audit_path_split H) as Ap.
      set (k := split_point (length ds)) in *.
      destruct (split_point_bounds _ Hl2) as [B1 B2]. fold k in B1, B2.
      cbn [follow]. replace (length ds <=? 1)%nat with false by (symmetry; apply Nat.leb_gt; lia). fold k.
      pose proof (mth_inputs_split H ds Hl2) as Ms. cbv zeta in Ms. fold k in Ms.
      assert (Inc : forall part, incl (mth_inputs H part) (mth_inputs H ds) ->
        incl (mth_inputs H part ++ (x00 :: d) :: climb_inputs H (hash_leaf H d) (rev rdirs) (rev rsibs))
             (mth_inputs H ds ++ (x00 :: d) :: climb_inputs H (hash_leaf H d) (rev rdirs) (rev rsibs) ++ [step_input b cur p])).
      { intros part Hp z Hz. apply in_app_or in Hz. apply in_or_app. destruct Hz as [Hz|[Hz|Hz]]; auto.
        - right. left. exact Hz.
        - right. right. apply in_or_app. auto. }
      destruct b; cbn [step_input] in C; injection C as C; apply b32_app_inj in C; destruct C as [C1 C2].
      * assert (Ne : skipn k ds <> []).
        { intros Z. apply (f_equal (@length _)) in Z. rewrite skipn_length in Z. cbn [length] in Z. lia. }
        destruct (IH rsibs (skipn k ds) ltac:(lia) Ne C2) as [(j & Fj & Nj & Pj)|Col].
        -- left. rewrite skipn_length in Fj. rewrite Fj. cbn [option_map].
           exists (k + j)%nat. split; [reflexivity|]. split.
           ++ rewrite <- Nj. rewrite <- (firstn_skipn k ds) at 1.
              rewrite nth_error_app2 by (rewrite firstn_length; lia). f_equal. rewrite firstn_length. lia.
           ++ rewrite Ap by exact Hl2. cbv zeta. fold k.
              replace (k + j <? k)%nat with false by (symmetry; apply Nat.ltb_ge; lia).
              replace (k + j - k)%nat with j by lia. rewrite Pj, C1. reflexivity.
        -- right. eapply collision_app; [|exact Col]. apply Inc. rewrite Ms.
           intros z Hz. right. apply in_or_app. auto.
      * assert (Ne : firstn k ds <> []).
        { intros Z. apply (f_equal (@length _)) in Z. rewrite firstn_length in Z. cbn [length] in Z. lia. }
        destruct (IH rsibs (firstn k ds) ltac:(lia) Ne C1) as [(j & Fj & Nj & Pj)|Col].
        -- left. rewrite firstn_length in Fj. replace (Nat.min k (length ds)) with k in Fj by lia.
           exists j. split; [exact Fj|].
           assert (Lj : (j < length (firstn k ds))%nat) by (apply nth_error_Some; congruence). split.
           ++ rewrite <- (firstn_skipn k ds). rewrite nth_error_app1 by exact Lj. exact Nj.
           ++ rewrite Ap by exact Hl2. cbv zeta. fold k. rewrite firstn_length in Lj.
              replace (j <? k)%nat with true by (symmetry; apply Nat.ltb_lt; lia). rewrite Pj, C2. reflexivity.
        -- right. eapply collision_app; [|exact Col]. apply Inc. rewrite Ms.
           intros z Hz. right. apply in_or_app. auto.
    + right. exists x, (step_input b cur p). repeat split; auto.
      * apply in_or_app. auto.
      * apply in_or_app. right. right. apply in_or_app. right. left. reflexivity.
      * congruence.
Qed.

Lemma verify_false_range : forall pr root ps i n, i >= n -> verify H pr root ps i n = Val false.
Proof. intros pr root ps i n G. unfold verify. replace (i >=? n) with true by lia. reflexivity. Qed.

Lemma verify_climb : forall pr ds ps i n d, Z.of_nat n < 2 ^ 63 ->
  verify H pr (mth ds) (hash_leaf H d :: ps) (Z.of_nat i) (Z.of_nat n) = Val true ->
  (i < n)%nat /\ exists s, top_block n i s /\ enough n i s (length ps) /\
  climb H (hash_leaf H d) (directions i n (length ps)) ps = mth ds.
Proof.
  intros pr ds ps i n d Hn V. destruct (le_lt_dec n i) as [G|Hi].
  { rewrite verify_false_range in V by lia. discriminate V. }
  split; [exact Hi|].
  destruct (verify_char H pr (mth ds) i n (hash_leaf H d) ps Hn Hi) as (s & T & [[En R]|[_ R]]); rewrite R in V; [|discriminate V].
  injection V as V. apply b32_eqb_true in V. exists s. auto.
Qed.

(** Only the audit path is accepted. *)
Lemma verify_unique : forall pr ds ps i d, Z.of_nat (length ds) < 2 ^ 63 ->
  verify H pr (mth ds) (hash_leaf H d :: ps) (Z.of_nat i) (Z.of_nat (length ds)) = Val true ->
  (nth_error ds i = Some d /\ ps = audit_path i ds) \/
  has_collision H (mth_inputs H ds ++ (x00 :: d) ::
    climb_inputs H (hash_leaf H d) (directions i (length ds) (length ps)) ps).
Proof.
  intros pr ds ps i d Hn V. destruct (verify_climb _ _ _ _ _ _ Hn V) as (Hi & s & T & En & C).
  set (n := length ds) in *.
  assert (Ne : ds <> []) by (intros ->; unfold n in Hi; cbn in Hi; lia).
  destruct (climb_unique d (rev (directions i n (length ps))) (rev ps) ds) as [(j & F & N & P)|Col].
  - rewrite !rev_length, directions_length. reflexivity.
  - exact Ne.
  - rewrite !rev_involutive. exact C.
  - left. rewrite rev_involutive in P. rewrite (follow_directions n i s _ j T En F) in *. split; assumption.
  - right. rewrite !rev_involutive in Col. exact Col.
Qed.

(** Whatever index and number of leaves are claimed, the data is one of the leaves and the proof
    is the audit path of it. *)
Lemma verify_member : forall pr ds ps i n d, Z.of_nat n < 2 ^ 63 -> ds <> [] ->
  verify H pr (mth ds) (hash_leaf H d :: ps) (Z.of_nat i) (Z.of_nat n) = Val true ->
  (exists j, nth_error ds j = Some d /\ ps = audit_path j ds) \/
  has_collision H (mth_inputs H ds ++ (x00 :: d) ::
    climb_inputs H (hash_leaf H d) (directions i n (length ps)) ps).
Proof.
  intros pr ds ps i n d Hn Ne V. destruct (verify_climb _ _ _ _ _ _ Hn V) as (Hi & s & T & En & C).
  destruct (climb_unique d (rev (directions i n (length ps))) (rev ps) ds) as [(j & F & N & P)|Col].
  - rewrite !rev_length, directions_length. reflexivity.
  - exact Ne.
  - rewrite !rev_involutive. exact C.
  - left. rewrite rev_involutive in P. exists j. auto.
  - right. rewrite !rev_involutive in Col. exact Col.
Qed.

(** No input makes the verifier panic below 2^63 leaves. *)
Lemma verify_total : forall pr root ps i n, 0 <= i -> n < 2 ^ 63 -> exists b, verify H pr root ps i n = Val b.
Proof.
  intros pr root ps i n Hi Hn. destruct (Z_lt_dec i n) as [L|G].
  2:{ exists false. apply verify_false_range. lia. }
  destruct ps as [|f ps].
  { exists false. unfold verify. replace (i >=? n) with false by lia. reflexivity. }
  destruct (verify_char H pr root (Z.to_nat i) (Z.to_nat n) f ps ltac:(lia) ltac:(lia)) as (s & _ & [[_ R]|[_ R]]);
    rewrite !Z2Nat.id in R by lia; eexists; exact R.
Qed.
End More.

(** * The verifier ends *)
Section Ends.
Variable H : list byte -> bytes32.
Variable pr : profile.

Lemma obind_nf : forall A B (o : out A) (f : A -> out B), o <> Fuel -> (forall a, f a <> Fuel) -> obind o f <> Fuel.
Proof. intros A B [a| |] f N Nf; cbn [obind]; [apply Nf|discriminate|congruence]. Qed.
Lemma u64_nf : forall z, u64_ovf pr z <> Fuel.
Proof. intros z. unfold u64_ovf. destruct (in_u64 z); [discriminate|]. destruct (overflow_checks pr); discriminate. Qed.
Lemma shl_nf : forall z, shl1_u64 pr z <> Fuel.
Proof.
  intros z. unfold shl1_u64. apply obind_nf; [|discriminate]. unfold shift_amount.
  destruct (z <? 64); [discriminate|]. destruct (overflow_checks pr); discriminate.
Qed.
Lemma index_nf : forall l i, index_vec l i <> Fuel.
Proof. intros l i. unfold index_vec. destruct (slice_get l i); discriminate. Qed.

Lemma verify_loop_nf : forall f ps i n sum e h, Z.of_nat (length ps) <= Z.of_nat f + h - 1 -> (1 <= f)%nat ->
  verify_loop H pr f ps i n sum e h <> Fuel.
Proof.
  induction f as [|f IH]; intros ps i n sum e h Hf F1; [lia|]. cbn [verify_loop].
  apply obind_nf; [apply shl_nf|]. intros w. destruct (w =? 0); [discriminate|].
  apply obind_nf; [apply u64_nf|]. intros a. apply obind_nf; [apply u64_nf|]. intros b.
  apply obind_nf; [apply u64_nf|]. intros c. destruct (c >=? n); [discriminate|].
  destruct (Z.of_nat (length ps) <=? h) eqn:L; [discriminate|].
  apply obind_nf; [apply index_nf|]. intros p. apply obind_nf; [apply shl_nf|]. intros q.
  apply obind_nf; [apply u64_nf|]. intros r. apply IH; lia.
Qed.

Lemma verify_ends : forall root ps i n, verify H pr root ps i n <> Fuel.
Proof.
  intros root ps i n. unfold verify. destruct (i >=? n); [discriminate|]. destruct ps as [|f ps]; [discriminate|].
  apply obind_nf; [apply verify_loop_nf; cbn [length]; lia|]. intros [[[s e] h]|]; [|discriminate].
  apply obind_nf; [apply u64_nf|]. intros l. destruct (negb (e =? l)); [|discriminate].
  destruct (Z.of_nat (length (f :: ps)) <=? h); [discriminate|]. apply obind_nf; [apply index_nf|]. discriminate.
Qed.
End Ends.

(** Builds without overflow checks never panic. *)
Section Release.
Variable H : list byte -> bytes32.
Variable pr : profile.
Hypothesis Hc : overflow_checks pr = false.

Lemma obind_np : forall A B (o : out A) (f : A -> out B), o <> Panic -> (forall a, f a <> Panic) -> obind o f <> Panic.
Proof. intros A B [a| |] f N Nf; cbn [obind]; [apply Nf|congruence|discriminate]. Qed.
Lemma u64_np : forall z, u64_ovf pr z <> Panic.
Proof. intros z. unfold u64_ovf. rewrite Hc. destruct (in_u64 z); discriminate. Qed.
Lemma shl_val : forall z, exists v, shl1_u64 pr z = Val v /\ (0 <= z -> v <> 0).
Proof.
  intros z. unfold shl1_u64, shift_amount. rewrite Hc.
  assert (P : forall a, 0 <= a < 64 -> as_u64 (2 ^ a) <> 0).
  { intros a Ha. unfold as_u64. rewrite Z.mod_small; [|split; [apply Z.pow_nonneg; lia|]].
    - apply Z.pow_nonzero; lia.
    - change U64 with (2 ^ 64). apply Z.pow_lt_mono_r; lia. }
  destruct (z <? 64) eqn:L; cbn [obind]; eexists; (split; [reflexivity|]); intros Hz; apply P; lia.
Qed.
Lemma index_np : forall l i, 0 <= i < Z.of_nat (length l) -> index_vec l i <> Panic.
Proof.
  intros l i Hi. unfold index_vec. replace i with (Z.of_nat (Z.to_nat i)) by lia. rewrite slice_get_nth.
  destruct (nth_error l (Z.to_nat i)) eqn:N; [discriminate|]. apply nth_error_None in N. lia.
Qed.

Lemma verify_loop_np : forall f ps i n sum e h, 1 <= h ->
  verify_loop H pr f ps i n sum e h <> Panic /\
  forall s e' h', verify_loop H pr f ps i n sum e h = Val (Some (s, e', h')) -> h <= h'.
Proof.
  induction f as [|f IH]; intros ps i n sum e h Hh; [split; discriminate|]. cbn [verify_loop].
  destruct (shl_val h) as (w & -> & Nw). cbn [obind]. replace (w =? 0) with false by (specialize (Nw ltac:(lia)); lia).
  destruct (u64_ovf pr (i / w * w)) as [a| |] eqn:A; [|exfalso; exact (u64_np _ A)|split; discriminate]. cbn [obind].
  destruct (u64_ovf pr (a + w)) as [b| |] eqn:B; [|exfalso; exact (u64_np _ B)|split; discriminate]. cbn [obind].
  destruct (u64_ovf pr (b - 1)) as [c| |] eqn:C; [|exfalso; exact (u64_np _ C)|split; discriminate]. cbn [obind].
  destruct (c >=? n). { split; [discriminate|]. intros s e' h' Q. injection Q as _ _ <-. lia. }
  destruct (Z.of_nat (length ps) <=? h) eqn:L; [split; discriminate|].
  destruct (index_vec ps h) as [p| |] eqn:P; [|exfalso; exact (index_np ps h ltac:(lia) P)|split; discriminate]. cbn [obind].
  destruct (shl_val (h - 1)) as (q & -> & _). cbn [obind].
  destruct (u64_ovf pr (i - a)) as [r| |] eqn:R; [|exfalso; exact (u64_np _ R)|split; discriminate]. cbn [obind].
  match goal with |- verify_loop H pr f ps i n ?s ?e ?h' <> _ /\ _ => destruct (IH ps i n s e h' ltac:(lia)) as [I1 I2] end.
  split; [exact I1|]. intros s e' h' Q. specialize (I2 _ _ _ Q). lia.
Qed.

Lemma verify_release : forall root ps i n, verify H pr root ps i n <> Panic.
Proof.
  intros root ps i n. unfold verify. destruct (i >=? n); [discriminate|]. destruct ps as [|f ps]; [discriminate|].
  destruct (verify_loop_np (length (f :: ps)) (f :: ps) i n f i 1 ltac:(lia)) as [N1 N2].
  destruct (verify_loop H pr (length (f :: ps)) (f :: ps) i n f i 1) as [[[[s e] h]|]| |]; try discriminate; try congruence.
  cbn [obind]. specialize (N2 _ _ _ eq_refl).
  destruct (u64_ovf pr (n - 1)) as [l| |] eqn:U; [|exfalso; exact (u64_np _ U)|discriminate]. cbn [obind].
  destruct (negb (e =? l)); [|discriminate]. destruct (Z.of_nat (length (f :: ps)) <=? h) eqn:L; [discriminate|].
  destruct (index_vec (f :: ps) h) eqn:X; [discriminate|exfalso; exact (index_np (f :: ps) h ltac:(lia) X)|discriminate].
Qed.
End Release.

(** * The statements *)
Lemma C64_lemma : forall H pr pv St E (st : StorageT St Z BPrimitive E) view,
  Lawful st view -> H [] = empty_sum ->
  forall ds s0 t root ps i d, Infallible st -> Z.of_nat (length ds) < leaf_limit pr ->
  bt_push_all H pr st ds (bt_new s0) = (t, Val (Ok tt)) -> bt_root H pr t = Val root -> 0 <= i ->
  verify H pv root (hash_leaf H d :: ps) i (Z.of_nat (length ds)) = Val true ->
  (exists t', bt_prove H pr st i t = (t', Val (Ok (root, hash_leaf H d :: ps)))) \/
  has_collision H (mth_inputs H ds ++ (x00 :: d) ::
    climb_inputs H (hash_leaf H d) (directions (Z.to_nat i) (length ds) (length ps)) ps).
Proof.
  intros H pr pv St E st view L HE ds s0 t root ps i d Inf Hn Ep R Hi V. pose proof (limit_max _ _ Hn) as Hm.
  destruct (C01_lemma H pr st view L HE ds s0 Inf ltac:(lia)) as (t2 & Ep2 & R2).
  rewrite Ep in Ep2. injection Ep2 as <-. rewrite R in R2. injection R2 as ->.
  destruct (verify_unique H pv ds ps (Z.to_nat i) d ltac:(lia)) as [[N P]|C]; [rewrite Z2Nat.id by exact Hi; exact V| |right; exact C].
  left. destruct (C02_lemma H pr st view L ds s0 Inf Hn) as (t3 & Ep3 & Pr). rewrite Ep in Ep3. injection Ep3 as <-.
  destruct (Pr (Z.to_nat i) d N) as (_ & t' & Pr'). rewrite Z2Nat.id in Pr' by exact Hi. exists t'. rewrite P. exact Pr'.
Qed.

Lemma C65_lemma : forall H pr pv St E (st : StorageT St Z BPrimitive E) view,
  Lawful st view -> H [] = empty_sum ->
  forall ds s0 t root ps i n d, Infallible st -> (0 < length ds)%nat -> Z.of_nat (length ds) <= 2 ^ 63 ->
  bt_push_all H pr st ds (bt_new s0) = (t, Val (Ok tt)) -> bt_root H pr t = Val root -> 0 <= i -> 0 <= n < 2 ^ 63 ->
  verify H pv root (hash_leaf H d :: ps) i n = Val true ->
  (exists j, nth_error ds j = Some d /\ ps = audit_path H j ds) \/
  has_collision H (mth_inputs H ds ++ (x00 :: d) ::
    climb_inputs H (hash_leaf H d) (directions (Z.to_nat i) (Z.to_nat n) (length ps)) ps).
Proof.
  intros H pr pv St E st view L HE ds s0 t root ps i n d Inf Hl Hm Ep R Hi Hn V.
  destruct (C01_lemma H pr st view L HE ds s0 Inf ltac:(lia)) as (t2 & Ep2 & R2).
  rewrite Ep in Ep2. injection Ep2 as <-. rewrite R in R2. injection R2 as ->.
  apply (verify_member H pv ds ps (Z.to_nat i) (Z.to_nat n) d ltac:(lia)).
  - intros ->. cbn in Hl. lia.
  - rewrite !Z2Nat.id by lia. exact V.
Qed.

Lemma C66_lemma : forall H pr root ps i n, 0 <= i -> overflow_checks pr = false \/ n < 2 ^ 63 ->
  exists b, verify H pr root ps i n = Val b.
Proof.
  intros H pr root ps i n Hi [Hc|Hn]; [|apply verify_total; auto].
  pose proof (verify_release H pr Hc root ps i n) as P. pose proof (verify_ends H pr root ps i n) as F.
  destruct (verify H pr root ps i n) as [b| |]; [exists b; reflexivity|congruence|congruence].
Qed.

Lemma Val_some_inj : forall A B C (a a' : A) (b b' : B) (c c' : C),
  Val (Some (a, b, c)) = Val (Some (a', b', c')) -> a = a' /\ b = b' /\ c = c'.
Proof. intros A B C a a' b b' c c' E. injection E as -> -> ->. auto. Qed.
Lemma Val_inj_bool : forall a b : bool, Val a = Val b -> a = b.
Proof. intros a b E. injection E as ->. reflexivity. Qed.

(** * Acceptance without bounds on the claims: the sum was climbed along all entries *)
Section Unbounded.
Variable H : list byte -> bytes32.
Variable pr : profile.

Lemma index_vec_app : forall pre x rest h, h = Z.of_nat (length pre) -> index_vec (pre ++ x :: rest) h = Val x.
Proof.
  intros pre x rest h ->. unfold index_vec. rewrite slice_get_nth.
  rewrite nth_error_app2 by lia. rewrite Nat.sub_diag. reflexivity.
Qed.

Lemma verify_loop_climb : forall f pre rest i n sum e h s e' h', h = Z.of_nat (length pre) ->
  verify_loop H pr f (pre ++ rest) i n sum e h = Val (Some (s, e', h')) ->
  exists dirs used rest', rest = used ++ rest' /\ length dirs = length used /\
    h' = Z.of_nat (length pre + length used) /\ climb H sum dirs used = s.
Proof.
  induction f as [|f IH]; intros pre rest i n sum e h s e' h' Hh V; [discriminate V|]. cbn [verify_loop] in V.
  destruct (shl1_u64 pr h) as [w| |]; try discriminate V. cbn [obind] in V.
  destruct (w =? 0); [discriminate V|].
  destruct (u64_ovf pr (i / w * w)) as [a| |]; try discriminate V. cbn [obind] in V.
  destruct (u64_ovf pr (a + w)) as [b| |]; try discriminate V. cbn [obind] in V.
  destruct (u64_ovf pr (b - 1)) as [c| |]; try discriminate V. cbn [obind] in V.
  destruct (c >=? n).
  { apply Val_some_inj in V. destruct V as (-> & -> & ->). exists [], [], rest. repeat split; auto. cbn [length]. lia. }
  destruct (Z.of_nat (length (pre ++ rest)) <=? h) eqn:Lh; [discriminate V|].
  destruct rest as [|p rest]. { rewrite app_nil_r in Lh. lia. }
  rewrite (index_vec_app pre p rest h Hh) in V. cbn [obind] in V.
  destruct (shl1_u64 pr (h - 1)) as [q| |]; try discriminate V. cbn [obind] in V.
  destruct (u64_ovf pr (i - a)) as [r| |]; try discriminate V. cbn [obind] in V.
  replace (pre ++ p :: rest) with ((pre ++ [p]) ++ rest) in V by (rewrite <- app_assoc; reflexivity).
  apply IH in V; [|rewrite app_length; cbn [length]; lia].
  destruct V as (dirs & used & rest' & -> & A & B & C).
  exists ((negb (r <? q)) :: dirs), (p :: used), rest'. repeat split; auto.
  - cbn [length]. lia.
  - rewrite B, app_length. cbn [length]. lia.
  - cbn [climb]. rewrite <- C. destruct (r <? q); reflexivity.
Qed.

Lemma verify_tail_left : forall rest cur, verify_tail H rest cur = climb H cur (map (fun _ => true) rest) rest.
Proof. induction rest as [|p rest IH]; intros cur; cbn [verify_tail map climb]; [reflexivity|]. rewrite IH. reflexivity. Qed.

Lemma verify_path : forall root first ps i n, verify H pr root (first :: ps) i n = Val true ->
  exists dirs, length dirs = length ps /\ climb H first dirs ps = root.
Proof.
  intros root first ps i n V. unfold verify in V. destruct (i >=? n); [discriminate V|].
  match type of V with obind ?o _ = _ => destruct o as [[[[s e] h]|]| |] eqn:El; try discriminate V end.
  cbn [obind] in V. apply (verify_loop_climb _ [first] ps) in El; [|reflexivity].
  destruct El as (dirs & used & rest & -> & A & B & C). cbn [length] in B.
  destruct (u64_ovf pr (n - 1)) as [l| |]; try discriminate V. cbn [obind] in V.
  assert (Sk : forall k x, skipn (S (length used) + k) (x :: used ++ rest) = skipn k rest).
  { intros k x. change (S (length used) + k)%nat with (S (length used + k)). cbn [skipn].
    rewrite skipn_app, skipn_all2 by lia. cbn [app]. f_equal. lia. }
  destruct (negb (e =? l)).
  - destruct (Z.of_nat (length (first :: used ++ rest)) <=? h) eqn:Lh; [discriminate V|].
    destruct rest as [|p rest]. { rewrite app_nil_r in Lh. cbn [length] in Lh. lia. }
    change (first :: used ++ p :: rest) with ((first :: used) ++ p :: rest) in V.
    rewrite (index_vec_app (first :: used) p rest h) in V by (cbn [length]; lia). cbn [obind] in V.
    apply Val_inj_bool in V. apply b32_eqb_true in V.
    replace (Z.to_nat (h + 1)) with (S (length used) + 1)%nat in V by lia.
    change ((first :: used) ++ p :: rest) with (first :: used ++ p :: rest) in V. rewrite Sk in V. cbn [skipn] in V.
    rewrite verify_tail_left in V.
    exists (dirs ++ false :: map (fun _ => true) rest). split.
    + rewrite !app_length. cbn [length]. rewrite map_length. lia.
    + rewrite climb_app by exact A. cbn [climb]. rewrite C. exact V.
  - apply Val_inj_bool in V. apply b32_eqb_true in V.
    replace (Z.to_nat h) with (S (length used) + 0)%nat in V by lia. rewrite Sk in V. cbn [skipn] in V.
    rewrite verify_tail_left in V.
    exists (dirs ++ map (fun _ => true) rest). split.
    + rewrite !app_length, map_length. lia.
    + rewrite climb_app by exact A. rewrite C. exact V.
Qed.

Lemma verify_any_member : forall ds ps i n d, ds <> [] ->
  verify H pr (mth H ds) (hash_leaf H d :: ps) i n = Val true ->
  (exists j, nth_error ds j = Some d /\ ps = audit_path H j ds) \/
  exists dirs, length dirs = length ps /\
    has_collision H (mth_inputs H ds ++ (x00 :: d) :: climb_inputs H (hash_leaf H d) dirs ps).
Proof.
  intros ds ps i n d Ne V. destruct (verify_path _ _ _ _ _ V) as (dirs & Hl & C).
  destruct (climb_unique H d (rev dirs) (rev ps) ds) as [(j & F & N & P)|Col].
  - rewrite !rev_length. exact Hl.
  - exact Ne.
  - rewrite !rev_involutive. exact C.
  - left. rewrite rev_involutive in P. exists j. auto.
  - right. rewrite !rev_involutive in Col. exists dirs. auto.
Qed.
End Unbounded.

Lemma C87_lemma : forall H pr pv St E (st : StorageT St Z BPrimitive E) view,
  Lawful st view -> H [] = empty_sum ->
  forall ds s0 t root ps i n d, Infallible st -> ds <> [] -> Z.of_nat (length ds) <= 2 ^ 63 ->
  bt_push_all H pr st ds (bt_new s0) = (t, Val (Ok tt)) -> bt_root H pr t = Val root ->
  verify H pv root (hash_leaf H d :: ps) i n = Val true ->
  (exists j, nth_error ds j = Some d /\ ps = audit_path H j ds) \/
  exists dirs, length dirs = length ps /\
    has_collision H (mth_inputs H ds ++ (x00 :: d) :: climb_inputs H (hash_leaf H d) dirs ps).
Proof.
  intros H pr pv St E st view L HE ds s0 t root ps i n d Inf Ne Hm Ep R V.
  destruct (C01_lemma H pr st view L HE ds s0 Inf ltac:(lia)) as (t2 & Ep2 & R2).
  rewrite Ep in Ep2. injection Ep2 as <-. rewrite R in R2. injection R2 as ->.
  eapply verify_any_member; eauto.
Qed.

(** The witnesses. *)
Definition abc : list (list byte) := [[x61]; [x62]; [x63]].
Lemma C64_refuted_lemma : exists ds ps, (length ds = 3)%nat /\
  verify sha256 Debug (mth sha256 ds) ps 2 3 = Val true /\
  (length ps <> 2)%nat /\ hd zero32 ps <> hash_leaf sha256 (nth 2 ds []).
Proof.
  exists abc, [mth sha256 abc]. split; [reflexivity|]. split; [vm_compute; reflexivity|]. split; [cbn [length]; lia|].
  cbn [hd]. intros E. apply b32_eqb_eq in E. revert E. vm_compute. discriminate.
Qed.
Lemma C64_witness : verify sha256 Debug (mth sha256 abc) (hash_leaf sha256 [x63] :: audit_path sha256 2 abc) 2 3 = Val true.
Proof. vm_compute; reflexivity. Qed.
Lemma C65_refuted_lemma : exists ds d ps, (length ds = 3)%nat /\
  verify sha256 Debug (mth sha256 ds) (hash_leaf sha256 d :: ps) 2 3 = Val true /\
  verify sha256 Debug (mth sha256 ds) (hash_leaf sha256 d :: ps) 1 2 = Val true /\
  verify sha256 Debug (mth sha256 ds) (hash_leaf sha256 d :: ps) 4 5 = Val true.
Proof.
  exists abc, [x63], (audit_path sha256 2 abc). split; [reflexivity|]. split; [vm_compute; reflexivity|].
  split; vm_compute; reflexivity.
Qed.
Lemma C66_refuted_lemma : forall pr root f ps, overflow_checks pr = true -> verify sha256 pr root (f :: ps) (2 ^ 64 - 2) (2 ^ 64 - 1) = Panic.
Proof. intros [[] da w] root f ps Hc; [vm_compute; reflexivity|discriminate Hc]. Qed.
Lemma C66_witness : exists b, verify sha256 Release zero32 [zero32; zero32] (2 ^ 64 - 2) (2 ^ 64 - 1) = Val b.
Proof. eexists. vm_compute. reflexivity. Qed.
(** A claim no tree can meet: the proof of the last of three leaves is accepted in release builds
    for the largest possible index and number of leaves. *)
Lemma C87_witness :
  verify sha256 Release (mth sha256 abc) (hash_leaf sha256 [x63] :: audit_path sha256 2 abc) (2 ^ 64 - 2) (2 ^ 64 - 1) = Val true.
Proof. vm_compute. reflexivity. Qed.
