(** PropertiesVerify.v -- C64 to C66: what the verifier of the test helpers accepts.  [pv] is the
    build profile of the verifier. *)
From Verif Require Import Base Sha256 Storage ModelCommon ModelBinary ModelVerify SpecBinary SpecPosition
  SpecVerify Runs BindingProofs BinaryMain BinaryExtra WitnessBinary VerifyMore.

(** C64 is false: the root alone is accepted as a proof set for the last of three leaves. *)
Theorem C64_only_proof_refuted : exists ds ps, (length ds = 3)%nat /\
  verify sha256 Debug (mth sha256 ds) ps 2 3 = Val true /\
  (length ps <> 2)%nat /\ hd zero32 ps <> hash_leaf sha256 (nth 2 ds []).
Proof. exact C64_refuted_lemma. Qed.
Print Assumptions C64_only_proof_refuted.

(** If the first entry is the hash of a leaf, only the proof set returned by prove is accepted. *)
Theorem C64_only_proof_partial : forall H pr pv St E (st : StorageT St Z BPrimitive E) view,
  Lawful st view -> H [] = empty_sum ->
  forall ds s0 t root ps i d, Infallible st -> Z.of_nat (length ds) < leaf_limit pr ->
  bt_push_all H pr st ds (bt_new s0) = (t, Val (Ok tt)) -> bt_root H pr t = Val root -> 0 <= i ->
  verify H pv root (hash_leaf H d :: ps) i (Z.of_nat (length ds)) = Val true ->
  (exists t', bt_prove H pr st i t = (t', Val (Ok (root, hash_leaf H d :: ps)))) \/
  has_collision H (mth_inputs H ds ++ (x00 :: d) ::
    climb_inputs H (hash_leaf H d) (directions (Z.to_nat i) (length ds) (length ps)) ps).
Proof. exact C64_lemma. Qed.
Print Assumptions C64_only_proof_partial.

Example C64_example :
  verify sha256 Debug (mth sha256 abc) (hash_leaf sha256 [x63] :: audit_path sha256 2 abc) 2 3 = Val true.
Proof. exact C64_witness. Qed.

(** C65 is false: one proof set is accepted for leaf 2 of 3, leaf 1 of 2 and leaf 4 of 5. *)
Theorem C65_index_and_count_refuted : exists ds d ps, (length ds = 3)%nat /\
  verify sha256 Debug (mth sha256 ds) (hash_leaf sha256 d :: ps) 2 3 = Val true /\
  verify sha256 Debug (mth sha256 ds) (hash_leaf sha256 d :: ps) 1 2 = Val true /\
  verify sha256 Debug (mth sha256 ds) (hash_leaf sha256 d :: ps) 4 5 = Val true.
Proof. exact C65_refuted_lemma. Qed.
Print Assumptions C65_index_and_count_refuted.

(** Whatever index and number of leaves are claimed, the data is a leaf of the tree and the rest of
    the proof set is its audit path. *)
Theorem C65_index_and_count_partial : forall H pr pv St E (st : StorageT St Z BPrimitive E) view,
  Lawful st view -> H [] = empty_sum ->
  forall ds s0 t root ps i n d, Infallible st -> (0 < length ds)%nat -> Z.of_nat (length ds) <= 2 ^ 63 ->
  bt_push_all H pr st ds (bt_new s0) = (t, Val (Ok tt)) -> bt_root H pr t = Val root -> 0 <= i -> 0 <= n < 2 ^ 63 ->
  verify H pv root (hash_leaf H d :: ps) i n = Val true ->
  (exists j, nth_error ds j = Some d /\ ps = audit_path H j ds) \/
  has_collision H (mth_inputs H ds ++ (x00 :: d) ::
    climb_inputs H (hash_leaf H d) (directions (Z.to_nat i) (Z.to_nat n) (length ps)) ps).
Proof. exact C65_lemma. Qed.
Print Assumptions C65_index_and_count_partial.

(** C66 is false: a build with overflow checks panics. *)
Theorem C66_verify_answers_refuted : forall pr root f ps, overflow_checks pr = true ->
  verify sha256 pr root (f :: ps) (2 ^ 64 - 2) (2 ^ 64 - 1) = Panic.
Proof. exact C66_refuted_lemma. Qed.
Print Assumptions C66_verify_answers_refuted.

(** Builds without overflow checks always answer, the others for fewer than 2^63 leaves. *)
Theorem C66_verify_answers_partial : forall H pr root ps i n, 0 <= i -> overflow_checks pr = false \/ n < 2 ^ 63 ->
  exists b, verify H pr root ps i n = Val b.
Proof. exact C66_lemma. Qed.
Print Assumptions C66_verify_answers_partial.

Example C66_example : exists b, verify sha256 Release zero32 [zero32; zero32] (2 ^ 64 - 2) (2 ^ 64 - 1) = Val b.
Proof. exact C66_witness. Qed.

(** [Fuel] would mean that the loop of the model ran longer than its bound. *)
Theorem C66_verify_ends : forall H pr root ps i n, verify H pr root ps i n <> Fuel.
Proof. exact verify_ends. Qed.
Print Assumptions C66_verify_ends.

(** Whatever index and number of leaves are claimed, an accepted proof proves membership. *)
Theorem C87_membership : forall H pr pv St E (st : StorageT St Z BPrimitive E) view,
  Lawful st view -> H [] = empty_sum ->
  forall ds s0 t root ps i n d, Infallible st -> ds <> [] -> Z.of_nat (length ds) <= 2 ^ 63 ->
  bt_push_all H pr st ds (bt_new s0) = (t, Val (Ok tt)) -> bt_root H pr t = Val root ->
  verify H pv root (hash_leaf H d :: ps) i n = Val true ->
  (exists j, nth_error ds j = Some d /\ ps = audit_path H j ds) \/
  exists dirs, length dirs = length ps /\
    has_collision H (mth_inputs H ds ++ (x00 :: d) :: climb_inputs H (hash_leaf H d) dirs ps).
Proof. exact C87_lemma. Qed.
Print Assumptions C87_membership.

Example C87_example :
  verify sha256 Release (mth sha256 abc) (hash_leaf sha256 [x63] :: audit_path sha256 2 abc) (2 ^ 64 - 2) (2 ^ 64 - 1) = Val true.
Proof. exact C87_witness. Qed.
