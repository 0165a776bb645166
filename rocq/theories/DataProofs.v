(** DataProofs.v -- proofs about the test harness. *)
From Verif Require Import Base Storage ModelText ModelCommon ModelBinary ModelVerify ModelSparse ModelData
  SpecText SpecBits SpecBinary SpecVerify SpecSparse SpecData Runs RunsSparse TextProofs BinaryMain BinaryExtra BindingProofs VerifyProofs VerifyMore SparseTheorems.
From Coq Require Import ZifyBool ZifyNat ZifyN String.
Ltac Zify.zify_post_hook ::= Z.div_mod_to_equations.
Open Scope list_scope.
Notation length := List.length.
Notation concat := List.concat.

(** * Encoded values *)
Lemma C80_lemma : forall b64e b64d lossy l,
  ev_into_bytes b64d (ev_from_raw b64e lossy l EHex) = Ok l /\
  ((forall x, b64d (b64e x) = Some x) -> ev_into_bytes b64d (ev_from_raw b64e lossy l EBase64) = Ok l) /\
  (forall t, spells any_digit t l <-> ev_into_bytes b64d (ev_new t EHex) = Ok l) /\
  (forall t, (forall l', ~ spells any_digit t l') <-> ev_into_bytes b64d (ev_new t EHex) = Err TDecodingError).
Proof.
  intros b64e b64d lossy l. unfold ev_into_bytes, ev_from_raw, ev_new. cbn [ev_encoding ev_value].
  split; [rewrite hex_round; reflexivity|]. split; [intros B; rewrite B; reflexivity|]. split; intros t.
  - rewrite <- decode_spec. destruct (hex_decode t) as [x|]; split; congruence.
  - destruct (hex_decode t) as [x|] eqn:D; split; try congruence.
    + intros N. exfalso. apply (N x), decode_spec, D.
    + intros _ l' S. apply decode_spec in S. congruence.
Qed.

Lemma into_32_ok : forall (d : bytes32), into_32 (b32 d) = Val d.
Proof.
  intros d. unfold into_32. rewrite b32_length. cbn [Nat.eqb]. f_equal. apply bytes32_ext, mk32_list, b32_length.
Qed.
Lemma from_raw_hex : forall b64e b64d lossy l, ev_into_bytes b64d (ev_from_raw b64e lossy l EHex) = Ok l.
Proof. intros. exact (proj1 (C80_lemma b64e b64d lossy l)). Qed.
Lemma decode_set : forall b64e b64d lossy (l : list bytes32),
  decode_proof_set b64d (map (fun v => ev_from_raw b64e lossy (b32 v) EHex) l) = Val l.
Proof.
  induction l as [|x l IH]; [reflexivity|]. cbn [map decode_proof_set]. rewrite from_raw_hex, into_32_ok. cbn [obind]. rewrite IH. reflexivity.
Qed.

(** * Proof tests *)
Lemma suite_push : forall H pr l, suite_push_all H pr l = bim_push_all H pr (map b32 l).
Proof. induction l as [|d l IH]; [reflexivity|]. cbn [suite_push_all bim_push_all map]. rewrite IH. reflexivity. Qed.

Lemma verify_root : forall H pr root root' ps i n, verify H pr root ps i n = Val true ->
  verify H pr root' ps i n = Val (b32_eqb root root').
Proof.
  intros H pr root root' ps i n. unfold verify. destruct (i >=? n); [discriminate|]. destruct ps as [|first ps]; [discriminate|].
  destruct (verify_loop H pr _ _ i n first i 1) as [[[[sum e] h]|]| |]; cbn [obind]; try discriminate.
  destruct (u64_ovf pr (n - 1)) as [last| |]; cbn [obind]; try discriminate.
  destruct (negb (e =? last)).
  - destruct (Z.of_nat (length (first :: ps)) <=? h); [discriminate|]. destruct (index_vec (first :: ps) h); cbn [obind]; try discriminate.
    intros E. injection E as E. apply b32_eqb_true in E. rewrite <- E. reflexivity.
  - intros E. injection E as E. apply b32_eqb_true in E. rewrite <- E. reflexivity.
Qed.

Section Generated.
Variable H : list byte -> bytes32.
Variable pr pv : profile.
Variable b64e : list byte -> list byte.
Variable b64d : list byte -> option (list byte).
Variable lossy : list byte -> list byte.
Hypothesis Hempty : H [] = empty_sum.
Notation execute := (proof_test_execute H pv b64d).
Notation generate := (generate_test H pr b64e lossy).

Lemma execute_eq : forall t r ps, ev_into_bytes b64d (pt_root t) = Ok (b32 r) -> decode_proof_set b64d (pt_proof_set t) = Val ps ->
  execute t = (v <-! verify H pv r ps (pt_proof_index t) (pt_num_leaves t) ;;
               if Bool.eqb v (pt_expected_verification t) then Val (Ok tt) else Val (Err (TFailed (pt_name t)))).
Proof. intros t r ps R P. unfold proof_test_execute. rewrite R, into_32_ok. cbn [obind]. rewrite P. reflexivity. Qed.

Lemma generated : forall name fn desc ds i, 0 <= i < Z.of_nat (length ds) -> Z.of_nat (length ds) < leaf_limit pr ->
  exists t, generate name fn desc ds i = Val t /\
    (pt_name t = name /\ pt_function_name t = fn /\ pt_description t = desc) /\
    (pt_proof_index t = i /\ pt_num_leaves t = Z.of_nat (length ds) /\ pt_expected_verification t = true) /\
    ev_into_bytes b64d (pt_root t) = Ok (b32 (mth H (map b32 ds))) /\
    (forall d, nth_error (map b32 ds) (Z.to_nat i) = Some d ->
       map (ev_into_bytes b64d) (pt_proof_set t) =
       map (fun h => Ok (b32 h)) (hash_leaf H d :: audit_path H (Z.to_nat i) (map b32 ds))) /\
    execute t = Val (Ok tt) /\
    (forall n, n <= i -> execute (with_expected_verification false (with_num_leaves n t)) = Val (Ok tt)) /\
    (forall j, Z.of_nat (length ds) <= j -> execute (with_expected_verification false (with_proof_index j t)) = Val (Ok tt)) /\
    (forall e r, ev_into_bytes b64d e = Ok (b32 r) ->
       execute (with_expected_verification false (with_root e t)) = Val (Ok tt) <-> r <> mth H (map b32 ds)).
Proof.
  intros name fn desc ds i Hi Hl. destruct (C15_lemma H pr (map b32 ds) Hempty ltac:(rewrite map_length; exact Hl)) as (t & Ep & _ & Pr & _).
  destruct (nth_error (map b32 ds) (Z.to_nat i)) as [d|] eqn:Nd; [|apply nth_error_None in Nd; rewrite map_length in Nd; lia].
  destruct (Pr (Z.to_nat i) d Nd) as (t' & Eq). rewrite Z2Nat.id in Eq by lia.
  assert (V : verify H pv (mth H (map b32 ds)) (hash_leaf H d :: audit_path H (Z.to_nat i) (map b32 ds)) i (Z.of_nat (length ds)) = Val true).
  { pose proof (verify_complete H pv (map b32 ds) (Z.to_nat i) d) as V. rewrite map_length, Z2Nat.id in V by lia.
    apply V; [|exact Nd]. exact (limit_max _ _ Hl). }
  unfold generate_test, bind. rewrite suite_push, Ep, Eq.
  eexists. split; [reflexivity|].
  cbn [pt_root pt_num_leaves pt_proof_index pt_name pt_function_name pt_description pt_expected_verification pt_proof_set].
  split; [auto|]. split; [auto|]. split; [apply from_raw_hex|].
  split. { intros d' Nd'. injection Nd' as <-. rewrite map_map. apply map_ext. intros h. apply from_raw_hex. }
  split; [|split; [|split]].
  - erewrite execute_eq; [|apply from_raw_hex|apply decode_set]. cbn [pt_proof_index pt_num_leaves pt_expected_verification]. rewrite V. reflexivity.
  - intros n Hn. erewrite execute_eq; [|apply from_raw_hex|apply decode_set]. cbn [with_num_leaves with_expected_verification pt_proof_index pt_num_leaves pt_expected_verification].
    rewrite verify_false_range by lia. reflexivity.
  - intros j Hj. erewrite execute_eq; [|apply from_raw_hex|apply decode_set]. cbn [with_proof_index with_expected_verification pt_proof_index pt_num_leaves pt_expected_verification].
    rewrite verify_false_range by lia. reflexivity.
  - intros e r Er. erewrite execute_eq; [|exact Er|apply decode_set]. cbn [with_root with_expected_verification pt_proof_index pt_num_leaves pt_expected_verification].
    rewrite (verify_root _ _ _ r _ _ _ V). cbn [obind]. destruct (b32_eqb (mth H (map b32 ds)) r) eqn:Q; cbn [Bool.eqb].
    + apply b32_eqb_true in Q. split; [discriminate|congruence].
    + split; [|reflexivity]. intros _ C. subst r. rewrite b32_eqb_refl in Q. discriminate.
Qed.

Lemma generate_out_of_range : forall name fn desc ds i, Z.of_nat (length ds) < leaf_limit pr ->
  Z.of_nat (length ds) <= i < 2 ^ 64 - 1 -> generate name fn desc ds i = Panic.
Proof.
  intros name fn desc ds i Hl Hi. destruct (C15_lemma H pr (map b32 ds) Hempty ltac:(rewrite map_length; exact Hl)) as (t & Ep & _ & _ & Pn).
  unfold generate_test, bind. rewrite suite_push, Ep, Pn by (rewrite map_length; exact Hi). reflexivity.
Qed.

Lemma invalid_not_root : forall ds, ds <> [] -> H (text "invalid") <> mth H ds \/ has_collision H (text "invalid" :: mth_inputs H ds).
Proof.
  intros ds Ne. destruct (b32_eq_dec (H (text "invalid")) (mth H ds)) as [E|N]; [right|left; exact N].
  destruct (mth_root_input H ds) as (x & Ex & Ix & Cx).
  exists (text "invalid"), x. split; [left; reflexivity|]. split; [right; exact Ix|]. split; [|congruence].
  intros <-. destruct Cx as [[-> _]|[(d & _ & C)|(_ & C)]]; [contradiction Ne; reflexivity|discriminate C|discriminate C].
Qed.
End Generated.

Section Suite.
Variable H : list byte -> bytes32.
Variable pr pv : profile.
Variable b64e : list byte -> list byte.
Variable b64d : list byte -> option (list byte).
Variable lossy : list byte -> list byte.
Hypothesis Hempty : H [] = empty_sum.
Notation execute := (proof_test_execute H pv b64d).
Notation passes := (passes H pv b64d).

Lemma limit_big : 2 ^ 20 < leaf_limit pr.
Proof. unfold leaf_limit. destruct (overflow_checks pr); reflexivity. Qed.

Lemma suite_valid : forall name fn desc ds i, 0 <= i < Z.of_nat (length ds) -> Z.of_nat (length ds) <= 1024 ->
  passes name fn desc i (Z.of_nat (length ds)) true (generate_test H pr b64e lossy name fn desc ds i).
Proof.
  intros name fn desc ds i Hi Hl. pose proof limit_big.
  destruct (generated H pr pv b64e b64d lossy Hempty name fn desc ds i Hi ltac:(lia)) as (t & E & A & B & _ & _ & X & _). exists t. auto.
Qed.
Lemma suite_leaves : forall name fn desc ds i, 0 <= i < Z.of_nat (length ds) -> Z.of_nat (length ds) <= 1024 -> i = 0 ->
  passes name fn desc i 0 false
    (test <-! generate_test H pr b64e lossy name fn desc ds i ;; Val (with_expected_verification false (with_num_leaves 0 test))).
Proof.
  intros name fn desc ds i Hi Hl ->. pose proof limit_big.
  destruct (generated H pr pv b64e b64d lossy Hempty name fn desc ds 0 Hi ltac:(lia)) as (t & E & A & B & _ & _ & _ & X & _).
  eexists. rewrite E. cbn [obind]. split; [reflexivity|]. split; [exact A|]. split; [split; [apply B|auto]|]. apply X. lia.
Qed.
Lemma suite_index : forall name fn desc ds i j, 0 <= i < Z.of_nat (length ds) -> Z.of_nat (length ds) <= 1024 -> Z.of_nat (length ds) <= j ->
  passes name fn desc j (Z.of_nat (length ds)) false
    (test <-! generate_test H pr b64e lossy name fn desc ds i ;; Val (with_expected_verification false (with_proof_index j test))).
Proof.
  intros name fn desc ds i j Hi Hl Hj. pose proof limit_big.
  destruct (generated H pr pv b64e b64d lossy Hempty name fn desc ds i Hi ltac:(lia)) as (t & E & A & B & _ & _ & _ & _ & X & _).
  eexists. rewrite E. cbn [obind]. split; [reflexivity|]. split; [exact A|]. split; [split; [reflexivity|split; [apply B|reflexivity]]|]. apply X. lia.
Qed.
Lemma suite_root : forall name fn desc ds i, 0 <= i < Z.of_nat (length ds) -> Z.of_nat (length ds) <= 1024 ->
  passes name fn desc i (Z.of_nat (length ds)) false
    (test <-! generate_test H pr b64e lossy name fn desc ds i ;; Val (with_expected_verification false (with_root (invalid_root H) test))) \/
  has_collision H (text "invalid" :: mth_inputs H (map b32 ds)).
Proof.
  intros name fn desc ds i Hi Hl. pose proof limit_big.
  destruct (invalid_not_root H (map b32 ds)) as [N|C]; [destruct ds; [cbn in Hi; lia|discriminate]| |right; exact C]. left.
  destruct (generated H pr pv b64e b64d lossy Hempty name fn desc ds i Hi ltac:(lia)) as (t & E & A & B & _ & _ & _ & _ & _ & X).
  eexists. rewrite E. cbn [obind]. split; [reflexivity|]. split; [exact A|].
  split; [split; [apply B|split; [apply B|reflexivity]]|]. apply (X _ (H (text "invalid"))); [|exact N].
  unfold invalid_root, ev_new, ev_into_bytes. cbn [ev_encoding ev_value]. rewrite hex_round. reflexivity.
Qed.

Lemma C82_lemma : forall desc ds,
  (Z.of_nat (length ds) = 10 ->
     passes (text "Test 10 Leaves Index 4") (text "generate_test_10_leaves_index_4") desc 4 10 true
       (generate_test_10_leaves_index_4 H pr b64e lossy desc ds)) /\
  (Z.of_nat (length ds) = 1 ->
     passes (text "Test 1 Leaf Index 0") (text "generate_test_1_leaf_index_0") desc 0 1 true
       (generate_test_1_leaf_index_0 H pr b64e lossy desc ds)) /\
  (Z.of_nat (length ds) = 100 ->
     passes (text "Test 100 Leaves Index 10") (text "generate_test_100_leaves_index_10") desc 10 100 true
       (generate_test_100_leaves_index_10 H pr b64e lossy desc ds)) /\
  (Z.of_nat (length ds) = 1024 ->
     passes (text "Test 1024 Leaves Index 512") (text "generate_test_1024_leaves_index_512") desc 512 1024 true
       (generate_test_1024_leaves_index_512 H pr b64e lossy desc ds)) /\
  (Z.of_nat (length ds) = 1 ->
     passes (text "Test 0 Leaves") (text "generate_test_0_leaves") desc 0 0 false
       (generate_test_0_leaves H pr b64e lossy desc ds)) /\
  (Z.of_nat (length ds) = 1 ->
     passes (text "Test 1 Leaf Invalid Proof Index") (text "generate_test_1_leaf_invalid_proof_index") desc 1 1 false
       (generate_test_1_leaf_invalid_proof_index H pr b64e lossy desc ds)) /\
  (Z.of_nat (length ds) = 1 ->
     passes (text "Test 1 Leaf Invalid Root") (text "generate_test_1_leaf_invalid_root") desc 0 1 false
       (generate_test_1_leaf_invalid_root H pr b64e lossy desc ds) \/
     has_collision H (text "invalid" :: mth_inputs H (map b32 ds))) /\
  (Z.of_nat (length ds) = 1024 ->
     passes (text "Test 1024 Leaves Invalid Root") (text "generate_test_1024_leaves_invalid_root") desc 512 1024 false
       (generate_test_1024_leaves_invalid_root H pr b64e lossy desc ds) \/
     has_collision H (text "invalid" :: mth_inputs H (map b32 ds))).
Proof.
  intros desc ds.
  split; [intros L; rewrite <- L; apply suite_valid; lia|]. split; [intros L; rewrite <- L; apply suite_valid; lia|].
  split; [intros L; rewrite <- L; apply suite_valid; lia|]. split; [intros L; rewrite <- L; apply suite_valid; lia|].
  split; [intros L; apply suite_leaves; lia|].
  split; [intros L; rewrite <- L at 2; apply suite_index; lia|].
  split; intros L; rewrite <- L; apply suite_root; lia.
Qed.
End Suite.

(** * Sparse tests *)
Section Sparse.
Variable H : list byte -> bytes32.
Variable pr : profile.
Variable b64d : list byte -> option (list byte).
Notation bytes_of := (ev_into_bytes b64d).
Notation steps_execute := (steps_execute H pr b64d).

Lemma step_asks : forall s o t t', asks b64d s o -> sim_run H pr [o] t = (t', Val tt) -> step_execute H pr b64d s t = (t', Val (Ok tt)).
Proof.
  intros s o t t' A E. destruct A as [ek ed k d Ek Ed|ek od k Ek].
  - unfold step_execute, step_action_type. cbn [sp_action sp_key sp_data]. change (bytes_eqb (text "update") (text "update")) with true. cbv iota.
    unfold bind_try, bind, lift, ret. rewrite Ek, into_32_ok, Ed. cbn [sim_run] in E. unfold bind, ret in E.
    destruct (sim_update H pr k d t) as [t2 [[]| |]]; injection E as <-; try discriminate; reflexivity.
  - unfold step_execute, step_action_type. cbn [sp_action sp_key sp_data]. change (bytes_eqb (text "delete") (text "update")) with false.
    change (bytes_eqb (text "delete") (text "delete")) with true. cbv iota.
    unfold bind_try, bind, lift, ret. rewrite Ek, into_32_ok. cbn [sim_run] in E. unfold bind, ret in E.
    destruct (sim_delete H pr k t) as [t2 [[]| |]]; injection E as <-; try discriminate; reflexivity.
Qed.

Lemma sim_run_cons : forall o os t t', sim_run H pr (o :: os) t = (t', Val tt) ->
  exists t1, sim_run H pr [o] t = (t1, Val tt) /\ sim_run H pr os t1 = (t', Val tt).
Proof.
  intros o os t t' E. destruct o as [k d|k]; cbn [sim_run] in *; unfold bind, ret in *.
  - destruct (sim_update H pr k d t) as [t1 [[]| |]]; try discriminate. exists t1. auto.
  - destruct (sim_delete H pr k t) as [t1 [[]| |]]; try discriminate. exists t1. auto.
Qed.

Lemma steps_ask : forall ss os, Forall2 (asks b64d) ss os -> forall rest t t', sim_run H pr os t = (t', Val tt) ->
  steps_execute (ss ++ rest) t = steps_execute rest t'.
Proof.
  intros ss os F. induction F as [|s o ss os A F IH]; intros rest t t' E.
  - cbn [sim_run] in E. injection E as <-. reflexivity.
  - apply sim_run_cons in E as (t1 & E1 & E2). cbn [app ModelData.steps_execute].
    unfold bind_try, bind. rewrite (step_asks s o t t1 A E1). apply IH, E2.
Qed.

Lemma step_breaks : forall s r t, breaks b64d s r -> exists t', step_execute H pr b64d s t = (t', r).
Proof.
  intros s r t B. exists t. unfold step_execute, step_action_type.
  destruct B as [a k d N1 N2|a d A|ek|ek ed e Ek|ek od e Ek|ek ed (b & Ek & Lb)|ek od (b & Ek & Lb)|ek ed k e Ek Ed]; cbn [sp_action sp_key sp_data].
  - destruct (bytes_eqb a (text "update")) eqn:Q; [apply bytes_eqb_eq in Q; contradiction|].
    destruct (bytes_eqb a (text "delete")) eqn:Q'; [apply bytes_eqb_eq in Q'; contradiction|]. reflexivity.
  - destruct A as [-> | ->]; reflexivity.
  - reflexivity.
  - change (bytes_eqb (text "update") (text "update")) with true. cbv iota. unfold bind_try, bind, lift, ret. rewrite Ek.
    unfold ev_into_bytes in Ek. destruct (ev_encoding ek); [destruct (b64d _)|destruct (hex_decode _)|]; congruence.
  - change (bytes_eqb (text "delete") (text "update")) with false. change (bytes_eqb (text "delete") (text "delete")) with true.
    cbv iota. unfold bind_try, bind, lift, ret. rewrite Ek.
    unfold ev_into_bytes in Ek. destruct (ev_encoding ek); [destruct (b64d _)|destruct (hex_decode _)|]; congruence.
  - change (bytes_eqb (text "update") (text "update")) with true. cbv iota. unfold bind_try, bind, lift, ret. rewrite Ek.
    unfold into_32. rewrite (proj2 (Nat.eqb_neq _ _) Lb). reflexivity.
  - change (bytes_eqb (text "delete") (text "update")) with false. change (bytes_eqb (text "delete") (text "delete")) with true.
    cbv iota. unfold bind_try, bind, lift, ret. rewrite Ek. unfold into_32. rewrite (proj2 (Nat.eqb_neq _ _) Lb). reflexivity.
  - change (bytes_eqb (text "update") (text "update")) with true. cbv iota. unfold bind_try, bind, lift, ret. rewrite Ek, into_32_ok, Ed.
    unfold ev_into_bytes in Ed. destruct (ev_encoding ed); [destruct (b64d _)|destruct (hex_decode _)|]; congruence.
Qed.

Lemma key_cases : forall ek, (exists k, bytes_of ek = Ok (b32 k)) \/ (exists e, bytes_of ek = Err e) \/ wrong_key b64d ek.
Proof.
  intros ek. destruct (bytes_of ek) as [b|e] eqn:E; [|right; left; exists e; reflexivity].
  destruct (Nat.eq_dec (length b) 32) as [L|L].
  - left. exists (mk32 b). rewrite mk32_list by exact L. reflexivity.
  - right. right. exists b. auto.
Qed.
Lemma step_cases : forall s, (exists o, asks b64d s o) \/ (exists r, breaks b64d s r /\ r <> Val (Ok tt)).
Proof.
  intros [a k d]. destruct (bytes_eqb a (text "update")) eqn:Q.
  - apply bytes_eqb_eq in Q. subst a. destruct k as [ek|]; [|right; exists Panic; split; [apply Breaks_no_key; auto|discriminate]].
    destruct d as [ed|]; [|right; exists Panic; split; [apply Breaks_no_data|discriminate]].
    destruct (key_cases ek) as [(k & Ek)|[(e & Ek)|W]].
    + destruct (bytes_of ed) as [d|e] eqn:Ed.
      * left. exists (Update k d). constructor; assumption.
      * right. eexists. split; [eapply Breaks_data; eassumption|discriminate].
    + right. eexists. split; [eapply Breaks_key_update; eassumption|discriminate].
    + right. eexists. split; [eapply Breaks_length_update; eassumption|discriminate].
  - destruct (bytes_eqb a (text "delete")) eqn:Q'.
    + apply bytes_eqb_eq in Q'. subst a. destruct k as [ek|]; [|right; exists Panic; split; [apply Breaks_no_key; auto|discriminate]].
      destruct (key_cases ek) as [(k & Ek)|[(e & Ek)|W]].
      * left. exists (Delete k). constructor; assumption.
      * right. eexists. split; [eapply Breaks_key_delete; eassumption|discriminate].
      * right. eexists. split; [eapply Breaks_length_delete; eassumption|discriminate].
    + right. eexists. split; [apply Breaks_action; intros ->; vm_compute in Q, Q'; discriminate|discriminate].
Qed.

Lemma C83_ok_lemma : forall t os, Forall2 (asks b64d) (ts_steps t) os -> clean [] [] os -> hash_ok H (map op_key os) (maps [] os) ->
  (forall b, bytes_of (ts_expected_root t) = Ok b -> length b = 32%nat ->
     sparse_test_execute H pr b64d t = Val (if bytes_eqb b (b32 (kv_root H (final os))) then Ok tt else Err (TFailed (ts_name t)))) /\
  (forall b, bytes_of (ts_expected_root t) = Ok b -> length b <> 32%nat -> sparse_test_execute H pr b64d t = Panic) /\
  (forall e, bytes_of (ts_expected_root t) = Err e -> sparse_test_execute H pr b64d t = Val (Err e)).
Proof.
  intros t os F C Hk. destruct (C47_lemma H pr os C Hk) as (tr & E & R).
  assert (X : steps_execute (ts_steps t) sim_new = (tr, Val (Ok tt))).
  { rewrite <- (app_nil_r (ts_steps t)). rewrite (steps_ask _ _ F [] _ _ E). reflexivity. }
  unfold sparse_test_execute. rewrite X, R. split; [|split].
  - intros b Eb Lb. rewrite Eb. rewrite <- (mk32_list b Lb), into_32_ok. cbn [obind]. rewrite mk32_list by exact Lb.
    destruct (b32_eqb (kv_root H (final os)) (mk32 b)) eqn:Q.
    + apply b32_eqb_eq in Q. rewrite Q, mk32_list by exact Lb. replace (bytes_eqb b b) with true by (symmetry; apply bytes_eqb_eq; reflexivity). reflexivity.
    + destruct (bytes_eqb b (b32 (kv_root H (final os)))) eqn:Q'; [|reflexivity]. apply bytes_eqb_eq in Q'.
      exfalso. apply b32_eqb_neq in Q. apply Q. apply bytes32_ext. rewrite mk32_list by exact Lb. symmetry. exact Q'.
  - intros b Eb Lb. rewrite Eb. unfold into_32. rewrite (proj2 (Nat.eqb_neq _ _) Lb). reflexivity.
  - intros e Ee. rewrite Ee. reflexivity.
Qed.

Lemma C83_bad_lemma : forall t good os s rest r, ts_steps t = good ++ s :: rest -> Forall2 (asks b64d) good os -> clean [] [] os ->
  hash_ok H (map op_key os) (maps [] os) -> breaks b64d s r -> sparse_test_execute H pr b64d t = r.
Proof.
  intros t good os s rest r Et F C Hk B. destruct (C47_lemma H pr os C Hk) as (tr & E & _).
  unfold sparse_test_execute. rewrite Et, (steps_ask _ _ F (s :: rest) _ _ E). cbn [ModelData.steps_execute].
  destruct (step_breaks s r tr B) as (t' & Es). unfold bind_try, bind. rewrite Es. destruct B; reflexivity.
Qed.
End Sparse.
