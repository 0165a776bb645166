(** PropertiesTests.v -- property theorems about the randomised tests of tests/binary.rs. *)
From Verif Require Import Base Sha256 Storage ModelCommon ModelBinary ModelVerify ModelTests SpecBinary Runs BinaryLimits
  TestsProofs WitnessBinary WitnessTests.

(** Whatever samples and indices are drawn, of whatever size. *)
Theorem C95_random_tests_pass : forall H pr, H [] = empty_sum ->
  (forall samples, Forall (fun s => Z.of_nat (length s) < leaf_limit pr) samples ->
     test_roots H pr samples = Val tt /\ test_load H pr samples = Val tt) /\
  (forall samples, Forall (fun x => Z.of_nat (length (fst x)) < leaf_limit pr /\ 0 <= snd x < Z.of_nat (length (fst x))) samples ->
     test_prove H pr samples = Val tt).
Proof. exact C95_lemma. Qed.
Print Assumptions C95_random_tests_pass.

Example C95_example : sha256 [] = empty_sum /\
  Forall (fun x => Z.of_nat (length (fst x)) < leaf_limit Debug /\ 0 <= snd x < Z.of_nat (length (fst x))) draw /\
  Forall (fun s => Z.of_nat (length s) < leaf_limit Debug) (map fst draw) /\
  test_prove_step sha256 Debug [datum x05] 1 = Panic.
Proof. exact C95_witness. Qed.
