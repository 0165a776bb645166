(** WitnessTests.v -- a concrete draw of the randomised tests. *)
From Verif Require Import Base Sha256 Storage ModelCommon ModelBinary ModelVerify ModelTests SpecBinary Runs BinaryLimits WitnessBinary.

(** The first test data are the hashes of 0, 1, ... as eight bytes. *)
Definition datum (b : byte) : bytes32 := sha256 [x00; x00; x00; x00; x00; x00; x00; b].
Definition draw : list (list bytes32 * Z) := [([datum x05], 0); ([datum x01; datum x07; datum x03], 2)].

Lemma C95_witness : sha256 [] = empty_sum /\
  Forall (fun x => Z.of_nat (length (fst x)) < leaf_limit Debug /\ 0 <= snd x < Z.of_nat (length (fst x))) draw /\
  Forall (fun s => Z.of_nat (length s) < leaf_limit Debug) (map fst draw) /\
  test_prove_step sha256 Debug [datum x05] 1 = Panic.
Proof.
  split; [exact sha256_empty|]. split; [|split].
  - constructor; [split; [reflexivity|cbn; lia]|]. constructor; [split; [reflexivity|cbn; lia]|constructor].
  - constructor; [reflexivity|]. constructor; [reflexivity|constructor].
  - vm_compute. reflexivity.
Qed.
