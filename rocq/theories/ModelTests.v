(** ModelTests.v -- model of /repo/tests/binary.rs, the randomised tests that compare the tree with
    the reference tree.  The random choices are arguments: for each entry of [SAMPLE_SIZES] (:24-26)
    the sample of the test data, and the index.  A failed assertion or [unwrap] is a panic. *)
From Verif Require Import Base Storage ModelCommon ModelBinary ModelVerify.

Section Tests.
Variable H : list byte -> bytes32.
Variable pr : profile.

(** [for datum in sample_data.iter() { reference_tree.push(datum); }] (:50-52, :86-88) *)
Fixpoint push_reference (sample : list bytes32) (t : RTree) : out RTree :=
  match sample with
  | [] => Val t
  | d :: sample' => t' <-! rt_push H pr (b32 d) t ;; push_reference sample' t'
  end.

(** [for datum in sample_data.iter() { test_tree.push(datum).unwrap(); }] (:59-61, :95-97, :124-126) *)
Fixpoint push_tested (sample : list bytes32) (t : BTree Scratch) : out (BTree Scratch) :=
  match sample with
  | [] => Val t
  | d :: sample' =>
      match bt_push H pr BStorageMap (b32 d) t with
      | (t', Val (Ok _)) => push_tested sample' t'
      | (_, Val (Err _)) => Panic
      | (_, Panic) => Panic
      | (_, Fuel) => Fuel
      end
  end.

(** One iteration of the loop of test_roots (:42-66) *)
Definition test_roots_step (sample : list bytes32) : out unit :=
  reference_tree <-! push_reference sample rt_new ;;
  expected_root <-! rt_root H pr reference_tree ;;
  test_tree <-! push_tested sample (bt_new smap_new) ;;
  root <-! bt_root H pr test_tree ;;
  assert (b32_eqb root expected_root).

(** Equality of proofs, pairs of a root and a vector of hashes (derived from std) *)
Fixpoint hashes_eqb (l r : list bytes32) : bool :=
  match l, r with
  | [], [] => true
  | x :: l', y :: r' => b32_eqb x y && hashes_eqb l' r'
  | _, _ => false
  end.
Definition proof_eqb (p q : bytes32 * list bytes32) : bool :=
  b32_eqb (fst p) (fst q) && hashes_eqb (snd p) (snd q).

(** One iteration of the loop of test_prove (:77-102) *)
Definition test_prove_step (sample : list bytes32) (index : Z) : out unit :=
  reference_tree <-! rt_set_proof_index index rt_new ;;
  reference_tree <-! push_reference sample reference_tree ;;
  expected_proof <-! rt_prove H pr reference_tree ;;
  test_tree <-! push_tested sample (bt_new smap_new) ;;
  match bt_prove H pr BStorageMap index test_tree with
  | (_, Val (Ok proof)) => assert (proof_eqb proof expected_proof)
  | (_, Val (Err _)) => Panic
  | (_, Panic) => Panic
  | (_, Fuel) => Fuel
  end.

(** One iteration of the loop of test_load (:113-137); [sample_data.len() as u64] *)
Definition test_load_step (sample : list bytes32) : out unit :=
  reference_tree <-! push_tested sample (bt_new smap_new) ;;
  expected_root <-! bt_root H pr reference_tree ;;
  match bt_load pr BStorageMap (Z.of_nat (length sample)) (bt_storage reference_tree) with
  | (_, Val (Ok test_tree)) =>
      root <-! bt_root H pr test_tree ;;
      assert (b32_eqb root expected_root)
  | (_, Val (Err _)) => Panic
  | (_, Panic) => Panic
  | (_, Fuel) => Fuel
  end.

(** The loops [for samples in SAMPLE_SIZES] *)
Fixpoint test_roots (samples : list (list bytes32)) : out unit :=
  match samples with
  | [] => Val tt
  | s :: samples' => _ <-! test_roots_step s ;; test_roots samples'
  end.
Fixpoint test_prove (samples : list (list bytes32 * Z)) : out unit :=
  match samples with
  | [] => Val tt
  | (s, i) :: samples' => _ <-! test_prove_step s i ;; test_prove samples'
  end.
Fixpoint test_load (samples : list (list bytes32)) : out unit :=
  match samples with
  | [] => Val tt
  | s :: samples' => _ <-! test_load_step s ;; test_load samples'
  end.
End Tests.
