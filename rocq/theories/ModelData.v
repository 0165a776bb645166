(** ModelData.v -- model of the data-driven test harness /repo/test-helpers/src/data.rs,
    /repo/test-helpers/src/data/ and of the generator of proof tests
    /repo/test-helpers/src/suites/binary_proofs.rs.  Reading and writing YAML files is not
    modelled: tests are values. *)
From Verif Require Import Base Storage ModelText ModelCommon ModelBinary ModelVerify ModelSparse.
From Coq Require Import String.


(** data/encoded_value.rs:5-12 *)
Inductive Encoding := EBase64 | EHex | EUtf8.
(** data/encoded_value.rs:14-18 *)
Record EncodedValue : Type := { ev_value : list byte; ev_encoding : Encoding }.

(** data/test_error.rs:4-11 *)
Inductive TestError :=
| TFailed (name : list byte)
| TUnsupportedAction (action : list byte)
| TDecodingError.

(** [try_into().unwrap()] into a 32-byte array *)
Definition into_32 (l : list byte) : out bytes32 :=
  if (List.length l =? 32)%nat then Val (mk32 l) else Panic.

(** data/binary.rs:12-21 *)
Record ProofTest : Type := {
  pt_name : list byte;
  pt_function_name : list byte;
  pt_description : list byte;
  pt_root : EncodedValue;
  pt_proof_set : list EncodedValue;
  pt_proof_index : Z;
  pt_num_leaves : Z;
  pt_expected_verification : bool
}.

(** data/sparse.rs:20-24 *)
Record Step : Type := { sp_action : list byte; sp_key : option EncodedValue; sp_data : option EncodedValue }.
(** data/sparse.rs:26-29 *)
Inductive Action := AUpdate (key data : EncodedValue) | ADelete (key : EncodedValue).
(** data/sparse.rs:89-93 *)
Record SparseTest : Type := { ts_name : list byte; ts_expected_root : EncodedValue; ts_steps : list Step }.

Section Data.
(** SHA-256 *)
Variable H : list byte -> bytes32.
Variable pr : profile.
(** The crate `base64` 0.13 and [String::from_utf8_lossy] are external: parameters. *)
Variable base64_encode : list byte -> list byte.
Variable base64_decode : list byte -> option (list byte).
Variable utf8_lossy : list byte -> list byte.

(** data/encoded_value.rs:21-23 *)
Definition ev_new (value : list byte) (encoding : Encoding) : EncodedValue :=
  {| ev_value := value; ev_encoding := encoding |}.

(** data/encoded_value.rs:25-35 *)
Definition ev_from_raw (value : list byte) (encoding : Encoding) : EncodedValue :=
  let encoded_value := match encoding with
    | EBase64 => base64_encode value
    | EHex => hex_encode value
    | EUtf8 => utf8_lossy value
    end in
  {| ev_value := encoded_value; ev_encoding := encoding |}.

(** data/encoded_value.rs:37-43 *)
Definition ev_into_bytes (v : EncodedValue) : result TestError (list byte) :=
  match ev_encoding v with
  | EBase64 => match base64_decode (ev_value v) with Some l => Ok l | None => Err TDecodingError end
  | EHex => match hex_decode (ev_value v) with Some l => Ok l | None => Err TDecodingError end
  | EUtf8 => Ok (ev_value v)
  end.

(** data/binary.rs:26-31; each entry with two [unwrap]s *)
Fixpoint decode_proof_set (l : list EncodedValue) : out (list bytes32) :=
  match l with
  | [] => Val []
  | v :: l' =>
      match ev_into_bytes v with
      | Err _ => Panic
      | Ok b => x <-! into_32 b ;; xs <-! decode_proof_set l' ;; Val (x :: xs)
      end
  end.

(** data/binary.rs:24-40; verify.rs: see ModelVerify.v *)
Definition proof_test_execute (t : ProofTest) : out (result TestError unit) :=
  match ev_into_bytes (pt_root t) with
  | Err e => Val (Err e)
  | Ok b =>
      root <-! into_32 b ;;
      proof_set <-! decode_proof_set (pt_proof_set t) ;;
      verification <-! verify H pr root proof_set (pt_proof_index t) (pt_num_leaves t) ;;
      if Bool.eqb verification (pt_expected_verification t) then Val (Ok tt)
      else Val (Err (TFailed (pt_name t)))
  end.

(** data/sparse.rs:10-11, 53-67 *)
Definition step_action_type (s : Step) : out (result TestError Action) :=
  if bytes_eqb (sp_action s) (text "update") then
    match sp_key s with
    | None => Panic
    | Some k => match sp_data s with None => Panic | Some d => Val (Ok (AUpdate k d)) end
    end
  else if bytes_eqb (sp_action s) (text "delete") then
    match sp_key s with None => Panic | Some k => Val (Ok (ADelete k)) end
  else Val (Err (TUnsupportedAction (sp_action s))).

(** data/sparse.rs:32-49, on the adaptor of the in-memory tree (70-86) *)
Definition step_execute (s : Step) : M (SpTree SScratch) (result TestError unit) :=
  action <-? lift (step_action_type s) ;;
  match action with
  | AUpdate encoded_key encoded_data =>
      key_bytes <-? ret (ev_into_bytes encoded_key) ;;
      key <- lift (into_32 key_bytes) ;;
      data <-? ret (ev_into_bytes encoded_data) ;;
      _ <- sim_update H pr key data ;;
      ret (Ok tt)
  | ADelete encoded_key =>
      key_bytes <-? ret (ev_into_bytes encoded_key) ;;
      key <- lift (into_32 key_bytes) ;;
      _ <- sim_delete H pr key ;;
      ret (Ok tt)
  end.

(** data/sparse.rs:100-102 *)
Fixpoint steps_execute (ss : list Step) : M (SpTree SScratch) (result TestError unit) :=
  match ss with
  | [] => ret (Ok tt)
  | s :: ss' => _ <-? step_execute s ;; steps_execute ss'
  end.

(** data/sparse.rs:96-112 *)
Definition sparse_test_execute (t : SparseTest) : out (result TestError unit) :=
  match steps_execute (ts_steps t) sim_new with
  | (_, Panic) => Panic
  | (_, Fuel) => Fuel
  | (_, Val (Err e)) => Val (Err e)
  | (tree, Val (Ok tt)) =>
      let root := sim_root H tree in
      match ev_into_bytes (ts_expected_root t) with
      | Err e => Val (Err e)
      | Ok b =>
          expected_root <-! into_32 b ;;
          if b32_eqb root expected_root then Val (Ok tt) else Val (Err (TFailed (ts_name t)))
      end
  end.

(** suites/binary_proofs.rs:29-31 *)
Fixpoint suite_push_all (l : list bytes32) : M (BTree Scratch) unit :=
  match l with
  | [] => ret tt
  | d :: l' => _ <- bim_push H pr (b32 d) ;; suite_push_all l'
  end.

(** suites/binary_proofs.rs:20-56 *)
Definition generate_test (name function_name description : list byte) (sample_data : list bytes32)
    (proof_index : Z) : out ProofTest :=
  match (_ <- suite_push_all sample_data ;; bim_prove H pr proof_index) bim_new with
  | (_, Panic) => Panic
  | (_, Fuel) => Fuel
  | (_, Val None) => Panic                            (* unwrap on None *)
  | (_, Val (Some (root, proof_set))) =>
      Val {| pt_name := name; pt_function_name := function_name; pt_description := description;
             pt_root := ev_from_raw (b32 root) EHex;
             pt_proof_set := map (fun v => ev_from_raw (b32 v) EHex) proof_set;
             pt_proof_index := proof_index;
             pt_num_leaves := Z.of_nat (List.length sample_data);
             pt_expected_verification := true |}
  end.

Definition with_num_leaves (n : Z) (t : ProofTest) : ProofTest :=
  {| pt_name := pt_name t; pt_function_name := pt_function_name t; pt_description := pt_description t;
     pt_root := pt_root t; pt_proof_set := pt_proof_set t; pt_proof_index := pt_proof_index t;
     pt_num_leaves := n; pt_expected_verification := pt_expected_verification t |}.
Definition with_proof_index (i : Z) (t : ProofTest) : ProofTest :=
  {| pt_name := pt_name t; pt_function_name := pt_function_name t; pt_description := pt_description t;
     pt_root := pt_root t; pt_proof_set := pt_proof_set t; pt_proof_index := i;
     pt_num_leaves := pt_num_leaves t; pt_expected_verification := pt_expected_verification t |}.
Definition with_root (r : EncodedValue) (t : ProofTest) : ProofTest :=
  {| pt_name := pt_name t; pt_function_name := pt_function_name t; pt_description := pt_description t;
     pt_root := r; pt_proof_set := pt_proof_set t; pt_proof_index := pt_proof_index t;
     pt_num_leaves := pt_num_leaves t; pt_expected_verification := pt_expected_verification t |}.
Definition with_expected_verification (b : bool) (t : ProofTest) : ProofTest :=
  {| pt_name := pt_name t; pt_function_name := pt_function_name t; pt_description := pt_description t;
     pt_root := pt_root t; pt_proof_set := pt_proof_set t; pt_proof_index := pt_proof_index t;
     pt_num_leaves := pt_num_leaves t; pt_expected_verification := b |}.

(** suites/binary_proofs.rs:14-18, 182, 202: the root of the tests with an invalid root *)
Definition invalid_root : EncodedValue := ev_new (hex_encode (b32 (H (text "invalid")))) EHex.

(** suites/binary_proofs.rs:68-205.  The random samples (chosen from a list by a random number generator,
    e.g. :76-77) and the description texts are arguments. *)
Definition generate_test_10_leaves_index_4 (description : list byte) (sample : list bytes32) : out ProofTest :=
  generate_test (text "Test 10 Leaves Index 4") (text "generate_test_10_leaves_index_4") description sample 4.
Definition generate_test_1_leaf_index_0 (description : list byte) (sample : list bytes32) : out ProofTest :=
  generate_test (text "Test 1 Leaf Index 0") (text "generate_test_1_leaf_index_0") description sample 0.
Definition generate_test_100_leaves_index_10 (description : list byte) (sample : list bytes32) : out ProofTest :=
  generate_test (text "Test 100 Leaves Index 10") (text "generate_test_100_leaves_index_10") description sample 10.
Definition generate_test_1024_leaves_index_512 (description : list byte) (sample : list bytes32) : out ProofTest :=
  generate_test (text "Test 1024 Leaves Index 512") (text "generate_test_1024_leaves_index_512") description sample 512.
Definition generate_test_0_leaves (description : list byte) (sample : list bytes32) : out ProofTest :=
  test <-! generate_test (text "Test 0 Leaves") (text "generate_test_0_leaves") description sample 0 ;;
  Val (with_expected_verification false (with_num_leaves 0 test)).
Definition generate_test_1_leaf_invalid_proof_index (description : list byte) (sample : list bytes32) : out ProofTest :=
  test <-! generate_test (text "Test 1 Leaf Invalid Proof Index") (text "generate_test_1_leaf_invalid_proof_index")
             description sample 0 ;;
  Val (with_expected_verification false (with_proof_index 1 test)).
Definition generate_test_1_leaf_invalid_root (description : list byte) (sample : list bytes32) : out ProofTest :=
  test <-! generate_test (text "Test 1 Leaf Invalid Root") (text "generate_test_1_leaf_invalid_root")
             description sample 0 ;;
  Val (with_expected_verification false (with_root invalid_root test)).
Definition generate_test_1024_leaves_invalid_root (description : list byte) (sample : list bytes32) : out ProofTest :=
  test <-! generate_test (text "Test 1024 Leaves Invalid Root") (text "generate_test_1024_leaves_invalid_root")
             description sample 512 ;;
  Val (with_expected_verification false (with_root invalid_root test)).
End Data.
