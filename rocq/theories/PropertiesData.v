(** PropertiesData.v -- property theorems about texts and the test harness (C80-C84). *)
From Coq Require Import String.
From Verif Require Import Base Sha256 Storage ModelText ModelCommon ModelBinary ModelVerify ModelSparse ModelSum ModelData ModelDebug
  SpecText SpecBits SpecBinary SpecSparse SpecData Runs RunsSparse TextProofs DataProofs DebugProofs DebugText WitnessSparse WitnessData.
From Coq Require Import List.
Open Scope list_scope.

Theorem C80_hex_text : forall l t, spells lower_digit t l <-> t = hex_encode l.
Proof. exact C80_encode_lemma. Qed.
Print Assumptions C80_hex_text.

(** The functions [b64e], [b64d] and [lossy] stand for `base64` and [String::from_utf8_lossy]. *)
Theorem C80_encoded_values : forall b64e b64d lossy l,
  ev_into_bytes b64d (ev_from_raw b64e lossy l EHex) = Ok l /\
  ((forall x, b64d (b64e x) = Some x) -> ev_into_bytes b64d (ev_from_raw b64e lossy l EBase64) = Ok l) /\
  (forall t, spells any_digit t l <-> ev_into_bytes b64d (ev_new t EHex) = Ok l) /\
  (forall t, (forall l', ~ spells any_digit t l') <-> ev_into_bytes b64d (ev_new t EHex) = Err TDecodingError).
Proof. exact C80_lemma. Qed.
Print Assumptions C80_encoded_values.

Example C80_example : ev_into_bytes no64d (ev_new (text "00fFa9") EHex) = Ok [x00; xff; xa9] /\
  ev_into_bytes no64d (ev_new (text "00f") EHex) = Err TDecodingError /\
  ev_into_bytes no64d (ev_new (text "0g") EHex) = Err TDecodingError /\
  hex_encode [x00; xff; xa9] = text "00ffa9" /\ (forall x, no64d (no64 x) = Some x).
Proof. exact C80_witness. Qed.

(** The tests are generated by a build of profile [pr] and executed by one of profile [pv]. *)
Theorem C81_generated_tests : forall H pr pv b64e b64d lossy, H [] = empty_sum ->
  forall name fn desc ds i, 0 <= i < Z.of_nat (List.length ds) -> Z.of_nat (List.length ds) < leaf_limit pr ->
  exists t, generate_test H pr b64e lossy name fn desc ds i = Val t /\
    (pt_name t = name /\ pt_function_name t = fn /\ pt_description t = desc) /\
    (pt_proof_index t = i /\ pt_num_leaves t = Z.of_nat (List.length ds) /\ pt_expected_verification t = true) /\
    ev_into_bytes b64d (pt_root t) = Ok (b32 (mth H (map b32 ds))) /\
    (forall d, nth_error (map b32 ds) (Z.to_nat i) = Some d ->
       map (ev_into_bytes b64d) (pt_proof_set t) =
       map (fun h => Ok (b32 h)) (hash_leaf H d :: audit_path H (Z.to_nat i) (map b32 ds))) /\
    proof_test_execute H pv b64d t = Val (Ok tt) /\
    (forall n, n <= i -> proof_test_execute H pv b64d (with_expected_verification false (with_num_leaves n t)) = Val (Ok tt)) /\
    (forall j, Z.of_nat (List.length ds) <= j ->
       proof_test_execute H pv b64d (with_expected_verification false (with_proof_index j t)) = Val (Ok tt)) /\
    (forall e r, ev_into_bytes b64d e = Ok (b32 r) ->
       proof_test_execute H pv b64d (with_expected_verification false (with_root e t)) = Val (Ok tt) <-> r <> mth H (map b32 ds)).
Proof. exact generated. Qed.
Print Assumptions C81_generated_tests.

Theorem C81_out_of_range : forall H pr b64e lossy, H [] = empty_sum ->
  forall name fn desc ds i, Z.of_nat (List.length ds) < leaf_limit pr -> Z.of_nat (List.length ds) <= i < 2 ^ 64 - 1 ->
  generate_test H pr b64e lossy name fn desc ds i = Panic.
Proof. exact generate_out_of_range. Qed.
Print Assumptions C81_out_of_range.

Example C81_example :
  sha256 [] = empty_sum /\ Z.of_nat (List.length three) < leaf_limit Debug /\
  runs (generate_test sha256 Debug no64 no64 (text "n") (text "f") (text "d") three 2) (fun t => t) = true /\
  runs (generate_test sha256 Debug no64 no64 (text "n") (text "f") (text "d") three 2) (with_expected_verification false) = false /\
  runs (generate_test sha256 Debug no64 no64 (text "n") (text "f") (text "d") three 2)
       (fun t => with_expected_verification false (with_root (invalid_root sha256) t)) = true.
Proof. exact C81_witness. Qed.

(** The eight tests of the suite, for every sample: labels, index, number of leaves, expected
    verdict. *)
Theorem C82_suite : forall H pr pv b64e b64d lossy, H [] = empty_sum -> forall desc ds,
  (Z.of_nat (List.length ds) = 10 ->
     passes H pv b64d (text "Test 10 Leaves Index 4") (text "generate_test_10_leaves_index_4") desc 4 10 true
       (generate_test_10_leaves_index_4 H pr b64e lossy desc ds)) /\
  (Z.of_nat (List.length ds) = 1 ->
     passes H pv b64d (text "Test 1 Leaf Index 0") (text "generate_test_1_leaf_index_0") desc 0 1 true
       (generate_test_1_leaf_index_0 H pr b64e lossy desc ds)) /\
  (Z.of_nat (List.length ds) = 100 ->
     passes H pv b64d (text "Test 100 Leaves Index 10") (text "generate_test_100_leaves_index_10") desc 10 100 true
       (generate_test_100_leaves_index_10 H pr b64e lossy desc ds)) /\
  (Z.of_nat (List.length ds) = 1024 ->
     passes H pv b64d (text "Test 1024 Leaves Index 512") (text "generate_test_1024_leaves_index_512") desc 512 1024 true
       (generate_test_1024_leaves_index_512 H pr b64e lossy desc ds)) /\
  (Z.of_nat (List.length ds) = 1 ->
     passes H pv b64d (text "Test 0 Leaves") (text "generate_test_0_leaves") desc 0 0 false
       (generate_test_0_leaves H pr b64e lossy desc ds)) /\
  (Z.of_nat (List.length ds) = 1 ->
     passes H pv b64d (text "Test 1 Leaf Invalid Proof Index") (text "generate_test_1_leaf_invalid_proof_index") desc 1 1 false
       (generate_test_1_leaf_invalid_proof_index H pr b64e lossy desc ds)) /\
  (Z.of_nat (List.length ds) = 1 ->
     passes H pv b64d (text "Test 1 Leaf Invalid Root") (text "generate_test_1_leaf_invalid_root") desc 0 1 false
       (generate_test_1_leaf_invalid_root H pr b64e lossy desc ds) \/
     has_collision H (text "invalid" :: mth_inputs H (map b32 ds))) /\
  (Z.of_nat (List.length ds) = 1024 ->
     passes H pv b64d (text "Test 1024 Leaves Invalid Root") (text "generate_test_1024_leaves_invalid_root") desc 512 1024 false
       (generate_test_1024_leaves_invalid_root H pr b64e lossy desc ds) \/
     has_collision H (text "invalid" :: mth_inputs H (map b32 ds))).
Proof. exact C82_lemma. Qed.
Print Assumptions C82_suite.

Example C82_example : passes sha256 Debug no64d (text "Test 1 Leaf Invalid Root")
  (text "generate_test_1_leaf_invalid_root") (text "d") 0 1 false (generate_test_1_leaf_invalid_root sha256 Debug no64 no64 (text "d") [kA]).
Proof. exact C82_witness. Qed.

(** Every step asks for an operation or breaks the test ([asks], [breaks]: SpecData.v). *)
Theorem C83_steps : forall b64d s, (exists o, asks b64d s o) \/ (exists r, breaks b64d s r /\ r <> Val (Ok tt)).
Proof. exact step_cases. Qed.
Print Assumptions C83_steps.

Theorem C83_sparse_test : forall H pr b64d t os, Forall2 (asks b64d) (ts_steps t) os -> clean [] [] os ->
  hash_ok H (map op_key os) (maps [] os) ->
  (forall b, ev_into_bytes b64d (ts_expected_root t) = Ok b -> List.length b = 32%nat ->
     sparse_test_execute H pr b64d t = Val (if bytes_eqb b (b32 (kv_root H (final os))) then Ok tt else Err (TFailed (ts_name t)))) /\
  (forall b, ev_into_bytes b64d (ts_expected_root t) = Ok b -> List.length b <> 32%nat -> sparse_test_execute H pr b64d t = Panic) /\
  (forall e, ev_into_bytes b64d (ts_expected_root t) = Err e -> sparse_test_execute H pr b64d t = Val (Err e)).
Proof. exact C83_ok_lemma. Qed.
Print Assumptions C83_sparse_test.

Theorem C83_broken_step : forall H pr b64d t good os s rest r, ts_steps t = good ++ s :: rest ->
  Forall2 (asks b64d) good os -> clean [] [] os -> hash_ok H (map op_key os) (maps [] os) ->
  breaks b64d s r -> sparse_test_execute H pr b64d t = r.
Proof. exact C83_bad_lemma. Qed.
Print Assumptions C83_broken_step.

Example C83_example :
  let t := test_small (kv_root sha256 (final small)) steps_small in
  Forall2 (asks no64d) (ts_steps t) small /\ clean [] [] small /\ hash_ok sha256 (map op_key small) (maps [] small) /\
  sparse_test_execute sha256 Debug no64d t = Val (Ok tt) /\
  sparse_test_execute sha256 Debug no64d (test_small kA steps_small) = Val (Err (TFailed (text "small"))) /\
  breaks no64d odd_step (Val (Err TDecodingError)) /\
  sparse_test_execute sha256 Debug no64d (test_small kA (steps_small ++ [odd_step])) = Val (Err TDecodingError).
Proof. exact C83_witness. Qed.

(** Heights and fees are unsigned integers. *)
Theorem C84_sparse_debug : forall H n, 0 <= sn_height n ->
  exists t s, sparse_node_debug H n = Val t /\ storage_node_debug H n = Val s /\
  forall m, 0 <= sn_height m -> sparse_node_debug H m = Val t \/ storage_node_debug H m = Val s -> m = n.
Proof. exact C84_sparse_lemma. Qed.
Print Assumptions C84_sparse_debug.

Theorem C84_sum_debug : forall h x f l r h' x' f' l' r' lf lf',
  h <> 0 -> h' <> 0 -> 0 <= f -> 0 <= f' ->
  let inner h x f l r := {| mn_height := h; mn_hash := x; mn_fee := f; mn_left_child_key := Some l; mn_right_child_key := Some r |} in
  let leaf x f := {| mn_height := 0; mn_hash := x; mn_fee := f; mn_left_child_key := None; mn_right_child_key := None |} in
  exists t s, sum_node_debug (inner h x f l r) = Val t /\ sum_node_debug (leaf x lf) = Val s /\ t <> s /\
  (sum_node_debug (inner h' x' f' l' r') = Val t <-> x' = x /\ f' = f /\ l' = l /\ r' = r) /\
  (0 <= lf -> 0 <= lf' -> sum_node_debug (leaf x' lf') = Val s <-> x' = x /\ lf' = lf).
Proof. exact C84_sum_lemma. Qed.
Print Assumptions C84_sum_debug.

Example C84_example :
  shown (sparse_node_debug sha256 snode_placeholder) =
    "Node (Leaf) { Height: 0, Hash: ""0000000000000000000000000000000000000000000000000000000000000000"", Leaf key: ""0000000000000000000000000000000000000000000000000000000000000000"", Leaf data: ""0000000000000000000000000000000000000000000000000000000000000000"" }"%string /\
  shown (sum_node_debug (mnode_create_leaf sha256 305 [])) =
    ("Node (Leaf) { Hash: """ ++ string_of_list_byte (hex_encode (b32 (mn_hash (mnode_create_leaf sha256 305 [])))) ++ """, Fee: 305, Key: """ ++
     string_of_list_byte (hex_encode (b32 (mn_hash (mnode_create_leaf sha256 305 [])))) ++ """ }")%string /\
  sparse_node_debug sha256 leafA <> sparse_node_debug sha256 (snode_create_node sha256 leafA leafA 255).
Proof. exact C84_witness. Qed.

(** What the texts show: the layout is described in SpecText.v. *)
Theorem C84_layout : forall H,
  (forall l r h, 0 <= h -> let n := snode_create_node H l r h in
     let fields := [(text "Height", Number h); (text "Hash", Bytes (b32 (snode_hash H n)));
                    (text "Left child key", Bytes (b32 (snode_hash H l))); (text "Right child key", Bytes (b32 (snode_hash H r)))] in
     exists t s, sparse_node_debug H n = Val t /\ storage_node_debug H n = Val s /\
       struct_text (text "Node (Internal)") fields t /\ struct_text (text "StorageNode (Internal)") fields s) /\
  (forall k d, let n := snode_create_leaf H k d in
     let fields := [(text "Height", Number 0); (text "Hash", Bytes (b32 (snode_hash H n)));
                    (text "Leaf key", Bytes (b32 k)); (text "Leaf data", Bytes (b32 (H d)))] in
     exists t s, sparse_node_debug H n = Val t /\ storage_node_debug H n = Val s /\
       struct_text (text "Node (Leaf)") fields t /\ struct_text (text "StorageNode (Leaf)") fields s) /\
  (forall pr h fl kl fr kr n, 0 <= fl -> 0 <= fr -> 0 < h -> fl + fr < 2 ^ 64 -> mnode_create_node H pr h fl kl fr kr = Val n ->
     exists t, sum_node_debug n = Val t /\
       struct_text (text "Node (Internal)") [(text "Hash", Bytes (b32 (mn_hash n))); (text "Fee", Number (fl + fr));
         (text "Left child key", Bytes (b32 kl)); (text "Right child key", Bytes (b32 kr))] t) /\
  (forall f d, 0 <= f -> let x := Bytes (b32 (mn_hash (mnode_create_leaf H f d))) in
     exists t, sum_node_debug (mnode_create_leaf H f d) = Val t /\
       struct_text (text "Node (Leaf)") [(text "Hash", x); (text "Fee", Number f); (text "Key", x)] t).
Proof. exact C84_text_lemma. Qed.
Print Assumptions C84_layout.

Example C84_layout_example :
  shown (n <-! node34 ;; sum_node_debug n) =
    ("Node (Internal) { Hash: """ ++ hexed kC ++ """, Fee: 7, Left child key: """ ++ hexed kA ++ """, Right child key: """ ++ hexed kB ++ """ }")%string /\
  shown (storage_node_debug (fun _ => kC) (snode_create_leaf (fun _ => kC) kA va)) =
    ("StorageNode (Leaf) { Height: 0, Hash: """ ++ hexed kC ++ """, Leaf key: """ ++ hexed kA ++ """, Leaf data: """ ++ hexed kC ++ """ }")%string.
Proof. exact C84_layout_witness. Qed.
