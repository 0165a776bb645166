(** WitnessData.v -- concrete cases for PropertiesData.v. *)
From Coq Require Import String.
From Verif Require Import Base Sha256 Storage ModelText ModelCommon ModelBinary ModelVerify ModelSparse ModelSum ModelData ModelDebug
  SpecText SpecBits SpecBinary SpecSparse SpecData Runs RunsSparse WitnessSparse.
From Coq Require Import List.
Open Scope list_scope.

Definition no64 (l : list byte) : list byte := l.
Definition no64d (l : list byte) : option (list byte) := Some l.
Definition ex (l : list byte) : EncodedValue := ev_from_raw no64 no64 l EHex.

Lemma C80_witness : ev_into_bytes no64d (ev_new (text "00fFa9") EHex) = Ok [x00; xff; xa9] /\
  ev_into_bytes no64d (ev_new (text "00f") EHex) = Err TDecodingError /\
  ev_into_bytes no64d (ev_new (text "0g") EHex) = Err TDecodingError /\
  hex_encode [x00; xff; xa9] = text "00ffa9" /\ (forall x, no64d (no64 x) = Some x).
Proof. vm_compute. repeat (split; [reflexivity|]). reflexivity. Qed.

Definition three : list bytes32 := [kA; kB; kC].
Definition runs (o : out ProofTest) (edit : ProofTest -> ProofTest) : bool :=
  match o with Val t => match proof_test_execute sha256 Debug no64d (edit t) with Val (Ok tt) => true | _ => false end | _ => false end.
Lemma C81_witness :
  sha256 [] = empty_sum /\ Z.of_nat (List.length three) < leaf_limit Debug /\
  runs (generate_test sha256 Debug no64 no64 (text "n") (text "f") (text "d") three 2) (fun t => t) = true /\
  runs (generate_test sha256 Debug no64 no64 (text "n") (text "f") (text "d") three 2) (with_expected_verification false) = false /\
  runs (generate_test sha256 Debug no64 no64 (text "n") (text "f") (text "d") three 2)
       (fun t => with_expected_verification false (with_root (invalid_root sha256) t)) = true.
Proof. split; [vm_compute; reflexivity|]. split; [reflexivity|]. split; [vm_compute; reflexivity|]. split; vm_compute; reflexivity. Qed.
Lemma C82_witness : passes sha256 Debug no64d (text "Test 1 Leaf Invalid Root")
  (text "generate_test_1_leaf_invalid_root") (text "d") 0 1 false (generate_test_1_leaf_invalid_root sha256 Debug no64 no64 (text "d") [kA]).
Proof. eexists. split; [vm_compute; reflexivity|]. split; [auto|]. split; [auto|]. vm_compute. reflexivity. Qed.

Definition steps_small : list Step :=
  [{| sp_action := text "update"; sp_key := Some (ex (b32 kA)); sp_data := Some (ex va) |};
   {| sp_action := text "update"; sp_key := Some (ex (b32 kB)); sp_data := Some (ex vb) |};
   {| sp_action := text "update"; sp_key := Some (ex (b32 kC)); sp_data := Some (ex vc) |}].
Definition odd_step : Step := {| sp_action := text "delete"; sp_key := Some (ev_new (text "abc") EHex); sp_data := None |}.
Definition test_small (root : bytes32) (ss : list Step) : SparseTest :=
  {| ts_name := text "small"; ts_expected_root := ex (b32 root); ts_steps := ss |}.
Lemma C83_witness :
  let t := test_small (kv_root sha256 (final small)) steps_small in
  Forall2 (asks no64d) (ts_steps t) small /\ clean [] [] small /\ hash_ok sha256 (map op_key small) (maps [] small) /\
  sparse_test_execute sha256 Debug no64d t = Val (Ok tt) /\
  sparse_test_execute sha256 Debug no64d (test_small kA steps_small) = Val (Err (TFailed (text "small"))) /\
  breaks no64d odd_step (Val (Err TDecodingError)) /\
  sparse_test_execute sha256 Debug no64d (test_small kA (steps_small ++ [odd_step])) = Val (Err TDecodingError).
Proof.
  cbv zeta. split.
  { unfold test_small, steps_small, small. cbn [ts_steps]. repeat constructor. }
  split; [apply cleanb_ok; reflexivity|]. split; [apply (listed_ok _ _ _ digests_used_ok); vm_compute; reflexivity|].
  split; [vm_compute; reflexivity|]. split; [vm_compute; reflexivity|].
  split; [eapply Breaks_key_delete; reflexivity|]. vm_compute. reflexivity.
Qed.

Definition leafA : SNode := snode_create_leaf sha256 kA va.
Definition shown (o : out (list byte)) : string := match o with Val l => string_of_list_byte l | _ => "" end.
Lemma C84_witness :
  shown (sparse_node_debug sha256 snode_placeholder) =
    "Node (Leaf) { Height: 0, Hash: ""0000000000000000000000000000000000000000000000000000000000000000"", Leaf key: ""0000000000000000000000000000000000000000000000000000000000000000"", Leaf data: ""0000000000000000000000000000000000000000000000000000000000000000"" }"%string /\
  shown (sum_node_debug (mnode_create_leaf sha256 305 [])) =
    ("Node (Leaf) { Hash: """ ++ string_of_list_byte (hex_encode (b32 (mn_hash (mnode_create_leaf sha256 305 [])))) ++ """, Fee: 305, Key: """ ++
     string_of_list_byte (hex_encode (b32 (mn_hash (mnode_create_leaf sha256 305 [])))) ++ """ }")%string /\
  sparse_node_debug sha256 leafA <> sparse_node_debug sha256 (snode_create_node sha256 leafA leafA 255).
Proof. split; [vm_compute; reflexivity|]. split; [vm_compute; reflexivity|]. vm_compute. discriminate. Qed.
Definition node34 : out MNode := mnode_create_node (fun _ => kC) Debug 1 3 kA 4 kB.
Definition hexed (k : bytes32) : string := string_of_list_byte (hex_encode (b32 k)).
Lemma C84_layout_witness :
  shown (n <-! node34 ;; sum_node_debug n) =
    ("Node (Internal) { Hash: """ ++ hexed kC ++ """, Fee: 7, Left child key: """ ++ hexed kA ++ """, Right child key: """ ++ hexed kB ++ """ }")%string /\
  shown (storage_node_debug (fun _ => kC) (snode_create_leaf (fun _ => kC) kA va)) =
    ("StorageNode (Leaf) { Height: 0, Hash: """ ++ hexed kC ++ """, Leaf key: """ ++ hexed kA ++ """, Leaf data: """ ++ hexed kC ++ """ }")%string.
Proof. split; vm_compute; reflexivity. Qed.
