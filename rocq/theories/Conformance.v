(** Conformance.v -- TESTS, not proofs: the model, run with SHA-256 by [vm_compute],
    reproduces test vectors of the repository.  Generated by tools/gen_conformance.py from
    /repo/src/sparse/merkle_tree.rs (mod test), /repo/src/common.rs and
    /repo/tests-data-binary/fixtures/*.yaml, /repo/tests-data/fixtures/*.yaml.  The checks are run
    when this file is compiled and leave nothing behind. *)
From Coq Require Import String Ascii.
From Verif Require Import Base Sha256 Storage ModelText ModelCommon ModelBinary ModelSparse ModelVerify ModelData.
Local Open Scope string_scope.

Definition nibble (a : ascii) : N :=
  let n := N_of_ascii a in if N.ltb n 58 then N.sub n 48 else N.sub n 87.
Fixpoint unhex_list (s : string) : list byte :=
  match s with
  | String a (String b r) =>
      match Byte.of_N (N.add (N.mul 16 (nibble a)) (nibble b)) with
      | Some x => x | None => x00 end :: unhex_list r
  | _ => []
  end.
Definition unhex (s : string) : bytes32 := mk32 (unhex_list s).

Inductive op := U (i : Z) (data : list byte) | D (i : Z).
(** keys of the tests: sum(i.to_be_bytes()) for a u32 i *)
Definition key_of (i : Z) : bytes32 := sha256 (skipn 4 (u64_to_be_bytes i)).
Definition DATA : list byte := [x44; x41; x54; x41].
Definition CHANGE : list byte := [x43; x48; x41; x4e; x47; x45].

Definition step (o : op) : M (SpTree SScratch) (result (SError Empty_set) unit) :=
  match o with
  | U i d => sp_update sha256 Debug SStorageMap (key_of i) d
  | D i => sp_delete sha256 Debug SStorageMap (key_of i)
  end.
Fixpoint run (ops : list op) (t : SpTree SScratch) : option bytes32 :=
  match ops with
  | [] => Some (sp_root sha256 t)
  | o :: ops' => match step o t with
                 | (t', Val (Ok tt)) => run ops' t'
                 | _ => None
                 end
  end.
Definition sparse_test (ops : list op) (expected : string) : bool :=
  match run ops sim_new with Some r => b32_eqb r (unhex expected) | None => false end.

Definition range (a b : Z) : list Z := map (fun i => a + Z.of_nat i) (seq 0 (Z.to_nat (b - a))).
Definition Us (a b : Z) : list op := map (fun i => U i DATA) (range a b).
Definition Ds (a b : Z) : list op := map D (range a b).

(** sparse/merkle_tree.rs, test_empty_root *)
Check (eq_refl true <: sparse_test ([])%list
  "0000000000000000000000000000000000000000000000000000000000000000" = true).

(** sparse/merkle_tree.rs, test_update_1 *)
Check (eq_refl true <: sparse_test ([U 0 DATA])%list
  "39f36a7cb4dfb1b46f03d044265df6a491dffc1034121bc1071a34ddce9bb14b" = true).

(** sparse/merkle_tree.rs, test_update_2 *)
Check (eq_refl true <: sparse_test ([U 0 DATA] ++ [U 1 DATA])%list
  "8d0ae412ca9ca0afcb3217af8bcd5a673e798bd6fd1dfacad17711e883f494cb" = true).

(** sparse/merkle_tree.rs, test_update_3 *)
Check (eq_refl true <: sparse_test ([U 0 DATA] ++ [U 1 DATA] ++ [U 2 DATA])%list
  "52295e42d8de2505fdc0cc825ff9fead419cbcf540d8b30c7c4b9c9b94c268b7" = true).

(** sparse/merkle_tree.rs, test_update_5 *)
Check (eq_refl true <: sparse_test ([U 0 DATA] ++ [U 1 DATA] ++ [U 2 DATA] ++ [U 3 DATA] ++ [U 4 DATA])%list
  "108f731f2414e33ae57e584dc26bd276db07874436b2264ca6e520c658185c6b" = true).

(** sparse/merkle_tree.rs, test_update_10 *)
Check (eq_refl true <: sparse_test (Us 0 10)%list
  "21ca4917e99da99a61de93deaf88c400d4c082991cb95779e444d43dd13e8849" = true).

(** sparse/merkle_tree.rs, test_update_100 *)
Check (eq_refl true <: sparse_test (Us 0 100)%list
  "82bf747d455a55e2f7044a03536fc43f1f55d43b855e72c0110c986707a23e4d" = true).

(** sparse/merkle_tree.rs, test_update_with_repeated_inputs *)
Check (eq_refl true <: sparse_test ([U 0 DATA] ++ [U 0 DATA])%list
  "39f36a7cb4dfb1b46f03d044265df6a491dffc1034121bc1071a34ddce9bb14b" = true).

(** sparse/merkle_tree.rs, test_update_overwrite_key *)
Check (eq_refl true <: sparse_test ([U 0 DATA] ++ [U 0 CHANGE])%list
  "dd97174c80e5e5aa3a31c61b05e279c1495c8a07b2a08bca5dbc9fb9774f9457" = true).

(** sparse/merkle_tree.rs, test_update_union *)
Check (eq_refl true <: sparse_test (Us 0 5 ++ Us 10 15 ++ Us 20 25)%list
  "7e6643325042cfe0fc76626c043b97062af51c7e9fc56665f12b479034bce326" = true).

(** sparse/merkle_tree.rs, test_update_sparse_union *)
Check (eq_refl true <: sparse_test ([U 0 DATA] ++ [U 2 DATA] ++ [U 4 DATA] ++ [U 6 DATA] ++ [U 8 DATA])%list
  "e912e97abc67707b2e6027338292943b53d01a7fbd7b244674128c7e468dd696" = true).

(** sparse/merkle_tree.rs, test_update_with_empty_data *)
Check (eq_refl true <: sparse_test ([U 0 []])%list
  "0000000000000000000000000000000000000000000000000000000000000000" = true).

(** sparse/merkle_tree.rs, test_update_with_empty_performs_delete *)
Check (eq_refl true <: sparse_test ([U 0 DATA] ++ [U 0 []])%list
  "0000000000000000000000000000000000000000000000000000000000000000" = true).

(** sparse/merkle_tree.rs, test_update_1_delete_1 *)
Check (eq_refl true <: sparse_test ([U 0 DATA] ++ [D 0])%list
  "0000000000000000000000000000000000000000000000000000000000000000" = true).

(** sparse/merkle_tree.rs, test_update_2_delete_1 *)
Check (eq_refl true <: sparse_test ([U 0 DATA] ++ [U 1 DATA] ++ [D 1])%list
  "39f36a7cb4dfb1b46f03d044265df6a491dffc1034121bc1071a34ddce9bb14b" = true).

(** sparse/merkle_tree.rs, test_update_10_delete_5 *)
Check (eq_refl true <: sparse_test (Us 0 10 ++ Ds 5 10)%list
  "108f731f2414e33ae57e584dc26bd276db07874436b2264ca6e520c658185c6b" = true).

(** sparse/merkle_tree.rs, test_delete_non_existent_key *)
Check (eq_refl true <: sparse_test ([U 0 DATA] ++ [U 1 DATA] ++ [U 2 DATA] ++ [U 3 DATA] ++ [U 4 DATA] ++ [D 1024])%list
  "108f731f2414e33ae57e584dc26bd276db07874436b2264ca6e520c658185c6b" = true).

(** sparse/merkle_tree.rs, test_interleaved_update_delete *)
Check (eq_refl true <: sparse_test (Us 0 10 ++ Ds 5 15 ++ Us 10 20 ++ Ds 15 25 ++ Us 20 30 ++ Ds 25 35)%list
  "7e6643325042cfe0fc76626c043b97062af51c7e9fc56665f12b479034bce326" = true).

(** sparse/merkle_tree.rs, test_delete_sparse_union *)
Check (eq_refl true <: sparse_test (Us 0 10 ++ map (fun i => D (i * 2 + 1)) (range 0 5))%list
  "e912e97abc67707b2e6027338292943b53d01a7fbd7b244674128c7e468dd696" = true).

(** The fixtures use no base64. *)
Definition no64 (l : list byte) : option (list byte) := None.
Definition hx (s : string) : EncodedValue := ev_new (text s) EHex.
Definition tx (s : string) : EncodedValue := ev_new (text s) EUtf8.
Definition passed : out (result TestError unit) := Val (Ok tt).
Definition binary_fixture name root ps i n e : out (result TestError unit) :=
  proof_test_execute sha256 Debug no64
    {| pt_name := text name; pt_function_name := []; pt_description := []; pt_root := hx root;
       pt_proof_set := map hx ps; pt_proof_index := i; pt_num_leaves := n; pt_expected_verification := e |}.
Definition up (k : string) (d : EncodedValue) : Step :=
  {| sp_action := text "update"; sp_key := Some (hx k); sp_data := Some d |}.
Definition del (k : string) : Step := {| sp_action := text "delete"; sp_key := Some (hx k); sp_data := None |}.
Definition sparse_fixture name root ss : out (result TestError unit) :=
  sparse_test_execute sha256 Debug no64 {| ts_name := text name; ts_expected_root := hx root; ts_steps := ss |}.

(** tests-data-binary/fixtures/Test 0 Leaves.yaml *)
Check (eq_refl passed <: binary_fixture "Test 0 Leaves" "ce04537ec4b4b84cf02fa5c50c7810e2f6592e3b00de7423d7c3e7e7d8689a67" ["ce04537ec4b4b84cf02fa5c50c7810e2f6592e3b00de7423d7c3e7e7d8689a67"]
    0 0 false = passed).

(** tests-data-binary/fixtures/Test 1 Leaf Index 0.yaml *)
Check (eq_refl passed <: binary_fixture "Test 1 Leaf Index 0" "40561de71f9ab9b37d9bb1194f96e73d9b24170d13e8fbe62216a5eddea86412" ["40561de71f9ab9b37d9bb1194f96e73d9b24170d13e8fbe62216a5eddea86412"]
    0 1 true = passed).

(** tests-data-binary/fixtures/Test 1 Leaf Invalid Proof Index.yaml *)
Check (eq_refl passed <: binary_fixture "Test 1 Leaf Invalid Proof Index" "bcd692b474ff28ad1b46171b907170afffe213d0a999d37172016371f89b1d50" ["bcd692b474ff28ad1b46171b907170afffe213d0a999d37172016371f89b1d50"]
    1 1 false = passed).

(** tests-data-binary/fixtures/Test 1 Leaf Invalid Root.yaml *)
Check (eq_refl passed <: binary_fixture "Test 1 Leaf Invalid Root" "f1234d75178d892a133a410355a5a990cf75d2f33eba25d575943d4df632f3a4" ["8d216d9f1b01ce2f51e3be1243e0da2591679f57bf2d062b9dbaae361558bb21"]
    0 1 false = passed).

(** tests-data-binary/fixtures/Test 10 Leaves Index 4.yaml *)
Check (eq_refl passed <: binary_fixture "Test 10 Leaves Index 4" "dfdf69ca3d8bbe42effc15304a76d95fc7e2dbf54cbc185a0f0157afb47c27e8" ["6fedf050a8f2b04e66b4b4bbe1a1bb083d1e1748c75d74cf2e31428542309ba3"; "390af00738648704dbee5791e5a0dd83a0cf8e59901a519a2af4630ed9c2147b"; "085c73fb213d3c8b32d104ca2236bc342eac5c204730cd2115f64e8cb754e66e"; "01d58263228eac906f24a2b5f7aa53a59cd70b5895a262e8eb8151e3d571f694"; "3462cc7c1d1bb60c889a6a43a71a4c23c7f4a9ab5c917a63170c182bc57b74e1"]
    4 10 true = passed).

(** tests-data-binary/fixtures/Test 100 Leaves Index 10.yaml *)
Check (eq_refl passed <: binary_fixture "Test 100 Leaves Index 10" "a9b6d97f45ed55e2242fa995c5d412a46a2e57a5a3f676aa9e60d973479c2446" ["d1b2f3f5c5a9e0b1d31e9c7060682c161cfd429abc6dc709588a0f7a8b989e6e"; "51159906d4d62672664766ed8757915c7c925cfee778b8b3359df37a73ebeca7"; "2b4f180744f30b41daad98a0d9f80fd8302de65ef33487e75b3eec6122c8e3f3"; "59c518c8c13721afd212b11680680ed64270e79b503f5e7e342b9b201e7fa4f2"; "4175b79f36911a6c629de2e70b03ff9cbfc51867ad71ef6462a8999c65783ef1"; "8cdc18e4cb221ba071cd4804726794719e9202b8b95d8148e4492d3d76a4e9aa"; "2434ae470b4d9f05943e65b63236ae7888281d06f9412068f602ca2662e73471"; "1b7cc44323e578aa1380f7b5012ede68663732413625a0028c1c0d3e7652baa9"]
    10 100 true = passed).

(** tests-data-binary/fixtures/Test 1024 Leaves Index 512.yaml *)
Check (eq_refl passed <: binary_fixture "Test 1024 Leaves Index 512" "1a57447fae64c1b78d02a05ac5255b2d1b350b8ce10c1180002288a9a49cf6fb" ["c00574a947cb3031d10fce0980c3711c70824c191e29c913f8da8b0d42da3c2e"; "5f7a260b5b5dc663ef6a338ba673c71ef611e4a5e52dc41e9bd82dd9a9507c30"; "51dbb7b62080c64fbc976425d0032933d1126df6f223420b332297c8ca133cee"; "52c32361aabbcdb8a2d7fa6ede781716cfcb7e2708a7d1cae69b242154ba4d65"; "ef41093d90dd8ece225c19f2073dfea48890f10087dcc6451c21d76a91feecfb"; "d306531e7c69cb02b7b4008281007360d00af0f640d80d44ac9730a263582967"; "200bf4ae7f3d12cfa374d72d8d73cf320b3f38bfb3dde85793a8d06f040da181"; "c9b8de8d214f5cf0ca3aeae52def4456268f3c1f06e905ed741bc18b10844f8f"; "a09d8a561023e032a8b560f1e85d300a3122b0cdf83b47798802d25d4db1083c"; "782b6c333967ceb052cc479f83da4cd6d9e3b75c963cd4f4c4e8f1d7dbcb3436"; "854f3ff8757852014af53efa1e8b88622281141ea5ad8f1bd21a133f467af2c4"]
    512 1024 true = passed).

(** tests-data-binary/fixtures/Test 1024 Leaves Invalid Root.yaml *)
Check (eq_refl passed <: binary_fixture "Test 1024 Leaves Invalid Root" "f1234d75178d892a133a410355a5a990cf75d2f33eba25d575943d4df632f3a4" ["0fd57bb7146938576395aa785eef8970dc33f294fa2d9a77fc1598e9084be008"; "bc6abd3c380c4d69085c2f879e784f096fcd0a9e921b359fecf87ef76ca4bc67"; "c82561818abd7843b694824f21024c134158ce89445e7dc4a4aebebdb5a7dd5e"; "f94219552c116bad634d8f9c98157ee414741ec053ea7f1ff3412df4a7b2899f"; "617e973c2ac3dd9adfeb944ca1ee4d54053e2520c7d7d435872dd60f6c45c1bb"; "3fe1e227f51971bff35c83338f48282c81f94edb7577cce7bb56661e14aab740"; "cbabcf9e2f7ef7a85eb98e49380236c767ec32cfac1c878a03b22492f84916a6"; "2689ef456cd69c7af07084ab16922331127544f038627bfa04f8d95effd1150c"; "8007f304566161b05a29f4380dee1b5f4178b1e0a5dfadcf6613f6e15a0ec761"; "6d8b4dd3156d16df1883acf6d6eb22f27635b44459b09a5a77a7bda6fb919d13"; "c2a27c22ec6bfd35c83dcdf5379539c0865c23341ef8abba1248aa44fe36d23f"]
    512 1024 false = passed).

(** tests-data/fixtures/Test Delete Non-existent Key.yaml *)
Check (eq_refl passed <: sparse_fixture "Test Delete Non-existent Key" "108f731f2414e33ae57e584dc26bd276db07874436b2264ca6e520c658185c6b"
  [up "df3f619804a92fdb4057192dc43dd748ea778adc52bc498ce80524c014b81119" (tx "DATA");
   up "b40711a88c7039756fb8a73827eabe2c0fe5a0346ca7e0a104adc0fc764f528d" (tx "DATA");
   up "433ebf5bc03dffa38536673207a21281612cef5faa9bc7a4d5b9be2fdb12cf1a" (tx "DATA");
   up "88185d128d9922e0e6bcd32b07b6c7f20f27968eab447a1d8d1cdf250f79f7d3" (tx "DATA");
   up "1bc5d0e3df0ea12c4d0078668d14924f95106bbe173e196de50fe13a900b0937" (tx "DATA");
   del "72034de8a594b12de51205feba7ade26899d8425e81eac7f8c296bf974a51c60"] = passed).

(** tests-data/fixtures/Test Delete Sparse Union.yaml *)
Check (eq_refl passed <: sparse_fixture "Test Delete Sparse Union" "e912e97abc67707b2e6027338292943b53d01a7fbd7b244674128c7e468dd696"
  [up "df3f619804a92fdb4057192dc43dd748ea778adc52bc498ce80524c014b81119" (tx "DATA");
   up "b40711a88c7039756fb8a73827eabe2c0fe5a0346ca7e0a104adc0fc764f528d" (tx "DATA");
   up "433ebf5bc03dffa38536673207a21281612cef5faa9bc7a4d5b9be2fdb12cf1a" (tx "DATA");
   up "88185d128d9922e0e6bcd32b07b6c7f20f27968eab447a1d8d1cdf250f79f7d3" (tx "DATA");
   up "1bc5d0e3df0ea12c4d0078668d14924f95106bbe173e196de50fe13a900b0937" (tx "DATA");
   up "221f8af2372a95064f2ef7d7712216a9ab46e7ef98482fd237e106f83eaa7569" (tx "DATA");
   up "b253668f6b59f1ff28522831931e4d3c5a3de533965af22e961735437c0172cb" (tx "DATA");
   up "1561ade0621c5acf44b780521f95a1e0b19b4e5032945b860c4032fc28a3a23b" (tx "DATA");
   up "17eb70034b5b71092521d184c5e7b069d47de657e51aef2be11a00c115036943" (tx "DATA");
   up "3b28a6c3766c6295adad976d349705ef49393fbfdebe4facb5862d2cdfa285d3" (tx "DATA");
   del "b40711a88c7039756fb8a73827eabe2c0fe5a0346ca7e0a104adc0fc764f528d";
   del "88185d128d9922e0e6bcd32b07b6c7f20f27968eab447a1d8d1cdf250f79f7d3";
   del "221f8af2372a95064f2ef7d7712216a9ab46e7ef98482fd237e106f83eaa7569";
   del "1561ade0621c5acf44b780521f95a1e0b19b4e5032945b860c4032fc28a3a23b";
   del "3b28a6c3766c6295adad976d349705ef49393fbfdebe4facb5862d2cdfa285d3"] = passed).

(** tests-data/fixtures/Test Empty Root.yaml *)
Check (eq_refl passed <: sparse_fixture "Test Empty Root" "0000000000000000000000000000000000000000000000000000000000000000"
  [] = passed).

(** tests-data/fixtures/Test Interleaved Update Delete.yaml *)
Check (eq_refl passed <: sparse_fixture "Test Interleaved Update Delete" "7e6643325042cfe0fc76626c043b97062af51c7e9fc56665f12b479034bce326"
  [up "df3f619804a92fdb4057192dc43dd748ea778adc52bc498ce80524c014b81119" (tx "DATA");
   up "b40711a88c7039756fb8a73827eabe2c0fe5a0346ca7e0a104adc0fc764f528d" (tx "DATA");
   up "433ebf5bc03dffa38536673207a21281612cef5faa9bc7a4d5b9be2fdb12cf1a" (tx "DATA");
   up "88185d128d9922e0e6bcd32b07b6c7f20f27968eab447a1d8d1cdf250f79f7d3" (tx "DATA");
   up "1bc5d0e3df0ea12c4d0078668d14924f95106bbe173e196de50fe13a900b0937" (tx "DATA");
   up "221f8af2372a95064f2ef7d7712216a9ab46e7ef98482fd237e106f83eaa7569" (tx "DATA");
   up "b253668f6b59f1ff28522831931e4d3c5a3de533965af22e961735437c0172cb" (tx "DATA");
   up "1561ade0621c5acf44b780521f95a1e0b19b4e5032945b860c4032fc28a3a23b" (tx "DATA");
   up "17eb70034b5b71092521d184c5e7b069d47de657e51aef2be11a00c115036943" (tx "DATA");
   up "3b28a6c3766c6295adad976d349705ef49393fbfdebe4facb5862d2cdfa285d3" (tx "DATA");
   del "221f8af2372a95064f2ef7d7712216a9ab46e7ef98482fd237e106f83eaa7569";
   del "b253668f6b59f1ff28522831931e4d3c5a3de533965af22e961735437c0172cb";
   del "1561ade0621c5acf44b780521f95a1e0b19b4e5032945b860c4032fc28a3a23b";
   del "17eb70034b5b71092521d184c5e7b069d47de657e51aef2be11a00c115036943";
   del "3b28a6c3766c6295adad976d349705ef49393fbfdebe4facb5862d2cdfa285d3";
   del "e084a105a7b7d599b8346d3cba5ac51b756d7e29c7ef77fd9eff31fdeae31389";
   del "390b36a09502b05d4f8c27aea2636c6b7fd05b27d742ed32074ffea1f888ebe4";
   del "c22ceee66b8ab104483c83053173b33f992dd4fcb457284c60ef9d699a1c7059";
   del "8092fe01b9ce31a49ce380fc2fe1ee6b6b7d5c15c5f1ecb6ad98c60c4273a435";
   del "7fde8eebf388fcff667a89be60430cc6e198b1a78cb603a39cdd09885a3336e3";
   up "e084a105a7b7d599b8346d3cba5ac51b756d7e29c7ef77fd9eff31fdeae31389" (tx "DATA");
   up "390b36a09502b05d4f8c27aea2636c6b7fd05b27d742ed32074ffea1f888ebe4" (tx "DATA");
   up "c22ceee66b8ab104483c83053173b33f992dd4fcb457284c60ef9d699a1c7059" (tx "DATA");
   up "8092fe01b9ce31a49ce380fc2fe1ee6b6b7d5c15c5f1ecb6ad98c60c4273a435" (tx "DATA");
   up "7fde8eebf388fcff667a89be60430cc6e198b1a78cb603a39cdd09885a3336e3" (tx "DATA");
   up "9246be1e9ba9f5de5baf766a256eb725e9a7551fb93d7faa793c938e0f41de35" (tx "DATA");
   up "5085cb99dbe1e374ccd321e5b58182d2c42cf4840c68cfab17b0618a8285e7d6" (tx "DATA");
   up "8e00d1c0c8ffe94540e534e256d4589be3e3865dc0559a732697aef38a364e83" (tx "DATA");
   up "e9f3440e5518839aa600db07b5400f8ec287ce0321fad602afd103ce447a1c98" (tx "DATA");
   up "14236fe421fe9ddb8377a19b60ce71dd655704bcefc225c9287fb11127ba6569" (tx "DATA");
   del "9246be1e9ba9f5de5baf766a256eb725e9a7551fb93d7faa793c938e0f41de35";
   del "5085cb99dbe1e374ccd321e5b58182d2c42cf4840c68cfab17b0618a8285e7d6";
   del "8e00d1c0c8ffe94540e534e256d4589be3e3865dc0559a732697aef38a364e83";
   del "e9f3440e5518839aa600db07b5400f8ec287ce0321fad602afd103ce447a1c98";
   del "14236fe421fe9ddb8377a19b60ce71dd655704bcefc225c9287fb11127ba6569";
   del "a7911cdfdc28e6a1867e359ba426081aacfa692fdeb3e978d2a68dd924fa8c3e";
   del "21548c66b44347d877e7b405a250121cda87cd494b122f0324f7df3b6cd75f86";
   del "bc2d9ddc9857e53598677dbea82a2583879e89ce6c032c77d825187bf3f1a943";
   del "58ec452ede72799baf21664edc953297b592ad9e95f2381710593ad7a32f31ef";
   del "79a881f99a636d0ad75f16f53668982b59f8bb96c3fbb449155fe7a08dba9cb1";
   up "a7911cdfdc28e6a1867e359ba426081aacfa692fdeb3e978d2a68dd924fa8c3e" (tx "DATA");
   up "21548c66b44347d877e7b405a250121cda87cd494b122f0324f7df3b6cd75f86" (tx "DATA");
   up "bc2d9ddc9857e53598677dbea82a2583879e89ce6c032c77d825187bf3f1a943" (tx "DATA");
   up "58ec452ede72799baf21664edc953297b592ad9e95f2381710593ad7a32f31ef" (tx "DATA");
   up "79a881f99a636d0ad75f16f53668982b59f8bb96c3fbb449155fe7a08dba9cb1" (tx "DATA");
   up "282a163f3e6f52ab35cf838079369bce33cf5a1f151d2822846095a6d07e1ae2" (tx "DATA");
   up "c1c3c8fdf22e3a4adef796c8fdaf739d7d3b222f995891eb8f495ca71fb932a8" (tx "DATA");
   up "688e94a51ee508a95e761294afb7a6004b432c15d9890c80ddf23bde8caa4c26" (tx "DATA");
   up "c006af35e3b4ca022ab986593a148b4f196f186168ee96604eeaa7e338e66ac1" (tx "DATA");
   up "c1a9fae908008d34f389b1dba2a1a8e8301f7a942412ef6e6299c9e27e89dfaa" (tx "DATA");
   del "282a163f3e6f52ab35cf838079369bce33cf5a1f151d2822846095a6d07e1ae2";
   del "c1c3c8fdf22e3a4adef796c8fdaf739d7d3b222f995891eb8f495ca71fb932a8";
   del "688e94a51ee508a95e761294afb7a6004b432c15d9890c80ddf23bde8caa4c26";
   del "c006af35e3b4ca022ab986593a148b4f196f186168ee96604eeaa7e338e66ac1";
   del "c1a9fae908008d34f389b1dba2a1a8e8301f7a942412ef6e6299c9e27e89dfaa";
   del "560231689713a5933b6c8ac3e6b2f243730e49e1c6b0c610c41e8e8dad26044c";
   del "fe5b0deca006174e2151088e1a7d60fe91819467db5d709ae5a19c01a3cd3e3f";
   del "2de44621c76edf2debbc2df62ccb52c5036b1919dca3af0c0a886cc48dbfaeba";
   del "83440636eff7b2ec0f78ef7b8e480a033e8aeb67e6ecb657ce9bcdfdb21aa744";
   del "eaaf1805f2ec6a18eee5a7909f79908651341965d9f0b9de8d45d9262e5735ae"] = passed).

(** tests-data/fixtures/Test Update 1 Delete 1.yaml *)
Check (eq_refl passed <: sparse_fixture "Test Update 1 Delete 1" "0000000000000000000000000000000000000000000000000000000000000000"
  [up "df3f619804a92fdb4057192dc43dd748ea778adc52bc498ce80524c014b81119" (tx "DATA");
   del "df3f619804a92fdb4057192dc43dd748ea778adc52bc498ce80524c014b81119"] = passed).

(** tests-data/fixtures/Test Update 1.yaml *)
Check (eq_refl passed <: sparse_fixture "Test Update 1" "39f36a7cb4dfb1b46f03d044265df6a491dffc1034121bc1071a34ddce9bb14b"
  [up "df3f619804a92fdb4057192dc43dd748ea778adc52bc498ce80524c014b81119" (tx "DATA")] = passed).

(** tests-data/fixtures/Test Update 10 Delete 5.yaml *)
Check (eq_refl passed <: sparse_fixture "Test Update 10 Delete 5" "108f731f2414e33ae57e584dc26bd276db07874436b2264ca6e520c658185c6b"
  [up "df3f619804a92fdb4057192dc43dd748ea778adc52bc498ce80524c014b81119" (tx "DATA");
   up "b40711a88c7039756fb8a73827eabe2c0fe5a0346ca7e0a104adc0fc764f528d" (tx "DATA");
   up "433ebf5bc03dffa38536673207a21281612cef5faa9bc7a4d5b9be2fdb12cf1a" (tx "DATA");
   up "88185d128d9922e0e6bcd32b07b6c7f20f27968eab447a1d8d1cdf250f79f7d3" (tx "DATA");
   up "1bc5d0e3df0ea12c4d0078668d14924f95106bbe173e196de50fe13a900b0937" (tx "DATA");
   up "221f8af2372a95064f2ef7d7712216a9ab46e7ef98482fd237e106f83eaa7569" (tx "DATA");
   up "b253668f6b59f1ff28522831931e4d3c5a3de533965af22e961735437c0172cb" (tx "DATA");
   up "1561ade0621c5acf44b780521f95a1e0b19b4e5032945b860c4032fc28a3a23b" (tx "DATA");
   up "17eb70034b5b71092521d184c5e7b069d47de657e51aef2be11a00c115036943" (tx "DATA");
   up "3b28a6c3766c6295adad976d349705ef49393fbfdebe4facb5862d2cdfa285d3" (tx "DATA");
   del "221f8af2372a95064f2ef7d7712216a9ab46e7ef98482fd237e106f83eaa7569";
   del "b253668f6b59f1ff28522831931e4d3c5a3de533965af22e961735437c0172cb";
   del "1561ade0621c5acf44b780521f95a1e0b19b4e5032945b860c4032fc28a3a23b";
   del "17eb70034b5b71092521d184c5e7b069d47de657e51aef2be11a00c115036943";
   del "3b28a6c3766c6295adad976d349705ef49393fbfdebe4facb5862d2cdfa285d3"] = passed).

(** tests-data/fixtures/Test Update 10.yaml *)
Check (eq_refl passed <: sparse_fixture "Test Update 10" "21ca4917e99da99a61de93deaf88c400d4c082991cb95779e444d43dd13e8849"
  [up "df3f619804a92fdb4057192dc43dd748ea778adc52bc498ce80524c014b81119" (tx "DATA");
   up "b40711a88c7039756fb8a73827eabe2c0fe5a0346ca7e0a104adc0fc764f528d" (tx "DATA");
   up "433ebf5bc03dffa38536673207a21281612cef5faa9bc7a4d5b9be2fdb12cf1a" (tx "DATA");
   up "88185d128d9922e0e6bcd32b07b6c7f20f27968eab447a1d8d1cdf250f79f7d3" (tx "DATA");
   up "1bc5d0e3df0ea12c4d0078668d14924f95106bbe173e196de50fe13a900b0937" (tx "DATA");
   up "221f8af2372a95064f2ef7d7712216a9ab46e7ef98482fd237e106f83eaa7569" (tx "DATA");
   up "b253668f6b59f1ff28522831931e4d3c5a3de533965af22e961735437c0172cb" (tx "DATA");
   up "1561ade0621c5acf44b780521f95a1e0b19b4e5032945b860c4032fc28a3a23b" (tx "DATA");
   up "17eb70034b5b71092521d184c5e7b069d47de657e51aef2be11a00c115036943" (tx "DATA");
   up "3b28a6c3766c6295adad976d349705ef49393fbfdebe4facb5862d2cdfa285d3" (tx "DATA")] = passed).

(** tests-data/fixtures/Test Update 100.yaml *)
Check (eq_refl passed <: sparse_fixture "Test Update 100" "82bf747d455a55e2f7044a03536fc43f1f55d43b855e72c0110c986707a23e4d"
  [up "df3f619804a92fdb4057192dc43dd748ea778adc52bc498ce80524c014b81119" (tx "DATA");
   up "b40711a88c7039756fb8a73827eabe2c0fe5a0346ca7e0a104adc0fc764f528d" (tx "DATA");
   up "433ebf5bc03dffa38536673207a21281612cef5faa9bc7a4d5b9be2fdb12cf1a" (tx "DATA");
   up "88185d128d9922e0e6bcd32b07b6c7f20f27968eab447a1d8d1cdf250f79f7d3" (tx "DATA");
   up "1bc5d0e3df0ea12c4d0078668d14924f95106bbe173e196de50fe13a900b0937" (tx "DATA");
   up "221f8af2372a95064f2ef7d7712216a9ab46e7ef98482fd237e106f83eaa7569" (tx "DATA");
   up "b253668f6b59f1ff28522831931e4d3c5a3de533965af22e961735437c0172cb" (tx "DATA");
   up "1561ade0621c5acf44b780521f95a1e0b19b4e5032945b860c4032fc28a3a23b" (tx "DATA");
   up "17eb70034b5b71092521d184c5e7b069d47de657e51aef2be11a00c115036943" (tx "DATA");
   up "3b28a6c3766c6295adad976d349705ef49393fbfdebe4facb5862d2cdfa285d3" (tx "DATA");
   up "e084a105a7b7d599b8346d3cba5ac51b756d7e29c7ef77fd9eff31fdeae31389" (tx "DATA");
   up "390b36a09502b05d4f8c27aea2636c6b7fd05b27d742ed32074ffea1f888ebe4" (tx "DATA");
   up "c22ceee66b8ab104483c83053173b33f992dd4fcb457284c60ef9d699a1c7059" (tx "DATA");
   up "8092fe01b9ce31a49ce380fc2fe1ee6b6b7d5c15c5f1ecb6ad98c60c4273a435" (tx "DATA");
   up "7fde8eebf388fcff667a89be60430cc6e198b1a78cb603a39cdd09885a3336e3" (tx "DATA");
   up "9246be1e9ba9f5de5baf766a256eb725e9a7551fb93d7faa793c938e0f41de35" (tx "DATA");
   up "5085cb99dbe1e374ccd321e5b58182d2c42cf4840c68cfab17b0618a8285e7d6" (tx "DATA");
   up "8e00d1c0c8ffe94540e534e256d4589be3e3865dc0559a732697aef38a364e83" (tx "DATA");
   up "e9f3440e5518839aa600db07b5400f8ec287ce0321fad602afd103ce447a1c98" (tx "DATA");
   up "14236fe421fe9ddb8377a19b60ce71dd655704bcefc225c9287fb11127ba6569" (tx "DATA");
   up "a7911cdfdc28e6a1867e359ba426081aacfa692fdeb3e978d2a68dd924fa8c3e" (tx "DATA");
   up "21548c66b44347d877e7b405a250121cda87cd494b122f0324f7df3b6cd75f86" (tx "DATA");
   up "bc2d9ddc9857e53598677dbea82a2583879e89ce6c032c77d825187bf3f1a943" (tx "DATA");
   up "58ec452ede72799baf21664edc953297b592ad9e95f2381710593ad7a32f31ef" (tx "DATA");
   up "79a881f99a636d0ad75f16f53668982b59f8bb96c3fbb449155fe7a08dba9cb1" (tx "DATA");
   up "282a163f3e6f52ab35cf838079369bce33cf5a1f151d2822846095a6d07e1ae2" (tx "DATA");
   up "c1c3c8fdf22e3a4adef796c8fdaf739d7d3b222f995891eb8f495ca71fb932a8" (tx "DATA");
   up "688e94a51ee508a95e761294afb7a6004b432c15d9890c80ddf23bde8caa4c26" (tx "DATA");
   up "c006af35e3b4ca022ab986593a148b4f196f186168ee96604eeaa7e338e66ac1" (tx "DATA");
   up "c1a9fae908008d34f389b1dba2a1a8e8301f7a942412ef6e6299c9e27e89dfaa" (tx "DATA");
   up "560231689713a5933b6c8ac3e6b2f243730e49e1c6b0c610c41e8e8dad26044c" (tx "DATA");
   up "fe5b0deca006174e2151088e1a7d60fe91819467db5d709ae5a19c01a3cd3e3f" (tx "DATA");
   up "2de44621c76edf2debbc2df62ccb52c5036b1919dca3af0c0a886cc48dbfaeba" (tx "DATA");
   up "83440636eff7b2ec0f78ef7b8e480a033e8aeb67e6ecb657ce9bcdfdb21aa744" (tx "DATA");
   up "eaaf1805f2ec6a18eee5a7909f79908651341965d9f0b9de8d45d9262e5735ae" (tx "DATA");
   up "6870f86f6560dd5b0d0a47d0ae89df6a96b6a47a6258940060d75ff759634158" (tx "DATA");
   up "e882dd6a247f4ada1f700f1918bd23b7c730ad62af15f5cec8de976cbad09691" (tx "DATA");
   up "51be0458d20b1ce2ff5316e7e473109c26f5d8b457037edf8c4529f6ff82bddb" (tx "DATA");
   up "0f65dd2d76efb602f9554514892751d5cf336a56c3888aa8cb122e970016949a" (tx "DATA");
   up "b9098fe78517adc23218f8cd7d804f55c977fb22185a4d8e752ab7e82e5c1d89" (tx "DATA");
   up "95534981420d9a1e5d3cd3b567c6e21f920742087ecf44c187e077cdc8497ac2" (tx "DATA");
   up "c8d26116ed30f9816a05fdf061b2535145472f388d9814e96f33f08369dbcbd0" (tx "DATA");
   up "ae3c8b8d99a39542f78af83dbbb42c81cd94199ec1b5f60a0801063e95842570" (tx "DATA");
   up "d596e806d34bd7d4304b9f00ec340f02fa90c4faa17fe39729cb15c76e0de77f" (tx "DATA");
   up "552d7d672c5bbbccfb210a425e36a1d65bc663d3d3c395114c8ebc9c7cf28394" (tx "DATA");
   up "5a05f87d329a8321f2006f4f3b11b810aeddcd21cb383b61df03824074eaffc9" (tx "DATA");
   up "daceee899cdb68711b2b16b1708d684b193062163a2ef8ca80e5a3f002212822" (tx "DATA");
   up "6b0e4bfa8dc9b19ccc121b2bd0d22da7298d7a4d72b4ba1df1bbec5d56800a66" (tx "DATA");
   up "2c19fc328bfccab923ee092d9123a9ccc9fb37bbf0d2c65d2fe12b6684ff4857" (tx "DATA");
   up "cc74c0c353fe2c007aff8dc7db556638f52260fea1dc0bce2f04002db6ad90ce" (tx "DATA");
   up "1fc244af2b96d0169a177e2559af29e0484744e4b8501d1044d76c9f7b3cf307" (tx "DATA");
   up "8ef3b0d7c4476e2c0a91ccc5867740a0549313b585345c1d12587ca2ed04e9f5" (tx "DATA");
   up "46cecbeaa7de6866910a4856ef1f7378f9dd9dfa698578637ce4ecb33e7f7bac" (tx "DATA");
   up "0d21caa7d0c6f1ff692603abec4315c560792923a6cfa5729ef8dd6d8220e0a1" (tx "DATA");
   up "0cc6a4ccca98a6360d42fde83780517edbfc32b300cd3ba0e0a5453a8166697a" (tx "DATA");
   up "683babc0c420c80a762490d4d73b271876ab07f11c80553f6e9125fb82c734f0" (tx "DATA");
   up "f8de494d620f85b1cfed002bb1ea4fbf93f7eaa4b4b8a5c7f145b3cab041c0d3" (tx "DATA");
   up "75ce1f4e6c052ea6fec089042a96928fda84ea969c99b35f6894a1819226ac5e" (tx "DATA");
   up "e696a8ec6b7f294aa56059125664931f12997987bb52fffefc209d35492adc3c" (tx "DATA");
   up "af0ff5439963767457709e63313da23382a6292190e2de1ba9c6c87dc6a1927e" (tx "DATA");
   up "4082763076bdaee3a85e52eb5893169d45d057397616251e0e699e6403238e66" (tx "DATA");
   up "15b165510f75144be8633336a97ac62c664d5c436db297fc13fb4d3ac147d7fd" (tx "DATA");
   up "31b67dba7cfd6e2d7540f9c96d90a45b8f2d44956620723024d4e1beeacd4602" (tx "DATA");
   up "d99e58435243d9fef9c88273b8d553b4fba4d0baf8009d29eae74fa99e0d9f57" (tx "DATA");
   up "d88c86f15bbea365d658ad95a81d45367c465f7af6f7264fb077f01747ddc77d" (tx "DATA");
   up "03e3c2420f5066a5fa6e36735ed8cc4f6a251046263e1a6024f009deeee3b952" (tx "DATA");
   up "825ac1bb838d399fb1ba55a6247e2c8c7a0c3ec25898f3c94dbfb51fa6e73951" (tx "DATA");
   up "ad286c64373644140ff927b256b8415467b5d27645ff997010b15519d022631b" (tx "DATA");
   up "03a88c8867b3fbcfeefc3270af46afbeb74a27e12cad758e188154cb4aa923dc" (tx "DATA");
   up "569ce7ffc5ab3343d40276040602bb1e6d9a9f9aeb5c25e2c65f2d3c1b867ff4" (tx "DATA");
   up "514970ce425bbbe11b969e5cd683f4c1b7722f7f026b45006c53a8031b2fc32e" (tx "DATA");
   up "719b774d7d3b2ebd5e2ce1cde4f59a2ebb8f1f7069daa0baecc564a83abd5bc6" (tx "DATA");
   up "a5e537813128ccca735d65a9027cd5057d164fc78f25e55128e17a501851d585" (tx "DATA");
   up "3f08f60bf2a0754139d918d80882ef46cd0257bd2f62ef5d8a1e28175c4360cc" (tx "DATA");
   up "5d6941b983cd61008a67cd3865fe78cc6a4f0966f2c3fb27e1a3ec6667a545dd" (tx "DATA");
   up "90a21fd1ef7b2ead7bf8b13df631f94dd0b1c0ab174a64fb9ea5d37fdad4b150" (tx "DATA");
   up "dbf8f061b38993c8d7dc1f521c3df09f31359d1fb947e19efac98362f99d46de" (tx "DATA");
   up "0a62d0f80072eafa5d94b92a01043d978e9ec6a473f4d4c883db99221a78fe2f" (tx "DATA");
   up "b310919be4d5c7892739294545b85928746fa6b90e568f04af5fb6c48379c3a9" (tx "DATA");
   up "4149d67891c7efddad38eb590d537d3f33a25d6454ffba671e1c20cf5824a22c" (tx "DATA");
   up "16ab79353cdbc2bef69a106f68d5f6b5adc70bce130df5a523212826ef117d3f" (tx "DATA");
   up "d8063c1eafe3b5fd49d4c8e8737316ba79a8729f7364426382c575422af3f84d" (tx "DATA");
   up "59310b9b2c75881cf3edca5da5a755ed36ed737945a84c6e50c657de0c513c7e" (tx "DATA");
   up "800b108f968347f00ac77eb6511893e19dde9e8aba637d28efceb636369a817c" (tx "DATA");
   up "acdcbc039caf8f6b1cbc24d2f87a03785d8f60ed23be607d17950d62ea8c33f5" (tx "DATA");
   up "dfe4224c822504739c7efea90fd28bf76a31a68ecb99096166eab251f5535a17" (tx "DATA");
   up "eb23c65a4244616063b70d7502b960e5d5d07b51a02472ab8a01e7482da34e47" (tx "DATA");
   up "97efc1907815f13e6a02d4149a09e9a5389388ed6def2c1260cfec26d3b19f3f" (tx "DATA");
   up "3523d19074cac2abcc3ace63b121eefa537c8e4070e30875ba5685f46bb010ef" (tx "DATA");
   up "b16a7efa6c4b528ecbe9db04df4d2bb4e555efe819233c9134311fa0a463e5f5" (tx "DATA");
   up "702a137706cb2ef04842c238c2b37fed632682838b99b0a6f504cf6b0188dafd" (tx "DATA");
   up "b70aeff402d30d7d55ee164fd109ce3942fe50343ae513b3c3f7be9db96ea46d" (tx "DATA");
   up "32fc4a6ccd676bae363546309128ef7c88d983c78688d2d53584af11c8a0be9c" (tx "DATA");
   up "43b728ce5e336e2e48a38a61805a73c094e7c1e6bbd6f85bedd679986aea5bfb" (tx "DATA");
   up "920218ce21e9b273c4110f07c5803f74266a7b9ca388285752a3924acfb96cf6" (tx "DATA");
   up "b894454077582b5d5aad1f58872264afc2ddb8d95683fb8c005e3f98c2aa26f8" (tx "DATA");
   up "ca3076acbb6ec2b695ebf174caa57ef3f8421707948a72029cc3836b9572c9d7" (tx "DATA");
   up "d2febf3079d64fcc48205885b66974fbecac6162a3e75761b082c228e364dd7e" (tx "DATA");
   up "0f471c818c185f9c35ddd6c05738371e15c29a8f9d9a3b244f30652f48c2aa69" (tx "DATA");
   up "a40fb80ad4287819ecda5efac01c74c78d7cb00ca5f9eb5f6c0f19bd09936ac1" (tx "DATA")] = passed).

(** tests-data/fixtures/Test Update 2 Delete 1.yaml *)
Check (eq_refl passed <: sparse_fixture "Test Update 2 Delete 1" "39f36a7cb4dfb1b46f03d044265df6a491dffc1034121bc1071a34ddce9bb14b"
  [up "df3f619804a92fdb4057192dc43dd748ea778adc52bc498ce80524c014b81119" (tx "DATA");
   up "b40711a88c7039756fb8a73827eabe2c0fe5a0346ca7e0a104adc0fc764f528d" (tx "DATA");
   del "b40711a88c7039756fb8a73827eabe2c0fe5a0346ca7e0a104adc0fc764f528d"] = passed).

(** tests-data/fixtures/Test Update 2.yaml *)
Check (eq_refl passed <: sparse_fixture "Test Update 2" "8d0ae412ca9ca0afcb3217af8bcd5a673e798bd6fd1dfacad17711e883f494cb"
  [up "df3f619804a92fdb4057192dc43dd748ea778adc52bc498ce80524c014b81119" (tx "DATA");
   up "b40711a88c7039756fb8a73827eabe2c0fe5a0346ca7e0a104adc0fc764f528d" (tx "DATA")] = passed).

(** tests-data/fixtures/Test Update 3.yaml *)
Check (eq_refl passed <: sparse_fixture "Test Update 3" "52295e42d8de2505fdc0cc825ff9fead419cbcf540d8b30c7c4b9c9b94c268b7"
  [up "df3f619804a92fdb4057192dc43dd748ea778adc52bc498ce80524c014b81119" (tx "DATA");
   up "b40711a88c7039756fb8a73827eabe2c0fe5a0346ca7e0a104adc0fc764f528d" (tx "DATA");
   up "433ebf5bc03dffa38536673207a21281612cef5faa9bc7a4d5b9be2fdb12cf1a" (tx "DATA")] = passed).

(** tests-data/fixtures/Test Update 5.yaml *)
Check (eq_refl passed <: sparse_fixture "Test Update 5" "108f731f2414e33ae57e584dc26bd276db07874436b2264ca6e520c658185c6b"
  [up "df3f619804a92fdb4057192dc43dd748ea778adc52bc498ce80524c014b81119" (tx "DATA");
   up "b40711a88c7039756fb8a73827eabe2c0fe5a0346ca7e0a104adc0fc764f528d" (tx "DATA");
   up "433ebf5bc03dffa38536673207a21281612cef5faa9bc7a4d5b9be2fdb12cf1a" (tx "DATA");
   up "88185d128d9922e0e6bcd32b07b6c7f20f27968eab447a1d8d1cdf250f79f7d3" (tx "DATA");
   up "1bc5d0e3df0ea12c4d0078668d14924f95106bbe173e196de50fe13a900b0937" (tx "DATA")] = passed).

(** tests-data/fixtures/Test Update Overwrite Key.yaml *)
Check (eq_refl passed <: sparse_fixture "Test Update Overwrite Key" "dd97174c80e5e5aa3a31c61b05e279c1495c8a07b2a08bca5dbc9fb9774f9457"
  [up "df3f619804a92fdb4057192dc43dd748ea778adc52bc498ce80524c014b81119" (tx "DATA");
   up "df3f619804a92fdb4057192dc43dd748ea778adc52bc498ce80524c014b81119" (tx "CHANGE")] = passed).

(** tests-data/fixtures/Test Update Sparse Union.yaml *)
Check (eq_refl passed <: sparse_fixture "Test Update Sparse Union" "e912e97abc67707b2e6027338292943b53d01a7fbd7b244674128c7e468dd696"
  [up "df3f619804a92fdb4057192dc43dd748ea778adc52bc498ce80524c014b81119" (tx "DATA");
   up "433ebf5bc03dffa38536673207a21281612cef5faa9bc7a4d5b9be2fdb12cf1a" (tx "DATA");
   up "1bc5d0e3df0ea12c4d0078668d14924f95106bbe173e196de50fe13a900b0937" (tx "DATA");
   up "b253668f6b59f1ff28522831931e4d3c5a3de533965af22e961735437c0172cb" (tx "DATA");
   up "17eb70034b5b71092521d184c5e7b069d47de657e51aef2be11a00c115036943" (tx "DATA")] = passed).

(** tests-data/fixtures/Test Update Union.yaml *)
Check (eq_refl passed <: sparse_fixture "Test Update Union" "7e6643325042cfe0fc76626c043b97062af51c7e9fc56665f12b479034bce326"
  [up "df3f619804a92fdb4057192dc43dd748ea778adc52bc498ce80524c014b81119" (tx "DATA");
   up "b40711a88c7039756fb8a73827eabe2c0fe5a0346ca7e0a104adc0fc764f528d" (tx "DATA");
   up "433ebf5bc03dffa38536673207a21281612cef5faa9bc7a4d5b9be2fdb12cf1a" (tx "DATA");
   up "88185d128d9922e0e6bcd32b07b6c7f20f27968eab447a1d8d1cdf250f79f7d3" (tx "DATA");
   up "1bc5d0e3df0ea12c4d0078668d14924f95106bbe173e196de50fe13a900b0937" (tx "DATA");
   up "e084a105a7b7d599b8346d3cba5ac51b756d7e29c7ef77fd9eff31fdeae31389" (tx "DATA");
   up "390b36a09502b05d4f8c27aea2636c6b7fd05b27d742ed32074ffea1f888ebe4" (tx "DATA");
   up "c22ceee66b8ab104483c83053173b33f992dd4fcb457284c60ef9d699a1c7059" (tx "DATA");
   up "8092fe01b9ce31a49ce380fc2fe1ee6b6b7d5c15c5f1ecb6ad98c60c4273a435" (tx "DATA");
   up "7fde8eebf388fcff667a89be60430cc6e198b1a78cb603a39cdd09885a3336e3" (tx "DATA");
   up "a7911cdfdc28e6a1867e359ba426081aacfa692fdeb3e978d2a68dd924fa8c3e" (tx "DATA");
   up "21548c66b44347d877e7b405a250121cda87cd494b122f0324f7df3b6cd75f86" (tx "DATA");
   up "bc2d9ddc9857e53598677dbea82a2583879e89ce6c032c77d825187bf3f1a943" (tx "DATA");
   up "58ec452ede72799baf21664edc953297b592ad9e95f2381710593ad7a32f31ef" (tx "DATA");
   up "79a881f99a636d0ad75f16f53668982b59f8bb96c3fbb449155fe7a08dba9cb1" (tx "DATA")] = passed).

(** tests-data/fixtures/Test Update With Empty Data Performs Delete.yaml *)
Check (eq_refl passed <: sparse_fixture "Test Update With Empty Data Performs Delete" "0000000000000000000000000000000000000000000000000000000000000000"
  [up "df3f619804a92fdb4057192dc43dd748ea778adc52bc498ce80524c014b81119" (tx "DATA");
   up "df3f619804a92fdb4057192dc43dd748ea778adc52bc498ce80524c014b81119" (tx "")] = passed).

(** tests-data/fixtures/Test Update With Empty Data.yaml *)
Check (eq_refl passed <: sparse_fixture "Test Update With Empty Data" "0000000000000000000000000000000000000000000000000000000000000000"
  [up "df3f619804a92fdb4057192dc43dd748ea778adc52bc498ce80524c014b81119" (tx "")] = passed).

(** tests-data/fixtures/Test Update With Repeated Inputs.yaml *)
Check (eq_refl passed <: sparse_fixture "Test Update With Repeated Inputs" "39f36a7cb4dfb1b46f03d044265df6a491dffc1034121bc1071a34ddce9bb14b"
  [up "df3f619804a92fdb4057192dc43dd748ea778adc52bc498ce80524c014b81119" (tx "DATA");
   up "df3f619804a92fdb4057192dc43dd748ea778adc52bc498ce80524c014b81119" (tx "DATA")] = passed).

(** common.rs, empty_sum_sha256_is_empty_hash *)
Check (eq_refl (b32 empty_sum) <: b32 (sha256 []) = b32 empty_sum).

