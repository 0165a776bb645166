#!/usr/bin/env python3
"""Generate rocq/theories/Conformance.v from the test vectors of /repo.
The output is committed; this script only documents where it comes from."""
import glob, os, re, sys

REPO = sys.argv[1] if len(sys.argv) > 1 else "/repo"

def parse_yaml(path):
    d = {"proof_set": []}
    lines = open(path).read().split("\n")
    sect = None
    for l in lines:
        m = re.match(r"^(\w+):\s*(.*)$", l)
        if m:
            k, v = m.groups()
            sect = k
            if v: d[k] = v
            continue
        m = re.match(r"^(-?\s*)value:\s*(\S+)", l)
        if m:
            if sect == "proof_set": d["proof_set"].append(m.group(2))
            else: d[sect] = m.group(2)
    return d

out = []
out.append('''(** Conformance.v -- TESTS, not proofs: the model, run with SHA-256 by [vm_compute],
    reproduces test vectors of the repository.  Generated by tools/gen_conformance.py from
    /repo/src/sparse/merkle_tree.rs (mod test), /repo/src/common.rs and
    /repo/tests-data-binary/fixtures/*.yaml, /repo/tests-data/fixtures/*.yaml.  The checks are run
    when this file is compiled and leave nothing behind. *)
From Coq Require Import String Ascii.
From Verif Require Import Base Sha256 Storage ModelText ModelCommon ModelBinary ModelSparse ModelVerify ModelData.
Local Open Scope string_scope.

Definition nibble (a : ascii) : N :=
  let n := N_of_ascii a in if N.ltb n 58 then N.sub n 48 else N.sub n 87.
Fixpoint unhex_list (s : string) : list byte :=
  match s with
  | String a (String b r) =>
      match Byte.of_N (N.add (N.mul 16 (nibble a)) (nibble b)) with
      | Some x => x | None => x00 end :: unhex_list r
  | _ => []
  end.
Definition unhex (s : string) : bytes32 := mk32 (unhex_list s).

Inductive op := U (i : Z) (data : list byte) | D (i : Z).
(** keys of the tests: sum(i.to_be_bytes()) for a u32 i *)
Definition key_of (i : Z) : bytes32 := sha256 (skipn 4 (u64_to_be_bytes i)).
Definition DATA : list byte := [x44; x41; x54; x41].
Definition CHANGE : list byte := [x43; x48; x41; x4e; x47; x45].

Definition step (o : op) : M (SpTree SScratch) (result (SError Empty_set) unit) :=
  match o with
  | U i d => sp_update sha256 Debug SStorageMap (key_of i) d
  | D i => sp_delete sha256 Debug SStorageMap (key_of i)
  end.
Fixpoint run (ops : list op) (t : SpTree SScratch) : option bytes32 :=
  match ops with
  | [] => Some (sp_root sha256 t)
  | o :: ops' => match step o t with
                 | (t', Val (Ok tt)) => run ops' t'
                 | _ => None
                 end
  end.
Definition sparse_test (ops : list op) (expected : string) : bool :=
  match run ops sim_new with Some r => b32_eqb r (unhex expected) | None => false end.

Definition range (a b : Z) : list Z := map (fun i => a + Z.of_nat i) (seq 0 (Z.to_nat (b - a))).
Definition Us (a b : Z) : list op := map (fun i => U i DATA) (range a b).
Definition Ds (a b : Z) : list op := map D (range a b).
''')

src = open(f"{REPO}/src/sparse/merkle_tree.rs").read()
tests = re.findall(r"fn (test_\w+)\(\) \{(.*?)\n    \}\n", src, re.S)
for name, body in tests:
    if "load" in name: continue
    m = re.search(r'expected_root = "([0-9a-f]+)"', body)
    if not m: continue
    ops = []
    toks = re.finditer(r'for i in (\d+)_u32\.\.(\d+) \{(.*?)\n        \}|tree\.(update|delete)\(&sum\(b"((?:\\x[0-9a-f]{2})+)"\)(?:, b"(\w*)")?\)', body, re.S)
    for t in toks:
        if t.group(1) is not None:
            a, b, inner = t.group(1), t.group(2), t.group(3)
            if "i * 2 + 1" in inner:
                ops.append(f"map (fun i => D (i * 2 + 1)) (range {a} {b})")
            elif "update" in inner: ops.append(f"Us {a} {b}")
            else: ops.append(f"Ds {a} {b}")
        else:
            k = int("".join(re.findall(r"\\x(..)", t.group(5))), 16)
            if t.group(4) == "delete": ops.append(f"[D {k}]")
            else:
                d = t.group(6)
                ops.append(f"[U {k} {d if d else '[]'}]")
    expr = " ++ ".join(ops) if ops else "[]"
    out.append(f'(** sparse/merkle_tree.rs, {name} *)\nCheck (eq_refl true <: sparse_test ({expr})%list\n  "{m.group(1)}" = true).\n')

out.append("""(** The fixtures use no base64. *)
Definition no64 (l : list byte) : option (list byte) := None.
Definition hx (s : string) : EncodedValue := ev_new (text s) EHex.
Definition tx (s : string) : EncodedValue := ev_new (text s) EUtf8.
Definition passed : out (result TestError unit) := Val (Ok tt).
Definition binary_fixture name root ps i n e : out (result TestError unit) :=
  proof_test_execute sha256 Debug no64
    {| pt_name := text name; pt_function_name := []; pt_description := []; pt_root := hx root;
       pt_proof_set := map hx ps; pt_proof_index := i; pt_num_leaves := n; pt_expected_verification := e |}.
Definition up (k : string) (d : EncodedValue) : Step :=
  {| sp_action := text "update"; sp_key := Some (hx k); sp_data := Some d |}.
Definition del (k : string) : Step := {| sp_action := text "delete"; sp_key := Some (hx k); sp_data := None |}.
Definition sparse_fixture name root ss : out (result TestError unit) :=
  sparse_test_execute sha256 Debug no64 {| ts_name := text name; ts_expected_root := hx root; ts_steps := ss |}.
""")
for p in sorted(glob.glob(f"{REPO}/tests-data-binary/fixtures/*.yaml")):
    d = parse_yaml(p)
    assert set(re.findall(r"encoding: (\S+)", open(p).read())) == {"hex"}
    ps = "; ".join(f'"{x}"' for x in d["proof_set"])
    out.append(f'(** tests-data-binary/fixtures/{os.path.basename(p)} *)\nCheck (eq_refl passed <: binary_fixture "{d["name"]}" "{d["root"]}" [{ps}]\n    {d["proof_index"]} {d["num_leaves"]} {d["expected_verification"]} = passed).\n')

def val(block, field):
    """the encoded value under `field:` of a step"""
    m = re.search(r"%s:\n\s+encoding: (\S+)\n\s+value: (.*)" % field, block)
    v = m.group(2).strip().strip('"')
    return m.group(1), v
for p in sorted(glob.glob(f"{REPO}/tests-data/fixtures/*.yaml")):
    src = open(p).read()
    enc, root = val(src, "expected_root")
    assert enc == "hex"
    name = re.search(r"^name: (.*)$", src, re.M).group(1)
    ss = []
    for b in re.split(r"^- ", src, flags=re.M)[1:]:
        act = re.match(r"action: (\S+)", b).group(1)
        ke, k = val(b, "key"); assert ke == "hex"
        if act == "update":
            de, d = val(b, "data")
            ss.append(f'up "{k}" ({"hx" if de == "hex" else "tx"} "{d}")')
        else:
            assert act == "delete"; ss.append(f'del "{k}"')
    body = ";\n   ".join(ss)
    out.append(f'(** tests-data/fixtures/{os.path.basename(p)} *)\nCheck (eq_refl passed <: sparse_fixture "{name}" "{root}"\n  [{body}] = passed).\n')

out.append('''(** common.rs, empty_sum_sha256_is_empty_hash *)
Check (eq_refl (b32 empty_sum) <: b32 (sha256 []) = b32 empty_sum).
''')
print("\n".join(out))
