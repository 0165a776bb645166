# Design of the formal model of fuel-merkle

Source: `/repo` (Rust, read as text, never built or run here).  Model and proofs:
Rocq/Coq 8.16.1, standard library only, in `rocq/theories`.

## 1. Shape of the model

* **Rust semantics.**  `Base.v` fixes it: `result E A` is `Result<A,E>` as data;
  `out A` is what running code yields: `Val a`, `Panic`, or `Fuel` (loop bound of
  the *model* exhausted, which the theorems exclude); `M S A = S -> S * out A` is code
  with a `&mut` state.  On an error or a panic the state reached so far is kept, so
  "what is left behind by a failing call" is observable in the model.
* **Build profile.**  A `profile` has two switches, `overflow_checks` (an integer overflow
  panics, else it wraps) and `debug_assertions` (`debug_assert!` is compiled in), and a
  `usize_width` (32 or 64 bits).  Theorems hold for all eight builds; `Debug` and
  `Release` are the two cargo profiles on a 64-bit target.  Integers are `Z` with explicit
  range checks on each operation that can overflow.
* **Hash.**  The hash is a parameter `H : list byte -> bytes32` of the model
  (`bytes32` = byte lists of length 32, by construction).  Theorems hold for every such
  `H`.  Security theorems never assume `H` injective (no such function exists): they
  assume or conclude about collisions in an explicit finite list of inputs that are hashed
  (`has_collision`, `hash_ok`).  The binary and sum trees have the constant `empty_sum`;
  theorems about them assume `H [] = empty_sum`, which C57 proves of SHA-256.
  `Sha256.v` is an executable SHA-256 used for witnesses and conformance tests.
* **Storage.**  The crate's storage trait (`fuel_storage::Storage`, external) is a record
  of three state-threading functions get/insert/remove, any of which may fail.
  A predicate `Lawful st view` says what a storage is: reads return the last written
  value; a failing write may or may not have been applied; other keys are not touched.
  `Infallible` says no call fails.  `StorageMap` is modelled and proved lawful and
  infallible; a fault-injecting storage (`Faulty`) and a storage of functions (`FunMap`)
  are modelled and proved lawful, to show the fault theorems are not vacuous.  Some
  theorems (C36, C40, C44, C46, C48, C63) need no law at all.
* **Subtree lists.**  The linked list `Subtree<T>` is a Coq list, head first.

### Files

| Kind | Files | Content |
|---|---|---|
| vocabulary | `Base`, `Sha256`, `Storage` | semantics, SHA-256, storage trait, laws, instances |
| model | `ModelCommon`, `ModelBinary`, `ModelSparse`, `ModelSum`, `ModelVerify` | the code, function by function, each definition with file and lines; no proofs |
| specification | `Spec*` | independent of the model: RFC 6962 tree hash and audit path (`SpecBinary`), bits (`SpecBits`), positions (`SpecPosition`), verification (`SpecVerify`), compressed sparse tree and histories (`SpecSparse`, `SpecAnyRun`, `SpecLost`), storage entries (`SpecStore`, `SpecDisk`, `SpecSync`, `SpecPart`), calls to the storage (`SpecCalls`, `SpecErrors`, `SpecShort`), sum tree (`SpecSum`), call counters (`SpecCount`), maps (`SpecCommon`) |
| callers | `Runs*` | sequences of API calls, crashes and reloads |
| lemmas | `*Proofs`, `*Facts`, `*Main`, `*Steps`, `*Ops`, `*Theorems`, ... | invariants, refinements |
| witnesses | `Witness*`, `CommonWitness` | concrete runs with SHA-256: examples and counterexamples |
| properties | `Properties*` | property theorems only, each closed by `exact`, with `Print Assumptions` and an `Example` |
| tests | `Conformance` | test vectors of the repository run through the model by `vm_compute` (tests, not proofs) |

`tools/gen_manifest.py` writes `MANIFEST.json` and checks that every listed theorem exists
and every property theorem is listed.  `tools/gen_conformance.py` writes `Conformance.v`.
`seeded/LOG.jsonl` records the wrong programs the theorems were tried on.

### What is modelled

| Source | Model |
|---|---|
| `src/common/msb.rs`, `path.rs`, `prefix.rs`, `error.rs`, `node.rs`, `position.rs`, `path_iterator.rs`, `position_path.rs`, `subtree.rs`, `common.rs` | `ModelCommon.v` |
| `src/common/storage_map.rs`, `src/storage.rs` | `Storage.v` |
| `src/binary/{hash,node,primitive,merkle_tree,in_memory}.rs` | `ModelBinary.v` |
| `src/sparse/{hash,node,primitive,merkle_tree,in_memory}.rs` | `ModelSparse.v` |
| `src/sum/{hash,node,merkle_tree}.rs` | `ModelSum.v` |
| `test-helpers/src/binary/{verify,merkle_tree,node,hash}.rs` | `ModelVerify.v` |
| `fmt::Debug` impls in `src/sparse/node.rs`, `src/sum/node.rs` | `ModelDebug.v` |
| `thiserror` texts in `src/binary/merkle_tree.rs`, `src/common/prefix.rs` | `ModelDisplay.v` |
| hex text (external crate `hex`) | `ModelText.v` |
| `test-helpers/src/data/*.rs`, `test-helpers/src/suites/binary_proofs.rs` | `ModelData.v` |
| `tests/binary.rs` | `ModelTests.v` |

Not modelled: the `mod tests` parts of the sources; YAML parsing and
file access of `tests-data*/`.  The vectors of `mod tests` and all fixtures are run in
`Conformance.v`.

### Simplifications

* Loops that are not structurally bounded get a fuel argument: a constant, the length of the
  list of peaks or (verifier) the length of the proof set, as stated in the comment of the
  definition.  C44, C66 and C78 show that no call on any state exhausts it.
* A `String` is the list of its UTF-8 bytes.  The external `hex` crate is modelled, `base64` and
  `from_utf8_lossy` are parameters.  The random samples of the proof suite are arguments.
* A `HashMap` is an association list; iteration order is never observed by the crate.
* `Cow`, `Box`, cloning and borrowing disappear; `&self` methods that read a storage may
  change the storage's own state but not the tree.
* A `load` that fails gives the storage state back in the model (in Rust the storage is
  dropped); this is how a caller who reopens the storage is described.

## 2. Properties and proofs

"refuted" means that the full statement is false of the model and a concrete
counterexample is proved; the `_partial` theorem then says exactly what is true.

| Property | About | How proved |
|---|---|---|
| C01 root = MTH | `binary::MerkleTree::{new,push,root}` | invariant over pushes: head list = peaks with right hashes (`Heads`, a binary counter); induction on the leaf list |
| C02 prove | `prove`, `PositionPath` | C24 + storage invariant + scratch storage content; audit path characterised over positions |
| C03, C04 verify | verifier | loop invariant of the verifier against the audit path; soundness by induction on the path under collision-freeness of the hashed inputs |
| C05 out of range | `prove` | direct; refuted at `u64::MAX` |
| C06–C08, C18 load | `load`, `build`, `peak_positions` | peaks = side nodes of the path to leaf n in the n+1-leaf tree; storage invariant; C18 refuted in debug builds from 2^62 leaves on |
| C09 | spec | induction on tree height with domain separation |
| C10, C11, C67–C69 | `push` with failing storage, recovery | storage invariant tolerant to leftovers of failed pushes (`prefix_new`); inductive histories `recovers`; C11, C68, C69 refuted |
| C12, C13 | `push` | exact content invariant |
| C14, C16, C17 | `root`, `prove` | lawful storage; case analysis of the loop; length of the audit path; C16 also on any storage content (ReadProofs.v), each element traced to a read or a peak (SpecRead.v) |
| C15 | `in_memory` | corollary of C01, C02, C05 |
| C19–C22 | `Position` | arithmetic on i·2^(h+1)+2^h−1 with range checks |
| C23, C24 | `PathIter`, `PositionPathIter` | induction on height |
| C25, C26 | `msb.rs` | induction on bytes / bits |
| C27, C28, C48 | primitives, StorageMap, child access | case analysis / induction |
| C29, C31–C33, C35, C36 | `sparse::MerkleTree` | entry lists below a bit prefix (`sub p m`) stand for the nodes of the tree; `lands k m D` says where the path of a key ends; one update or delete is described by the list of its storage writes (`SparseProofs`, `SparseOps`), then invariants `core`, `stored`, `winv` (`SparseSteps`, `SparseMain`) |
| C30, C34, C39, C42, C45, C59, C74 | same | refuted by concrete runs (SHA-256, `vm_compute`); the strongest true variant proved as `_partial` |
| C37, C38, C46 | sparse `load` | storage invariant; C37 refuted for the empty root and for user keys |
| C40, C41, C49 | sparse ops with failing or lossy storage | root is only assigned after the last fallible call |
| C32, C33, C35, C37, C38, C41, C49 after any history | sparse ops, stale deletes included | every state reached is one that some clean run from a storage holding the same entries reaches (HistoryProofs.v, from the exact storage content of C89) |
| C43 | spec | induction on depth with domain separation |
| C44 | path iterator, `path_set` | the offset strictly increases and is bounded by 256; the model never returns `Fuel` |
| C47 | sparse `in_memory` | corollary |
| C50–C55 | `sum::MerkleTree` | as binary; C51 and C54 refuted |
| C56, C57 | hash inputs, constant | injectivity of concatenations of fixed width; computation of SHA-256("") |
| C58 | reference tree | invariant of the streaming prover |
| C60 | sparse tree on two storages | simulation |
| C61–C63 | storage call counts | counters threaded through a wrapper storage `Counted`; popcount identities |
| C64–C66 | verifier | every accepted proof set is the audit path; C64–C66 refuted in general, with exact conditions |
| C70, C71 | sparse storage content | write-wise invariant without hash assumptions (C70); `stored` invariant (C71) |
| C72 | sparse crash recovery, several trees on one storage | inductive histories `sp_recovers`, invariant `rinv` |
| C73 | arbitrary sparse histories | invariant `ginv`, nondeterministic map semantics `may` |
| C75 | what a delete takes from other saved states | `sp_recovers`, the deleted leaf is a tree node of every such state |
| C76 | a build with more checks against one with fewer | relational: `run_refines`, one congruence lemma per combinator and per function |
| C77 | storages that answer alike | simulation: `resp`, one congruence lemma per function |
| C78 | loop bounds on arbitrary states | measures: key bits left, height of a position, length of the peak list |
| C79 | sum tree on failing storages | `sum_history`; write-wise invariant "children of stored nodes are stored"; a ghost storage removes the storage laws from the statement about answers |
| C80 | `hex` 0.4 encode/decode, `EncodedValue` | positional numbers in base 16 and 256; induction on pairs of digits |
| C81 | `generate_test`, `ProofTest::execute` | C15 (in-memory proofs), completeness of `verify`; a verified proof fixes the root |
| C82 | the eight generators of the suite | instances of C81; the root is a tagged hash, "invalid" is not tagged |
| C83 | `Step`, `Test::execute` | `asks`/`breaks` classify steps; simulation by the history of C47 |
| C84 | `fmt::Debug` of nodes | decimal and hex texts are injective and cannot run into each other; the texts follow the layout of a struct in SpecText.v (DebugText.v) |
| C85, C86 | binary tree used on after failed pushes | `bin_history`; invariant `loose`: right hashes and heights, positions only known not to lie among the leaves counted before the loss; C86 refuted |
| C87 | verifier, any claimed index and number of leaves | accepted means climbed along all entries in some directions; the directions follow from the tree |
| C88 | sparse tree whose storage lost or changed entries | `lost_run`; invariant `linv`: what is stored is right, nothing need be stored; refuted by a node stored with a wrong height and by a lost key entry |
| C89, C90 | content of the storage of a sparse tree | `replay` (SpecDisk.v) is a machine over maps and disks; the list of writes of each call (`update_ok`, `delete_ok`) against it; C90 refuted |
| C91 | content of the storage of a sum tree | `writes` (SpecSumDisk.v) lists the leaves under each node written, by arithmetic on the number of leaves; the carry loop of push and the loop of root against it; blocks and joins are the subtrees of the RFC tree |
| C92 | loading a binary tree from an untrusted storage | refuted: stored positions are not bound by the root; if positions equal keys, equality of the joined root with the RFC root is pushed down to every loaded subtree (induction over the subtree list, else a collision), then the invariant of C85 |
| C93 | several sparse trees in one storage | sessions (RunsForks.v) against versions as maps (SpecForks.v); invariant: the storage holds all nodes of all versions, which updates keep; refuted with deletes |
| C94 | every sequence of calls on the reference tree | answers as a function of the leaves and the index (SpecRef.v); the invariant of C58 kept by every call |
| C95 | the randomised tests of `tests/binary.rs` | the test bodies with the random choices as arguments (ModelTests.v); corollary of C01, C02, C06 and C58 |
| C96 | the calls of a sparse tree to its storage | `Logged` records calls and outcomes; `script` (SpecCalls.v) lists the calls from the map and the content replayed in C89; each phase of update and delete (leaf writes, walk, removals, writes) against its part of the script, failures included |
| C97 | the calls of a binary tree to its storage | scripts by arithmetic on the leaf count and the RFC split (SpecCalls.v); the loops of push, load and prove on `Logged st` for an arbitrary `st`, with the invariant on the heads only |
| C98 | a sparse tree on a storage filled by others | the replay of C89 and the script of C96 started from any map and any content that holds its nodes (SpecSync.v); the invariant asks for leaves under the keys in use only, so other entries do not matter; refuted for deletes of keys without an entry |
| C99 | 32-bit against 64-bit `usize` | the congruence lemmas of C76 with equality in place of "or panics"; heights stay u32 (`Typed` storages); a wrapped offset is beyond every key in both widths |
| C100 | the calls of a sum tree to its storage | scripts by the leaves written (SpecSumDisk.v), the inductive `sum_log` (SpecSumCalls.v); the loops of push and root on `Logged st` for an arbitrary `st` |
| C101 | number of subtrees a tree keeps | a potential on the list: heights of consecutive heads strictly increase after every join, so 2^length - 1 <= pushes; no hypothesis on the storage |
| C102 | the messages of binary tree errors | texts of `thiserror` (ModelDisplay.v), decimal numbers by SpecText.v; refuted for the message of a lost leaf, which names its index instead of its key |
| C103 | versions sharing a storage, with deletes | sessions (RunsForks.v) against versions as maps, some of them spoiled (SpecShared.v); a delete drops only nodes that have the deleted entry below them, and equal hashes have equal entries below (SharedProofs.v) |
| C104 | any trees in turns on one damaged storage | events (SpecOpen.v, RunsOpen.v); invariant of C88 for the map in use, entries of keys kept for all maps met until something is lost (OpenProofs.v) |
| C105 | several binary tree objects on one storage | runs with any number of objects (RunsShare.v); invariant: the storage holds every complete block of the longest beginning of the log reached, and every object holds the peaks of its own beginning (ShareProofs.v) |
| C106 | several sparse tree objects on one storage | objects as root nodes, one call at a time (RunsCrowd.v), against the sessions of C103 with one call each; invariant: each object not spoiled has the root node of its map and all nodes of the map are stored (CrowdProofs.v) |
| C107 | several sum tree objects on one storage | objects as heads, one call at a time (RunsSumShare.v); the answers by projection on one object, the entries by the blocks each object writes (SumShare.v) |
| C108 | common parts of proofs | the audit path of a complete block is the beginning of that of the tree (PartsProofs.v, after C02 and C20) |
| C109 | trees of different kinds with one root | induction on the depth of the sparse tree, comparing the last hash input of both trees (KindsProofs.v); the order of keys is that of their bits (SpecKinds.v) |
| C110 | number of stored entries | new entries and nodes in memory together grow by two at most for a push (GrowthProofs.v); sparse: C63 carried over by C77; the exact number from C12 |
| C111 | starting over after failed tries | binary: only the places of blocks change and a complete run writes them all; sum: the writes of a try are a beginning of the writes of C91 and are written again; sparse: what is left behind are nodes of maps passed through and leaves under written keys, and two replays (C89) of the same calls on different contents agree in the end wherever a later map has a node (StartSparse.v); refuted for deletes of keys that are written later |
| C112 | errors of the storage are passed on at once | a small program logic for computations on a logged storage (`run`: the calls made and the answer; lemmas for bind, `?`, lift), applied to every function of the three trees; the walk of the sparse tree reads ahead and is treated by induction over its steps (ErrorsProofs.v); no law of storages, no hash assumption |
| C113 | bounds on storage calls for any tree value and storage | paths have at most 65 positions for any root (C78), every insert but the first shortens the list of subtrees (CountAny.v); no law of storages; the sparse tree is C63 |
| C114 | storage calls of a sparse call by the bits that tell its key apart | the depth the path ends in is the least such number (ShortProofs.v); counts on the scripts of C96 |
| C115 | deletes on storages that lost entries: exact condition and answer | the delete lemma of SparseOps.v gives the nodes read; `near_path` as in C49 (NeedProofs.v) |
| C116 | updates on a part of the storage: the paths of the updated keys are enough | invariant over the updates: the nodes on and beside the path of every kept key stay in the storage; a node beside a path that appears by splitting a leaf was the end of the path of the updated key (PartProofs.v) |

## 3. Trusted base

* Coq's kernel (and its VM, used by `vm_compute` in witnesses and tests).
* `Print Assumptions` of every property theorem prints "Closed under the global context":
  no axiom is used.  (`coqchk -o` lists seven axioms of the standard library's
  `Coq.ssr.ssrunder`, which is loaded by `lia`'s dependencies; no theorem here uses them.)
* The reading of the Rust code into Gallina (each definition cites file and lines), the
  semantics of `Base.v`, and the storage laws of `Storage.v` as the contract of the
  external trait.
* Not modelled: memory in bytes, allocation failure, stack depth (recursive drop of the
  linked list of subtrees; C101 bounds the length of that list), hashing internals of `sha2` beyond `Sha256.v`, `HashMap` internals,
  derived `Debug` texts and the `Display` of sparse errors (the hand-written `Debug` of
  nodes and the `Display` of binary tree and prefix errors are modelled),
  concurrency (none in the crate), user storages that panic,
  lists longer than an address space holds (lengths are unbounded).
