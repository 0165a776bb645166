{"id": "C01", "title": "Binary root is the RFC 6962 Merkle tree hash", "statement": "After pushing any sequence of leaves onto a new binary Merkle tree, root() returns exactly MTH(leaves): the hash of the empty string for no leaves, Hash(0x00||d) for one leaf, and Hash(0x01||MTH(first k)||MTH(rest)) with k the largest power of two smaller than n otherwise; no push fails or panics.", "quantifier": "every finite sequence of leaves of arbitrary byte strings (fewer than 2^62 of them), every hash function, every lawful storage that does not report errors, all build profiles", "why_tests_cant": "the shape of the tree changes with every leaf count and tests sample only a few counts", "anchors": ["src/binary/merkle_tree.rs: MerkleTree::new, push, root, join_all_subtrees, build_root_node", "src/binary/hash.rs: leaf_sum, node_sum, empty_sum", "src/binary/node.rs: create_leaf, create_node"]}
{"id": "C02", "title": "Binary prove returns the exact audit path", "statement": "For every valid leaf index i, prove(i) returns Ok(root, proof) where root equals root() and proof is the leaf hash of leaf i followed by the RFC 6962 audit path of i, ordered from the leaf to the root.", "quantifier": "every leaf sequence (< 2^62 leaves), every index below the leaf count, every hash function, every lawful error-free storage, all build profiles", "why_tests_cant": "n*(n+1)/2 tree-shape/index combinations per size; tests check a handful", "anchors": ["src/binary/merkle_tree.rs: prove, root_position, build_root_node", "src/common/position_path.rs: PositionPathIter::next", "src/common/path_iterator.rs: PathIter::next"]}
{"id": "C03", "title": "Every proof produced by prove is accepted by the proof verifier", "statement": "verify(root, proof, i, n) returns true for the root and the proof set returned by prove(i) on a tree of n leaves.", "quantifier": "every leaf sequence with 0 < n < 2^62 leaves and every index i < n, every hash function", "why_tests_cant": "prover and verifier walk the tree differently; agreement must hold for every shape", "anchors": ["test-helpers/src/binary/verify.rs: verify", "src/binary/merkle_tree.rs: prove"]}
{"id": "C04", "title": "A verified binary proof authenticates the leaf (no forgery)", "statement": "If verify accepts, against the root of n leaves and index i, a proof set whose first entry is the leaf hash of some data d, then d is the i-th leaf; otherwise two different inputs among those actually hashed (by the tree or by the verifier) collide.", "quantifier": "every sequence of fewer than 2^63 leaves, every index, candidate data and proof set of any length and content, every hash function", "why_tests_cant": "an adversarial proof set is unbounded; tests try one or two bad ones", "anchors": ["test-helpers/src/binary/verify.rs: verify", "src/binary/hash.rs: leaf_sum, node_sum"]}
{"id": "C05", "title": "prove rejects every out-of-range index", "statement": "prove(i) returns Err(InvalidProofIndex(i)) for every i not smaller than the leaf count, and never panics or returns a proof.", "quantifier": "every tree state, every u64 index, all build profiles", "why_tests_cant": "the index space is 2^64", "anchors": ["src/binary/merkle_tree.rs: prove"]}
{"id": "C06", "title": "load reproduces the tree that was pushed", "statement": "load(storage, n) on the storage left by pushing n leaves succeeds and yields a tree indistinguishable from the original: same root, same proofs, same behaviour under any further pushes.", "quantifier": "every leaf sequence (< 2^62 leaves), every continuation, every lawful error-free storage", "why_tests_cant": "peak positions depend on the binary expansion of n; tests try a few n", "anchors": ["src/binary/merkle_tree.rs: load, build, peak_positions, root_position"]}
{"id": "C07", "title": "Every historical leaf count can be loaded", "statement": "After pushing n leaves, for every m <= n, load(storage, m) succeeds and the resulting tree has the root of the first m leaves and produces the audit paths of the first m leaves.", "quantifier": "every leaf sequence, every m <= n, every index < m", "why_tests_cant": "depends on push never overwriting a node of an earlier state, for every history", "anchors": ["src/binary/merkle_tree.rs: load, build, peak_positions, push"]}
{"id": "C08", "title": "load fails exactly when a needed node is missing", "statement": "load(storage, n) on error-free storage returns Ok exactly when every peak position of an n-leaf tree has an entry, and otherwise returns LoadError carrying the in-order index of the first (leftmost) missing peak; it never panics for n < 2^62.", "quantifier": "every storage content, every leaf count below 2^62", "why_tests_cant": "arbitrary (also corrupted or partial) storage contents", "anchors": ["src/binary/merkle_tree.rs: load, build, peak_positions"]}
{"id": "C09", "title": "Equal binary roots mean equal leaf sequences", "statement": "If two leaf sequences produce the same root, they are the same sequence (same length, same order, same bytes), unless two different inputs among those actually hashed collide.", "quantifier": "every pair of leaf sequences of any (also different) lengths, every hash function", "why_tests_cant": "second-preimage/length-extension style confusions can occur for any pair of lists", "anchors": ["src/binary/hash.rs: leaf_sum, node_sum, empty_sum", "src/binary/merkle_tree.rs: root"]}
{"id": "C10", "title": "A push interrupted by a storage error leaves reloadable storage", "statement": "If push returns a storage error at any of its storage writes (whether or not the failing write reached the storage), then load(storage, n) with the old leaf count n succeeds and yields a tree with the old root and proofs; pushing the leaf again then gives the n+1-leaf tree.", "quantifier": "every leaf sequence, every failing write, every further storage behaviour of a lawful storage", "why_tests_cant": "crash points inside the join loop: one per carry, unbounded", "anchors": ["src/binary/merkle_tree.rs: push, join_all_subtrees, load"]}
{"id": "C11", "title": "A failed push leaves the in-memory tree unchanged", "statement": "If push returns an error then the same tree object still has the old root.", "quantifier": "every leaf sequence, every failing write", "why_tests_cant": "crash points inside the join loop", "anchors": ["src/binary/merkle_tree.rs: push, join_all_subtrees"]}
{"id": "C12", "title": "Storage content after pushes is exact", "statement": "After pushing n leaves on empty storage, the storage holds exactly one entry for each complete aligned subtree (block of 2^h leaves starting at a multiple of 2^h and entirely below n) at that subtree's in-order index, with value (that index, MTH of the block), and nothing else.", "quantifier": "every leaf sequence (< 2^62), every storage key", "why_tests_cant": "a statement about all keys for all n", "anchors": ["src/binary/merkle_tree.rs: push, join_all_subtrees", "src/binary/primitive.rs: From<&Node> for Primitive"]}
{"id": "C13", "title": "Push only appends: no existing entry is ever overwritten", "statement": "Pushing leaf number n writes only positions that held no entry before and leaves all other entries as they were.", "quantifier": "every leaf sequence pushed on empty storage, every storage key", "why_tests_cant": "histories of any length", "anchors": ["src/binary/merkle_tree.rs: push, join_all_subtrees"]}
{"id": "C14", "title": "root and prove are read-only", "statement": "root() and prove(i) change neither the tree nor the content of the storage, whatever they return.", "quantifier": "every tree state, every storage content, every storage error behaviour", "why_tests_cant": "must hold on all error paths too", "anchors": ["src/binary/merkle_tree.rs: root, prove, build_root_node"]}
{"id": "C15", "title": "The in-memory binary tree agrees with the specification", "statement": "binary::in_memory::MerkleTree after any pushes: root() is MTH(leaves), prove(i) is Some(root, audit path) for i < n and None for n <= i < 2^64-1.", "quantifier": "every leaf sequence (< 2^62), every index", "why_tests_cant": "all shapes", "anchors": ["src/binary/in_memory.rs: MerkleTree", "src/common/storage_map.rs: StorageMap"]}
{"id": "C16", "title": "prove reports storage problems instead of a wrong proof", "statement": "On a tree whose storage lost or corrupted entries or returns errors, prove(i) returns either an error or a proof set in which each element is a hash read from the storage or computed from the peaks held in memory; in particular if every entry still present is right, an Ok answer is the right proof.", "quantifier": "every storage content whatever (every sub-map of the correct one for the last part), every error behaviour", "why_tests_cant": "exponentially many damaged storages", "anchors": ["src/binary/merkle_tree.rs: prove"]}
{"id": "C17", "title": "Proof length is logarithmic", "statement": "The proof set returned by prove on n leaves has at most 1 + ceil(log2 n) entries.", "quantifier": "every n, every index", "why_tests_cant": "all sizes", "anchors": ["src/binary/merkle_tree.rs: prove"]}
{"id": "C18", "title": "Leaf-count limit of load", "statement": "load(storage, n) never panics, for any u64 n.", "quantifier": "every u64 leaf count, all build profiles, every storage", "why_tests_cant": "u64 arithmetic near the limits is never exercised by tests", "anchors": ["src/binary/merkle_tree.rs: load, peak_positions, root_position", "src/common/position.rs: child, from_leaf_index"]}
{"id": "C19", "title": "In-order index arithmetic: parent and child are inverse", "statement": "For every internal position, the parent of its left child and of its right child is the position itself; child heights are one less than, and the parent height one more than, the position's height.", "quantifier": "every u64 in-order index in the non-overflowing range, all build profiles", "why_tests_cant": "2^64 indices", "anchors": ["src/common/position.rs: parent, left_child, right_child, height, child"]}
{"id": "C20", "title": "Sibling and uncle laws", "statement": "sibling is an involution without fixed points that preserves height and parent; uncle is the sibling of the parent and has height one more.", "quantifier": "every u64 in-order index in the non-overflowing range, all build profiles", "why_tests_cant": "2^64 indices", "anchors": ["src/common/position.rs: sibling, uncle, parent, orientation, direction"]}
{"id": "C21", "title": "Positions are exactly (height, index) pairs", "statement": "Every in-order index below 2^64-1 is i*2^(h+1)+2^h-1 for exactly one height h and index i; height() returns h, is_leaf() says h=0, leaf positions are exactly the even indices and leaf_index inverts from_leaf_index.", "quantifier": "every u64 in-order index, every leaf index below 2^63", "why_tests_cant": "2^64 indices", "anchors": ["src/common/position.rs: height, is_leaf, is_node, leaf_index, from_leaf_index, in_order_index"]}
{"id": "C22", "title": "Position arithmetic never panics in range and never silently wraps", "statement": "parent, sibling, uncle and child give the mathematically right position, without panicking, for every position of height at most 61 (uncle: at most 60), in all build profiles.", "quantifier": "every u64 in-order index with height <= 61 (uncle: <= 60), all build profiles", "why_tests_cant": "i64 casts of u64 values >= 2^63 are never tested", "anchors": ["src/common/position.rs: parent, sibling, child, orientation, direction"]}
{"id": "C23", "title": "The path iterator over positions walks from the root to the leaf", "statement": "The path from a root of height H to leaf i < 2^H lists exactly the ancestors of leaf i from the root down to the leaf, each paired with its sibling (the root with itself).", "quantifier": "every H <= 62, every leaf i < 2^H, all build profiles for H <= 62", "why_tests_cant": "2^62 leaves", "anchors": ["src/common/path_iterator.rs: PathIter::new, PathIter::next", "src/common/path.rs: get_instruction", "src/common/msb.rs: get_bit_at_index_from_msb"]}
{"id": "C24", "title": "The position path in an imbalanced tree visits exactly the existing ancestors", "statement": "For a tree of n leaves the position path to leaf i lists from the root down exactly the ancestors of leaf i that have a non-empty right half, ending with the leaf; each is paired with the position that represents the other child of the previous path element; all listed positions exist in the n-leaf tree.", "quantifier": "every n < 2^62, every i < n", "why_tests_cant": "every imbalanced shape", "anchors": ["src/common/position_path.rs: PositionPathIter::next, PositionPath::iter", "src/common/position.rs: path"]}
{"id": "C25", "title": "Key bits are read in big-endian order", "statement": "The bit at index j of a byte array is the j-th most significant bit of the array read as a big-endian integer, and is None exactly for j >= 8*length.", "quantifier": "every byte array length and content, every index", "why_tests_cant": "2^256 keys", "anchors": ["src/common/msb.rs: get_bit_at_index_from_msb, get_bit"]}
{"id": "C26", "title": "Common prefix count is the length of the longest common bit prefix", "statement": "common_prefix_count(a,b) is the largest c such that a and b agree on the first c bits; it is symmetric, and equals 8*length exactly when a = b.", "quantifier": "every pair of byte arrays of equal length", "why_tests_cant": "2^512 pairs", "anchors": ["src/common/msb.rs: common_prefix_count"]}
{"id": "C27", "title": "Node serialization round-trips and rejects garbage", "statement": "Converting a sparse node to its primitive and back gives the same node; a primitive converts to a node exactly when its prefix byte is 0 or 1, and the error otherwise carries that byte; the binary node and primitive conversions are mutually inverse.", "quantifier": "every node, every primitive", "why_tests_cant": "all 2^8 prefixes times all contents", "anchors": ["src/sparse/primitive.rs", "src/binary/primitive.rs", "src/common/prefix.rs: TryFrom<u8>"]}
{"id": "C28", "title": "StorageMap is a map", "statement": "Any sequence of insert/remove on StorageMap answers get/contains_key/insert/remove exactly as a mathematical partial map: last write wins, insert and remove return the previous value, other keys are untouched.", "quantifier": "every operation sequence, every key type with decidable equality", "why_tests_cant": "operation histories are unbounded", "anchors": ["src/common/storage_map.rs: StorageMap"]}
{"id": "C29", "title": "Sparse root is the Merkle root of the current key-value set", "statement": "After any history of update and delete calls in which deletes target keys that are present or were never written, root() is the compressed sparse Merkle root of the resulting key-value map (32 zero bytes for the empty map), and no call fails or panics.", "quantifier": "every such history on an empty lawful error-free storage, keys arbitrary 256-bit strings not equal to a node hash occurring in the history, hash function without collisions or zero digests among the inputs occurring in the history, all build profiles", "why_tests_cant": "operation histories are unbounded and the tree shape depends on all 2^256 keys", "anchors": ["src/sparse/merkle_tree.rs: new, update, delete, root, path_set, update_with_path_set, delete_with_path_set", "src/sparse/node.rs: create_node_on_path, common_path_length"]}
{"id": "C30", "title": "Sparse root after arbitrary deletes", "statement": "After ANY history of update and delete calls, including deletes of keys that were deleted before, root() is the compressed sparse Merkle root of the resulting key-value map.", "quantifier": "every history of updates and deletes", "why_tests_cant": "operation histories are unbounded", "anchors": ["src/sparse/merkle_tree.rs: delete, delete_with_path_set"]}
{"id": "C31", "title": "Sparse root is independent of the order of operations", "statement": "Two histories that lead to the same key-value map give the same root.", "quantifier": "every pair of histories (of the kind in the root theorem) with equal final maps", "why_tests_cant": "permutations of unbounded histories", "anchors": ["src/sparse/merkle_tree.rs: update, delete, root"]}
{"id": "C32", "title": "Last write wins", "statement": "update(k, v1); update(k, v2) gives the same root as update(k, v2); repeating an update with the same data changes nothing.", "quantifier": "every tree reachable by a history, every key, all non-empty data", "why_tests_cant": "all tree shapes", "anchors": ["src/sparse/merkle_tree.rs: update, update_with_path_set"]}
{"id": "C33", "title": "Deleting a newly inserted key restores the previous root", "statement": "For a key that is not in the tree, update(k, v); delete(k) restores the root from before the update.", "quantifier": "every tree reachable by a history, every key not in it (also one that was written and deleted before), all non-empty data", "why_tests_cant": "all tree shapes, including collapsing chains of up to 256 placeholders", "anchors": ["src/sparse/merkle_tree.rs: update, delete, delete_with_path_set"]}
{"id": "C34", "title": "delete is idempotent", "statement": "Calling delete(k) a second time leaves the root unchanged.", "quantifier": "every tree, every key", "why_tests_cant": "all tree shapes", "anchors": ["src/sparse/merkle_tree.rs: delete"]}
{"id": "C35", "title": "Deleting an unknown key changes nothing", "statement": "delete(k) for a key that was never written succeeds and leaves root and storage unchanged.", "quantifier": "every tree reachable by a history, every 32-byte key never passed to update", "why_tests_cant": "2^256 keys", "anchors": ["src/sparse/merkle_tree.rs: delete"]}
{"id": "C36", "title": "Empty data means delete", "statement": "update(k, []) has exactly the effect of delete(k): same result, same root, same storage.", "quantifier": "every tree state and storage whatsoever, every key", "why_tests_cant": "all states", "anchors": ["src/sparse/merkle_tree.rs: update, delete"]}
{"id": "C37", "title": "Loading a sparse tree by its root resumes it", "statement": "load(storage, root) on the storage of a tree succeeds and behaves identically to the original tree under all further operations, and load(storage, r) never returns a tree whose root() differs from r.", "quantifier": "every tree reachable by a history, every continuation", "why_tests_cant": "unbounded histories and continuations", "anchors": ["src/sparse/merkle_tree.rs: load, root"]}
{"id": "C38", "title": "Old roots stay loadable while only updates happen", "statement": "If after some point only updates (with non-empty data) are performed, then loading any root of a non-empty tree from that point on succeeds and the loaded tree accepts further updates with the right resulting roots.", "quantifier": "every history, every sequence of updates after it", "why_tests_cant": "unbounded histories", "anchors": ["src/sparse/merkle_tree.rs: load, update"]}
{"id": "C39", "title": "Old roots stay loadable after deletes", "statement": "After a delete, roots obtained before it can still be loaded and updated.", "quantifier": "every history", "why_tests_cant": "unbounded histories", "anchors": ["src/sparse/merkle_tree.rs: delete_with_path_set, load"]}
{"id": "C40", "title": "A failed sparse operation leaves the root unchanged", "statement": "If update or delete returns an error, root() still returns the value it had before the call.", "quantifier": "every tree state, every storage content (also corrupted), every storage error behaviour", "why_tests_cant": "errors can occur at any of up to hundreds of storage calls", "anchors": ["src/sparse/merkle_tree.rs: update, delete, update_with_path_set, delete_with_path_set"]}
{"id": "C41", "title": "A failed sparse update is harmless", "statement": "If update returns a storage error at any storage call (whether or not the failing write was applied), all later updates of any keys behave as if it had not been attempted.", "quantifier": "every history, every failing call, every continuation of updates", "why_tests_cant": "crash points and continuations are unbounded", "anchors": ["src/sparse/merkle_tree.rs: update, update_with_path_set"]}
{"id": "C42", "title": "A failed sparse delete is harmless", "statement": "If delete returns a storage error, later operations still succeed and give the right roots.", "quantifier": "every history, every failing call", "why_tests_cant": "crash points", "anchors": ["src/sparse/merkle_tree.rs: delete_with_path_set"]}
{"id": "C43", "title": "Equal sparse roots mean equal key-value maps", "statement": "If two key-value maps have the same compressed sparse Merkle root, they are the same map, unless two inputs among those hashed collide or one hashes to the zero digest.", "quantifier": "every pair of maps, every hash function", "why_tests_cant": "every pair of maps", "anchors": ["src/sparse/node.rs: hash, create_leaf, create_node", "src/sparse/hash.rs: sum, sum_all, zero_sum"]}
{"id": "C44", "title": "Sparse operations terminate on any storage", "statement": "update, delete and load always terminate: a root-to-leaf walk visits at most 257 nodes, even if the stored nodes are corrupted or form cycles.", "quantifier": "every storage content and error behaviour, every root node, all build profiles", "why_tests_cant": "cyclic or corrupted storages are never tested", "anchors": ["src/common/path_iterator.rs: PathIter::next", "src/sparse/merkle_tree.rs: path_set"]}
{"id": "C45", "title": "User keys and node hashes do not interfere", "statement": "The root is the Merkle root of the key-value map, and operations do not panic, for every choice of 32-byte keys.", "quantifier": "every history, including keys equal to hashes of nodes of the tree", "why_tests_cant": "adversarial keys", "anchors": ["src/sparse/merkle_tree.rs: update, delete (leaf_key and hash share one table)"]}
{"id": "C46", "title": "load reports missing or malformed roots", "statement": "load(storage, r) returns LoadError exactly when r has no entry, DeserializeError exactly when the entry's prefix byte is neither 0 nor 1, StorageError exactly when the storage get fails, and otherwise Ok with root() equal to the hash of the entry.", "quantifier": "every storage content and error behaviour, every 32-byte r", "why_tests_cant": "all contents", "anchors": ["src/sparse/merkle_tree.rs: load", "src/sparse/primitive.rs"]}
{"id": "C47", "title": "The in-memory sparse tree agrees with the specification", "statement": "sparse::in_memory::MerkleTree after any history (of the kind in the root theorem) has the compressed sparse Merkle root of the resulting map.", "quantifier": "every such history", "why_tests_cant": "unbounded histories", "anchors": ["src/sparse/in_memory.rs"]}
{"id": "C48", "title": "Child access of a stored node", "statement": "For a leaf, and for a node with two zero child keys, both child accessors return NodeIsLeaf; for any other internal node a zero child key yields a placeholder, a missing entry yields ChildNotFound with that key, a malformed entry yields a deserialize error, a failing storage its error, and otherwise the accessor returns the stored node.", "quantifier": "every node, every storage content and error behaviour", "why_tests_cant": "all contents", "anchors": ["src/sparse/node.rs: StorageNode left_child, right_child"]}
{"id": "C49", "title": "Missing nodes are reported, not skipped", "statement": "If a node on or beside the path of the key is missing from the storage, update of that key returns ChildNotFound naming a missing key and the root is unchanged; it never computes a root from incomplete data.", "quantifier": "every history, every subset of lost entries, every key", "why_tests_cant": "exponentially many damaged storages", "anchors": ["src/sparse/merkle_tree.rs: update, path_set", "src/sparse/node.rs: left_child, right_child"]}
{"id": "C50", "title": "Sum tree root is the Merkle sum root", "statement": "After any sequence of push(fee, data) with total fee below 2^64, root() is (sum of the fees, MST(leaves)), where MST is Hash(0x00||fee||data) for one leaf and Hash(0x01||fee_l||MST_l||fee_r||MST_r) split at the largest power of two otherwise, and (0, hash of empty string) for no leaves; no call fails or panics.", "quantifier": "every sequence of fees and data with total fee < 2^64, every hash function, every lawful error-free storage, all build profiles", "why_tests_cant": "all shapes and fees", "anchors": ["src/sum/merkle_tree.rs: new, push, root, join_all_subtrees, join_subtrees", "src/sum/node.rs", "src/sum/hash.rs"]}
{"id": "C51", "title": "Total fee is exact for all u64 fees", "statement": "root() returns the exact sum of all pushed fees.", "quantifier": "every sequence of u64 fees, all build profiles", "why_tests_cant": "overflow combinations", "anchors": ["src/sum/node.rs: create_node (lhs_fee + rhs_fee)"]}
{"id": "C52", "title": "Asking for the sum root does not disturb the tree", "statement": "Calling root() any number of times, at any points between pushes, does not change any later root() result.", "quantifier": "every interleaving of push and root", "why_tests_cant": "unbounded interleavings", "anchors": ["src/sum/merkle_tree.rs: root_node, root (takes &mut self and writes intermediate nodes)"]}
{"id": "C53", "title": "Equal sum roots mean equal leaves and fees", "statement": "If two sequences of (fee, data) have the same root hash, they are the same sequence, unless two inputs among those hashed collide.", "quantifier": "every pair of sequences", "why_tests_cant": "every pair of sequences", "anchors": ["src/sum/hash.rs: leaf_sum, node_sum"]}
{"id": "C54", "title": "A failed sum-tree push leaves the tree unchanged", "statement": "If push returns a storage error, a later root() returns the old root.", "quantifier": "every sequence, every failing write", "why_tests_cant": "crash points inside the join loop", "anchors": ["src/sum/merkle_tree.rs: push, join_all_subtrees"]}
{"id": "C55", "title": "Sum tree persists every node under its hash", "statement": "After any pushes and roots on an empty storage, every storage entry is keyed by its node's hash, and every complete aligned subtree's node is present with the right fee, height, hash and child keys.", "quantifier": "every sequence with no colliding inputs, every storage key", "why_tests_cant": "all shapes", "anchors": ["src/sum/merkle_tree.rs: push, join_subtrees"]}
{"id": "C56", "title": "Hash inputs are unambiguous (domain separation)", "statement": "The byte strings hashed for leaves, internal nodes and the empty list never coincide for different nodes: leaf and node inputs differ in the first byte, and within each kind the input determines all fields, in all three trees.", "quantifier": "all leaf data, digests, keys and fees", "why_tests_cant": "all byte strings", "anchors": ["src/binary/hash.rs", "src/sum/hash.rs", "src/sparse/node.rs: hash"]}
{"id": "C57", "title": "The empty-root constant is the hash of the empty string", "statement": "The constant returned as the root of an empty binary or sum tree is SHA-256 of the empty byte string, and the empty sparse root is 32 zero bytes.", "quantifier": "a single closed fact about the constant and the SHA-256 function", "why_tests_cant": "settled by computation in the model (a unit test also covers it)", "anchors": ["src/common.rs: empty_sum_sha256", "src/sparse/hash.rs: zero_sum"]}
{"id": "C58", "title": "The reference tree and the library agree", "statement": "The streaming reference prover of the test helpers (set_proof_index, push, prove) returns the same root and the same proof set as the library's prove for every valid index.", "quantifier": "every leaf sequence, every index", "why_tests_cant": "the repository's own randomized comparison samples only 14 sizes", "anchors": ["test-helpers/src/binary/merkle_tree.rs", "src/binary/merkle_tree.rs: prove"]}
{"id": "C59", "title": "Deleting a key whose update failed", "statement": "If update(k, v) for a key not in the tree returns a storage error, a later successful delete(k) leaves the root unchanged.", "quantifier": "every history, every failing call of the update", "why_tests_cant": "The failing call has to be the right one: the entry under the user key is written first and not rolled back, so only a fault at a later storage call leaves a stale entry, and only a delete after it shows the damage.", "anchors": ["src/sparse/merkle_tree.rs:74-120", "src/sparse/merkle_tree.rs:154-227"]}
{"id": "C60", "title": "The sparse tree depends only on the storage content", "statement": "Two trees with the same root node whose storages answer the same content behave identically under any sequence of operations: same answers, same roots, same storage contents afterwards.", "quantifier": "every pair of lawful error-free storages, every content (also corrupted), every root node, every hash function, every sequence of updates and deletes, all build profiles", "why_tests_cant": "Tests run against one storage implementation (a hash map); independence of iteration order, internal layout or storage-internal state can only be sampled, never established for every storage a user may plug in.", "anchors": ["src/sparse/merkle_tree.rs:36-227", "src/storage.rs"]}
{"id": "C61", "title": "Storage calls of the binary tree", "statement": "n successful pushes onto a new tree make exactly 2n - popcount(n) inserts, no reads and no removals; a further push makes at most 1 + popcount(n) inserts even if it fails. load(n) reads exactly popcount(n) entries when it succeeds, never more, and writes nothing. prove makes exactly as many reads as its proof has entries, at most 1 + ceil(log2 n) in any case, and writes nothing.", "quantifier": "every list of leaves within the leaf limit, every lawful storage (any storage for load), every hash function, every index below 2^64-1, all build profiles", "why_tests_cant": "No test counts storage calls; a redundant read or write, or a peak written twice, changes no answer. The count for all n is an amortised argument over the binary representation of n.", "anchors": ["src/binary/merkle_tree.rs:58-260", "src/storage.rs"]}
{"id": "C62", "title": "Storage calls of the sum tree", "statement": "The sum tree never reads or removes. Pushing onto n leaves makes exactly 2 + popcount(n) - popcount(n+1) inserts, and a root request on n leaves makes exactly popcount(n) - 1 inserts.", "quantifier": "every successful sequence of pushes and root requests, every lawful storage, every hash function, every build profile within the fee limit", "why_tests_cant": "Root requests of the sum tree write to the storage, which no test observes; that this never accumulates in the list of peaks and costs exactly the missing joins has to hold for every interleaving.", "anchors": ["src/sum/merkle_tree.rs:61-140"]}
{"id": "C63", "title": "Storage calls of the sparse tree are bounded", "statement": "An update with data makes at most 512 reads, 259 inserts and no removals; a delete, or an update with empty data, at most 513 reads, 256 inserts and 257 removals; load makes one read.", "quantifier": "every storage including corrupted or cyclic ones, every tree, every key, every value, every hash function, all build profiles", "why_tests_cant": "A cyclic or corrupted storage could make the walk visit unboundedly many nodes; tests only use storages written by the library itself.", "anchors": ["src/sparse/merkle_tree.rs:56-290", "src/common/path_iterator.rs"]}
{"id": "C64", "title": "Only the genuine proof set is accepted", "statement": "If the verifier accepts a proof set for index i against the root of a tree with n leaves and the claimed count n, the proof set is exactly the one prove(i) returns (or a hash collision is exhibited).", "quantifier": "every tree within the leaf limit, every proof set of any length, every index", "why_tests_cant": "Malleable proof sets (too long, too short, other siblings, inner nodes passed off as leaves) form an unbounded space; tests try a handful of tampered proofs.", "anchors": ["test-helpers/src/binary/verify.rs:3-57", "src/binary/merkle_tree.rs:58-110"]}
{"id": "C65", "title": "A proof set fixes the index and the number of leaves", "statement": "A proof set accepted for one index and one number of leaves against a root is not accepted for another index or another number of leaves.", "quantifier": "every tree, every proof set, every claimed index and number of leaves below 2^63", "why_tests_cant": "Tests always pass the true index and count; an attacker chooses both.", "anchors": ["test-helpers/src/binary/verify.rs:3-57"]}
{"id": "C66", "title": "The verifier always answers", "statement": "The verifier never panics and never loops: it answers true or false for every root, proof set, index and number of leaves.", "quantifier": "every root, every proof set, every pair of 64-bit index and count, all build profiles", "why_tests_cant": "The overflows sit at counts near 2^64 that no tree in a test reaches, but the verifier takes the count from its caller.", "anchors": ["test-helpers/src/binary/verify.rs:3-57"]}
{"id": "C67", "title": "Crash recovery of the binary tree", "statement": "In any history of pushes, proofs, pushes that fail at any storage write followed by loads with the remembered leaf count (retried until one answers), and loads of an earlier leaf count, the tree object in use has the RFC 6962 root of exactly the leaves whose push answered Ok (cut to the loaded count), gives valid proofs, and goes on like a tree built without faults; after a further failed push, load with the remembered count answers with such a tree or reports a storage error, never a missing entry, never a panic.", "quantifier": "every history of any length, every lawful storage with faults at any call, applied or not, any initial storage content, all build profiles", "why_tests_cant": "The number of interleavings of crash points, stale entries of abandoned pushes and reloads is unbounded.", "anchors": ["src/binary/merkle_tree.rs: push, join_all_subtrees, load, build, prove"]}
{"id": "C68", "title": "A failed push can be retried on the same tree object", "statement": "If push answers a storage error, then calling push again with the same leaf on the same object, if it answers Ok, gives the tree with the leaf appended once, and the object can still be queried.", "quantifier": "every history, every failing write", "why_tests_cant": "Needs faults at a chosen write inside the join loop.", "anchors": ["src/binary/merkle_tree.rs: push, join_all_subtrees, prove"]}
{"id": "C69", "title": "Loading the next leaf count after a failed push", "statement": "After a push onto n leaves failed, load with count n + 1 answers either an error or the tree of the n + 1 leaves including the pushed one.", "quantifier": "every history, every failing write", "why_tests_cant": "Needs two faults at chosen writes of two different pushes.", "anchors": ["src/binary/merkle_tree.rs: push, load, build"]}
{"id": "C70", "title": "Only authentic entries in the storage of a sparse tree", "statement": "Whatever sequence of updates and deletes is called on a sparse tree started with an empty storage, and whichever of the calls fail, every entry of the storage is either the leaf of some attempted update (that key and the hash of that value), under its key or its hash, or an internal node stored under its hash. Hence a load from this storage that answers gives a tree whose root is the requested one, or the requested root was the key of an attempted update and the tree is that of its leaf.", "quantifier": "every sequence of calls of any length, every hash function, every lawful storage with faults at any call, all build profiles", "why_tests_cant": "Tests look at a few entries after successful runs; the claim is about every entry after every partly failed run.", "anchors": ["src/sparse/merkle_tree.rs: update, delete, update_with_path_set, delete_with_path_set, load", "src/sparse/node.rs"]}
{"id": "C71", "title": "The storage of a sparse tree is complete", "statement": "After a clean history that answered Ok, every node of the compressed sparse tree of the map (at every depth, on the path of every key) is in the storage under its hash, with the right height, prefix and children, and every key of the map has its own entry with the hash of its last value.", "quantifier": "every clean history of any length from an empty storage, every lawful storage, all build profiles; the hash is collision free on the inputs of the trees gone through", "why_tests_cant": "Tests compare roots; nodes off the checked paths are never looked at.", "anchors": ["src/sparse/merkle_tree.rs: update, delete, update_with_path_set, delete_with_path_set"]}
{"id": "C72", "title": "Crash recovery of the sparse tree and sharing of one storage", "statement": "In any history of updates and deletes (of a present key, or of one never passed to an update) that may fail at any storage call, of new trees started on the same storage, and of loads of saved roots, with loads retried until they answer, the tree in use has the root of exactly the calls that answered Ok since the state it started from. The result of an Ok call on a saved state is saved; a delete, even a failed one, ends the saved states that hold the deleted entry, and nothing else does. Every saved root can be loaded or a storage error is reported; every further call gives the expected root, or reports an error and leaves the root as it was; the error is a storage error unless a delete has ended the state in use.", "quantifier": "every history of any length from an empty storage, every lawful storage with faults at any call, all build profiles; the hash is collision free on the inputs of the trees aimed at", "why_tests_cant": "Unboundedly many interleavings of crash points, leftovers of abandoned updates and reloads of older states.", "anchors": ["src/sparse/merkle_tree.rs: update, delete, load, update_with_path_set, delete_with_path_set"]}
{"id": "C73", "title": "Every history of a sparse tree, failures and stale deletes included", "statement": "Whatever updates and deletes are called on a sparse tree started empty, and whichever calls the storage makes fail, every call answers (no panic), and the root is at all times that of a map that the answers allow: an Ok update sets its key, a failed call changes nothing, an Ok delete of a present key removes it, of a never written key does nothing, and of any other key does nothing or removes the one entry the key's path leads to. Every entry of the map was written by an update that answered Ok. Errors are storage errors, or missing nodes, the latter only after a failed delete.", "quantifier": "every sequence of calls of any length, every lawful storage with faults at any call, all build profiles; the hash is collision free on the inputs of the trees that can occur and user keys are not node hashes", "why_tests_cant": "The claim covers all interleavings of operations and fault positions.", "anchors": ["src/sparse/merkle_tree.rs: update, delete, path_set, update_with_path_set, delete_with_path_set"]}
{"id": "C74", "title": "Deleting a present key removes it", "statement": "After any history, a delete of a key that is in the map either answers Ok and gives the map without that key, or fails and leaves the root as it was.", "quantifier": "every sequence of calls of any length, every lawful storage with faults at any call, every present key", "why_tests_cant": "The exception needs the all-zero key, two entries sharing its half of the tree and a repeated delete in the other half.", "anchors": ["src/sparse/merkle_tree.rs: delete, delete_with_path_set"]}
{"id": "C75", "title": "A delete ends the older states that hold the deleted entry", "statement": "After a delete of a present key answered Ok, the leaf of the deleted key and value is no longer in the storage, so every older root of a map with that key and value has lost a node. (Every other saved root stays loadable: C72.)", "quantifier": "every history of updates, deletes, failures, loads and new trees on one storage, every lawful storage, all build profiles; the hash is collision free on the inputs of the trees aimed at", "why_tests_cant": "Which older states survive depends on all earlier histories of the shared storage.", "anchors": ["src/sparse/merkle_tree.rs: delete, delete_with_path_set, load"]}
{"id": "C76", "title": "A build with more checks panics or does what a build with fewer does", "statement": "If every check of one build (overflow checks, debug assertions) is also made by another, then on every input and every state of tree and storage the build with more checks either panics or gives the same answer and leaves the same tree and storage as the build with fewer. So whatever a debug run observes without a panic, a release run does too; overflow checks and debug assertions may be switched separately, and the widths of usize may differ.", "quantifier": "all pairs of builds, all hash functions, all storages (also failing ones), all tree values (also ones no history produces), all 64-bit indices and counts, all histories of operations; for sparse trees on builds of different usize width the heights are u32", "why_tests_cant": "Tests run one profile at a time and only on inputs where no check fires; the claim compares two programs on all inputs, including those outside the supported range.", "anchors": ["src/common/position.rs", "src/binary/merkle_tree.rs", "src/binary/verify.rs", "src/sparse/merkle_tree.rs", "src/sum/merkle_tree.rs"]}
{"id": "C77", "title": "A tree sees its storage only through the answers", "statement": "If two storages answer alike (equal answers to reads; equal success or error of writes, whatever previous value they report), then any sequence of calls on two trees that differ only in their storage gives the same answers, roots, proofs, errors and panics, and the storages stay in step. The binary tree depends on reads and inserts only, the sum tree on inserts only.", "quantifier": "all pairs of storages and relations between their states (also unlawful and failing storages), all tree values, all sequences of calls of any length, all hash functions, all build profiles", "why_tests_cant": "Tests use one storage; the claim compares runs on any two storages that cannot be told apart.", "anchors": ["src/binary/merkle_tree.rs: load, push, prove, root", "src/sparse/merkle_tree.rs: load, update, delete", "src/sum/merkle_tree.rs: push, root", "src/storage.rs"]}
{"id": "C78", "title": "Every call ends", "statement": "Every call of the trees, of the path iterators and of the reference tree ends with an answer or a panic; no loop runs for ever, whatever the tree value, the storage content or answers, and the arguments. A path between positions has at most 65 entries.", "quantifier": "all tree values (also ones no history produces), all storages (unlawful, failing, with cycles between nodes), all 64-bit positions, all sequences of calls, all build profiles", "why_tests_cant": "A test that ends says nothing about the inputs not tried; corrupted storages and wrapped arithmetic are not in the tests.", "anchors": ["src/common/path_iterator.rs", "src/common/position_path.rs", "src/binary/merkle_tree.rs: join_all_subtrees", "src/sparse/merkle_tree.rs: path_set", "src/sum/merkle_tree.rs: join_all_subtrees", "test-helpers/src/binary/merkle_tree.rs"]}
{"id": "C79", "title": "The sum tree on a failing storage", "statement": "Whatever the storage does, a sum tree answers every root request with the fee and root of a definite list of leaves: a push that answers Ok appends its leaf, a push that fails leaves the list as it was or, if it had an odd number of leaves, empties it, and root requests never change it. Started on an empty storage, every stored entry is the tree node of some of the leaves pushed (in order, some possibly missing) under its own hash, both halves of a stored node are stored, and every answered root of a non-empty tree is stored; so the whole tree below any stored node can be read back.", "quantifier": "all sequences of pushes and root requests carrying on after errors, all storages (answers), all lawful storages with failures at any call (content), all build profiles, up to 2^64 leaves", "why_tests_cant": "There are no tests with a failing storage for the sum tree; the content of the storage is never looked at.", "anchors": ["src/sum/merkle_tree.rs", "src/sum/node.rs"]}
{"id": "C80", "title": "Hexadecimal texts and encoded values", "statement": "The text written for bytes (in the LoadError of the sparse tree, in generated tests, in Debug output) is the one lower-case hexadecimal text of two digits per byte that denotes the same number; a hex value is decoded exactly when it consists of pairs of digits, in either case, and then to the bytes it denotes, and is otherwise reported as a decoding error; a value encoded as hex or base64 decodes to the bytes it was made from.", "quantifier": "all byte lists, all texts; base64 for every codec whose decoder inverts its encoder", "why_tests_cant": "Fixtures contain a few hundred well-formed values and no malformed one.", "anchors": ["test-helpers/src/data/encoded_value.rs: EncodedValue::from_raw, into_bytes", "src/sparse/merkle_tree.rs: LoadError"]}
{"id": "C81", "title": "Generated proof tests are right", "statement": "A proof test generated for any data and any index of a leaf records its labels, the root of the data, the leaf hash and audit path of the index, the index and the number of leaves, and passes when executed; with a number of leaves not above the index, or an index outside the tree, it verifies as false; with another root it verifies as false exactly if that root is not the root of the data. For an index outside the data the generator panics.", "quantifier": "all lists of 32-byte data below the leaf limit, all indices, all hash functions, every combination of build profiles", "why_tests_cant": "The generator is run on eight random samples.", "anchors": ["test-helpers/src/suites/binary_proofs.rs: generate_test", "test-helpers/src/data/binary.rs: ProofTest::execute"]}
{"id": "C82", "title": "The proof suite passes for every sample", "statement": "All eight tests of the proof suite pass whatever data the random generator picks, each with its own name, index, number of leaves and expected verdict: the valid ones verify, the ones with zero leaves, an invalid index or the invalid root do not, unless the hash function collides on the word used for the invalid root.", "quantifier": "all samples of the sizes used, all hash functions, all build profiles", "why_tests_cant": "The fixtures fix one sample each.", "anchors": ["test-helpers/src/suites/binary_proofs.rs"]}
{"id": "C83", "title": "A sparse data test decides the root", "statement": "A sparse data test whose steps are well formed passes if and only if the expected root is the root of the map its steps describe, and otherwise fails under its own name; an expected root that cannot be decoded is a decoding error and one of another length panics. The first step that is not well formed ends the test: an unknown action and an undecodable key or value with the corresponding error, a missing field or a key of another length with a panic; later steps have no effect.", "quantifier": "all tests whose steps satisfy the conditions under which sparse roots are canonical (C47), all build profiles", "why_tests_cant": "The fixtures are tests that pass; a harness that accepted everything would also pass them.", "anchors": ["test-helpers/src/data/sparse.rs: Step::execute, Test::execute"]}
{"id": "C84", "title": "Debug output shows and identifies nodes", "statement": "Formatting a node for debugging never panics. The text names the node as leaf or internal and shows each of its fields under its own label: height and fee in decimal, hash and keys in lower-case hexadecimal, the left child before the right. Two sparse nodes with the same debug text are the same node. Two internal sum nodes with the same text have the same hash, fee and children, two sum leaves with the same text are the same, and leaves and internal nodes have different texts; the text of an internal sum node does not depend on its height.", "quantifier": "all nodes, all hash functions", "why_tests_cant": "Debug output is not tested.", "anchors": ["src/sparse/node.rs: impl fmt::Debug for Node, StorageNode", "src/sum/node.rs: impl fmt::Debug for Node"]}
{"id": "C85", "title": "What a binary tree answers when it is used on after failed pushes", "statement": "Whatever calls are made on a new tree, and however its storage fails, every root request answers the RFC 6962 root of a definite list of leaves: a successful push appends its leaf, a failed push leaves the list as it was or, if its length is odd, empties it. The leaf count is the number of successful pushes. A returned proof has that root; a proof index at or beyond the leaf count is answered with InvalidProofIndex. Nothing panics, except a proof request on a tree whose list was emptied.", "quantifier": "all storages (no laws assumed), all call sequences of fewer than 2^62 (in builds without overflow checks 2^63) pushes, root requests and proof requests with index below u64::MAX, all build profiles", "why_tests_cant": "The tests never use a tree after a failed push.", "anchors": ["src/binary/merkle_tree.rs: push, join_all_subtrees, root, prove"]}
{"id": "C86", "title": "Using a tree on after a failed push and loading it again", "statement": "A tree on which calls are made after a failed push can be loaded from its storage with the leaf count it reports, and the loaded tree has its root; and every leaf count reached before the failure can still be loaded and gives the tree of that time.", "quantifier": "all lawful storages with any failures, all histories before the failure, all calls after it, all build profiles", "why_tests_cant": "The tests never use a tree after a failed push, and never load a tree whose pushes failed.", "anchors": ["src/binary/merkle_tree.rs: push, join_all_subtrees, load"]}
{"id": "C87", "title": "An accepted proof proves membership for any claim", "statement": "If the verifier accepts a proof set that starts with the leaf hash of some data against the root of a tree, then the data is a leaf of the tree and the rest of the proof set is the audit path of one of its occurrences, whatever proof index and number of leaves the verifier was given, including numbers no tree can have; otherwise a hash collision is found among the hashed inputs.", "quantifier": "all leaf lists, proof sets, data, claimed indices and leaf counts, all build profiles of tree and verifier", "why_tests_cant": "Tests use proof sets made for the index and the number of leaves they claim.", "anchors": ["test-helpers/src/binary/verify.rs: verify"]}
{"id": "C88", "title": "A damaged storage never gives a wrong root silently", "statement": "If entries of the storage of a sparse tree are lost, or are replaced by entries that still hash to the keys they are stored under, then every update, delete and load that answers Ok leads to the right root for the keys and values, and every other call reports an error and leaves the root as it was.", "quantifier": "all histories of updates and deletes mixed with failures of the storage, losses of any entries and loads of the current root, all storages keeping the storage contract, all build profiles; every set of keys and values without hash collisions among the nodes that may occur", "why_tests_cant": "Tests use intact storages; the damage may hit any set of entries at any time, and what a later call does depends on which of them its path meets.", "anchors": ["src/sparse/merkle_tree.rs: MerkleTree::load", "src/sparse/merkle_tree.rs: MerkleTree::update", "src/sparse/merkle_tree.rs: MerkleTree::delete", "src/sparse/merkle_tree.rs: MerkleTree::path_set", "src/sparse/node.rs: StorageNode as ParentNode"]}
{"id": "C89", "title": "The storage content of a sparse tree is exact", "statement": "After any updates and deletes on a sparse tree made from an empty storage, the storage holds exactly the following, and nothing else: an update stores the leaf under its key and the new nodes on the path of the key under their hashes; a delete of a key with a stored entry drops the nodes on the old path and stores those on the new path, and keeps the entry of the key; a delete of any other key, or on the empty tree, changes nothing. The root is that of the map these calls lead to.", "quantifier": "all sequences of updates and deletes (stale deletes included), all storages keeping the storage contract, all build profiles; no hash collisions among the nodes of the maps passed through", "why_tests_cant": "Tests look at roots only; what is kept or dropped under which hash, for arbitrary histories, is not looked at.", "anchors": ["src/sparse/merkle_tree.rs: MerkleTree::update", "src/sparse/merkle_tree.rs: MerkleTree::delete", "src/sparse/merkle_tree.rs: update_with_path_set", "src/sparse/merkle_tree.rs: delete_with_path_set"]}
{"id": "C90", "title": "Deleting every key empties the storage", "statement": "If all keys of a sparse tree have been deleted, its storage holds no entry any more.", "quantifier": "all sequences of updates and deletes that delete only present or never written keys, all storages keeping the storage contract, all build profiles", "why_tests_cant": "Tests do not look at the storage after deletes; what is left depends on the whole history.", "anchors": ["src/sparse/merkle_tree.rs: MerkleTree::delete", "src/sparse/merkle_tree.rs: delete_with_path_set"]}
{"id": "C91", "title": "The storage content of a sum tree is exact", "statement": "A sum tree writes nodes in a fixed order: a push writes the nodes over the aligned blocks of 2^h leaves that end with the new leaf, smallest first; a root request writes the nodes joining the complete blocks from the last one on. If a call fails, a beginning of this list of writes has been carried out, and nothing else has changed. After calls that all answer Ok, starting from an empty storage, the entries are exactly: the nodes over the complete aligned blocks of the leaves pushed, and all nodes of each tree whose root was asked for, each under its hash with its height, fee and the keys of its children. With one root request at the end these are the nodes of the Merkle tree over all leaves and nothing else.", "quantifier": "all sequences of pushes and root requests with up to 2^64 leaves, all fees that fit the build profile, all storages keeping the storage contract (failing ones included for the order of writes), all build profiles; no hash collision for the exact set", "why_tests_cant": "Tests look at roots; the set of nodes in the storage after arbitrary interleavings and failures is never inspected.", "anchors": ["src/sum/merkle_tree.rs: MerkleTree::push", "src/sum/merkle_tree.rs: MerkleTree::root", "src/sum/merkle_tree.rs: join_all_subtrees", "src/sum/merkle_tree.rs: join_subtrees"]}
{"id": "C92", "title": "A binary tree loaded from an untrusted storage and checked by its root", "statement": "If load(storage, n) succeeds on a storage of any content and the root of the loaded tree is the root of n known leaves, then all further pushes, root and proof requests are answered as by the tree of these leaves, unless two of the inputs hashed for the two roots collide: checking the root once is enough.", "quantifier": "all storage contents, all leaf lists, all sequences of further calls, storages that may fail at any call, all hash functions, all build profiles, fewer than 2^62 (in builds without overflow checks 2^63) leaves and calls", "why_tests_cant": "Tests load only from storages the tree itself has written; nothing is checked about foreign or corrupted content.", "anchors": ["src/binary/merkle_tree.rs: MerkleTree::load", "src/binary/merkle_tree.rs: MerkleTree::build", "src/binary/merkle_tree.rs: MerkleTree::root", "src/binary/merkle_tree.rs: join_all_subtrees", "src/binary/primitive.rs: From<&Primitive> for Node"]}
{"id": "C93", "title": "Several sparse trees in one storage", "statement": "Sparse trees that are kept in one storage, one being opened after the other with new or with load of any root answered before (forks of older versions included), do not disturb each other: every session that answers Ok ends with the root of the key-value map of the version it started from, changed by its calls, and every version can be opened again later.", "quantifier": "all sequences of sessions, each starting from any version reached so far or from an empty tree and making any calls; storages that may fail at any call; all build profiles; no hash collision among the inputs of the roots passed through", "why_tests_cant": "Tests use one tree per storage; the interplay of several versions over shared nodes and shared leaf-key entries is never exercised.", "anchors": ["src/sparse/merkle_tree.rs: MerkleTree::load", "src/sparse/merkle_tree.rs: MerkleTree::update", "src/sparse/merkle_tree.rs: MerkleTree::delete", "src/sparse/merkle_tree.rs: update_with_path_set", "src/sparse/merkle_tree.rs: delete_with_path_set"]}
{"id": "C94", "title": "Every sequence of calls on the reference tree", "statement": "On the reference tree of the test helpers, set_proof_index panics exactly when a leaf has been pushed; root answers the RFC 6962 root of the leaves pushed so far and leaves_count their number at any time; prove answers this root and the leaf hash and audit path of the index set last, of index 0 if none was set, and an empty proof set if there is no leaf of that index. No other call panics.", "quantifier": "all sequences of fewer than 2^64 calls, all u64 indices, all leaf data, all hash functions, all build profiles", "why_tests_cant": "The reference tree is the oracle the test suites compare with; it is itself tested on a few fixed leaf counts with an index set once.", "anchors": ["test-helpers/src/binary/merkle_tree.rs: MerkleTree::new", "test-helpers/src/binary/merkle_tree.rs: MerkleTree::set_proof_index", "test-helpers/src/binary/merkle_tree.rs: MerkleTree::push", "test-helpers/src/binary/merkle_tree.rs: MerkleTree::root", "test-helpers/src/binary/merkle_tree.rs: MerkleTree::prove"]}
{"id": "C95", "title": "The randomised tests pass for every draw", "statement": "The tests test_roots, test_prove and test_load of tests/binary.rs, which compare the tree with the reference tree on random samples of test data, pass for whatever samples of whatever size and whatever proof indices below the sample size are drawn: no assertion fails and no unwrap panics.", "quantifier": "all lists of samples with fewer than 2^62 leaves (debug builds) or 2^63 leaves (release builds) each, all data, all indices in range, all hash functions", "why_tests_cant": "These are the tests; each run checks fourteen random samples of at most 10000 leaves.", "anchors": ["tests/binary.rs: test_roots", "tests/binary.rs: test_prove", "tests/binary.rs: test_load", "src/binary/merkle_tree.rs: MerkleTree", "test-helpers/src/binary/merkle_tree.rs: MerkleTree"]}
{"id": "C96", "title": "The exact calls of a sparse tree to its storage", "statement": "The calls an update or delete makes to the storage are a function of the map the tree holds and of whether the storage holds the key: an update writes the leaf under its hash and under its key, reads both children of each node on the path of the key, the one on the path first, and writes the new nodes from the bottom up; a delete reads the key, walks the same way, removes the old nodes from the bottom up and writes the new ones. Each call is made exactly once, in this order, with these values. If a call fails, the calls up to it have been made, the operation answers with its error, and nothing follows except, after a failed read of the walk, at most two further reads.", "quantifier": "all sequences of updates and deletes, deletes of absent keys included, on an empty storage, all lawful storages with arbitrary failures, all hash functions without collisions among the nodes met and where no key is a node hash, all build profiles", "why_tests_cant": "The tests look at roots and proofs; a call made twice, in another order or after a failure only shows on a storage that is remote, metered or fails half-way.", "anchors": ["src/sparse/merkle_tree.rs: MerkleTree::update", "src/sparse/merkle_tree.rs: MerkleTree::delete", "src/sparse/merkle_tree.rs: MerkleTree::update_with_path_set", "src/sparse/merkle_tree.rs: MerkleTree::delete_with_path_set", "src/common/path_iterator.rs: PathIter"]}
{"id": "C97", "title": "The exact calls of a binary tree to its storage", "statement": "A push writes the leaf and then, from the bottom up, the root of every full subtree it completes, and reads nothing; a load reads the peaks of the leaf count from left to right and writes nothing; a proof of leaf i reads the leaf and then the roots of the subtrees on its RFC 6962 audit path from the bottom up. Each call is made exactly once, in this order. A call ends at the first call of the storage that fails, with its error, or, for loads and proofs, at the first read that finds nothing and that cannot be recomputed, with a load error naming it.", "quantifier": "all leaf counts up to 2^63 (pushes) or below the limit of the profile (loads, proofs), all leaf data, all storages, lawful or not, with arbitrary failures; for proofs also any change of the storage after the pushes; all hash functions, all build profiles", "why_tests_cant": "The tests look at roots and proofs; reads and writes made twice, in another order or after a failure only show on a storage that is remote, metered or fails half-way.", "anchors": ["src/binary/merkle_tree.rs: MerkleTree::push", "src/binary/merkle_tree.rs: MerkleTree::load", "src/binary/merkle_tree.rs: MerkleTree::prove", "src/binary/merkle_tree.rs: MerkleTree::join_all_subtrees"]}
{"id": "C98", "title": "A sparse tree on a storage filled by others", "statement": "A sparse tree can be opened on any storage that holds the nodes of its map under their hashes, however they got there and whatever else the storage holds as long as nothing else is in the places of its nodes: load of the root of the map succeeds, and any further updates and deletes give the root of the map changed by them.", "quantifier": "all maps, all storage contents that hold their nodes (other trees' nodes, foreign entries and entries of keys included), all continuations; storages that may fail at any call; all build profiles; no hash collision among the inputs of the roots passed through", "why_tests_cant": "Tests load only what the same tree has stored before; storages with arbitrary other content cannot be enumerated.", "anchors": ["src/sparse/merkle_tree.rs: MerkleTree::load, new, update, delete"]}
{"id": "C99", "title": "The width of usize does not matter", "statement": "A build with a 32-bit usize and one with a 64-bit usize, making the same checks, give the same answers and leave the same trees and storages, on every call and every history, also where the subtraction of a height from the key size wraps around.", "quantifier": "both pairs of switches, all hash functions, all storages (also failing ones), all tree values and u32 heights, all 64-bit indices and counts, all histories of operations", "why_tests_cant": "Tests run on one machine; the inputs on which the arithmetic differs (root heights above 256 from an untrusted storage) occur in no test.", "anchors": ["src/common/path_iterator.rs: PathIter::new", "src/sparse/node.rs: create_node_on_path, max_height", "src/common/node.rs: key_size_in_bits"]}
{"id": "C100", "title": "The exact calls of a sum tree to its storage", "statement": "A push writes the leaf and then, from the bottom up, the node over every full subtree it completes; a root request writes the joins of the peaks from right to left; each node is written once, under its hash, and nothing is read or removed. A call ends at the first write that fails, with its error, and calls the storage no more. A push whose first write fails leaves the tree as it was; a push that fails later leaves an empty tree; a failed root request leaves the tree as it was. Later calls go on from there.", "quantifier": "every sequence of pushes and root requests carried on after errors, every storage, lawful or not, with arbitrary failures, every hash function that gives the fixed empty root on no input, every build profile within the fee limit", "why_tests_cant": "The tests run on a map that never fails and look only at roots; the order of the writes, a write made twice and the state left by a failed call show only on a storage that fails half-way.", "anchors": ["src/sum/merkle_tree.rs: MerkleTree::push", "src/sum/merkle_tree.rs: MerkleTree::root, root_node", "src/sum/merkle_tree.rs: join_all_subtrees, join_subtrees"]}
{"id": "C101", "title": "The memory of a tree is logarithmic", "statement": "Beside its storage a tree keeps only a list of subtrees. n pushes lengthen the list of a binary tree by at most log2(n+1) in all, whatever tree, storage and calls, also failing or panicking ones; a tree loaded with n leaves holds at most 1 + log2 n subtrees, even from an untrusted storage; a sum tree holds at most log2(n+1) after n pushes.", "quantifier": "all tree values, all storages with any failures, all sequences of calls with fewer than 2^64 pushes, all hash functions, all build profiles (for load: leaf counts below the limit of the profile)", "why_tests_cant": "Tests do not measure the list; a join that is skipped now and then keeps the roots right while the list grows linearly.", "anchors": ["src/binary/merkle_tree.rs: MerkleTree::push, load, join_all_subtrees", "src/sum/merkle_tree.rs: MerkleTree::push, root_node, join_all_subtrees", "src/common/subtree.rs"]}
{"id": "C102", "title": "The messages of errors are true", "statement": "When a load or a proof of a binary tree fails, its message is true and names the culprit: \"cannot load node with key K; the key is not found in storage\" only if K is not in the storage, \"proof index I is not valid\" exactly if I is the index asked for and beyond the leaves, and otherwise the storage's own message; an unknown prefix byte is named in decimal. Messages of different kinds or numbers differ.", "quantifier": "all tree values and leaf counts below the limit of the profile, all indices below 2^64-1, all lawful storages, also failing ones, with any content; all prefix bytes; all build profiles", "why_tests_cant": "Tests compare error values with what the code happens to return; whether the message is true depends on what the storage holds, over all storages and paths.", "anchors": ["src/binary/merkle_tree.rs: MerkleTreeError, MerkleTree::prove, MerkleTree::load", "src/common/prefix.rs: PrefixError"]}
{"id": "C103", "title": "A delete destroys exactly the versions that have the deleted entry", "statement": "Several versions of sparse trees are kept in one storage. A session opens one version by its root, makes updates and deletes and leaves a new version. A delete of a key that the version has removes nodes of exactly those versions that have the same key with the same data; all other versions stay complete. So sessions that start from versions still complete, and delete only keys that their map has or that no session has written, answer the root of the right map, and answer no errors but those of the storage; on an error-free storage all of them succeed and in the end all nodes of all versions not destroyed are in the storage. After the delete of an entry, the nodes of no map with the same entry are completely in the storage.", "quantifier": "all sequences of sessions of any length with any number of updates and deletes under the stated condition; all storages that obey the storage laws, failing ones included; all hash functions without a collision among the inputs of the maps passed through; all build profiles", "why_tests_cant": "Tests keep one tree in one storage and never open an older root after a delete; which of many earlier versions survive a delete depends on the nodes they share.", "anchors": ["src/sparse/merkle_tree.rs: MerkleTree::load", "src/sparse/merkle_tree.rs: MerkleTree::update", "src/sparse/merkle_tree.rs: MerkleTree::delete", "src/sparse/merkle_tree.rs: update_with_path_set", "src/sparse/merkle_tree.rs: delete_with_path_set"]}
{"id": "C104", "title": "Any number of sparse trees in turns on a shared, damaged storage", "statement": "Any number of sparse trees share one storage. They are opened empty or by loading any root met before, and used in turns with any updates and deletes (a tree left aside can be taken up again at any time), while the storage fails and loses entries at any time. Then every root met is the root of a definite map: that of the version opened or taken up, changed by the calls that answered Ok. An update sets its key. A delete of a key no tree has written does nothing; before any entry is lost a delete of a present key other than 32 zero bytes removes it; otherwise a delete does nothing or removes the entry its path leads to. Every entry of these maps comes from an update that answered Ok. A load of a root met answers a tree with that root, an error of the storage, or LoadError naming the root, whose node is then missing; a call answers Ok, an error of the storage, or ChildNotFound naming a missing node. Nothing panics, and calls that fail change no root.", "quantifier": "all sequences of calls, failures, losses of any entries, new trees, loads of any non-empty root met and returns to any tree met, from an empty storage; all lawful storages with failures at any call; all build profiles; the hash is collision free on the inputs of the maps reachable by the calls", "why_tests_cant": "the histories are unbounded interleavings of several trees with failures and losses, and deletes use entries written by other trees; tests can try only a few of them", "anchors": ["src/sparse/merkle_tree.rs: MerkleTree::load", "src/sparse/merkle_tree.rs: MerkleTree::update", "src/sparse/merkle_tree.rs: MerkleTree::delete", "src/sparse/merkle_tree.rs: update_with_path_set", "src/sparse/merkle_tree.rs: delete_with_path_set"]}
{"id": "C105", "title": "Binary tree objects that follow one log on a shared storage", "statement": "Several tree objects work on one storage at the same time. Each was made by new, or by load of a number of leaves some object had reached, and pushes the leaves of one common sequence in order, without waiting for the others: a leaf may be pushed again by an object that is behind, and pushes, loads and proofs may fail at any time. Then every object always has the root of the leaves it holds, answers their audit paths and goes on like a tree that is alone, or reports a storage error; and every number of leaves reached by any object can be loaded. If two objects push different leaves at the same place, this is false: a proof may then not verify.", "quantifier": "all sequences of leaves below the leaf limit, any number of objects, all interleavings of their calls, all lawful storages with failures at any call and any initial content, all build profiles", "why_tests_cant": "the interleavings of any number of objects with failing calls are unbounded; the tests of the repository use one object at a time", "anchors": ["src/binary/merkle_tree.rs: MerkleTree::new", "src/binary/merkle_tree.rs: MerkleTree::load", "src/binary/merkle_tree.rs: MerkleTree::push", "src/binary/merkle_tree.rs: MerkleTree::prove", "src/binary/merkle_tree.rs: MerkleTree::root"]}
{"id": "C106", "title": "Sparse tree objects at work on one storage at the same time", "statement": "Several sparse tree objects share one storage and are used in any order, call by call; an object may be new, opened by the root of another one, or a copy of an earlier state. Condition: every call is made on an object whose map has no entry that another object's delete removed, and a delete is made only of a key that its map has or that no object has written. Then every call that answers Ok gives its object the root of the map it should have, whatever the other objects did in between, and calls answer no errors but those of the storage; nothing panics; on an error-free storage all calls succeed and in the end all nodes of all objects not spoiled by a delete are in the storage. A failed call leaves its object usable with its old map, except for the entry of a failed delete.", "quantifier": "any number of objects, all interleavings of their updates, deletes and openings under the stated condition; all storages that obey the storage laws, failing ones included; all hash functions without a collision among the inputs of the maps passed through; all build profiles", "why_tests_cant": "the interleavings of any number of objects with failing calls are unbounded; the tests of the repository use one sparse tree per storage", "anchors": ["src/sparse/merkle_tree.rs: MerkleTree::new", "src/sparse/merkle_tree.rs: MerkleTree::load", "src/sparse/merkle_tree.rs: MerkleTree::update", "src/sparse/merkle_tree.rs: MerkleTree::delete", "src/sparse/merkle_tree.rs: MerkleTree::root"]}
{"id": "C107", "title": "Sum trees at work on one storage at the same time", "statement": "Several sum tree objects share one storage and are used in any order, call by call; calls may fail with storage errors and the work goes on. Then every object answers exactly what it would answer alone on a storage of its own failing at the same calls: every root request that answers gives fee and root of the leaves this object holds, whatever the other objects did in between. On a storage that was empty at the start every stored entry is the node of consecutive leaves pushed to one of the objects (height, fee, hash, keys of both halves), under its own hash, with both halves stored too; every root answered for a non-empty tree is stored; and without a hash collision the whole tree below any stored node is right.", "quantifier": "any number of objects, all interleavings of their pushes and root requests with fees that fit and at most 2^64 leaves each; the answers on any storage whatever, the stored entries on all storages that obey the storage laws, failing ones included; all hash functions (the last part without a collision among the inputs of the objects); all build profiles", "why_tests_cant": "the interleavings of any number of objects with failing calls are unbounded; the tests of the repository use one sum tree per storage", "anchors": ["src/sum/merkle_tree.rs: MerkleTree::new", "src/sum/merkle_tree.rs: MerkleTree::push", "src/sum/merkle_tree.rs: MerkleTree::root"]}
{"id": "C108", "title": "Common parts of proofs", "statement": "Take any complete block of 2^h leaves of a binary tree, beginning at a multiple of 2^h. The first h + 1 elements of the proof of a leaf of the block are exactly the proof of that leaf in the tree made of the block alone, in the tree as it is and after any further pushes; the elements after them are the same for all leaves of the block. So a proof splits at every complete block into a part that never changes and a part shared by the block.", "quantifier": "all lists of leaves, all further pushes, all blocks and leaves; all storages that obey the storage laws without errors; all hash functions; all build profiles", "why_tests_cant": "the tests of the repository compare the proofs of a few trees with fixed values; the claim compares any tree with all its complete blocks and all its later states", "anchors": ["src/binary/merkle_tree.rs: MerkleTree::push", "src/binary/merkle_tree.rs: MerkleTree::prove"]}
{"id": "C109", "title": "Trees of different kinds with the same root", "statement": "The three kinds of trees hash leaves behind the byte 0 and inner nodes behind the byte 1, so trees of different kinds can have the same root. They have it in the following cases, and, unless two of the inputs of the two trees collide or one is hashed to 32 zero bytes, in no others. A binary and a sparse tree: the leaves of the binary tree are exactly the entries of the sparse tree in the order of the keys, each as the key followed by the digest of its data, and the trees have the same shape (in every subtree of the sparse tree with more than one entry, the entries on the left are as many as the leaves of the left subtree of the binary tree). A binary and a sum tree: both are empty, or each has one leaf, the one of the binary tree being the eight bytes of the fee followed by the data. A sum and a sparse tree: one leaf and one entry with the same bytes.", "quantifier": "all lists of leaves within the limits, all histories of the sparse tree meeting the conditions of C29, all hash functions, all storages that obey the storage laws without errors, all build profiles", "why_tests_cant": "the claim compares all trees of one kind with all of another; the tests of the repository never compare different kinds", "anchors": ["src/binary/hash.rs: leaf_sum", "src/binary/hash.rs: node_sum", "src/sparse/hash.rs: sum", "src/sparse/node.rs: Node::hash", "src/sum/hash.rs: leaf_sum", "src/sum/hash.rs: node_sum", "src/binary/merkle_tree.rs: MerkleTree::root", "src/sparse/merkle_tree.rs: MerkleTree::root", "src/sum/merkle_tree.rs: MerkleTree::root"]}
{"id": "C110", "title": "How many entries the storages hold", "statement": "A binary tree of n leaves on an empty storage holds exactly 2n less the number of one bits of n entries. Whatever calls are made on whatever tree and whichever storage calls fail: a binary tree adds at most two entries for each push, counting failed ones (plus the number of nodes a reopened tree holds in memory), and none for other calls; a sum tree at most two for each push and log2(n + 1) - 1 for each root request, n being the number of pushes; a sparse tree at most 259 for each update and 256 for each delete.", "quantifier": "all sequences of calls, all trees and storage contents (the sum tree from a new one), all storages that obey the storage laws, failing ones included, all hash functions, all build profiles", "why_tests_cant": "the bound is on all sequences of calls with failures anywhere; the tests of the repository never count the entries of a storage", "anchors": ["src/binary/merkle_tree.rs: MerkleTree::push", "src/binary/merkle_tree.rs: MerkleTree::prove", "src/sum/merkle_tree.rs: MerkleTree::push", "src/sum/merkle_tree.rs: MerkleTree::root", "src/sparse/merkle_tree.rs: MerkleTree::update", "src/sparse/merkle_tree.rs: MerkleTree::delete"]}
{"id": "C111", "title": "Starting over after failed tries", "statement": "A list of calls (pushes of a binary tree; pushes and root requests of a sum tree; updates and deletes of a sparse tree) is carried out by a new tree object, stops at a storage failure or is given up anywhere, and is started again from the beginning by a new tree object on the same storage, any number of times. The try that succeeds answers the right roots and leaves exactly the storage content that it would have left without the earlier tries.", "quantifier": "all lists of calls, all numbers of tries, all points of failure, all storages that obey the storage laws (failures may or may not have carried out the write), all build profiles; binary and sum trees: any content at the beginning, all hash functions (binary and sum with the right hash of the empty string); sparse: an empty storage at the beginning, no hash collision, and only deletes of keys that the map has at that moment or that none of the calls writes", "why_tests_cant": "every point of failure of every try of every list of calls is a case; the tests of the repository never start a list of calls again on a used storage", "anchors": ["src/binary/merkle_tree.rs: MerkleTree::push", "src/binary/merkle_tree.rs: MerkleTree::new", "src/sum/merkle_tree.rs: MerkleTree::push", "src/sum/merkle_tree.rs: MerkleTree::root", "src/sparse/merkle_tree.rs: MerkleTree::update", "src/sparse/merkle_tree.rs: MerkleTree::delete", "src/sparse/merkle_tree.rs: MerkleTree::new"]}
{"id": "C112", "title": "Errors of the storage are passed on at once", "statement": "If all calls a tree makes to its storage succeed, the answer is no storage error (it may be a panic or another error). If one fails, the call of the tree answers exactly the error of the first failed call of the storage, and makes no further call of the storage. One exception: the walk of a sparse tree reads ahead, so after a failed read it makes up to two further reads (never a write), and if a read at most two reads before found no entry or a wrong one, it answers that instead.", "quantifier": "all storages (no law is assumed: wrong, changing and failing answers), all tree values, all calls of push, prove and load of a binary tree, push and root of a sum tree, update, delete and load of a sparse tree, all hash functions and build profiles", "why_tests_cant": "no test of the repository uses a storage that fails; every call of the storage on every path is a case, and so is every tree value and every answer of the storage", "anchors": ["src/binary/merkle_tree.rs: MerkleTree::push", "src/binary/merkle_tree.rs: MerkleTree::prove", "src/binary/merkle_tree.rs: MerkleTree::load", "src/sum/merkle_tree.rs: MerkleTree::push", "src/sum/merkle_tree.rs: MerkleTree::root", "src/sparse/merkle_tree.rs: MerkleTree::update", "src/sparse/merkle_tree.rs: MerkleTree::delete", "src/sparse/merkle_tree.rs: MerkleTree::load", "src/common/path_iterator.rs: PathIter::next"]}
{"id": "C113", "title": "No tree value and no storage makes a call read or write without end", "statement": "A push onto a binary or sum tree with p subtrees makes at most 1 + p inserts, and neither reads nor removes; a root request of a sum tree at most p - 1 inserts and nothing else; a proof and a load of a binary tree at most 65 reads each and no write at all. This holds on failure and panic, too.", "quantifier": "every tree value (wrong leaf counts and lists of subtrees included), every storage (no law is assumed: one that answers every read with an entry included), every index and leaf count, all hash functions and build profiles", "why_tests_cant": "a storage that always answers and a leaf count that is a lie are cases no test has; the bound has to hold for every combination of them", "anchors": ["src/binary/merkle_tree.rs: MerkleTree::push", "src/binary/merkle_tree.rs: MerkleTree::prove", "src/binary/merkle_tree.rs: MerkleTree::load", "src/sum/merkle_tree.rs: MerkleTree::push", "src/sum/merkle_tree.rs: MerkleTree::root", "src/common/position_path.rs"]}
{"id": "C114", "title": "The cost of a sparse update or delete depends on the shared beginnings of keys only", "statement": "If the first c bits of a key tell it apart from all other keys in the tree, an update of it makes at most 2c reads and 2 + c inserts and no removals, a delete of it at most 1 + 2c reads, c inserts and 1 + c removals, also if the call fails; the number of entries in the tree does not matter. If c is the least such number, an update that succeeds makes exactly 2 + c inserts, and a delete of a key in the tree other than zero exactly 1 + c removals.", "quantifier": "every call after every sequence of updates and deletes that succeeded, deletes of absent keys included, on an empty storage, every c, all lawful storages with arbitrary failures, all hash functions without collisions among the nodes met and where no key is a node hash, all build profiles", "why_tests_cant": "The tests count no calls; a walk that goes on below the point where the keys part, or that fills the levels in between with nodes, gives the same roots on any number of examples.", "anchors": ["src/sparse/merkle_tree.rs: MerkleTree::update", "src/sparse/merkle_tree.rs: MerkleTree::delete", "src/sparse/merkle_tree.rs: MerkleTree::update_with_path_set", "src/sparse/merkle_tree.rs: MerkleTree::delete_with_path_set", "src/common/path_iterator.rs: PathIter"]}
{"id": "C115", "title": "What a delete needs of its storage", "statement": "On a storage that has lost entries, a delete without an entry under its key (or on an empty tree) answers Ok and changes nothing. Otherwise it answers Ok and gives the root without the entry its path leads to, the entry of the key itself if it is in the tree, exactly if all nodes on and beside the path of the key, the root excepted, are in the storage, whatever else is lost; if one of them is missing it answers ChildNotFound naming a missing one of them, and root and storage stay as they were.", "quantifier": "every history of updates and deletes, deletes of absent keys included, every subset of lost entries, every key, all lawful error-free storages, all hash functions without collisions among the nodes met and where no key is a node hash, all build profiles", "why_tests_cant": "Tests use complete storages; which of the subsets of lost entries stop a delete can only be said for all of them at once, and a delete that has removed nodes before it notices a missing one shows on no complete storage.", "anchors": ["src/sparse/merkle_tree.rs: MerkleTree::delete", "src/sparse/merkle_tree.rs: MerkleTree::path_set", "src/sparse/merkle_tree.rs: MerkleTree::delete_with_path_set", "src/common/path_iterator.rs: PathIter", "src/sparse/node.rs: StorageNode"]}
{"id": "C116", "title": "The paths of some keys are enough to update these keys", "statement": "Take the storage after any history, lose any entries but the root and the nodes on and beside the paths of some keys, present in the tree or not. Then any sequence of updates of these keys, in any order and with repetitions, answers Ok and gives the root the updates give on the complete storage, that is the root of the updated map. The same holds for the tree loaded from the remaining entries by its root hash.", "quantifier": "every history of updates and deletes, deletes of absent keys included, every subset of lost entries off the paths, every sequence of updates of the kept keys, all lawful error-free storages, all hash functions without collisions among the nodes met and where no key is a node hash, all build profiles", "why_tests_cant": "Tests run on complete storages. An update moves the paths of the other keys; that no later update ever needs a lost node, for all key sets, orders and lengths, is an invariant no finite set of runs shows.", "anchors": ["src/sparse/merkle_tree.rs: MerkleTree::update", "src/sparse/merkle_tree.rs: MerkleTree::path_set", "src/sparse/merkle_tree.rs: MerkleTree::update_with_path_set", "src/common/path_iterator.rs: PathIter", "src/sparse/node.rs: StorageNode", "src/sparse/merkle_tree.rs: MerkleTree::load"]}
