{
 "claims": [
  {
   "property": "C01",
   "status": "proved",
   "theorems": [
    "C01_root_is_mth"
   ],
   "note": "up to 2^63 leaves"
  },
  {
   "property": "C02",
   "status": "proved",
   "theorems": [
    "C02_prove_is_audit_path"
   ],
   "note": "below 2^62 leaves in debug builds, 2^63 in release builds"
  },
  {
   "property": "C03",
   "status": "proved",
   "theorems": [
    "C03_proofs_verify"
   ],
   "note": ""
  },
  {
   "property": "C04",
   "status": "proved",
   "theorems": [
    "C04_verify_sound"
   ],
   "note": "below 2^63 leaves; the first entry of the proof set is assumed to be a leaf hash, as the verifier does not check it"
  },
  {
   "property": "C05",
   "status": "partial",
   "theorems": [
    "C05_prove_out_of_range_partial",
    "C05_prove_out_of_range_refuted"
   ],
   "note": "true for all indices but 2^64-1; refuted there"
  },
  {
   "property": "C06",
   "status": "proved",
   "theorems": [
    "C06_load_reproduces"
   ],
   "note": ""
  },
  {
   "property": "C07",
   "status": "proved",
   "theorems": [
    "C07_load_history"
   ],
   "note": ""
  },
  {
   "property": "C08",
   "status": "proved",
   "theorems": [
    "C08_load_exact",
    "C08_load_exact_release_limit_refuted"
   ],
   "note": "within the leaf limit; beyond it release builds can return a wrong tree"
  },
  {
   "property": "C09",
   "status": "proved",
   "theorems": [
    "C09_root_binding",
    "C09_mth_binding"
   ],
   "note": ""
  },
  {
   "property": "C10",
   "status": "proved",
   "theorems": [
    "C10_failed_push_reloadable"
   ],
   "note": ""
  },
  {
   "property": "C100",
   "status": "proved",
   "theorems": [
    "C100_sum_calls"
   ],
   "note": ""
  },
  {
   "property": "C101",
   "status": "proved",
   "theorems": [
    "C101_binary",
    "C101_load",
    "C101_sum"
   ],
   "note": ""
  },
  {
   "property": "C102",
   "status": "partial",
   "theorems": [
    "C102_message_true_refuted",
    "C102_message_true_partial",
    "C102_prefix_message",
    "C102_distinct_messages"
   ],
   "note": "The full statement is false: a proof of a lost leaf names the index of the leaf as the missing key, and that key may be in the storage (refuted by a concrete run). Proved for everything else: loads, the siblings of a proof, indices beyond the leaves, storage errors, prefixes; and what the message of a lost leaf names instead."
  },
  {
   "property": "C103",
   "status": "proved",
   "theorems": [
    "C103_versions_right",
    "C103_versions_answer",
    "C103_versions_intact",
    "C103_versions_spoiled"
   ],
   "note": "Versions as maps; failing storages included in the first two theorems. The last theorem shows that the condition on the versions cannot be weakened."
  },
  {
   "property": "C104",
   "status": "proved",
   "theorems": [
    "C104_roots_explained",
    "C104_next_answers"
   ],
   "note": ""
  },
  {
   "property": "C105",
   "status": "proved",
   "theorems": [
    "C105_one_log",
    "C105_two_logs"
   ],
   "note": "C105_two_logs shows that the objects must follow one log"
  },
  {
   "property": "C106",
   "status": "proved",
   "theorems": [
    "C106_objects_right",
    "C106_objects_answer",
    "C106_objects_intact"
   ],
   "note": "after C103: an action is a session of one call"
  },
  {
   "property": "C107",
   "status": "proved",
   "theorems": [
    "C107_answers",
    "C107_storage",
    "C107_subtrees"
   ],
   "note": "sum_crowd: calls on objects given by numbers"
  },
  {
   "property": "C108",
   "status": "proved",
   "theorems": [
    "C108_proof_parts"
   ],
   "note": "blocks are complete: 2^h leaves from a multiple of 2^h on"
  },
  {
   "property": "C109",
   "status": "proved",
   "theorems": [
    "C109_binary_sparse",
    "C109_binary_sum",
    "C109_sum_sparse"
   ],
   "note": "each theorem has both directions"
  },
  {
   "property": "C11",
   "status": "partial",
   "theorems": [
    "C11_failed_push_keeps_tree_partial",
    "C11_failed_push_keeps_tree_refuted",
    "C68_retry_partial"
   ],
   "note": "refuted; true for even leaf counts"
  },
  {
   "property": "C110",
   "status": "proved",
   "theorems": [
    "C110_exact",
    "C110_binary",
    "C110_sum",
    "C110_sparse"
   ],
   "note": "grown, entries: SpecGrowth.v"
  },
  {
   "property": "C111",
   "status": "partial",
   "theorems": [
    "C111_binary",
    "C111_sum",
    "C111_sparse_refuted",
    "C111_sparse_partial"
   ],
   "note": "Binary and sum trees in full. For sparse trees the full statement is false: a delete of a key that the same list writes later finds the leaf-key entry of an earlier try and deletes another key, answering Ok (refuted by a concrete run without any failure). Proved for lists whose deletes concern keys that the map has at that moment or that the list never writes."
  },
  {
   "property": "C112",
   "status": "proved",
   "theorems": [
    "C112_binary",
    "C112_sum",
    "C112_sparse"
   ],
   "note": ""
  },
  {
   "property": "C113",
   "status": "proved",
   "theorems": [
    "C113_binary",
    "C113_sum"
   ],
   "note": ""
  },
  {
   "property": "C114",
   "status": "proved",
   "theorems": [
    "C114_short_paths",
    "C114_clean_histories"
   ],
   "note": ""
  },
  {
   "property": "C115",
   "status": "proved",
   "theorems": [
    "C115_delete_needs"
   ],
   "note": ""
  },
  {
   "property": "C116",
   "status": "proved",
   "theorems": [
    "C116_part_of_the_storage",
    "C116_loaded"
   ],
   "note": ""
  },
  {
   "property": "C12",
   "status": "proved",
   "theorems": [
    "C12_storage_exact"
   ],
   "note": ""
  },
  {
   "property": "C13",
   "status": "proved",
   "theorems": [
    "C13_append_only",
    "C13_fresh_writes"
   ],
   "note": ""
  },
  {
   "property": "C14",
   "status": "proved",
   "theorems": [
    "C14_prove_read_only"
   ],
   "note": "root is a function of the tree without storage access in the model"
  },
  {
   "property": "C15",
   "status": "proved",
   "theorems": [
    "C15_in_memory"
   ],
   "note": ""
  },
  {
   "property": "C16",
   "status": "proved",
   "theorems": [
    "C16_prove_on_damaged_storage",
    "C16_prove_on_any_storage"
   ],
   "note": ""
  },
  {
   "property": "C17",
   "status": "proved",
   "theorems": [
    "C17_proof_length"
   ],
   "note": ""
  },
  {
   "property": "C18",
   "status": "partial",
   "theorems": [
    "C18_load_never_panics_partial",
    "C18_load_never_panics_refuted",
    "C18_load_debug_limit"
   ],
   "note": "refuted in debug builds from 2^62 leaves on; true below the limit"
  },
  {
   "property": "C19",
   "status": "proved",
   "theorems": [
    "C19_children",
    "C19_parent"
   ],
   "note": "height up to 62 for children, 61 for parents"
  },
  {
   "property": "C20",
   "status": "proved",
   "theorems": [
    "C20_sibling"
   ],
   "note": "height up to 61 (60 for the uncle)"
  },
  {
   "property": "C21",
   "status": "proved",
   "theorems": [
    "C21_unique_pair",
    "C21_leaf_index",
    "C21_leaf_positions"
   ],
   "note": ""
  },
  {
   "property": "C22",
   "status": "proved",
   "theorems": [
    "C22_positions_exact"
   ],
   "note": "the bound is sharp in debug builds (example)"
  },
  {
   "property": "C23",
   "status": "proved",
   "theorems": [
    "C23_position_iter",
    "C23_path_is_ancestors"
   ],
   "note": ""
  },
  {
   "property": "C24",
   "status": "proved",
   "theorems": [
    "C24_position_path"
   ],
   "note": ""
  },
  {
   "property": "C25",
   "status": "proved",
   "theorems": [
    "C25_bits_big_endian"
   ],
   "note": ""
  },
  {
   "property": "C26",
   "status": "proved",
   "theorems": [
    "C26_common_prefix"
   ],
   "note": ""
  },
  {
   "property": "C27",
   "status": "proved",
   "theorems": [
    "C27_serialization"
   ],
   "note": ""
  },
  {
   "property": "C28",
   "status": "proved",
   "theorems": [
    "C28_storage_map"
   ],
   "note": ""
  },
  {
   "property": "C29",
   "status": "proved",
   "theorems": [
    "C29_sparse_root"
   ],
   "note": ""
  },
  {
   "property": "C30",
   "status": "partial",
   "theorems": [
    "C30_arbitrary_deletes_partial",
    "C30_arbitrary_deletes_refuted"
   ],
   "note": "refuted for deletes of keys deleted before; the partial theorem gives the map the tree then has, for every history"
  },
  {
   "property": "C31",
   "status": "proved",
   "theorems": [
    "C31_order_independent"
   ],
   "note": ""
  },
  {
   "property": "C32",
   "status": "proved",
   "theorems": [
    "C32_last_write_wins",
    "C32_repeated_update",
    "C32_last_write_wins_any",
    "C32_repeated_update_any"
   ],
   "note": ""
  },
  {
   "property": "C33",
   "status": "proved",
   "theorems": [
    "C33_delete_restores",
    "C33_delete_restores_any"
   ],
   "note": ""
  },
  {
   "property": "C34",
   "status": "partial",
   "theorems": [
    "C34_delete_idempotent_partial",
    "C34_delete_idempotent_refuted"
   ],
   "note": "refuted; the partial theorem says which entry the second delete removes"
  },
  {
   "property": "C35",
   "status": "proved",
   "theorems": [
    "C35_delete_unknown",
    "C35_delete_unknown_any"
   ],
   "note": ""
  },
  {
   "property": "C36",
   "status": "proved",
   "theorems": [
    "C36_empty_data_deletes"
   ],
   "note": ""
  },
  {
   "property": "C37",
   "status": "partial",
   "theorems": [
    "C37_load_resumes_partial",
    "C37_load_resumes_any_partial",
    "C37_load_resumes_refuted",
    "C70_load_authentic"
   ],
   "note": "refuted for the empty tree and for loading a user key as a root; true for roots of non-empty trees, and (C70_load_authentic) only keys of attempted updates load with another root"
  },
  {
   "property": "C38",
   "status": "proved",
   "theorems": [
    "C38_old_roots_loadable",
    "C38_old_roots_any"
   ],
   "note": "non-empty trees; the empty root is never loadable"
  },
  {
   "property": "C39",
   "status": "partial",
   "theorems": [
    "C39_old_roots_after_delete_refuted",
    "C39_old_root_lost"
   ],
   "note": "refuted: deleting a present key always makes the previous root unloadable"
  },
  {
   "property": "C40",
   "status": "proved",
   "theorems": [
    "C40_failed_operation"
   ],
   "note": ""
  },
  {
   "property": "C41",
   "status": "proved",
   "theorems": [
    "C41_failed_update_harmless",
    "C41_failed_update_any"
   ],
   "note": ""
  },
  {
   "property": "C42",
   "status": "partial",
   "theorems": [
    "C42_failed_delete_partial",
    "C42_failed_delete_refuted"
   ],
   "note": "refuted; the root stays that of the successful calls, but later calls may fail"
  },
  {
   "property": "C43",
   "status": "proved",
   "theorems": [
    "C43_root_binding"
   ],
   "note": ""
  },
  {
   "property": "C44",
   "status": "proved",
   "theorems": [
    "C44_operations_end",
    "C44_load_ends",
    "C44_walk_bounded"
   ],
   "note": ""
  },
  {
   "property": "C45",
   "status": "partial",
   "theorems": [
    "C45_keys_and_nodes_refuted"
   ],
   "note": "refuted: wrong roots and panics; without such keys it is C29"
  },
  {
   "property": "C46",
   "status": "proved",
   "theorems": [
    "C46_load_exact"
   ],
   "note": ""
  },
  {
   "property": "C47",
   "status": "proved",
   "theorems": [
    "C47_in_memory"
   ],
   "note": ""
  },
  {
   "property": "C48",
   "status": "proved",
   "theorems": [
    "C48_child_access"
   ],
   "note": ""
  },
  {
   "property": "C49",
   "status": "proved",
   "theorems": [
    "C49_missing_reported",
    "C49_missing_reported_any"
   ],
   "note": ""
  },
  {
   "property": "C50",
   "status": "proved",
   "theorems": [
    "C50_sum_root"
   ],
   "note": "up to 2^64 leaves"
  },
  {
   "property": "C51",
   "status": "partial",
   "theorems": [
    "C51_exact_fee_partial",
    "C51_exact_fee_refuted"
   ],
   "note": "refuted: overflow panics in debug builds and wraps in release builds; otherwise exact, for any storage"
  },
  {
   "property": "C52",
   "status": "proved",
   "theorems": [
    "C52_root_undisturbed",
    "C52_all_answers"
   ],
   "note": ""
  },
  {
   "property": "C53",
   "status": "proved",
   "theorems": [
    "C53_sum_binding"
   ],
   "note": ""
  },
  {
   "property": "C54",
   "status": "partial",
   "theorems": [
    "C54_failed_push_partial",
    "C54_failed_push_refuted"
   ],
   "note": "refuted; the root is the old one or, for odd leaf counts only, the empty one"
  },
  {
   "property": "C55",
   "status": "proved",
   "theorems": [
    "C55_keyed_by_hash",
    "C55_nodes_present"
   ],
   "note": ""
  },
  {
   "property": "C56",
   "status": "proved",
   "theorems": [
    "C56_binary_inputs",
    "C56_sum_inputs",
    "C56_sparse_inputs"
   ],
   "note": ""
  },
  {
   "property": "C57",
   "status": "proved",
   "theorems": [
    "C57_empty_roots"
   ],
   "note": ""
  },
  {
   "property": "C58",
   "status": "proved",
   "theorems": [
    "C58_reference_agrees",
    "C58_reference_exact"
   ],
   "note": ""
  },
  {
   "property": "C59",
   "status": "partial",
   "theorems": [
    "C59_delete_after_failed_update_partial",
    "C59_delete_after_failed_update_refuted"
   ],
   "note": "refuted; the partial theorem says what such a delete gives"
  },
  {
   "property": "C60",
   "status": "proved",
   "theorems": [
    "C60_storage_independent"
   ],
   "note": ""
  },
  {
   "property": "C61",
   "status": "proved",
   "theorems": [
    "C61_push_calls",
    "C61_load_calls",
    "C61_prove_calls"
   ],
   "note": "up to 2^63 leaves for push, the leaf limit of the build profile otherwise"
  },
  {
   "property": "C62",
   "status": "proved",
   "theorems": [
    "C62_sum_calls"
   ],
   "note": "up to 2^64 leaves"
  },
  {
   "property": "C63",
   "status": "proved",
   "theorems": [
    "C63_sparse_calls",
    "C63_load_calls"
   ],
   "note": ""
  },
  {
   "property": "C64",
   "status": "partial",
   "theorems": [
    "C64_only_proof_partial",
    "C64_only_proof_refuted"
   ],
   "note": "refuted: the verifier does not check that the first entry is a leaf hash, the root alone is accepted; true if it is a leaf hash"
  },
  {
   "property": "C65",
   "status": "partial",
   "theorems": [
    "C65_index_and_count_partial",
    "C65_index_and_count_refuted"
   ],
   "note": "refuted; what an accepted proof set shows for any claimed index and count is membership, with the audit path"
  },
  {
   "property": "C66",
   "status": "partial",
   "theorems": [
    "C66_verify_answers_partial",
    "C66_verify_answers_refuted",
    "C66_verify_ends"
   ],
   "note": "refuted in debug builds; true in release builds and below 2^63 leaves"
  },
  {
   "property": "C67",
   "status": "proved",
   "theorems": [
    "C67_crash_recovery"
   ],
   "note": "trees stay below the leaf limit of the build profile"
  },
  {
   "property": "C68",
   "status": "partial",
   "theorems": [
    "C68_retry_partial",
    "C68_retry_refuted"
   ],
   "note": "refuted; exact dichotomy: unchanged and retryable, or (odd leaf counts only) all subtrees lost, empty root and panicking proofs"
  },
  {
   "property": "C69",
   "status": "partial",
   "theorems": [
    "C69_load_next_partial",
    "C69_load_next_refuted"
   ],
   "note": "refuted after two failed pushes; true for the first failure of a tree built in an empty storage"
  },
  {
   "property": "C70",
   "status": "proved",
   "theorems": [
    "C70_storage_authentic",
    "C70_load_authentic"
   ],
   "note": ""
  },
  {
   "property": "C71",
   "status": "proved",
   "theorems": [
    "C71_storage_complete"
   ],
   "note": ""
  },
  {
   "property": "C72",
   "status": "proved",
   "theorems": [
    "C72_sparse_recovery"
   ],
   "note": ""
  },
  {
   "property": "C73",
   "status": "proved",
   "theorems": [
    "C73_any_history"
   ],
   "note": ""
  },
  {
   "property": "C74",
   "status": "partial",
   "theorems": [
    "C74_delete_present_partial",
    "C74_delete_present_refuted"
   ],
   "note": "refuted for the key of 32 zero bytes; true for every other key"
  },
  {
   "property": "C75",
   "status": "proved",
   "theorems": [
    "C75_delete_forgets"
   ],
   "note": ""
  },
  {
   "property": "C76",
   "status": "proved",
   "theorems": [
    "C76_positions",
    "C76_binary",
    "C76_sparse",
    "C76_sum",
    "C76_verify"
   ],
   "note": ""
  },
  {
   "property": "C77",
   "status": "proved",
   "theorems": [
    "C77_binary",
    "C77_sparse",
    "C77_sum"
   ],
   "note": ""
  },
  {
   "property": "C78",
   "status": "proved",
   "theorems": [
    "C78_positions",
    "C78_binary",
    "C78_sparse",
    "C78_sum",
    "C78_reference"
   ],
   "note": "the sparse part extends C44, the verifier is C66_verify_ends"
  },
  {
   "property": "C79",
   "status": "proved",
   "theorems": [
    "C79_history",
    "C79_storage",
    "C79_subtrees",
    "C79_root_stored"
   ],
   "note": "C79_subtrees assumes no hash collision among the inputs hashed for sublists of the pushed leaves"
  },
  {
   "property": "C80",
   "status": "proved",
   "theorems": [
    "C80_hex_text",
    "C80_encoded_values"
   ],
   "note": "base64 is a parameter: its round trip is a hypothesis of that clause"
  },
  {
   "property": "C81",
   "status": "proved",
   "theorems": [
    "C81_generated_tests",
    "C81_out_of_range"
   ],
   "note": ""
  },
  {
   "property": "C82",
   "status": "proved",
   "theorems": [
    "C82_suite"
   ],
   "note": ""
  },
  {
   "property": "C83",
   "status": "proved",
   "theorems": [
    "C83_steps",
    "C83_sparse_test",
    "C83_broken_step"
   ],
   "note": "under the conditions of C47 (clean history, no hash collision)"
  },
  {
   "property": "C84",
   "status": "proved",
   "theorems": [
    "C84_sparse_debug",
    "C84_sum_debug",
    "C84_layout"
   ],
   "note": "the number and string formatting of the Rust standard library is described in ModelDebug.v"
  },
  {
   "property": "C85",
   "status": "proved",
   "theorems": [
    "C85_history"
   ],
   "note": "fewer than 2^62 calls; on a tree that lost its subtrees a proof request may panic, which ends the run"
  },
  {
   "property": "C86",
   "status": "partial",
   "theorems": [
    "C86_carry_on_partial",
    "C86_carry_on_refuted"
   ],
   "note": "refuted for the leaf count the tree reports after a failed push; true for every leaf count reached before"
  },
  {
   "property": "C87",
   "status": "proved",
   "theorems": [
    "C87_membership"
   ],
   "note": "unless the hash function has a collision among listed inputs"
  },
  {
   "property": "C88",
   "status": "partial",
   "theorems": [
    "C88_damaged_partial",
    "C88_damaged_refuted"
   ],
   "note": "refuted: heights are not covered by hashes, and a delete of a present key whose entry is lost answers Ok; with losses, failures and reloads alone no call gives a root the answers do not allow"
  },
  {
   "property": "C89",
   "status": "proved",
   "theorems": [
    "C89_storage_exact",
    "C89_clean"
   ],
   "note": "the replay follows the code in acting on stale deletes (refuted claims C30, C34); C89_clean gives the map for histories without them"
  },
  {
   "property": "C90",
   "status": "partial",
   "theorems": [
    "C90_nothing_left_partial",
    "C90_nothing_left_refuted"
   ],
   "note": "refuted: entries of keys are never removed, nor are nodes of older trees; what is left is described"
  },
  {
   "property": "C91",
   "status": "proved",
   "theorems": [
    "C91_sum_storage_exact",
    "C91_sum_content",
    "C91_sum_written",
    "C91_sum_tree"
   ],
   "note": ""
  },
  {
   "property": "C92",
   "status": "partial",
   "theorems": [
    "C92_untrusted_load_refuted",
    "C92_untrusted_load_partial"
   ],
   "note": "The full statement is false: the position inside an entry is not bound by the root, and decides which subtrees are joined (refuted with a storage of one entry, right root, wrong root two pushes later). Proved whenever every entry names its own key as its position; all else in the storage is arbitrary."
  },
  {
   "property": "C93",
   "status": "partial",
   "theorems": [
    "C93_forks_refuted",
    "C93_forks_partial",
    "C93_forks_answer_partial",
    "C93_forks_total_partial"
   ],
   "note": "The full statement is false: a delete uses the leaf-key entry another tree has written and answers Ok while deleting another key (refuted by a concrete run). Proved in full for sessions that only update, failing storages included. Sessions with deletes: C103."
  },
  {
   "property": "C94",
   "status": "proved",
   "theorems": [
    "C94_reference_calls"
   ],
   "note": ""
  },
  {
   "property": "C95",
   "status": "proved",
   "theorems": [
    "C95_random_tests_pass"
   ],
   "note": ""
  },
  {
   "property": "C96",
   "status": "proved",
   "theorems": [
    "C96_sparse_calls"
   ],
   "note": ""
  },
  {
   "property": "C97",
   "status": "proved",
   "theorems": [
    "C97_push_calls",
    "C97_load_calls",
    "C97_prove_calls"
   ],
   "note": ""
  },
  {
   "property": "C98",
   "status": "partial",
   "theorems": [
    "C98_sync_refuted",
    "C98_sync_partial",
    "C98_new_partial",
    "C98_clean_partial",
    "C98_calls_partial"
   ],
   "note": "The full statement is false: on a storage that holds all nodes but no entry under the key, deleting a present key answers Ok and changes nothing (refuted by a concrete run). Proved for every storage content: load succeeds, and root, storage content and calls afterwards are those of a replay from this content, which equals the map changed by the calls if an entry is stored under each deleted key exactly if it is in the map."
  },
  {
   "property": "C99",
   "status": "proved",
   "theorems": [
    "C99_positions",
    "C99_binary",
    "C99_sparse",
    "C99_history",
    "C99_lawful",
    "C99_sum",
    "C99_verify"
   ],
   "note": ""
  }
 ]
}
