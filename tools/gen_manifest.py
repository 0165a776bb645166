#!/usr/bin/env python3
"""Writes MANIFEST.json; every theorem named here must exist in rocq/theories/Properties*.v."""
import json, re, glob, os
root = os.path.join(os.path.dirname(os.path.abspath(__file__)), '..')
P, Q = "proved", "partial"
claims = [
 ("C01", P, ["C01_root_is_mth"], "up to 2^63 leaves"),
 ("C02", P, ["C02_prove_is_audit_path"], "below 2^62 leaves in debug builds, 2^63 in release builds"),
 ("C03", P, ["C03_proofs_verify"], ""),
 ("C04", P, ["C04_verify_sound"], "below 2^63 leaves; the first entry of the proof set is assumed to be a leaf hash, as the verifier does not check it"),
 ("C05", Q, ["C05_prove_out_of_range_partial", "C05_prove_out_of_range_refuted"], "true for all indices but 2^64-1; refuted there"),
 ("C06", P, ["C06_load_reproduces"], ""),
 ("C07", P, ["C07_load_history"], ""),
 ("C08", P, ["C08_load_exact", "C08_load_exact_release_limit_refuted"], "within the leaf limit; beyond it release builds can return a wrong tree"),
 ("C09", P, ["C09_root_binding", "C09_mth_binding"], ""),
 ("C10", P, ["C10_failed_push_reloadable"], ""),
 ("C11", Q, ["C11_failed_push_keeps_tree_partial", "C11_failed_push_keeps_tree_refuted", "C68_retry_partial"], "refuted; true for even leaf counts"),
 ("C12", P, ["C12_storage_exact"], ""),
 ("C13", P, ["C13_append_only", "C13_fresh_writes"], ""),
 ("C14", P, ["C14_prove_read_only"], "root is a function of the tree without storage access in the model"),
 ("C15", P, ["C15_in_memory"], ""),
 ("C16", P, ["C16_prove_on_damaged_storage", "C16_prove_on_any_storage"], ""),
 ("C17", P, ["C17_proof_length"], ""),
 ("C18", Q, ["C18_load_never_panics_partial", "C18_load_never_panics_refuted", "C18_load_debug_limit"], "refuted in debug builds from 2^62 leaves on; true below the limit"),
 ("C19", P, ["C19_children", "C19_parent"], "height up to 62 for children, 61 for parents"),
 ("C20", P, ["C20_sibling"], "height up to 61 (60 for the uncle)"),
 ("C21", P, ["C21_unique_pair", "C21_leaf_index", "C21_leaf_positions"], ""),
 ("C22", P, ["C22_positions_exact"], "the bound is sharp in debug builds (example)"),
 ("C23", P, ["C23_position_iter", "C23_path_is_ancestors"], ""),
 ("C24", P, ["C24_position_path"], ""),
 ("C25", P, ["C25_bits_big_endian"], ""),
 ("C26", P, ["C26_common_prefix"], ""),
 ("C27", P, ["C27_serialization"], ""),
 ("C28", P, ["C28_storage_map"], ""),
 ("C50", P, ["C50_sum_root"], "up to 2^64 leaves"),
 ("C51", Q, ["C51_exact_fee_partial", "C51_exact_fee_refuted"], "refuted: overflow panics in debug builds and wraps in release builds; otherwise exact, for any storage"),
 ("C52", P, ["C52_root_undisturbed", "C52_all_answers"], ""),
 ("C53", P, ["C53_sum_binding"], ""),
 ("C54", Q, ["C54_failed_push_partial", "C54_failed_push_refuted"], "refuted; the root is the old one or, for odd leaf counts only, the empty one"),
 ("C55", P, ["C55_keyed_by_hash", "C55_nodes_present"], ""),
 ("C56", P, ["C56_binary_inputs", "C56_sum_inputs", "C56_sparse_inputs"], ""),
 ("C57", P, ["C57_empty_roots"], ""),
 ("C29", P, ["C29_sparse_root"], ""),
 ("C30", Q, ["C30_arbitrary_deletes_partial", "C30_arbitrary_deletes_refuted"], "refuted for deletes of keys deleted before; the partial theorem gives the map the tree then has, for every history"),
 ("C31", P, ["C31_order_independent"], ""),
 ("C32", P, ["C32_last_write_wins", "C32_repeated_update", "C32_last_write_wins_any", "C32_repeated_update_any"], ""),
 ("C33", P, ["C33_delete_restores", "C33_delete_restores_any"], ""),
 ("C34", Q, ["C34_delete_idempotent_partial", "C34_delete_idempotent_refuted"], "refuted; the partial theorem says which entry the second delete removes"),
 ("C35", P, ["C35_delete_unknown", "C35_delete_unknown_any"], ""),
 ("C36", P, ["C36_empty_data_deletes"], ""),
 ("C37", Q, ["C37_load_resumes_partial", "C37_load_resumes_any_partial", "C37_load_resumes_refuted", "C70_load_authentic"], "refuted for the empty tree and for loading a user key as a root; true for roots of non-empty trees, and (C70_load_authentic) only keys of attempted updates load with another root"),
 ("C38", P, ["C38_old_roots_loadable", "C38_old_roots_any"], "non-empty trees; the empty root is never loadable"),
 ("C39", Q, ["C39_old_roots_after_delete_refuted", "C39_old_root_lost"], "refuted: deleting a present key always makes the previous root unloadable"),
 ("C40", P, ["C40_failed_operation"], ""),
 ("C41", P, ["C41_failed_update_harmless", "C41_failed_update_any"], ""),
 ("C42", Q, ["C42_failed_delete_partial", "C42_failed_delete_refuted"], "refuted; the root stays that of the successful calls, but later calls may fail"),
 ("C43", P, ["C43_root_binding"], ""),
 ("C44", P, ["C44_operations_end", "C44_load_ends", "C44_walk_bounded"], ""),
 ("C45", Q, ["C45_keys_and_nodes_refuted"], "refuted: wrong roots and panics; without such keys it is C29"),
 ("C46", P, ["C46_load_exact"], ""),
 ("C47", P, ["C47_in_memory"], ""),
 ("C48", P, ["C48_child_access"], ""),
 ("C49", P, ["C49_missing_reported", "C49_missing_reported_any"], ""),
 ("C58", P, ["C58_reference_agrees", "C58_reference_exact"], ""),
 ("C59", Q, ["C59_delete_after_failed_update_partial", "C59_delete_after_failed_update_refuted"], "refuted; the partial theorem says what such a delete gives"),
 ("C60", P, ["C60_storage_independent"], ""),
 ("C61", P, ["C61_push_calls", "C61_load_calls", "C61_prove_calls"], "up to 2^63 leaves for push, the leaf limit of the build profile otherwise"),
 ("C62", P, ["C62_sum_calls"], "up to 2^64 leaves"),
 ("C63", P, ["C63_sparse_calls", "C63_load_calls"], ""),
 ("C64", Q, ["C64_only_proof_partial", "C64_only_proof_refuted"], "refuted: the verifier does not check that the first entry is a leaf hash, the root alone is accepted; true if it is a leaf hash"),
 ("C65", Q, ["C65_index_and_count_partial", "C65_index_and_count_refuted"], "refuted; what an accepted proof set shows for any claimed index and count is membership, with the audit path"),
 ("C66", Q, ["C66_verify_answers_partial", "C66_verify_answers_refuted", "C66_verify_ends"], "refuted in debug builds; true in release builds and below 2^63 leaves"),
 ("C67", P, ["C67_crash_recovery"], "trees stay below the leaf limit of the build profile"),
 ("C68", Q, ["C68_retry_partial", "C68_retry_refuted"], "refuted; exact dichotomy: unchanged and retryable, or (odd leaf counts only) all subtrees lost, empty root and panicking proofs"),
 ("C69", Q, ["C69_load_next_partial", "C69_load_next_refuted"], "refuted after two failed pushes; true for the first failure of a tree built in an empty storage"),
 ("C70", P, ["C70_storage_authentic", "C70_load_authentic"], ""),
 ("C71", P, ["C71_storage_complete"], ""),
 ("C72", P, ["C72_sparse_recovery"], ""),
 ("C73", P, ["C73_any_history"], ""),
 ("C74", Q, ["C74_delete_present_partial", "C74_delete_present_refuted"], "refuted for the key of 32 zero bytes; true for every other key"),
 ("C75", P, ["C75_delete_forgets"], ""),
 ("C76", P, ["C76_positions", "C76_binary", "C76_sparse", "C76_sum", "C76_verify"], ""),
 ("C77", P, ["C77_binary", "C77_sparse", "C77_sum"], ""),
 ("C78", P, ["C78_positions", "C78_binary", "C78_sparse", "C78_sum", "C78_reference"], "the sparse part extends C44, the verifier is C66_verify_ends"),
 ("C79", P, ["C79_history", "C79_storage", "C79_subtrees", "C79_root_stored"], "C79_subtrees assumes no hash collision among the inputs hashed for sublists of the pushed leaves"),
 ("C80", P, ["C80_hex_text", "C80_encoded_values"], "base64 is a parameter: its round trip is a hypothesis of that clause"),
 ("C81", P, ["C81_generated_tests", "C81_out_of_range"], ""),
 ("C82", P, ["C82_suite"], ""),
 ("C83", P, ["C83_steps", "C83_sparse_test", "C83_broken_step"], "under the conditions of C47 (clean history, no hash collision)"),
 ("C84", P, ["C84_sparse_debug", "C84_sum_debug", "C84_layout"], "the number and string formatting of the Rust standard library is described in ModelDebug.v"),
 ("C85", P, ["C85_history"], "fewer than 2^62 calls; on a tree that lost its subtrees a proof request may panic, which ends the run"),
 ("C86", Q, ["C86_carry_on_partial", "C86_carry_on_refuted"], "refuted for the leaf count the tree reports after a failed push; true for every leaf count reached before"),
 ("C87", P, ["C87_membership"], "unless the hash function has a collision among listed inputs"),
 ("C88", Q, ["C88_damaged_partial", "C88_damaged_refuted"], "refuted: heights are not covered by hashes, and a delete of a present key whose entry is lost answers Ok; with losses, failures and reloads alone no call gives a root the answers do not allow"),
 ("C89", P, ["C89_storage_exact", "C89_clean"], "the replay follows the code in acting on stale deletes (refuted claims C30, C34); C89_clean gives the map for histories without them"),
 ("C90", Q, ["C90_nothing_left_partial", "C90_nothing_left_refuted"], "refuted: entries of keys are never removed, nor are nodes of older trees; what is left is described"),
 ("C95", P, ["C95_random_tests_pass"], ""),
 ("C96", P, ["C96_sparse_calls"], ""),
 ("C97", P, ["C97_push_calls", "C97_load_calls", "C97_prove_calls"], ""),
 ("C98", Q, ["C98_sync_refuted", "C98_sync_partial", "C98_new_partial", "C98_clean_partial", "C98_calls_partial"], "The full statement is false: on a storage that holds all nodes but no entry under the key, deleting a present key answers Ok and changes nothing (refuted by a concrete run). Proved for every storage content: load succeeds, and root, storage content and calls afterwards are those of a replay from this content, which equals the map changed by the calls if an entry is stored under each deleted key exactly if it is in the map."),
 ("C99", P, ["C99_positions", "C99_binary", "C99_sparse", "C99_history", "C99_lawful", "C99_sum", "C99_verify"], ""),
 ("C100", P, ["C100_sum_calls"], ""),
 ("C101", P, ["C101_binary", "C101_load", "C101_sum"], ""),
 ("C102", Q, ["C102_message_true_refuted", "C102_message_true_partial", "C102_prefix_message", "C102_distinct_messages"], "The full statement is false: a proof of a lost leaf names the index of the leaf as the missing key, and that key may be in the storage (refuted by a concrete run). Proved for everything else: loads, the siblings of a proof, indices beyond the leaves, storage errors, prefixes; and what the message of a lost leaf names instead."),
 ("C103", P, ["C103_versions_right", "C103_versions_answer", "C103_versions_intact", "C103_versions_spoiled"], "Versions as maps; failing storages included in the first two theorems. The last theorem shows that the condition on the versions cannot be weakened."),
 ("C104", P, ["C104_roots_explained", "C104_next_answers"], ""),
 ("C105", P, ["C105_one_log", "C105_two_logs"], "C105_two_logs shows that the objects must follow one log"),
 ("C106", P, ["C106_objects_right", "C106_objects_answer", "C106_objects_intact"], "after C103: an action is a session of one call"),
 ("C107", P, ["C107_answers", "C107_storage", "C107_subtrees"], "sum_crowd: calls on objects given by numbers"),
 ("C108", P, ["C108_proof_parts"], "blocks are complete: 2^h leaves from a multiple of 2^h on"),
 ("C109", P, ["C109_binary_sparse", "C109_binary_sum", "C109_sum_sparse"], "each theorem has both directions"),
 ("C110", P, ["C110_exact", "C110_binary", "C110_sum", "C110_sparse"], "grown, entries: SpecGrowth.v"),
 ("C111", Q, ["C111_binary", "C111_sum", "C111_sparse_refuted", "C111_sparse_partial"], "Binary and sum trees in full. For sparse trees the full statement is false: a delete of a key that the same list writes later finds the leaf-key entry of an earlier try and deletes another key, answering Ok (refuted by a concrete run without any failure). Proved for lists whose deletes concern keys that the map has at that moment or that the list never writes."),
 ("C112", P, ["C112_binary", "C112_sum", "C112_sparse"], ""),
 ("C113", P, ["C113_binary", "C113_sum"], ""),
 ("C114", P, ["C114_short_paths", "C114_clean_histories"], ""),
 ("C115", P, ["C115_delete_needs"], ""),
 ("C116", P, ["C116_part_of_the_storage", "C116_loaded"], ""),
 ("C94", P, ["C94_reference_calls"], ""),
 ("C93", Q, ["C93_forks_refuted", "C93_forks_partial", "C93_forks_answer_partial", "C93_forks_total_partial"], "The full statement is false: a delete uses the leaf-key entry another tree has written and answers Ok while deleting another key (refuted by a concrete run). Proved in full for sessions that only update, failing storages included. Sessions with deletes: C103."),
 ("C92", Q, ["C92_untrusted_load_refuted", "C92_untrusted_load_partial"], "The full statement is false: the position inside an entry is not bound by the root, and decides which subtrees are joined (refuted with a storage of one entry, right root, wrong root two pushes later). Proved whenever every entry names its own key as its position; all else in the storage is arbitrary."),
 ("C91", P, ["C91_sum_storage_exact", "C91_sum_content", "C91_sum_written", "C91_sum_tree"], ""),
]
claims.sort()
src = "".join(open(f).read() for f in sorted(glob.glob(os.path.join(root, "rocq/theories/Properties*.v"))))
names = set(re.findall(r"^Theorem\s+(\w+)", src, re.M))
used = set()
for pid, st, ths, note in claims:
    for t in ths:
        assert t in names, t
        used.add(t)
print("theorems not in the manifest:", sorted(names - used))
json.dump({"claims": [{"property": a, "status": b, "theorems": c, "note": d} for a, b, c, d in claims]},
          open(os.path.join(root, "MANIFEST.json"), "w"), indent=1)
open(os.path.join(root, "MANIFEST.json"), "a").write("\n")
