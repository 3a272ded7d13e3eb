{
 "claims": [
  {
   "property": "C01",
   "status": "proved",
   "theorems": [
    "C01_leaf_position",
    "C01_leaf_position_any_tree",
    "C01_leaf_positions_increase",
    "C01_height_zero_iff_leaf",
    "C01_leaf_index_inverse",
    "C01_leaf_index_last_position_refuted"
   ],
   "note": ""
  },
  {
   "property": "C02",
   "status": "proved",
   "theorems": [
    "C02_height",
    "C02_every_position_is_a_node",
    "C02_navigation",
    "C02_spec_is_postorder"
   ],
   "note": ""
  },
  {
   "property": "C03",
   "status": "proved",
   "theorems": [
    "C03_peaks_of_mmr",
    "C03_no_peaks_otherwise"
   ],
   "note": ""
  },
  {
   "property": "C04",
   "status": "proved",
   "theorems": [
    "C04_append_builds_mmr",
    "C04_mmr_unique",
    "C04_root"
   ],
   "note": ""
  },
  {
   "property": "C05",
   "status": "proved",
   "theorems": [
    "C05_rewind_is_undo"
   ],
   "note": ""
  },
  {
   "property": "C06",
   "status": "proved",
   "theorems": [
    "C06_root_binds_leaves"
   ],
   "note": ""
  },
  {
   "property": "C07",
   "status": "proved",
   "theorems": [
    "C07_compacted_iff_below_pruned_root",
    "C07_hash_read",
    "C07_size",
    "C07_leaf_read",
    "C07_append",
    "C07_root",
    "C07_rewind",
    "C07_large_positions_refuted"
   ],
   "note": ""
  },
  {
   "property": "C08",
   "status": "proved",
   "theorems": [
    "C08_data_file_refines_lists",
    "C08_commit_then_reload",
    "C08_rewind_overflow_refuted"
   ],
   "note": ""
  },
  {
   "property": "C09",
   "status": "proved",
   "theorems": [
    "C09_refines_sets",
    "C09_reload",
    "C09_to_roaring",
    "C09_root_of_set",
    "C09_root_binds_set",
    "C09_operator_index_refuted"
   ],
   "note": ""
  },
  {
   "property": "C10",
   "status": "proved",
   "theorems": [
    "C10_messages_stay_inside",
    "C10_read_is_next_bytes",
    "C10_integer_reads",
    "C10_string_read",
    "C10_length_wraps_refuted"
   ],
   "note": "Proved for every primitive read with a bounded size and for transactions, blocks, compact blocks and headers. False for a 64-bit length field that makes the cursor wrap (C10_length_wraps_refuted)."
  },
  {
   "property": "C11",
   "status": "proved",
   "theorems": [
    "C11_written_format",
    "C11_fields_round_trip",
    "C11_prefix_free"
   ],
   "note": ""
  },
  {
   "property": "C12",
   "status": "proved",
   "theorems": [
    "C12_packed_format",
    "C12_nonces_round_trip",
    "C12_bad_edge_bits_rejected"
   ],
   "note": ""
  },
  {
   "property": "C13",
   "status": "partial",
   "theorems": [
    "C13_header_round_trip",
    "C13_reserialize_partial",
    "C13_padding_not_preserved_refuted"
   ],
   "note": "Round trip proved. Byte-for-byte reserialization holds only when the proof's padding bits are zero; refuted otherwise (C13_padding_not_preserved_refuted)."
  },
  {
   "property": "C14",
   "status": "partial",
   "theorems": [
    "C14_kernel_round_trip",
    "C14_output_round_trip",
    "C14_input_round_trip",
    "C14_transaction_round_trip",
    "C14_block_round_trip",
    "C14_compact_block_round_trip",
    "C14_output_identifier_round_trip",
    "C14_body_is_sorted_on_arrival",
    "C14_nrd_height_checked",
    "C14_unknown_features_refuted",
    "C14_kernel_bytes_not_unique_refuted",
    "C14_output_location_round_trip",
    "C14_spent_outputs_count_refuted"
   ],
   "note": "All round trips proved. Rejection of unknown kernel feature bytes is refuted (C14_unknown_features_refuted)."
  },
  {
   "property": "C15",
   "status": "partial",
   "theorems": [
    "C15_fee_round_trip",
    "C15_decoded_fees_in_range",
    "C15_large_fee_refuted",
    "C15_json_round_trip_partial",
    "C15_json_shift_lost_refuted"
   ],
   "note": "Binary proved for shift below 16 and fee below 2^40; JSON proved for shift 0 and refuted for every other shift."
  },
  {
   "property": "C16",
   "status": "proved",
   "theorems": [
    "C16_chain_store_refines_lists",
    "C16_no_undefined_behaviour",
    "C16_agree_up_to_common_index",
    "C16_reorg_copies_source",
    "C16_agreement_needs_linked_adds_refuted"
   ],
   "note": ""
  },
  {
   "property": "C17",
   "status": "partial",
   "theorems": [
    "C17_best_chain",
    "C17_most_work",
    "C17_work_never_decreases",
    "C17_accepted_header",
    "C17_stored_headers_have_parents",
    "C17_stored_headers_validated",
    "C17_bad_block_refused",
    "C17_headers_commit_to_chain",
    "C17_best_chain_linked_partial",
    "C17_batch_linked_refuted",
    "C17_early_restart_refuted",
    "C17_orphan_hides_heavier_branch_refuted",
    "C17_long_branch_refuted"
   ],
   "note": "Proved for every history of single headers, batches and restarts: the best chain's length, heights, genesis and stored headers, its work never decreasing, being maximal among single-header histories, the header MMR and every previous root committing to the best chain. Refuted: linkage inside a batch (only the first previous hash is compared), restart before the first header, long heavier branch in chunks, shadowing by an orphan."
  },
  {
   "property": "C18",
   "status": "partial",
   "theorems": [
    "C18_rejected_block_changes_nothing",
    "C18_rejected_block_leaves_header_only",
    "C18_orphans_kept_refuted",
    "C18_rejected_header_changes_nothing",
    "C18_rejected_batch_keeps_accepted_prefix",
    "C18_rejected_short_batch_changes_nothing"
   ],
   "note": "Headers: a rejected header, and a rejected batch of at most 128 headers, change nothing; a longer batch keeps exactly the accepted prefix of chunks. Blocks: in any state between two calls a rejected block leaves chains, headers, header MMR, database and output set unchanged (C18_rejected_block_changes_nothing), apart from what its header alone does (C18_rejected_block_leaves_header_only). The orphan pool is not restored: C18_orphans_kept_refuted."
  },
  {
   "property": "C19",
   "status": "proved",
   "theorems": [
    "C19_history_ledger",
    "C19_path_independent",
    "C19_rewind",
    "C19_apply_then_rewind",
    "C19_unchecked_sizes_refuted"
   ],
   "note": "C19_history_ledger, C19_path_independent and C19_rewind hold for every sequence of applied and rewound blocks from any represented start (C20_fresh_node: in particular from genesis), for blocks whose header sizes are those of the files. Without honest sizes, which nothing checks, rewinding loses coins (C19_unchecked_sizes_refuted)."
  },
  {
   "property": "C20",
   "status": "partial",
   "theorems": [
    "C20_fresh_node",
    "C20_apply_exact",
    "C20_inputs_gone_outputs_present",
    "C20_transaction_exact",
    "C20_duplicate_input_refuted",
    "C20_genesis_coin_refuted",
    "C20_respend_refuted"
   ],
   "note": "C20_apply_exact is an equivalence for every represented set and every well-formed block; C20_inputs_gone_outputs_present restates it through the queries. Three cases outside it are refuted: one coin named twice is a null dereference, the genesis coin of a fresh node cannot be spent, a commitment spent and recreated in one block is lost."
  },
  {
   "property": "C21",
   "status": "proved",
   "theorems": [
    "C21_transaction_conserves_value",
    "C21_total_value",
    "C21_outputs_have_values",
    "C21_coinbase_exact",
    "C21_downloaded_state",
    "C21_ideal_crypto",
    "C21_json_fee_refuted"
   ],
   "note": "Proved relative to the stated commitment-scheme hypotheses (sound_crypto), for which an ideal instance is given (C21_ideal_crypto). Fee parsed from JSON can lose its shift: C21_json_fee_refuted."
  },
  {
   "property": "C22",
   "status": "partial",
   "theorems": [
    "C22_complete",
    "C22_pieces_partial",
    "C22_order",
    "C22_records_kept",
    "C22_database_only",
    "C22_refuted",
    "C22_mixed_refuted",
    "C22_restart_refuted",
    "C22_reorg_refuted",
    "C22_torn_refuted"
   ],
   "note": "The statement is false of the code. C22_refuted: any commit that changes two pieces is not atomic under crashes; C22_mixed_refuted gives the crash point, C22_restart_refuted and C22_reorg_refuted show what the next start makes of it (new confirmed tip over old output/kernel files and database; chain shorter than both), C22_torn_refuted shows that a torn record shifts later records. Proved: an uninterrupted commit is complete under every thread order, what each piece can look like after any crash, the order between pieces, kept records stay readable, and atomicity when only the database changes. Not modelled: write reordering or loss by the operating system, RocksDB internals."
  },
  {
   "property": "C23",
   "status": "proved",
   "theorems": [
    "C23_add_sub",
    "C23_mul",
    "C23_shift",
    "C23_compare",
    "C23_div"
   ],
   "note": ""
  },
  {
   "property": "C24",
   "status": "proved",
   "theorems": [
    "C24_difficulty",
    "C24_difficulty_antitone"
   ],
   "note": ""
  },
  {
   "property": "C25",
   "status": "partial",
   "theorems": [
    "C25_accepted_is_cycle",
    "C25_verifiers_terminate",
    "C25_cuckarood_terminates_refuted",
    "C25_undecided_means_endless"
   ],
   "note": "Soundness (an accepted proof is a 42-cycle) and termination proved for four verifiers; the Cuckarood verifier's termination is refuted by a concrete proof on which it never stops, and its undecided runs are characterised."
  },
  {
   "property": "C26",
   "status": "partial",
   "theorems": [
    "C26_dma_exact",
    "C26_dma_bounds",
    "C26_scaling_bounds",
    "C26_wtema_exact",
    "C26_wtema_bounds",
    "C26_minimum",
    "C26_wtema_no_wrap_refuted",
    "C26_dma_defined"
   ],
   "note": "Exactness, bounds and definedness proved under explicit ranges; WTEMA product wraps beyond them (C26_wtema_no_wrap_refuted)."
  },
  {
   "property": "C27",
   "status": "proved",
   "theorems": [
    "C27_weight_exact",
    "C27_block_weight",
    "C27_transaction_weight",
    "C27_counts_bounded",
    "C27_old_rule_unbounded"
   ],
   "note": ""
  },
  {
   "property": "C28",
   "status": "proved",
   "theorems": [
    "C28_version_schedule",
    "C28_version_steps"
   ],
   "note": ""
  },
  {
   "property": "C29",
   "status": "partial",
   "theorems": [
    "C29_cut_through_removes_pairs",
    "C29_no_commitment_on_both_sides",
    "C29_balance_kept_partial",
    "C29_balance_kept_refuted",
    "C29_aggregate_keeps_kernels",
    "C29_aggregate_inputs_outputs",
    "C29_aggregate_balances_partial"
   ],
   "note": "Cut-through and aggregation proved for inputs that do not repeat a commitment; with repeats the balance claim is refuted (C29_balance_kept_refuted)."
  },
  {
   "property": "C30",
   "status": "partial",
   "theorems": [
    "C30_future_refused_partial",
    "C30_future_never_refused",
    "C30_future_refused_refuted"
   ],
   "note": "Only the truncated-tick version holds (C30_future_refused_partial); the stated bound is refuted: headers far in the future are accepted."
  },
  {
   "property": "C31",
   "status": "partial",
   "theorems": [
    "C31_reconciled_partial",
    "C31_nothing_lost",
    "C31_evicted_shares",
    "C31_spent_inputs_gone",
    "C31_next_height_refuted"
   ],
   "note": "Proved: what survives reconciliation shares no input or kernel with the block and is acceptable together with the transactions before it; nothing else is dropped; a spent commitment survives only if re-created inside the pool. Missing: validity for the next height; refuted, the check uses the height of the block itself."
  },
  {
   "property": "C32",
   "status": "partial",
   "theorems": [
    "C32_admission_exact",
    "C32_after_block_partial",
    "C32_after_block_spends_ledger",
    "C32_after_block_no_conflict",
    "C32_conflict_refuted",
    "C32_conflict_after_block_refuted"
   ],
   "note": "Refuted as stated: admission checks each transaction by itself, so conflicting transactions are both admitted. Proved: the exact admission rule; after each block the pool aggregates into one acceptable transaction, spends only unspent mature coins, without conflicts when feature bytes agree (refuted otherwise)."
  },
  {
   "property": "C33",
   "status": "partial",
   "theorems": [
    "C33_broadcast_sources_partial",
    "C33_relayed_once",
    "C33_stem_is_quiet",
    "C33_always_expired",
    "C33_embargo_refuted",
    "C33_request_refuted"
   ],
   "note": "Refuted: the pool entries carry the time 0, so in every reachable state every stem transaction counts as expired; and any peer can ask for a stem transaction by kernel hash. Proved: the three sources of broadcasts, and that entering the stem pool publishes nothing."
  },
  {
   "property": "C34",
   "status": "proved",
   "theorems": [
    "C34_calls_return_as_specified",
    "C34_lookup_returns_last_put",
    "C34_size_bounded",
    "C34_evicts_in_policy_order"
   ],
   "note": "Proved for every capacity from 1 to 2^64-3."
  },
  {
   "property": "C35",
   "status": "partial",
   "theorems": [
    "C35_commitments_verified_partial",
    "C35_new_commitments_need_their_proof_partial",
    "C35_valid_batch_accepted",
    "C35_unverified_proof_accepted_refuted",
    "C35_no_outputs_refuted",
    "C35_short_proof_refuted"
   ],
   "note": "The proof cache is keyed by the commitment alone and filled before verification: C35_unverified_proof_accepted_refuted shows a never-verified proof accepted on the second presentation. C35_no_outputs_refuted and C35_short_proof_refuted are undefined behaviour on the empty list and on a truncated proof. The proved parts hold for the rest."
  },
  {
   "property": "C36",
   "status": "partial",
   "theorems": [
    "C36_distinct",
    "C36_covers_partial",
    "C36_fewest_complete",
    "C36_fewest_minimal",
    "C36_smallest_selected",
    "C36_smallest_complete",
    "C36_custom",
    "C36_total",
    "C36_smallest_refuted",
    "C36_all_refuted",
    "C36_wrap_refuted"
   ],
   "note": "Selections are distinct wallet coins for every strategy; they cover amount plus fee for SMALLEST, FEWEST_INPUTS and CUSTOM below 2^64; FEWEST_INPUTS is complete and minimal, SMALLEST complete among runs of smallest coins, CUSTOM exact. Refuted: ALL never checks funds, SMALLEST refuses because of a dust coin, and amount plus fee wraps at 2^64."
  },
  {
   "property": "C37",
   "status": "partial",
   "theorems": [
    "C37_conserves_partial",
    "C37_all_refuted",
    "C37_entire_refuted",
    "C37_255_refuted",
    "C37_fee_refuted"
   ],
   "note": "Inputs = amount + fee + change exactly, inputs locked, change stored, for affordable sends. Refuted: strategy ALL and an entire balance below the fee wrap, 255 change outputs give the fee of no output, and a fee above 2^40 is transmitted truncated."
  },
  {
   "property": "C38",
   "status": "partial",
   "theorems": [
    "C38_one_live_partial",
    "C38_offered",
    "C38_cancel",
    "C38_finalize_cancelled_refuted",
    "C38_reorg_refuted",
    "C38_received_once_partial",
    "C38_received_twice_refuted",
    "C38_received_self_refuted"
   ],
   "note": "Invariant over all histories of send, receive, finalize, cancel and refresh from a new wallet: a locked coin is spent by exactly one live transaction and offered coins by none; offered coins are confirmed and mature; cancelling frees exactly its own locked inputs. Premises: no repeated commitments or slate ids, no finalizing of cancelled transactions, no returning coins. Refuted without the last two: finalizing a cancelled transaction, and a reorganisation, let two live transactions spend one coin. A slate received from someone else is refused from then on, whatever happens in between, unless that receipt is cancelled (C38_received_once_partial); after a cancellation, or for a slate the wallet sent itself, the same slate is received any number of times (C38_received_twice_refuted, C38_received_self_refuted)."
  },
  {
   "property": "C39",
   "status": "partial",
   "theorems": [
    "C39_stored_partial",
    "C39_refreshed_partial",
    "C39_exclusive",
    "C39_none",
    "C39_some",
    "C39_behind_refuted",
    "C39_wrap_refuted",
    "C39_immature_status"
   ],
   "note": "The four sums are exact below 2^64 and the categories are exclusive and exhaustive, for the stored and the refreshed balance. Refuted: a node behind the wallet's last refresh shows zero, and sums wrap at 2^64."
  },
  {
   "property": "C40",
   "status": "partial",
   "theorems": [
    "C40_exchange_partial",
    "C40_calls_return",
    "C40_finalized_accepted",
    "C40_nonce_partial",
    "C40_nonce_refuted",
    "C40_key_recovered",
    "C40_zero_offset_refuted"
   ],
   "note": "Over any prime-order group with the curve laws: an honest exchange completes with an aggregated signature that verifies for the excess, which is outputs minus inputs minus offset; any transaction that finalization returns, whatever the other party sent, has a valid kernel. Each nonce signs once if no slate is finalized twice. Refuted: finalizing a second reply signs another message with the stored nonce, and two such signatures determine the key; offsets adding to zero make the sender reject an honest reply. The curve library is a parameter."
  },
  {
   "property": "C41",
   "status": "partial",
   "theorems": [
    "C41_mnemonic_exact",
    "C41_mnemonic_roundtrip",
    "C41_mnemonic_unique",
    "C41_mnemonic_short_refuted",
    "C41_mnemonic_long_refuted",
    "C41_hex_exact",
    "C41_hex_roundtrip",
    "C41_base58_exact",
    "C41_base58_roundtrip",
    "C41_base58check_exact",
    "C41_base58check_roundtrip",
    "C41_simplecheck_exact",
    "C41_armor_partial",
    "C41_armor_zero_lost",
    "C41_unpack_only",
    "C41_armor_refuted"
   ],
   "note": "Hex, Base58, Base58 with checksum and mnemonics: round trips and exact acceptance (a text is accepted iff it writes those bytes/words with the right checksum) for every byte string and every 32-byte hash. The armor round trip is proved only when the first checksum byte is non-zero and refuted otherwise, with SHA-256 itself as witness (C41_armor_refuted): the Base58 variant used drops leading zero bytes, so one slatepack in 256 cannot be read back. Mnemonics of 4-12 bytes are written but not read, and above 32 bytes the shift is undefined (both refuted, outside the property's 16..32 range)."
  },
  {
   "property": "C42",
   "status": "partial",
   "theorems": [
    "C42_text_format",
    "C42_text_injective",
    "C42_text_roundtrip_partial",
    "C42_text_lost",
    "C42_text_refuted",
    "C42_hex_roundtrip_partial",
    "C42_hex_long_lost",
    "C42_paths_distinct_partial",
    "C42_paths_available",
    "C42_paths_stored",
    "C42_explicit_path_refuted",
    "C42_restored_refuted"
   ],
   "note": "Proved: the text form of a path is m followed by /index for each index and determines the path; the text round trip for indices below 2^31; the hexadecimal round trip for at most four indices; paths handed out by one wallet database are pairwise distinct over every sequence of sends, receives, coinbase builds and restarts, committed or rolled back, as long as no coinbase path is given explicitly. Missing: hardened indices (2^31 and above) do not survive the text round trip (C42_text_refuted), more than four indices are lost in hexadecimal, an explicit coinbase path can repeat one already used (C42_explicit_path_refuted), and a restored wallet starts again from a random index (C42_restored_refuted)."
  },
  {
   "property": "C43",
   "status": "partial",
   "theorems": [
    "C43_small_graphs_refused_refuted",
    "C43_minimum_size_refuted",
    "C43_larger_graphs_defined"
   ],
   "note": "Definedness for large sizes proved; refusal of small graphs refuted (C43_minimum_size_refuted accepts a 24-bit Cuckatoo proof on the main network)."
  },
  {
   "property": "C44",
   "status": "partial",
   "theorems": [
    "C44_terminates_partial",
    "C44_self_linked_header_loops_refuted"
   ],
   "note": "Header processing terminates when stored and orphaned headers have strictly lower predecessors; C44_self_linked_header_loops_refuted: a header naming itself as predecessor, sent twice, loops forever."
  },
  {
   "property": "C45",
   "status": "proved",
   "theorems": [
    "C45_accepted_header",
    "C45_no_secondary_after_fork"
   ],
   "note": ""
  },
  {
   "property": "C46",
   "status": "partial",
   "theorems": [
    "C46_no_commitment_on_both_sides",
    "C46_inputs_distinct_partial",
    "C46_outputs_distinct_partial",
    "C46_transaction_outputs_distinct",
    "C46_spent_once_refuted",
    "C46_created_once_refuted",
    "C46_transaction_has_no_coinbase",
    "C46_coinbase_kernels_partial",
    "C46_nrd_is_not_coinbase_refuted"
   ],
   "note": "Cut-through, ordering and kernel feature rules proved; distinctness of commitments holds only under the stated encoding condition and is refuted in general (C46_spent_once_refuted, C46_created_once_refuted, C46_nrd_is_not_coinbase_refuted)."
  },
  {
   "property": "C47",
   "status": "partial",
   "theorems": [
    "C47_roots_exact",
    "C47_header_commits_to_set",
    "C47_unchecked_sizes_refuted"
   ],
   "note": "True when the header's sizes are those of the files (C47_roots_exact, C47_header_commits_to_set). The code never compares the sizes: C47_unchecked_sizes_refuted gives one header accepted with two different sets of outputs."
  },
  {
   "property": "C48",
   "status": "partial",
   "theorems": [
    "C48_node_follows_its_chain",
    "C48_chain_only_improves",
    "C48_supply"
   ],
   "note": "Proved for every event sequence in which headers have distinct hashes and true MMR sizes (the code does not check sizes: C47_unchecked_sizes_refuted, C19_unchecked_sizes_refuted) and blocks passed the decoder. A block that continues the chain is not shown to have more work: header batches are not linked (C17_batch_linked_refuted). Crashes inside a commit are C22."
  },
  {
   "property": "C49",
   "status": "partial",
   "theorems": [
    "C49_needed_blocks",
    "C49_poisoned_orphan_refuted"
   ],
   "note": "C49_needed_blocks: the exact list asked for. The second half is false: C49_poisoned_orphan_refuted (a false body under a genuine header is kept as an orphan and blocks the branch for good)."
  },
  {
   "property": "C50",
   "status": "partial",
   "theorems": [
    "C50_estimate_partial",
    "C50_entire_refuted",
    "C50_immature_refuted"
   ],
   "note": "For a given amount, with all confirmed coins mature and an up-to-date wallet, the estimate's coins and fee are those of the send. Refuted for an entire balance and for immature coins."
  },
  {
   "property": "C51",
   "status": "partial",
   "theorems": [
    "C51_binary_round_trip",
    "C51_binary_distinct",
    "C51_stays_inside",
    "C51_counts",
    "C51_too_many_refuted",
    "C51_refused_signature_refuted",
    "C51_json_round_trip_partial",
    "C51_json_feature_args_refuted",
    "C51_equality_partial",
    "C51_equality_refuted",
    "C51_latest",
    "C51_armored_partial",
    "C51_armored_refuted"
   ],
   "note": "Binary: round trip, distinctness and memory safety for every well-formed slate / every byte string. JSON: round trip for plain kernels. Refuted: more than 255 signatures or 65535 commitments are truncated silently; any other kernel loses its lock height in JSON and cannot be written again; a refused partial signature makes writing undefined; comparison ignores block version and feature arguments; the armored text of a stored slate is that of the last row, not of the latest stage. Hex and decimal texts inside JSON are taken as converted (C41); the curve library is a parameter."
  },
  {
   "property": "C52",
   "status": "partial",
   "theorems": [
    "C52_regrouping",
    "C52_address_round_trip",
    "C52_address_distinct",
    "C52_address_exact",
    "C52_address_case",
    "C52_errors_detected",
    "C52_other_prefix_refuted",
    "C52_address_binary",
    "C52_encrypted_round_trip",
    "C52_plain_round_trip",
    "C52_plain_recipients_refuted",
    "C52_unknown_mode_refuted",
    "C52_no_sender_refuted",
    "C52_read_fault",
    "C52_stays_inside_refuted",
    "C52_armor_partial"
   ],
   "note": "Addresses: round trip, distinctness, exact acceptance (printable, one case, at most 90 characters, valid key, canonical five-bit groups, checksum), case, and detection of any one to four replaced characters after the separator, for all texts and keys. Messages: encrypted and plain round trips, armor round trip except for the zero checksum byte of C41, and memory safety except for a payload length above 2^63. Refuted: the prefix is not checked, so an address of another network is accepted; recipients of a plain message are lost; an unknown mode is encrypted when written and not decrypted when read; an encrypted message without a sender cannot be read; a 17-byte message makes the reader leave its buffer. Point validity, Age and SHA-256 are parameters; C68 models Age and C68_slatepack puts it in place of the parameter."
  },
  {
   "property": "C53",
   "status": "partial",
   "theorems": [
    "C53_stream",
    "C53_cut_anywhere",
    "C53_no_retraction",
    "C53_never_crashes",
    "C53_bounded_bodies",
    "C53_too_long",
    "C53_other_network",
    "C53_protocol_messages_fit",
    "C53_greeting",
    "C53_answer",
    "C53_handshake_refuted",
    "C53_error_refuted",
    "C53_compact_block_refuted",
    "C53_memory_refuted",
    "C53_trailing_refuted",
    "C53_bad_body_refuted"
   ],
   "note": "Proved for all streams: delivery in order and exactly once of any sequence of well-formed messages within the size limits, independence of where the stream is cut, no retraction, memory safety of an established connection on any bytes, the bound on bodies, refusal of other networks and long messages, both handshakes, and that everything the protocol allows (256 addresses, 20 locators, 512 headers, bodies of block weight, compact blocks with at most 300 outputs) fits. Refuted: 57 bytes of greeting (35 of answer) make the reader leave its buffer; an error message always ends the connection; a compact block of allowed weight can be too long; a 49-byte segment reserves any amount of memory; bytes after the fields of a body are ignored; and a body that cannot be decoded, such as that of a ping of length 0, makes the thread that serves all connections wait for a mutex it holds (C53_bad_body_refuted). Not modelled: sockets, timeouts, rate limits, and what the node does with a message."
  },
  {
   "property": "C54",
   "status": "partial",
   "theorems": [
    "C54_heights",
    "C54_reachable",
    "C54_answer",
    "C54_reaches_fork",
    "C54_round",
    "C54_catches_up",
    "C54_deep_fork_stalls",
    "C54_known_fork_refuted"
   ],
   "note": "Proved: the exact pattern of locator heights; the exact answer for any locator list; reachability of the hypotheses; a round with a longer chain appends exactly the next 512 headers or throws, so that ceil(m/512) rounds reach the responder's chain; for a fork at most 511 below the requester's tip the answer contains the first header after the fork. Refuted: a responder that has the requester's tip stored on an abandoned fork answers from the wrong point, the requester throws and stays on the lighter chain; for deep forks that no locator is close to, the answer contains only known headers and nothing ever changes (with a concrete case at height 5000, fork at 3900). Missing: that the requester accepts every header an honest responder accepted (its clock may differ)."
  },
  {
   "property": "C55",
   "status": "partial",
   "theorems": [
    "C55_next_block_exact",
    "C55_branch_exact",
    "C55_empty_pool_takes"
   ],
   "note": "Proved as equivalences for every history in which headers have distinct hashes and true MMR sizes. The spec of a valid block is AcceptSpec.valid_blocks, over the ledger and not the node. Hypotheses left: the header step of the same call accepts the header, the transaction pool does not throw (shown for an empty pool; reconciling aggregates pool transactions outside any try block), for a branch no orphan is a false twin of one of its blocks (C49_poisoned_orphan_refuted shows this is needed), and loops are given enough turns."
  },
  {
   "property": "C56",
   "status": "partial",
   "theorems": [
    "C56_rebuilt_partial",
    "C56_incomplete_noticed",
    "C56_only_blocks",
    "C56_as_full",
    "C56_missing_asked",
    "C56_wrong_body_refuted",
    "C56_repeated_kernel_refuted"
   ],
   "note": "Rebuilding is exact (C56_rebuilt_partial) for blocks without repeated kernels if no two kernels in the memory pool share a short id; both restrictions are needed: C56_repeated_kernel_refuted (a consistent block may repeat a kernel, and is then never rebuilt) and C56_wrong_body_refuted (a pool that holds a transaction and an aggregate of it rebuilds another block, which as an orphan takes the place of the right one). The safety part (C56_only_blocks, C56_as_full, C56_missing_asked) has no such restriction except distinct short ids for the request of missing transactions. Hash functions are parameters; collisions among the elements of the block are excluded by hypothesis."
  },
  {
   "property": "C57",
   "status": "partial",
   "theorems": [
    "C57_download_exact",
    "C57_download_ends_refuted",
    "C57_rate_limit",
    "C57_served",
    "C57_transfer_partial",
    "C57_transfer_refuted",
    "C57_mute_refuted",
    "C57_adopted_partial",
    "C57_positions",
    "C57_only_best_chain",
    "C57_unknown_block",
    "C57_bad_archive_refuted",
    "C57_no_set_no_block",
    "C57_old_state_refuted"
   ],
   "note": "Proved: exact download below 2 GiB, the rate limit, the conditions for taking an archive over and its effects (C57_adopted_partial) if no confirmed block after the one of the archive is on the best header chain. False of the code, with witnesses: an announced size of 4 GiB keeps the download thread busy for ever and blocks all others (C57_download_ends_refuted); the end of a file whose size is no multiple of 128 KiB is never sent (C57_transfer_refuted); a request for an unknown block mutes the connection (C57_mute_refuted); a valid archive for an earlier block, which any peer can send unasked, leaves the set and the confirmed chain at different blocks (C57_old_state_refuted); an archive that fails to load removes the output set of a running node (C57_bad_archive_refuted), which then accepts no block (C57_no_set_no_block). After a set was taken over every output whose commitment occurs once is recorded at its leaf with the height of the block that created it (C57_positions). Unzipping and the validation of the set are parameters."
  },
  {
   "property": "C58",
   "status": "partial",
   "theorems": [
    "C58_most_work",
    "C58_synced_partial",
    "C58_short_chain_refuted",
    "C58_block_requests_partial",
    "C58_no_block_forgotten_partial",
    "C58_ban_reasons",
    "C58_silent_peer_banned",
    "C58_disconnected_banned_refuted",
    "C58_slow_forever",
    "C58_slow_forever_refuted",
    "C58_wrong_peer_banned_refuted",
    "C58_repeat_refuted",
    "C58_fork_block_refuted",
    "C58_prune_refuted",
    "C58_prune_partial"
   ],
   "note": "Proved: the choice of the peer, the meaning of \"synchronized\" (C58_synced_partial, for heights below 2^63), which blocks are asked for (C58_block_requests_partial), that the first 15 needed blocks are not forgotten on chains of at least 10080 headers (C58_no_block_forgotten_partial), all reasons for bans (C58_ban_reasons), and that a silent peer is banned (C58_silent_peer_banned). False of the code: with less than 10080 headers no block is ever asked for and the node never says it is synchronized, because of an unsigned subtraction (C58_short_chain_refuted, for all runs); a peer whose connection ended is banned (C58_disconnected_banned_refuted); a slow peer stays slow for ever and is banned without any time to answer (C58_slow_forever, C58_slow_forever_refuted); the peer asked for an archive is banned for an archive of another (C58_wrong_peer_banned_refuted); fork blocks at the height of the chain are asked for in every turn, and new blocks at heights already requested are not (C58_repeat_refuted, C58_fork_block_refuted); a shutdown leaves every second connection open (C58_prune_refuted). Each turn sees one state of the world; connections and time do not change within a turn."
  },
  {
   "property": "C59",
   "status": "partial",
   "theorems": [
    "C59_seed_round_trip",
    "C59_password",
    "C59_login_partial",
    "C59_failure_changes_nothing",
    "C59_token",
    "C59_token_key",
    "C59_short_key_refuted",
    "C59_logout_key_refuted",
    "C59_delete_partial",
    "C59_listener_partial",
    "C59_failed_login_refuted",
    "C59_listener_refuted",
    "C59_name_refuted"
   ],
   "note": "Proved for all histories of fewer than 2^64 operations: the words are given for the current password only (C59_password), log in works with it and the token gives the seed (C59_login_partial, for names that do not begin with a dot), tokens stay valid until their session is ended and need their key (C59_token, C59_token_key), failures change nothing (C59_failure_changes_nothing, except a log in during which the node fails), deletion works exactly without open sessions (C59_delete_partial, if the node answered at each log in), and incoming payments never use the keys of another (C59_listener_partial). The primitives are parameters with the laws stated in AccountSpec.v (decryption undoes encryption; among the passwords considered no other opens a seed); a toy instance shows that the laws can be met. False of the code: a key that is too short is read beyond its end (C59_short_key_refuted), log out does not check the key (C59_logout_key_refuted), a log in that fails because of the node leaves a session without a token so that the account cannot be deleted (C59_failed_login_refuted), the listener keeps the first token and stops receiving when that session ends (C59_listener_refuted), and accounts can be made under names with which one cannot log in (C59_name_refuted)."
  },
  {
   "property": "C60",
   "status": "partial",
   "theorems": [
    "C60_search_ends",
    "C60_found_is_mine",
    "C60_all_found_partial",
    "C60_reorg_refuted",
    "C60_first_leaf_refuted"
   ],
   "note": "Proved: the search ends whatever the node answers (C60_search_ends), what is found is an output of the wallet that was unspent then, whatever the chain does (C60_found_is_mine), and in a chain that only grows, also during the searches, every refresh finds all that is still unknown except in the first leaf (C60_all_found_partial). The last leaf of a chain is taken to be unspent: it is of the last block. False of the code: after a reorganization an output that is now at a place already searched is never found (C60_reorg_refuted), and an output in the first leaf is not found (C60_first_leaf_refuted), unless the user asks for a search from the first leaf. Rewinding and derivation of keys are parameters; the leaf files are one list (UtxoModel and C48 are about them)."
  },
  {
   "property": "C61",
   "status": "partial",
   "theorems": [
    "C61_choice",
    "C61_found_partial",
    "C61_found_refuted",
    "C61_recommended",
    "C61_lists",
    "C61_unban",
    "C61_ban_partial",
    "C61_bad_data_ban_partial",
    "C61_ban_closes_partial",
    "C61_bad_data_refuted",
    "C61_listener_refuted",
    "C61_listener_partial",
    "C61_malformed_refuted",
    "C61_ban_forgotten_refuted",
    "C61_recommended_refuted",
    "C61_connected_refuted",
    "C61_limit_refuted",
    "C61_example"
   ],
   "note": "Proved: whom a new connection goes to, for every random start (C61_choice); that one is found if nobody is banned (C61_found_partial); the lists, over all histories (C61_lists); bans by the user and for bad data, over all histories of three hours without restart (C61_ban_partial, C61_bad_data_ban_partial); that a ban by the user closes the connection (C61_ban_closes_partial); accepting without lists (C61_listener_partial); recommendations (C61_recommended). False of the code: the search does not get past a banned peer (C61_found_refuted); one connection from a blocked address ends accepting (C61_listener_refuted); a peer banned for bad data keeps its connection and what it sends is acted on (C61_bad_data_refuted); a malformed message stops the node serving anyone (C61_malformed_refuted); bans are forgotten at restart and, for peers not spoken to for a week, within 30 seconds (C61_ban_forgotten_refuted); banned peers are recommended (C61_recommended_refuted); a second connection is made to a connected peer (C61_connected_refuted); the limit of connections counts only finished handshakes (C61_limit_refuted). Peers are reached by address instead of pointer; sockets are an open/closed flag; the threads are interleaved event by event. C61_unban: after unbanning the peer is accepted again."
  },
  {
   "property": "C62",
   "status": "partial",
   "theorems": [
    "C62_in_order_partial",
    "C62_stall_refuted",
    "C62_twice_refuted",
    "C62_released_refuted",
    "C62_example"
   ],
   "note": "Proved for all sequences of calls that do not overlap, when each write takes its message at once: what is written is an initial part of the messages in order, and all of them when the writes have ended (C62_in_order_partial). False of the code: a call that overlaps with the end of the last write leaves the connection mute for ever (C62_stall_refuted); two calls at the same time make a message be written twice (C62_twice_refuted); what does not fit at once is written from released memory (C62_released_refuted). Operations of the queue are taken to be atomic; write errors are left out."
  },
  {
   "property": "C63",
   "status": "partial",
   "theorems": [
    "C63_blocks_once",
    "C63_blocks_all",
    "C63_dropped_exact",
    "C63_block_bans",
    "C63_good_block_dropped_refuted",
    "C63_txs_in_order",
    "C63_txs_all",
    "C63_announced",
    "C63_stem_not_announced",
    "C63_tx_bans_partial",
    "C63_tx_ban_refuted",
    "C63_fluff_lost_refuted",
    "C63_example"
   ],
   "note": "Proved for every schedule and every behaviour of the block chain: each block that is taken is handed over at most once, nothing else is, and not before one taken eight places earlier (C63_blocks_once); the threads can always finish all of them (C63_blocks_all); a block is dropped exactly if one with the same hash waits or is worked on (C63_dropped_exact); bans are exactly for the refused blocks (C63_block_bans). Transactions: once each, in order (C63_txs_in_order), none left (C63_txs_all); announcements exact (C63_announced), none for stemmed ones (C63_stem_not_announced); bans exact, and only for invalid ones if the node itself does not fail (C63_tx_bans_partial). False of the code: a block with the header of a good block and a bad body, sent first, makes the node drop the good one (C63_good_block_dropped_refuted); a peer is banned for a failure of the node (C63_tx_ban_refuted); a fluffed transaction is dropped if it waits to be stemmed (C63_fluff_lost_refuted). Failing to start a thread and running out of memory are left out."
  },
  {
   "property": "C64",
   "status": "partial",
   "theorems": [
    "C64_parse_exact",
    "C64_written",
    "C64_read_back",
    "C64_unique_partial",
    "C64_case_refuted",
    "C64_version_refuted",
    "C64_example"
   ],
   "note": "Proved for all keys and texts, any SHA3 with 32 bytes and any test of keys: acceptance exact (C64_parse_exact), what is written (C64_written), read back (C64_read_back), unique up to capitals and version (C64_unique_partial). False of the code: the same address in capitals is accepted and is a different address (C64_case_refuted); every version is accepted (C64_version_refuted). Texts that stop early (padding, NUL) are taken as rejected at once, as they decode to less than 35 bytes."
  },
  {
   "property": "C65",
   "status": "partial",
   "theorems": [
    "C65_outputs_kept_partial",
    "C65_kept_exact",
    "C65_labels_refuted",
    "C65_hardened_path_refuted",
    "C65_transactions_kept_partial",
    "C65_time_refuted",
    "C65_context_kept_partial",
    "C65_context_once",
    "C65_context_refuted",
    "C65_keys_differ",
    "C65_old_formats"
   ],
   "note": "Proved for all histories: outputs (C65_outputs_kept_partial, what is kept exact by C65_kept_exact), transactions by listing and by id (C65_transactions_kept_partial), contexts (C65_context_kept_partial, C65_context_once), distinct keys (C65_keys_differ). Partial because the stored form has no room for some values; false of the code for them: a second label, position 0 or height 0 (C65_labels_refuted), times below a millisecond (C65_time_refuted), a hardened key path makes all outputs unreadable (C65_hardened_path_refuted), a context whose input has no transaction id is saved and never loaded (C65_context_refuted). AES assumed inverse, SQLite taken as a key/row list. Transaction records of the earlier formats are read as written (C65_old_formats)."
  },
  {
   "property": "C66",
   "status": "partial",
   "theorems": [
    "C66_by_hash",
    "C66_by_commitment",
    "C66_by_height_partial",
    "C66_prefixed_hash_refuted",
    "C66_mistyped_refuted",
    "C66_heights_partial",
    "C66_beyond_tip_refuted",
    "C66_rpc_answer_partial",
    "C66_rpc_called",
    "C66_rpc_invalid",
    "C66_rpc_id_refuted",
    "C66_rpc_parse_error_refuted",
    "C66_rpc_batch_refuted",
    "C66_leading_zero_refuted",
    "C66_made_again_refuted"
   ],
   "note": "Proved for all stores and texts: by hash (C66_by_hash), by commitment (C66_by_commitment), by height written as usual (C66_by_height_partial), ranges that start at most one above the tip (C66_heights_partial), JSON-RPC (C66_rpc_answer_partial, C66_rpc_called, C66_rpc_invalid). Partial because it is false of the code for other inputs: 010 is read as octal (C66_leading_zero_refuted), a hash with 0x is never found (C66_prefixed_hash_refuted), a mistyped hash gives the block of the number it starts with (C66_mistyped_refuted), ranges beyond the tip are a bad request instead of empty (C66_beyond_tip_refuted), an output made again is listed under its earlier block (C66_made_again_refuted), some errors lose the id of the request (C66_rpc_id_refuted), unparsable JSON and batches (C66_rpc_parse_error_refuted, C66_rpc_batch_refuted)."
  },
  {
   "property": "C67",
   "status": "partial",
   "theorems": [
    "C67_round_trip_partial",
    "C67_posted_partial",
    "C67_push_safe",
    "C67_stem_announced_refuted",
    "C67_other_kernels_refuted",
    "C67_empty_refuted",
    "C67_fee_shift_refuted",
    "C67_undefined_refuted",
    "C67_no_list_refuted"
   ],
   "note": "Proved: round trip and posting for transactions with plain and height-locked kernels without fee shift (C67_round_trip_partial, C67_posted_partial), and for all input what is handed on, answered and announced (C67_push_safe). Partial because it is false of the code otherwise: a transaction posted without fluff is announced to all peers (C67_stem_announced_refuted); NoRecentDuplicate and coinbase kernels (C67_other_kernels_refuted), empty lists and short range proofs (C67_empty_refuted) cannot be read; a fee shift changes the kernel (C67_fee_shift_refuted); empty features or a bad signature are undefined behaviour (C67_undefined_refuted); a text in place of a list is an empty list (C67_no_list_refuted)."
  },
  {
   "property": "C68",
   "status": "partial",
   "theorems": [
    "C68_read",
    "C68_nobody_else",
    "C68_empty_refuted",
    "C68_written",
    "C68_numbers",
    "C68_authentic",
    "C68_cut_partial",
    "C68_mac_refuted",
    "C68_line_removed_refuted",
    "C68_short_refuted",
    "C68_slatepack",
    "C68_toy",
    "C68_example"
   ],
   "note": "Proved, given the stated laws of the ciphers: every recipient reads every non-empty text (C68_read, for whole slatepack messages C68_slatepack), nobody else does (C68_nobody_else), what is written (C68_written, C68_numbers), what is read was sealed to the last piece (C68_authentic), a message cut between pieces is refused (C68_cut_partial). Partial because it is false of the code otherwise: an empty text is encrypted and nobody can read it (C68_empty_refuted); the code of the header is not verified, so it can be replaced (C68_mac_refuted) and lines of other recipients removed (C68_line_removed_refuted); an encrypted part of at most 16 bytes fails an assertion or wraps around (C68_short_refuted). Cuts inside a piece rest on the cipher and are not covered."
  }
 ]
}