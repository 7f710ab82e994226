{
 "claims": [
  {
   "property": "C01",
   "status": "proved",
   "theorems": [
    "C01_native_roundtrip",
    "C01_native_roundtrip_back",
    "C01_native_units",
    "C01_rule_roundtrip",
    "C01_default_rule",
    "C01_coin_roundtrip",
    "C01_tag_round_trip",
    "C01_tag_round_trip_refuted"
   ],
   "note": ""
  },
  {
   "property": "C02",
   "status": "proved",
   "theorems": [
    "C02_order_and_sums",
    "C02_rules_order_and_sums",
    "C02_exact_arithmetic",
    "C02_common_scale"
   ],
   "note": ""
  },
  {
   "property": "C03",
   "status": "proved",
   "theorems": [
    "C03_accepts",
    "C03_rejects",
    "C03_print_parse",
    "C03_serialize_deserialize",
    "C03_deserialize_checks_refuted"
   ],
   "note": "Parsing from text accepts exactly the well-formed non-negative amounts of the unit and print/parse round-trips. That deserialisation re-checks the unit's rules is false and refuted: the serde path accepts values the text parser rejects."
  },
  {
   "property": "C04",
   "status": "proved",
   "theorems": [
    "C04_truncate_floor",
    "C04_truncate_idempotent",
    "C04_truncate_negative",
    "C04_truncate_whole_refuted"
   ],
   "note": "Truncation is the floor for every non-negative amount and is idempotent. For negative amounts it returns zero, so the claim for every whole value is refuted."
  },
  {
   "property": "C05",
   "status": "proved",
   "theorems": [
    "C05_balance_total",
    "C05_status",
    "C05_equal",
    "C05_balance_order_free",
    "C05_signed_total",
    "C05_negative_amount_refuted"
   ],
   "note": "Holds for non-negative amounts in the strong form; with negative amounts the sign classification is refuted, the signed total still holds."
  },
  {
   "property": "C06",
   "status": "proved",
   "theorems": [
    "C06_balance_sum",
    "C06_balance_sum_normal"
   ],
   "note": ""
  },
  {
   "property": "C07",
   "status": "proved",
   "theorems": [
    "C07_checked_add",
    "C07_saturating",
    "C07_next",
    "C07_range_and_monotone"
   ],
   "note": ""
  },
  {
   "property": "C08",
   "status": "proved",
   "theorems": [
    "C08_results",
    "C08_failing_changes_nothing",
    "C08_contents",
    "C08_unspent_meaning"
   ],
   "note": ""
  },
  {
   "property": "C09",
   "status": "proved",
   "theorems": [
    "C09_main_balance",
    "C09_token_balance",
    "C09_repeated_token_refuted"
   ],
   "note": "Proved for outputs listing each token once; the claim without that condition is refuted by a concrete history."
  },
  {
   "property": "C10",
   "status": "proved",
   "theorems": [
    "C10_listings",
    "C10_main_listing",
    "C10_repeated_token_refuted"
   ],
   "note": "Proved for outputs listing each token once, for every iteration order of the hash maps; refuted without that condition."
  },
  {
   "property": "C11",
   "status": "proved",
   "theorems": [
    "C11_same_unspent_same_store",
    "C11_insert_remove",
    "C11_dictionary_first_registration"
   ],
   "note": "All queries except get_asset_ids depend only on the unspent outputs; get_asset_ids is characterised exactly (first registration, never forgotten)."
  },
  {
   "property": "C12",
   "status": "proved",
   "theorems": [
    "C12_opens",
    "C12_read_back",
    "C12_append_succeeds",
    "C12_memory"
   ],
   "note": ""
  },
  {
   "property": "C13",
   "status": "proved",
   "theorems": [
    "C13_append_only"
   ],
   "note": ""
  },
  {
   "property": "C14",
   "status": "proved",
   "theorems": [
    "C14_iteration",
    "C14_iteration_items"
   ],
   "note": ""
  },
  {
   "property": "C15",
   "status": "proved",
   "theorems": [
    "C15_reopen",
    "C15_disk_size"
   ],
   "note": ""
  },
  {
   "property": "C16",
   "status": "proved",
   "theorems": [
    "C16_crash_exact",
    "C16_crash"
   ],
   "note": "Process crash at every point of an append or close; exactly the records whose index entry was fully written survive. Power failures: C64."
  },
  {
   "property": "C17",
   "status": "proved",
   "theorems": [
    "C17_whole_records",
    "C17_monotone",
    "C17_acknowledged",
    "C17_len",
    "C17_len_monotone",
    "C17_steps_are_append"
   ],
   "note": "One writer, any number of readers, every interleaving of the published steps; each growth of a mapping is one step because it holds the write lock."
  },
  {
   "property": "C18",
   "status": "proved",
   "theorems": [
    "C18_past_the_end",
    "C18_wraps_refuted"
   ],
   "note": "Proved for record numbers below 2^60; for larger ones the byte offset wraps in a release build and the claim is refuted."
  },
  {
   "property": "C19",
   "status": "proved",
   "theorems": [
    "C19_search",
    "C19_search_exact",
    "C19_any_index_opens"
   ],
   "note": ""
  },
  {
   "property": "C20",
   "status": "proved",
   "theorems": [
    "C20_empty_batch",
    "C20_empty_record",
    "C20_put_empty"
   ],
   "note": ""
  },
  {
   "property": "C21",
   "status": "proved",
   "theorems": [
    "C21_failed_append",
    "C21_later_append",
    "C21_flush_failure_refuted",
    "C21_memory_failed",
    "C21_memory_reported",
    "C21_protect_failure_refuted",
    "C21_remap_failure_refuted",
    "C21_reopen_recovers",
    "C21_reopen_history"
   ],
   "note": "Proved for failures before any byte is written; a failing flush after the copy is refuted: the record is half published."
  },
  {
   "property": "C22",
   "status": "proved",
   "theorems": [
    "C22_drop_keeps_reads",
    "C22_append_after_drop_refuted",
    "C22_append_past_end",
    "C22_first_append",
    "C22_memory",
    "C22_reopen"
   ],
   "note": "Reads keep working after the close handler ran; an append after it is refuted."
  },
  {
   "property": "C23",
   "status": "proved",
   "theorems": [
    "C23_mappings_invisible",
    "C23_files_or_memory"
   ],
   "note": ""
  },
  {
   "property": "C24",
   "status": "proved",
   "theorems": [
    "C24_opens",
    "C24_latest",
    "C24_absent",
    "C24_whole",
    "C24_append_succeeds",
    "C24_memory",
    "C24_no_index",
    "C24_failures",
    "C24_failures_get",
    "C24_flush_failure_refuted",
    "C24_late_failures",
    "C24_late_failures_get"
   ],
   "note": ""
  },
  {
   "property": "C25",
   "status": "proved",
   "theorems": [
    "C25_any_history",
    "C25_never_wrong",
    "C25_crash_in_append",
    "C25_acknowledged_lost_refuted",
    "C25_empty_but_iterates_refuted"
   ],
   "note": "Proved for a key index that keeps completed inserts, and, for one that loses its newest inserts in a crash (sled buffers writes), that a returned value was always appended for that key. That the latest acknowledged value is returned is refuted in the second case; is_empty and iteration can disagree after a crash."
  },
  {
   "property": "C26",
   "status": "proved",
   "theorems": [
    "C26_get_sound",
    "C26_get_atomic",
    "C26_latest",
    "C26_iteration",
    "C26_equal_keys_refuted",
    "C26_crash"
   ],
   "note": "The 'latest' clause is proved when no two appends of the same key overlap; with overlapping appends of one key it is refuted."
  },
  {
   "property": "C27",
   "status": "proved",
   "theorems": [
    "C27_order",
    "C27_injective",
    "C27_total_order"
   ],
   "note": "64-bit block numbers; byte order of the tree keys is that of (number, identifier bytes)."
  },
  {
   "property": "C28",
   "status": "proved",
   "theorems": [
    "C28_any_history",
    "C28_queries",
    "C28_contents",
    "C28_reinsert",
    "C28_remove_absent",
    "C28_same_id_refuted",
    "C28_held_reference_refuted",
    "C28_payload_refuted"
   ],
   "note": "Histories of insert, remove, clear and reopen in which an identifier denotes one block and no caller keeps the reference of a removed block across its re-insertion. Three refutations show what happens otherwise: panic for one identifier with two numbers, panic for a kept reference, memory and disk disagreeing for one identifier with two payloads."
  },
  {
   "property": "C29",
   "status": "proved",
   "theorems": [
    "C29_tips",
    "C29_non_empty",
    "C29_tips_parents_first",
    "C29_child_first_refuted"
   ],
   "note": "Child-first arrival leaves the parent a tip (refuted for 'every stored block without a stored child')."
  },
  {
   "property": "C30",
   "status": "proved",
   "theorems": [
    "C30_ancestor",
    "C30_unique",
    "C30_removed_ancestor_refuted"
   ],
   "note": "References held during the lookup are of stored blocks; the refuted theorem shows a kept reference bringing back a removed block."
  },
  {
   "property": "C31",
   "status": "proved",
   "theorems": [
    "C31_select",
    "C31_keeps_selected",
    "C31_height",
    "C31_preferred_fork",
    "C31_first_selected_refuted",
    "C31_example_program",
    "C31_example_panics"
   ],
   "note": "All fair hash orders. The documented tie rule ('the first one selected keeps its place') is refuted. C31_example_program states what the crate's example program prints for every pair of arguments and every hash order."
  },
  {
   "property": "C32",
   "status": "proved",
   "theorems": [
    "C32_reopen",
    "C32_reopen_same",
    "C32_store_from_refuted"
   ],
   "note": "Also for any starting number at reopening (C32_reopen); blocks below store_from are lost (refuted)."
  },
  {
   "property": "C33",
   "status": "proved",
   "theorems": [
    "C33_one_per_number",
    "C33_no_forks",
    "C33_complete_iff",
    "C33_forks_skipped_refuted"
   ],
   "note": "Proved: ascending, stored blocks only, one for every number in use, and complete if and only if no two stored blocks share a number (C33_complete_iff), for every history and hash order. The stronger reading, every stored block also with forks, is false of the code and refuted (C33_forks_skipped_refuted)."
  },
  {
   "property": "C34",
   "status": "proved",
   "theorems": [
    "C34_settled_chain_unique",
    "C34_settled_blocks_in_order",
    "C34_all_settled_blocks",
    "C34_linear_chain",
    "C34_never_stuck",
    "C34_next_pull",
    "C34_first_delivery_lost_refuted",
    "C34_deep_fork_refuted"
   ],
   "note": "For every depth, stream (forks that leave no settled block out, repeats, tips, errors), hash order, restart and lost delivery the accepted blocks are the settled ones in chain order (C34_settled_blocks_in_order, C34_all_settled_blocks, C34_linear_chain). Refuted without conditions: a fork that leaves a settled block out delivers a sibling (C34_deep_fork_refuted); a consumer that began with a point and lost the first delivery is refused for ever (C34_first_delivery_lost_refuted)."
  },
  {
   "property": "C35",
   "status": "proved",
   "theorems": [
    "C35_consumer_follows",
    "C35_chain_received",
    "C35_rollback_known",
    "C35_queue_first",
    "C35_shallow_forks",
    "C35_no_point_panics_refuted",
    "C35_resent_block_panics_refuted",
    "C35_no_fork_point_refuted",
    "C35_restart_refuted",
    "C35_restart_follows",
    "C35_restart_resumes",
    "C35_restart_queued_refuted"
   ],
   "note": "C35_consumer_follows for all arrival orders with stored fork points; C35_shallow_forks shows that shallow forks suffice. Refuted without conditions: first pull without a point panics, a collected block sent again panics, a block without stored common ancestor comes without rollback, a restart forgets the last block. C35_restart_follows: restarts at calm moments (nothing queued, the last block the highest) keep the claim; C35_restart_queued_refuted: a restart drops queued events."
  },
  {
   "property": "C36",
   "status": "proved",
   "theorems": [
    "C36_confirming_source",
    "C36_fork_source"
   ],
   "note": "For any store history and any stream; the sources' lookups of the confirmed block and of the tips never fail."
  },
  {
   "property": "C37",
   "status": "proved",
   "theorems": [
    "C37_epoch_and_relative",
    "C37_place_to_slot",
    "C37_before_era_refused",
    "C37_refused_only_before_era",
    "C37_epoch_monotone",
    "C37_timestamp",
    "C37_timestamp_strictly_monotone",
    "C37_timestamp_injective",
    "C37_timestamp_before_era_refuted",
    "C37_epoch_in_seconds_refuted",
    "C37_epoch_of_time",
    "C37_byron_slot",
    "C37_byron_slot_ordered",
    "C37_timestamp_checked",
    "C37_timestamp_wraps",
    "C37_epoch_overflow",
    "C37_byron_overflow",
    "C37_known_eras",
    "C37_known_start"
   ],
   "note": "Eras, epochs, slots and timestamps over u64 with both overflow behaviours. Refuted: a timestamp before the era start panics (or wraps in release), and epoch lengths given in seconds are used as slot counts."
  },
  {
   "property": "C38",
   "status": "proved",
   "theorems": [
    "C38_served",
    "C38_asks_first",
    "C38_asked",
    "C38_ended",
    "C38_no_loss",
    "C38_no_loss_from_genesis",
    "C38_caught_up",
    "C38_next_from",
    "C38_linked",
    "C38_points",
    "C38_from_origin",
    "C38_event",
    "C38_error_is_a_gap_refuted",
    "C38_genesis_alone_refuted",
    "C38_from_ignored_refuted",
    "C38_pull_returns",
    "C38_stops",
    "C38_no_error",
    "C38_connection_kept",
    "C38_connection_again",
    "C38_connection_lost",
    "C38_request_ends",
    "C38_comes_to_tip"
   ],
   "note": "Step model of the two tasks, their channels and the node; every schedule. Refuted: a block whose epoch cannot be computed is passed over (gap), a lone first block is not returned when starting from the beginning, and points are ignored while a request goes on. While nothing goes wrong the one connection is kept (clearing the buffers in the middle of a request makes the task drop it). Trusted: node protocol answers, reading of ids and decoding of blocks are parameters."
  },
  {
   "property": "C39",
   "status": "proved",
   "theorems": [
    "C39_totals",
    "C39_descriptions",
    "C39_is_balanced",
    "C39_are_utxos_balanced"
   ],
   "note": "Totals, per-token totals, the kept token descriptions and the two balance checks, for any lists of inputs and outputs and any iteration order of the token tables."
  },
  {
   "property": "C40",
   "status": "proved",
   "theorems": [
    "C40_selected",
    "C40_failure"
   ],
   "note": "For every estimator, every iteration order of the hash maps and every available set built by adding outputs: a success satisfies conservation, coverage of tokens and value plus fee, and takes distinct available inputs; a failure leaves the available inputs as they were."
  },
  {
   "property": "C41",
   "status": "proved",
   "theorems": [
    "C41_fails_only_when_short",
    "C41_fewest",
    "C41_succeeds_iff"
   ],
   "note": "Failure exactly when taking everything useful would not be enough; with a constant fee per input and no tokens required, no other choice of inputs that covers the payment is smaller."
  },
  {
   "property": "C42",
   "status": "proved",
   "theorems": [
    "C42_fee_change",
    "C42_pipeline",
    "C42_succeeds_iff",
    "C42_fee_suffices"
   ],
   "note": "Fee-only balancing and the whole pipeline from largest-first to the final check."
  },
  {
   "property": "C43",
   "status": "proved",
   "theorems": [
    "C43_single_change",
    "C43_failure",
    "C43_pipeline",
    "C43_change_not_negative_refuted",
    "C43_change_follows",
    "C43_succeeds",
    "C43_succeeds_iff"
   ],
   "note": "Single-change balancing and the pipeline. That the change value is never negative is false: after a minimum-value or fee adjustment the value can go below zero, refuted with a witness."
  },
  {
   "property": "C44",
   "status": "proved",
   "theorems": [
    "C44_selected",
    "C44_total",
    "C44_new",
    "C44_never_twice",
    "C44_succeeds",
    "C44_empty_output_fails",
    "C44_improvement_rule",
    "C44_improvement_panics",
    "C44_pipeline",
    "C44_equal_outputs_refuted",
    "C44_fee_covered_refuted",
    "C44_tokens_covered_refuted",
    "C44_improvement_loses_tokens_refuted",
    "C44_no_panic_refuted",
    "C44_failure_keeps_inputs_refuted",
    "C44_set_available_refuted",
    "C44_set_available"
   ],
   "note": "For every random stream, estimator and hash order. Exact totals are proved when no two fixed outputs are equal and refuted otherwise (equal outputs are counted twice and may be left uncovered). Also refuted, each with a witness: the fee is covered, tokens are covered (real fingerprints are never matched; the improvement phase loses tokens), a failed call keeps its inputs, set_available_inputs makes the new inputs available. A sufficient condition for success under every random stream is proved."
  },
  {
   "property": "C45",
   "status": "proved",
   "theorems": [
    "C45_main_value",
    "C45_totals",
    "C45_inputs",
    "C45_tokens",
    "C45_signs",
    "C45_fee",
    "C45_estimator_informed",
    "C45_fee_of_result",
    "C45_failure_keeps_inputs",
    "C45_changes",
    "C45_single_change",
    "C45_choice",
    "C45_needs",
    "C45_never_with_free_inputs",
    "C45_tokens_conserved_refuted",
    "C45_fee_covered_refuted",
    "C45_fee_of_dust_refuted",
    "C45_changes_above_minimum_refuted",
    "C45_failure_keeps_inputs_refuted",
    "C45_no_panic_refuted",
    "C45_splits_told",
    "C45_changes_told_refuted",
    "C45_splits_due",
    "C45_succeeds_iff",
    "C45_no_panic",
    "C45_succeeds_with_tokens",
    "C45_more_available_refuted"
   ],
   "note": "For every estimator, hash order and configuration: exact main-value conservation, reported totals, termination, chosen inputs are exactly those removed from the store, tokens never created. Exact token conservation is proved when an output's fee is below half of the least main value of a token change, and refuted without that. The fee equals the required one for fixed prices, no tokens and inputs worth their cost; refuted with tokens and with dust. Also refuted: a failed call keeps its inputs, no panic."
  },
  {
   "property": "C46",
   "status": "proved",
   "theorems": [
    "C46_fee_formula",
    "C46_announced",
    "C46_size",
    "C46_any_order",
    "C46_new_panics",
    "C46_calls_panic",
    "C46_fixed_prices",
    "C46_thermostat_fee",
    "C46_thermostat_choice",
    "C46_networks",
    "C46_dummy_free",
    "C46_dummy_never",
    "C46_size_after_magic_refuted",
    "C46_single_change_fee"
   ],
   "note": "The script length and the minimum value of an output come from the Cardano library and are parameters. The reported size is wrong after add_protocol_magic: C46_size_after_magic_refuted. CmlFeeEstimator, which delegates to the library's transaction builder, is the subject of C59."
  },
  {
   "property": "C47",
   "status": "proved",
   "theorems": [
    "C47_accepts",
    "C47_shape",
    "C47_identifies",
    "C47_not_main"
   ],
   "note": "Acceptance, exact shape (40 digits of the hash and 24 zeros), and equality exactly when the hashes agree, for any hash function with 20-byte results; injectivity of Blake2b is not assumed, the theorem reduces equality of fingerprints to equality of hashes."
  },
  {
   "property": "C48",
   "status": "proved",
   "theorems": [
    "C48_refused",
    "C48_sent",
    "C48_read",
    "C48_round_trip",
    "C48_ledger_round_trip",
    "C48_output_round_trip",
    "C48_input_round_trip",
    "C48_listed_twice_refuted",
    "C48_negative_refuted",
    "C48_fingerprint_ignored"
   ],
   "note": "Both round trips (own value to ledger and back, ledger output to own and back), exactly what is sent and refused, for every iteration order of the tables; bech32 and JSON text are parameters with round-trip hypotheses. Findings: assets listed twice under one fingerprint are not added up (C48_listed_twice_refuted), negative quantities become zero (C48_negative_refuted), fingerprints are not checked (C48_fingerprint_ignored)."
  },
  {
   "property": "C49",
   "status": "proved",
   "theorems": [
    "C49_confirmed_chain",
    "C49_no_failure",
    "C49_caught_up",
    "C49_fork_chain",
    "C49_tip",
    "C49_fork_tip",
    "C49_no_start_refuted",
    "C49_fork_lost_refuted",
    "C49_delivers",
    "C49_fork_delivers",
    "C49_fork_back_refuted",
    "C49_fork_restart_chain",
    "C49_fork_restart_possible",
    "C49_fork_restart_delivers",
    "C49_fork_restart_none",
    "C49_fork_restart_queued_refuted"
   ],
   "note": "Composition of the models of C34/C35 and C38: safety for every schedule, completeness of an ended request, no failures, restarts for the confirming source at any moment, and for the fork-handling source at the moments that C35 allows (C49_fork_restart_*: chain, possible, delivery afterwards). Findings: without a start point the confirming source, and even with one the fork-handling source, can ask only with points that the node rolled back, and is then given nothing for as long as the node stays on the new chain (C49_no_start_refuted, C49_fork_lost_refuted). A node that goes back to an earlier chain leaves the consumer of the fork-handling source on the other one (C49_fork_back_refuted). A restart while the first block is queued loses that block for good (C49_fork_restart_queued_refuted). Delivery under fair schedules for both sources. Byron epoch boundary blocks (same number as their parent) are outside the hypothesis on the node."
  },
  {
   "property": "C50",
   "status": "proved",
   "theorems": [
    "C50_snapshot",
    "C50_moments",
    "C50_same_as_writable",
    "C50_refuses",
    "C50_refuses_put",
    "C50_missing",
    "C50_makes_no_files",
    "C50_makes_directory_refuted",
    "C50_no_place",
    "C50_writable_makes_log",
    "C50_search_while_growing",
    "C50_search_still",
    "C50_search_ends_refuted",
    "C50_search_reports_damage_refuted",
    "C50_open_during_close_refuted"
   ],
   "note": "Snapshot theorem over all writer histories and all triples of moments (index opened, data opened, read). Findings: the search for the end of the index can run for ever or report damage while a writer adds entries; opening while the writer closes kills the reader; opening a missing log for reading makes an empty directory."
  },
  {
   "property": "C51",
   "status": "proved",
   "theorems": [
    "C51_counter_json",
    "C51_counter_text",
    "C51_counter_text_accepts",
    "C51_counter_accepts",
    "C51_index_accepts",
    "C51_index_text_refuted",
    "C51_value_json",
    "C51_value_numbers",
    "C51_pointer_json",
    "C51_asset_json",
    "C51_details_json",
    "C51_builder_json",
    "C51_transaction_json",
    "C51_block_json",
    "C51_event_json",
    "C51_point_json",
    "C51_config_json",
    "C51_metadata_json",
    "C51_distinct",
    "C51_pointer_text_injective",
    "C51_field_order",
    "C51_unknown_refused",
    "C51_unknown_ignored",
    "C51_repeated_refused",
    "C51_missing_refused",
    "C51_defaults",
    "C51_positional",
    "C51_tip_not_written",
    "C51_tip_not_read",
    "C51_metadata_value",
    "C51_metadata_last",
    "C51_point_accepts"
   ],
   "note": "Round trips for every type, over JSON trees; independence of the order of fields at any depth; exact acceptance of numbers; strictness. Amounts come back equal as numbers (the number of decimals written may differ). Finding: an output index is not read from text, although block numbers, slots and timestamps are."
  },
  {
   "property": "C52",
   "status": "proved",
   "theorems": [
    "C52_threshold",
    "C52_different_keys",
    "C52_monotone",
    "C52_key_order",
    "C52_script_determines_plan",
    "C52_address_determines_plan",
    "C52_address_always",
    "C52_key_order_address_refuted",
    "C52_repeated_key_refuted",
    "C52_no_quorum",
    "C52_unreachable_quorum",
    "C52_reads",
    "C52_read_well_formed",
    "C52_case_ignored",
    "C52_quorum_checked_refuted",
    "C52_reads_in_any_order"
   ],
   "note": "Who can spend, for every set of signers, against the ledger's rule for native scripts; injectivity of the script's bytes; exact acceptance of documents. Findings: a key listed twice counts twice; quorums of zero and above the number of keys are accepted; the order of the keys changes the address."
  },
  {
   "property": "C53",
   "status": "proved",
   "theorems": [
    "C53_size_covered",
    "C53_fee_covered",
    "C53_within_limit",
    "C53_thermostat",
    "C53_several_assets_refuted",
    "C53_more_signatures_refuted",
    "C53_min_value_refuted"
   ],
   "note": "The encoding is written down from the ledger's format (CborSpec) and gives the sizes that the repository's tests measure with the Cardano library (C53_test_sizes). Needs outputs with at most one asset and at most quorum signatures; both bounds are shown to be needed. Finding: the minimum value of an output is computed without its assets."
  },
  {
   "property": "C54",
   "status": "proved",
   "theorems": [
    "C54_prints",
    "C54_prints_from_genesis",
    "C54_complete",
    "C54_ends",
    "C54_no_error",
    "C54_all",
    "C54_line_lossless",
    "C54_since",
    "C54_since_written",
    "C54_since_panics",
    "C54_fork_refuted"
   ],
   "note": "Built on the model of the Cardano source (C38): the program is a particular caller, which resumes after the last block it printed. Termination uses the liveness of a pull and the fact that at most two requests can return anything from a node that stands still. Findings: a change of branch ends the program without an error; a start without a comma panics; the parts after a second comma are ignored."
  },
  {
   "property": "C55",
   "status": "proved",
   "theorems": [
    "C55_pool",
    "C55_main_value",
    "C55_tokens",
    "C55_change_positions",
    "C55_spent_once",
    "C55_refusals",
    "C55_put_back_refuted"
   ],
   "note": "A caller of the models of C08-C11 and C39-C45: it keeps the pool, puts it back after a failure, and receives its own change. For tokens the thermostat needs the condition of C45_tokens; without it the pool never has more than the books say. Finding: the pool must be put back, because a successful selection keeps its inputs even if the change cannot be made."
  },
  {
   "property": "C56",
   "status": "proved",
   "theorems": [
    "C56_era",
    "C56_thermostat",
    "C56_network",
    "C56_known_parameters",
    "C56_custom_parameters",
    "C56_custom_from_document",
    "C56_rule",
    "C56_rule_roundtrip",
    "C56_field_order",
    "C56_usable_refuted",
    "C56_bounds_refuted",
    "C56_empty_epochs_refuted"
   ],
   "note": "Acceptance is an equivalence with an independent description of the document. What the Cardano library makes of the builder's arguments is not modelled. Findings: figures, bounds and lengths are not checked when a document is read."
  },
  {
   "property": "C57",
   "status": "proved",
   "theorems": [
    "C57_prints",
    "C57_no_error",
    "C57_prefix",
    "C57_output_tells_chain",
    "C57_chain_printed",
    "C57_no_rollback",
    "C57_output_determines_chain",
    "C57_rollback_refuted",
    "C57_setup"
   ],
   "note": "The library oura is outside the model: what its source sends is any list of events, its filter any predicate that lets blocks through. Block numbers are taken to count up by one along a chain, which leaves out the boundary blocks of the Byron era. Finding: a rollback by itself leaves no trace in the output."
  },
  {
   "property": "C58",
   "status": "proved",
   "theorems": [
    "C58_verdict",
    "C58_complete",
    "C58_no_other_output",
    "C58_first_status_refuted",
    "C58_no_panic_refuted"
   ],
   "note": "The Cardano library's keys and addresses, the HTTP client and the parser of JSON text are parameters. Findings: the status of the first answer is not checked, and an unreadable second body is a panic."
  },
  {
   "property": "C59",
   "status": "proved",
   "theorems": [
    "C59_fees_nonneg",
    "C59_largest_first",
    "C59_fee_change",
    "C59_single_change",
    "C59_thermostat_counts",
    "C59_sizes",
    "C59_new",
    "C59_refused",
    "C59_thermostat_outputs_refuted",
    "C59_fraction_refuted"
   ],
   "note": "The library's builder is a record of operations on an arbitrary state, so every theorem holds for any library; that its quotes suffice is a hypothesis where it is needed (quotes_inputs, quotes_outputs), met by a demonstration library. Findings: the thermostat changes outputs after the builder has been told of them, and fractions of a lovelace do not reach the builder."
  },
  {
   "property": "C60",
   "status": "proved",
   "theorems": [
    "C60_panics",
    "C60_nearest",
    "C60_exact",
    "C60_opposite",
    "C60_same_amount",
    "C60_same_amount_refuted",
    "C60_threshold",
    "C60_thermostat_pivot",
    "C60_thermostat_half",
    "C60_shares_refuted"
   ],
   "note": "The division of the crate bigdecimal 0.4.2 (long division to a hundred digits) is modelled after its source and is in the trusted base like the crate's addition. Refuted: with more than a hundred digits, the way an amount is written can change the result; n shares of an amount may exceed it. The two uses in the thermostat are proved to be what its model takes them to be."
  },
  {
   "property": "C61",
   "status": "proved",
   "theorems": [
    "C61_hash",
    "C61_hash_point"
   ],
   "note": "What is hashed is the text that the crate bigdecimal 0.4.2 makes of an amount, modelled after its source. The text leaves out the decimal point, so that 1.5 and 15 collide (C61_hash_point); that costs time, not correctness."
  },
  {
   "property": "C62",
   "status": "proved",
   "theorems": [
    "C62_memory",
    "C62_makes",
    "C62_makes_nothing_read_only",
    "C62_opens_again",
    "C62_appends",
    "C62_close_again",
    "C62_without_index",
    "C62_read_only",
    "C62_reader",
    "C62_second_refused",
    "C62_second_cuts",
    "C62_second_open_refuted"
   ],
   "note": "The last clause is false when the second open is not read only: it is refused (the key index is locked), but the log it had opened is dropped and cuts the files of the map that is open, whose next append then writes past the end of the file (C62_second_open_refuted, in general C62_second_cuts)."
  },
  {
   "property": "C63",
   "status": "proved",
   "theorems": [
    "C63_exact",
    "C63_order",
    "C63_panics",
    "C63_every_timestamp_refuted",
    "C63_add",
    "C63_slot_time"
   ],
   "note": "The last clause is false from 2^63 seconds on: the conversion panics (C63_every_timestamp_refuted; C63_panics says exactly when)."
  },
  {
   "property": "C64",
   "status": "proved",
   "theorems": [
    "C64_history",
    "C64_acknowledged_stay",
    "C64_any_batch",
    "C64_single_records",
    "C64_torn_batch_refuted",
    "C64_acknowledged_lost_refuted",
    "C64_unsynchronised_refuted"
   ],
   "note": "Histories of appends, reopenings, process deaths (that leave no index entry) and power failures, with any combination of lost sectors; batches over several sectors: acknowledged records are read back after the failure (C64_any_batch), but later harm is possible (three _refuted theorems)."
  },
  {
   "property": "C65",
   "status": "proved",
   "theorems": [
    "C65_new",
    "C65_slice",
    "C65_slices",
    "C65_selects_one",
    "C65_last_start_refuted",
    "C65_in_log"
   ],
   "note": "Pointers are distances from the start of the mapping; the bytes of a mapping do not change while the views are compared (the log only reads closed mappings through them)."
  },
  {
   "property": "C66",
   "status": "proved",
   "theorems": [
    "C66_thermostat_size",
    "C66_largest_first_size",
    "C66_random_size",
    "C66_single_change_size",
    "C66_fits",
    "C66_thermostat_oversized",
    "C66_largest_first_oversized",
    "C66_random_oversized",
    "C66_within_limit_refuted"
   ],
   "note": "Sizes counted through the selections (C45_estimator_informed, charge) and value arguments for both bounds. Refuted: a selection that succeeds need not fit (C66_within_limit_refuted, C66_oversized_case). Without protocol magic: giving one overwrites the size (C46_size_after_magic_refuted)."
  },
  {
   "property": "C67",
   "status": "proved",
   "theorems": [
    "C67_call_writes",
    "C67_crash",
    "C67_no_loss_possible",
    "C67_half_clear",
    "C67_half_clear_refuted",
    "C67_acknowledged_refuted",
    "C67_pull_writes",
    "C67_source_crashes",
    "C67_source_starts",
    "C67_lost_confirmation",
    "C67_fork_pull_writes",
    "C67_fork_crash_before",
    "C67_fork_crash_gap",
    "C67_first_lost",
    "C67_stack_chain",
    "C67_stack_starts",
    "C67_stack_first_lost",
    "C67_stack_delivers"
   ],
   "note": "sled keeps a prefix of the writes (the crate never flushes): trusted"
  },
  {
   "property": "C68",
   "status": "proved",
   "theorems": [
    "C68_history",
    "C68_never_wrong",
    "C68_nothing_lost",
    "C68_keys_kept",
    "C68_died_before_refuted"
   ],
   "note": "Simulation of the map's histories by those of C64 (one record per append, so that no batch is torn) together with the representation of the key index of C24-C26. Refuted without the condition on deaths of the process: C68_died_before_refuted. Assumed of sled: after a failure it holds what it held some number of inserts earlier."
  }
 ]
}