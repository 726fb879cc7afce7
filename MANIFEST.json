{
 "claims": [
  {
   "property": "C01",
   "status": "proved",
   "theorems": [
    "C01_roundtrip_primitives",
    "C01_roundtrip_account",
    "C01_roundtrip_raw_transaction",
    "C01_roundtrip_signed_transaction",
    "C01_roundtrip_receipt",
    "C01_roundtrip_receipt_result",
    "C01_roundtrip_epoch",
    "C01_roundtrip_genesis"
   ],
   "note": "All fixed-codec types, all values whose encoding is shorter than 2^64 bytes; Approve is excluded here and refuted in C03."
  },
  {
   "property": "C02",
   "status": "proved",
   "theorems": [
    "C02_encoding_injective",
    "C02_tx_hash_binds",
    "C02_epoch_hash_binds"
   ],
   "note": "For every digest function; a collision is exhibited, never assumed away."
  },
  {
   "property": "C03",
   "status": "proved",
   "theorems": [
    "C03_approve_encoding_refuted"
   ],
   "note": "The property is false of the code: all Approve transactions encode to the empty string. The refutation is proved."
  },
  {
   "property": "C04",
   "status": "proved",
   "theorems": [
    "C04_roundtrip_primitives",
    "C04_roundtrip_epoch",
    "C04_roundtrip_transaction",
    "C04_roundtrip_receipt",
    "C04_encoding_injective",
    "C04_deploy_type_refuted",
    "C04_unknown_fields_ignored"
   ],
   "note": "Holds for every message except deployments of a non-asset contract, for which it is refuted with the exact wrong result."
  },
  {
   "property": "C05",
   "status": "proved",
   "theorems": [
    "C05_from_hex_accepts_exactly",
    "C05_hex_roundtrip",
    "C05_hash_hex_roundtrip",
    "C05_address_kinds"
   ],
   "note": ""
  },
  {
   "property": "C06",
   "status": "proved",
   "theorems": [
    "C06_user_address_derivation",
    "C06_contract_address_derivation"
   ],
   "note": "For every digest function with 32-byte output."
  },
  {
   "property": "C07",
   "status": "proved",
   "theorems": [
    "C07_list_free_decoders_never_panic",
    "C07_decode_never_panics_refuted"
   ],
   "note": "False as stated (refutation with witnesses for each type with a list field); proved for the list-free types."
  },
  {
   "property": "C08",
   "status": "proved",
   "theorems": [
    "C08_account_history_independent",
    "C08_account_bytes_canonical",
    "C08_ascending_listing_exists",
    "C08_account_bytes_injective"
   ],
   "note": ""
  },
  {
   "property": "C09",
   "status": "proved",
   "theorems": [
    "C09_unique_encoding_refuted"
   ],
   "note": "False of the code; refutation proved."
  },
  {
   "property": "C10",
   "status": "proved",
   "theorems": [
    "C10_block_conserves_every_asset",
    "C10_history_conserves_every_asset"
   ],
   "note": "Every block, and every history genesis + blocks with arbitrary foreign commits to the trie database in between; the history theorem needs the root function injective on the finitely many tries of that history (clash_free)."
  },
  {
   "property": "C11",
   "status": "proved",
   "theorems": [
    "C11_transfer_succeeds_iff",
    "C11_transfer_effect",
    "C11_block_balances"
   ],
   "note": "Sender = receiver included. Single transactions from every mid-block state, and whole blocks."
  },
  {
   "property": "C12",
   "status": "proved",
   "theorems": [
    "C12_failed_transaction_no_effect",
    "C12_failed_last_same_root",
    "C12_failed_transaction_keeps_accounts"
   ],
   "note": ""
  },
  {
   "property": "C13",
   "status": "proved",
   "theorems": [
    "C13_receipts_match_block"
   ],
   "note": ""
  },
  {
   "property": "C14",
   "status": "proved",
   "theorems": [
    "C14_cycles_within_limit",
    "C13_receipts_match_block"
   ],
   "note": "C13's witness n (cycles consumed) is bounded by the limit for every price; with price 1 (the only price main.rs uses) the reported fee itself is."
  },
  {
   "property": "C15",
   "status": "proved",
   "theorems": [
    "C15_account_adapter_is_layered_map",
    "C15_asset_adapter_is_layered_map",
    "C15_typed_model_faithful"
   ],
   "note": "Byte level, for both native contract schemas; the typed adapter used by the executor model is shown equivalent."
  },
  {
   "property": "C16",
   "status": "proved",
   "theorems": [
    "C16_exec_deterministic",
    "C16_genesis_deterministic"
   ],
   "note": "All iteration orders of both contracts' hash maps at every stash and commit. Equality of the whole trie database additionally needs the three new tries not to collide; root and responses do not."
  },
  {
   "property": "C17",
   "status": "proved",
   "theorems": [
    "C17_assets_never_lost_or_altered",
    "C17_new_assets_are_the_deployed_ones",
    "C17_deploy_outcome"
   ],
   "note": ""
  },
  {
   "property": "C18",
   "status": "proved",
   "theorems": [
    "C18_coinbase_reward_refuted",
    "C18_reward_only_in_live_view",
    "C18_idle_coinbase_gains_nothing"
   ],
   "note": "False of the code: refutation proved, with the exact behaviour beside it."
  },
  {
   "property": "C19",
   "status": "proved",
   "theorems": [
    "C19_nonce_counts_transactions_refuted",
    "C19_committed_nonce"
   ],
   "note": "False as stated: refutation proved, and the exact committed nonce of every account for every block."
  },
  {
   "property": "C20",
   "status": "proved",
   "theorems": [
    "C20_one_transaction_aborts_block_refuted",
    "C20_block_panics_iff",
    "C20_block_fails_iff",
    "C20_known_senders_suffice"
   ],
   "note": "False as stated: refutation proved, with exact characterisations of panic, error and success."
  },
  {
   "property": "C21",
   "status": "proved",
   "theorems": [
    "C21_fees_per_asset",
    "C21_exec_reports_fees"
   ],
   "note": ""
  },
  {
   "property": "C22",
   "status": "proved",
   "theorems": [
    "C22_genesis_state",
    "C22_genesis_fails_iff_malformed"
   ],
   "note": ""
  },
  {
   "property": "C23",
   "status": "proved",
   "theorems": [
    "C23_untouched_accounts"
   ],
   "note": "Holds for the coinbase as well (a consequence of the C18 defect)."
  },
  {
   "property": "C24",
   "status": "proved",
   "theorems": [
    "C24_reopen_after_exec",
    "C24_reopen_after_genesis"
   ],
   "note": "Under clash_free: the root function is injective on the finitely many tries involved."
  },
  {
   "property": "C25",
   "status": "proved",
   "theorems": [
    "C25_sender_pays_fee_refuted",
    "C11_block_balances"
   ],
   "note": "False of the code: refutation proved; C11_block_balances shows no balance ever changes by a fee."
  },
  {
   "property": "C30",
   "status": "proved",
   "theorems": [
    "C30_insert_outcome",
    "C30_insert_without_flush",
    "C30_empty_pool_rejects_refuted",
    "C30_error_although_accepted_refuted"
   ],
   "note": "Exact outcome for every reachable pool; the English equivalence holds without flush; in general it is false in two ways (flushed entries keep queue slots; an earlier broadcast error is reported for an accepted transaction), both refuted with executions."
  },
  {
   "property": "C31",
   "status": "proved",
   "theorems": [
    "C31_never_above_pool_size",
    "C31_never_above_four_times",
    "C31_sync_exceeds_pool_size_refuted"
   ],
   "note": ""
  },
  {
   "property": "C32",
   "status": "proved",
   "theorems": [
    "C32_pool_is_fifo_list",
    "C32_fit_is_longest_prefix"
   ],
   "note": "Refinement: all responses of every operation history equal those of a list specification (cycles and limits below 2^63)."
  },
  {
   "property": "C33",
   "status": "proved",
   "theorems": [
    "C33_order_list_within_limit",
    "C33_overflow_passes_limit_refuted"
   ],
   "note": "Holds for cycles and limits below 2^63; refuted without that bound."
  },
  {
   "property": "C34",
   "status": "proved",
   "theorems": [
    "C34_packaged_lists_disjoint_nodup"
   ],
   "note": ""
  },
  {
   "property": "C35",
   "status": "proved",
   "theorems": [
    "C35_packaged_are_pooled_and_unexpired",
    "C35_flushed_stays_out"
   ],
   "note": ""
  },
  {
   "property": "C36",
   "status": "proved",
   "theorems": [
    "C36_package_keeps_live",
    "C36_package_never_fails"
   ],
   "note": "Sequential use; a second package of the same epoch gives what a first one would have given."
  },
  {
   "property": "C37",
   "status": "proved",
   "theorems": [
    "C37_flush_exact"
   ],
   "note": ""
  },
  {
   "property": "C38",
   "status": "proved",
   "theorems": [
    "C38_get_full_txs_exact"
   ],
   "note": ""
  },
  {
   "property": "C39",
   "status": "proved",
   "theorems": [
    "C39_ensured_txs_stay_available",
    "C39_wrong_answer_accepted_refuted",
    "C39_package_drops_ensured_refuted"
   ],
   "note": "Proved for peers that answer with the requested transactions and no packaging in between; refuted otherwise."
  },
  {
   "property": "C40",
   "status": "proved",
   "theorems": [
    "C40_authentic_if_peers_are",
    "C40_pulled_forgery_refuted"
   ],
   "note": "False of the code for arbitrary peers (for every reachable pool); holds when pulls are authentic."
  },
  {
   "property": "C41",
   "status": "proved",
   "theorems": [
    "C41_admission_check",
    "C41_first_failing_check",
    "C41_admitted_yet_never_packaged_refuted"
   ],
   "note": "u64 addition wraps as in a release build."
  },
  {
   "property": "C42",
   "status": "proved",
   "theorems": [
    "C42_accepted_never_lost",
    "C42_queued_once",
    "C42_idle_pool_is_ready",
    "C42_package_alone",
    "C42_insert_alone",
    "C42_packages_distinct_calls",
    "C42_package_no_duplicates",
    "C42_map_agrees_with_queues",
    "C42_one_acceptance_per_hash",
    "C42_duplicate_refusal_justified",
    "C42_no_refusal_with_room",
    "C42_package_can_finish",
    "C42_flush_race_packages_twice_refuted",
    "C42_refused_insert_erases_accepted_refuted"
   ],
   "note": "All schedules of any number of inserting and flushing threads with one packaging thread, sequentially consistent steps. No loss holds for capacity at least the number of calls; no duplicate hash holds without concurrent flushes and is refuted with them."
  },
  {
   "property": "C43",
   "status": "proved",
   "theorems": [
    "C43_sharded_map_is_one_map"
   ],
   "note": "Sequential operation sequences, any bucket order in deletes."
  },
  {
   "property": "C44",
   "status": "proved",
   "theorems": [
    "C44_nothing_lost_repeated_or_reordered",
    "C44_batches_within_size",
    "C44_waiting_batch_below_size",
    "C44_tick_sends_what_is_held",
    "C44_tick_leaves_a_signal",
    "C44_errors_reported_in_order",
    "C44_next_tick_misses_transaction_refuted",
    "C44_failed_batch_never_resent_refuted"
   ],
   "note": "Order, exactly-once and batch size hold; the deadline and delivery despite a gossip error are refuted."
  },
  {
   "property": "C45",
   "status": "proved",
   "theorems": [
    "C45_dear_head_blocks_everything_refuted",
    "C45_progress_if_each_fits"
   ],
   "note": "False of the code: for every history after such a head; positive part: progress when every transaction fits alone."
  },
  {
   "property": "C46",
   "status": "proved",
   "theorems": [
    "C46_proposed_again_refuted",
    "C46_tail_of_proposal_is_new"
   ],
   "note": "False of the code at the order/propose boundary only."
  },
  {
   "property": "C47",
   "status": "proved",
   "theorems": [
    "C47_broadcast_exactly_own_new_txs"
   ],
   "note": ""
  },
  {
   "property": "C50",
   "status": "proved",
   "theorems": [
    "C50_transactions_and_receipts",
    "C50_epochs",
    "C50_epoch_by_hash",
    "C50_unknown_hash",
    "C50_deployment_altered_refuted"
   ],
   "note": "Holds for all histories whose transactions and receipts do not deploy a non-asset contract; refuted for those."
  },
  {
   "property": "C51",
   "status": "proved",
   "theorems": [
    "C51_frame",
    "C51_memory_adapter_refuted"
   ],
   "note": "RocksDB adapter: frame for arbitrary database contents. Memory adapter: refuted."
  },
  {
   "property": "C52",
   "status": "proved",
   "theorems": [
    "C52_batch_reads"
   ],
   "note": "Same side condition as C50."
  },
  {
   "property": "C53",
   "status": "proved",
   "theorems": [
    "C53_parent_never_found_refuted"
   ],
   "note": "False of the code: for every history the parent lookup returns none."
  },
  {
   "property": "C60",
   "status": "proved",
   "theorems": [
    "C60_commit_starts",
    "C60_commit_finishes",
    "C60_node_matches_storage",
    "C60_next_proposal",
    "C60_chain"
   ],
   "note": "All histories of boots, calls (any arguments, any order the engine may choose) and crashes after any durable write; commits split in two steps so that other calls interleave. Side conditions on the environment are named predicates of ConsSpec (the digest does not collide on the headers seen; the engine commits under the epoch's own number; what is committed extends the chain). ConsExamples runs a concrete history meeting them."
  },
  {
   "property": "C61",
   "status": "proved",
   "theorems": [
    "C61_stored_epochs_complete",
    "C61_latest_proof",
    "C61_sync_stores_incomplete_epoch_refuted",
    "C61_sync_proof_is_headers_refuted"
   ],
   "note": "Holds at every crash point of every history when peers answer transaction pulls truthfully (completeness) and without synchronisation (proof number); both side conditions are shown necessary."
  },
  {
   "property": "C62",
   "status": "proved",
   "theorems": [
    "C62_restart_uses_header_root",
    "C62_restart_forgets_latest_epoch_refuted"
   ],
   "note": "False of the code: for every commit of an epoch whose header holds the pre-state root (every proposed epoch does, C60_next_proposal), restart resumes from the state before it."
  },
  {
   "property": "C63",
   "status": "proved",
   "theorems": [
    "C63_unlinked_rejected",
    "C63_applied_epochs_link",
    "C63_first_epoch_unlinked_refuted",
    "C63_number_unchecked_refuted"
   ],
   "note": "Holds except for the first epoch after genesis, which is refuted; the epoch's number is not checked either."
  },
  {
   "property": "C64",
   "status": "proved",
   "theorems": [
    "C64_header_unchecked_refuted",
    "C64_transactions_available"
   ],
   "note": "False of the code: the whole outcome of check_epoch is independent of the header. What is checked is proved."
  },
  {
   "property": "C65",
   "status": "proved",
   "theorems": [
    "C65_authority_list",
    "C65_engine_gets_configured_validators"
   ],
   "note": "overlord's Node ordering (by address) is assumed."
  },
  {
   "property": "C66",
   "status": "proved",
   "theorems": [
    "C66_roundtrip_proposal",
    "C66_roundtrip_epoch_id",
    "C66_roundtrip_blob",
    "C66_roundtrip_request",
    "C66_roundtrip_transactions",
    "C66_roundtrip_response",
    "C66_response_panics_refuted",
    "C66_deployment_altered_refuted"
   ],
   "note": "All message types; refuted for deployments of non-asset contracts; decoding a response can panic."
  },
  {
   "property": "C48",
   "status": "proved",
   "theorems": [
    "C48_pull_request_never_decodes_refuted"
   ],
   "note": "False of the code: every non-empty pull request fails to decode at the handler main.rs registers for its endpoint."
  },
  {
   "property": "C67",
   "status": "proved",
   "theorems": [
    "C67_committed_refused",
    "C67_accepted_while_committing_refuted"
   ],
   "note": "Holds for stored epochs; refuted during a commit."
  },
  {
   "property": "C68",
   "status": "proved",
   "theorems": [
    "C68_order_root_binds",
    "C68_order_root_length_refuted"
   ],
   "note": "For every tree shape whose leaves are the positions of the list."
  },
  {
   "property": "C69",
   "status": "proved",
   "theorems": [
    "C69_sync_start_state",
    "C69_new_node_cannot_sync_refuted",
    "C69_sync_forgets_latest_epoch_refuted",
    "C69_low_announcement_resets_engine_refuted"
   ],
   "note": "False of the code in three ways, each proved for all nodes meeting stated conditions."
  },
  {
   "property": "C70",
   "status": "proved",
   "theorems": [
    "C70_answered_by_own_response",
    "C70_foreign_response_harmless",
    "C70_response_completes",
    "C70_delayed_response_completes",
    "C70_ids_unique",
    "C70_dropped_only_by_own_peer",
    "C70_ids_wrap",
    "C70_failed_call_leaks_refuted"
   ],
   "note": "All schedules of calls, responses, timeouts; ids unique within 2^64 calls (wrap shown); an entry of a call that fails before sending is never removed (refuted)."
  },
  {
   "property": "C71",
   "status": "proved",
   "theorems": [
    "C71_accepted_iff",
    "C71_keeps_text",
    "C71_equality",
    "C71_scheme",
    "C71_extend",
    "C71_rpc_id",
    "C71_no_panic"
   ],
   "note": ""
  },
  {
   "property": "C72",
   "status": "proved",
   "theorems": [
    "C72_delivered_to_registered",
    "C72_registered_gets_it",
    "C72_dropped_without_effect",
    "C72_no_panic"
   ],
   "note": "Transport envelope decoding is modelled; snappy is a parameter."
  },
  {
   "property": "C73",
   "status": "proved",
   "theorems": [
    "C73_envelope",
    "C73_gossip",
    "C73_rpc"
   ],
   "note": "Lossless compression and message codec are hypotheses, the codecs themselves are C04/C66."
  },
  {
   "property": "C74",
   "status": "proved",
   "theorems": [
    "C74_tables_consistent",
    "C74_recorded_is_latest",
    "C74_open_session_recorded",
    "C74_late_close_refuted"
   ],
   "note": "All histories of events and routines from start-up; refuted when the close of an older session arrives after a newer one was opened. distinct_ids: no two keys seen have the same peer id (SHA-256)."
  },
  {
   "property": "C75",
   "status": "proved",
   "theorems": [
    "C75_sent_or_missed",
    "C75_result"
   ],
   "note": "All histories; the keys seen have distinct ids and addresses."
  },
  {
   "property": "C76",
   "status": "proved",
   "theorems": [
    "C76_address_forgotten_refuted",
    "C76_dial_never_retried_refuted",
    "C76_candidate_iff",
    "C76_closed_is_freed"
   ],
   "note": "False of the code in two ways, each for every history; when a peer is a dial candidate is characterised."
  },
  {
   "property": "C77",
   "status": "proved",
   "theorems": [
    "C77_bootstraps_kept",
    "C77_bootstrap_addresses_kept"
   ],
   "note": ""
  },
  {
   "property": "C78",
   "status": "proved",
   "theorems": [
    "C78_dials_fit",
    "C78_unknown_dials_unbounded_refuted"
   ],
   "note": "Holds for each run of the routine; refuted over several, for dials to discovered addresses."
  },
  {
   "property": "C79",
   "status": "proved",
   "theorems": [
    "C79_handed_or_kept",
    "C79_nothing_lost",
    "C79_order_kept",
    "C79_one_pending",
    "C79_drains",
    "C79_refused_command_blocks",
    "C79_closed_drops",
    "C79_direct_send"
   ],
   "note": "For every transport (oracle) and every schedule of events and polls."
  },
  {
   "property": "C54",
   "status": "proved",
   "theorems": [
    "C54_decoders_total",
    "C54_bloom_refuted"
   ],
   "note": "Holds for eleven message types; refuted for headers, epochs, pills and receipts (missing bloom)."
  },
  {
   "property": "C55",
   "status": "proved",
   "theorems": [
    "C55_crash_consistent",
    "C55_full_history_is_a_crash_point"
   ],
   "note": "Crash points are the boundaries of atomic RocksDB writes."
  },
  {
   "property": "C56",
   "status": "proved",
   "theorems": [
    "C56_adapter_is_a_map",
    "C56_any_value",
    "C56_batch_length_mismatch",
    "C56_keys_injective"
   ],
   "note": ""
  },
  {
   "property": "C80",
   "status": "proved",
   "theorems": [
    "C80_send_transfer",
    "C80_send_deploy",
    "C80_transfer_reaches_pool",
    "C80_send_unsafe_transfer",
    "C80_send_unsafe_deploy",
    "C80_epoch_query",
    "C80_outputs_parse_back",
    "C80_ligature_accepted_refuted"
   ],
   "note": "Equivalences, for all strings without U+FB00; refuted with it. HTTP and GraphQL parsing are not modelled."
  },
  {
   "property": "C81",
   "status": "proved",
   "theorems": [
    "C81_balance_at_header_root",
    "C81_balance_before_epoch_refuted",
    "C81_balance_after_epoch_refuted",
    "C81_errors_become_zero_refuted",
    "C81_malformed_refused"
   ],
   "note": "False of the code: the answer is the balance in the state before the epoch, and failures are reported as 0. What is answered is characterised for every disk."
  },
  {
   "property": "C82",
   "status": "proved",
   "theorems": [
    "C82_registration_succeeds",
    "C82_gossip_reaches_its_handler",
    "C82_sync_request_answered",
    "C82_pull_requests_unanswered_refuted"
   ],
   "note": "True of gossip and of synchronisation; false of the code for pull requests of the mempool."
  },
  {
   "property": "C83",
   "status": "proved",
   "theorems": [
    "C83_removed_not_disconnected_refuted",
    "C83_broken_session_not_disconnected_refuted",
    "C83_last_failure_not_disconnected_refuted",
    "C83_failure_disconnects"
   ],
   "note": "False of the code, for every state; true of the first five failures."
  },
  {
   "property": "C84",
   "status": "proved",
   "theorems": [
    "C84_count_bounded",
    "C84_backoff_set",
    "C84_backoff_respected",
    "C84_bootstrap_reset_refuted"
   ],
   "note": "Refuted for bootstraps at the sixth failure."
  },
  {
   "property": "C85",
   "status": "proved",
   "theorems": [
    "C85_restart_keeps_peers",
    "C85_restart_adds_none",
    "C85_bootstrap_addresses_lost_refuted"
   ],
   "note": "The bytes of the peer file: C57."
  },
  {
   "property": "C86",
   "status": "proved",
   "theorems": [
    "C86_recorded_is_open",
    "C86_tables_inverse",
    "C86_close_is_current",
    "C86_open_is_recorded_or_none",
    "C86_routed_to_its_addressees",
    "C86_forgotten_session_refuted"
   ],
   "note": "All runs of transport, event channel and manager. The transport gives fresh session numbers, authenticates keys and keeps at most one session per key (t_ok). An open session the manager forgot stays forgotten: refuted for every continuation."
  },
  {
   "property": "C87",
   "status": "proved",
   "theorems": [
    "C87_inbound_unbounded_refuted"
   ],
   "note": "False of the code, for every number of peers and every limit; C78 bounds the node's own dials."
  },
  {
   "property": "C88",
   "status": "proved",
   "theorems": [
    "C88_addresses_were_told",
    "C88_failure_charged_to_another_refuted",
    "C88_failure_charged_to_last_claimant"
   ],
   "note": "Provenance over all runs; the attribution of failures is refuted for every state, and what it is instead is proved."
  },
  {
   "property": "C89",
   "status": "proved",
   "theorems": [
    "C89_starts",
    "C89_one_behind_ignored",
    "C89_copies",
    "C89_completes",
    "C89_fails_only_in_execution",
    "C89_nodes_are_good_peers",
    "C89_peer_goes_on",
    "C89_working_peer"
   ],
   "note": "Requests and answers go through the real message codecs. The digest does not collide on the chain's headers; answers fit in memory. The copied node's state can still differ (C69). C89_working_peer: the peer has another history, extending the one it announced, at each answer (GrowExamples: it commits epoch 4, crashes and boots meanwhile)."
  },
  {
   "property": "C90",
   "status": "proved",
   "theorems": [
    "C90_no_inflation",
    "C90_reported_balance_bounded",
    "C90_supply_kept"
   ],
   "note": "The Merkle root does not collide on the tries the history writes; states fit in memory; iteration orders enumerate. The empty ledger is reachable only by synchronising (C69)."
  },
  {
   "property": "C91",
   "status": "proved",
   "theorems": [
    "C91_same_blocks_same_chain",
    "C91_same_epochs_agree_refuted"
   ],
   "note": "Same blocks: proved for all pairs of histories without restart and synchronisation. Same epochs: false of the code, shown by two concrete nodes."
  },
  {
   "property": "C92",
   "status": "proved",
   "theorems": [
    "C92_hash_identifies_sender_refuted"
   ],
   "note": "False of the code, for every transaction and every pool history."
  },
  {
   "property": "C94",
   "status": "proved",
   "theorems": [
    "C94_stuck_forever_refuted",
    "C94_catching_up_gets_stuck_refuted"
   ],
   "note": "False of the code: for every disk whose latest epoch names a root that opens no executor, over all continuations; a concrete run of a node catching up from an honest peer reaches such a disk."
  },
  {
   "property": "C93",
   "status": "proved",
   "theorems": [
    "C93_failed_commit_is_lost_refuted",
    "C93_one_client_fails_a_commit_refuted"
   ],
   "note": "False of the code, for every failing commit and every reachable idle node with an empty pool."
  },
  {
   "property": "C95",
   "status": "proved",
   "theorems": [
    "C95_own_proposal_accepted",
    "C95_commit_completes"
   ],
   "note": "Completion uses C90 (the state the block runs on opens) and C20. The Merkle root does not collide on the tries written; states and epochs fit in memory."
  },
  {
   "property": "C97",
   "status": "proved",
   "theorems": [
    "C97_signed_is_accepted",
    "C97_accepted_iff",
    "C97_short_signature_panics_refuted",
    "C97_aggregates_prove_nothing_refuted"
   ],
   "note": "Single votes: proved for every signature scheme that verifies what it signs. Short votes, aggregates and proofs: false of the code."
  },
  {
   "property": "C96",
   "status": "proved",
   "theorems": [
    "C96_epochs_stay",
    "C96_transactions_stay",
    "C96_peer_rewrites_history_refuted",
    "C96_receipts_stay_refuted"
   ],
   "note": "Proved for histories in which what is committed or received extends the chain; refuted for a peer's epochs in general and for receipts."
  },
  {
   "property": "C98",
   "status": "proved",
   "theorems": [
    "C98_header_sums_up",
    "C98_restart_sums_up_nothing_refuted",
    "C98_cycles_never_summed_up_refuted"
   ],
   "note": "Proved for every epoch a running node commits, with any calls in between; refuted after every restart and for cycles and logs."
  },
  {
   "property": "C57",
   "status": "proved",
   "theorems": [
    "C57_saved_is_loaded",
    "C57_crash_makes_up_nothing",
    "C57_crash_loses_all_peers_refuted"
   ],
   "note": "The bytes of keys and addresses (external crates) are parameters with a round-trip hypothesis on the peers saved."
  },
  {
   "property": "C58",
   "status": "proved",
   "theorems": [
    "C58_listens_where_it_says",
    "C58_registered_is_routed",
    "C58_refused_changes_nothing",
    "C58_late_registration_ignored_refuted",
    "C58_second_listen_ignored_refuted"
   ],
   "note": "Proved before the service runs and for the address of every run; refuted for calls made later."
  },
  {
   "property": "C59",
   "status": "proved",
   "theorems": [
    "C59_runs_on_its_configuration",
    "C59_known_chain_starts_iff",
    "C59_refused_before_writing",
    "C59_refused_after_writing_refuted",
    "C59_other_chain_accepted_refuted"
   ],
   "note": "TOML and JSON parsing are not modelled; the curve is a parameter."
  },
  {
   "property": "C49",
   "status": "proved",
   "theorems": [
    "C49_accepted_is_pooled",
    "C49_kept_while_running",
    "C49_restart_loses_all_refuted"
   ],
   "note": "Proved while the node runs, calls on the pool being atomic (C42 treats overlapping pool calls); refuted across restarts."
  },
  {
   "property": "C26",
   "status": "proved",
   "theorems": [
    "C26_proof_exists_iff",
    "C26_proof_leads_to_root",
    "C26_proof_binds",
    "C26_sides_tell_position",
    "C26_foreign_hash_proved_refuted"
   ],
   "note": "The crate static_merkle_tree is a family of tree shapes and its proofs the siblings from the leaf up; refuted when the sides are not known."
  },
  {
   "property": "C27",
   "status": "proved",
   "theorems": [
    "C27_bound",
    "C27_one_at_a_time",
    "C27_burst_exceeds_size_refuted",
    "C27_refused_with_room_refuted",
    "C27_accepted_though_full_refuted"
   ],
   "note": "Proved with the number of concurrent submissions in the bound; refuted without. The map is counted bucket by bucket, so a submission may also be refused by a pool that never was full and accepted by one that always was."
  },
  {
   "property": "C28",
   "status": "proved",
   "theorems": [
    "C28_any_message",
    "C28_receiver_agrees",
    "C28_batch_delivered",
    "C28_gossip_delivers",
    "C28_application_refused_refuted",
    "C28_native_poisons_batch_refuted"
   ],
   "note": "Proved for transactions that deploy nothing but assets; refuted for the other deployments. Each spawned insert is one step."
  },
  {
   "property": "C29",
   "status": "proved",
   "theorems": [
    "C29_block_carried_out",
    "C29_transfer_carried_out"
   ],
   "note": "The Merkle root does not collide on the tries written; states, epochs and records fit in memory; block transactions have distinct hashes and deploy no application (C64)."
  },
  {
   "property": "C99",
   "status": "proved",
   "theorems": [
    "C99_transfer_everywhere"
   ],
   "note": "No restart and no synchronisation in the two histories; otherwise nodes can differ (C62, C69, C91). The second node's pool is empty; the hypotheses of C29 on both."
  },
  {
   "property": "C100",
   "status": "proved",
   "theorems": [
    "C100_own_proposals_fresh",
    "C100_replayed_refuted",
    "C100_proposed_again_after_sync_refuted"
   ],
   "note": "The positive part under the stated care of clients, proposers and peers; the other two theorems show that without it the property fails. Submission while committing: C67."
  },
  {
   "property": "C101",
   "status": "proved",
   "theorems": [
    "C101_spending_is_signed",
    "C101_silent_account_loses_nothing",
    "C101_unsigned_transfer_refuted"
   ],
   "note": "The two positive theorems assume the transactions other nodes send are signed; the third shows the assumption is needed."
  },
  {
   "property": "C102",
   "status": "proved",
   "theorems": [
    "C102_only_its_chain",
    "C102_own_proposals_in_time",
    "C102_renamed_refuted",
    "C102_executed_anyway_refuted"
   ],
   "note": "The first assumes epochs and transactions of other nodes name the chain, the second that committed epochs extend the chain; the other two show that nothing enforces it."
  },
  {
   "property": "C103",
   "status": "proved",
   "theorems": [
    "C103_own_address",
    "C103_own_address_gone",
    "C103_dial_may_succeed_later",
    "C103_dial_counts",
    "C103_unreachable_address_dropped",
    "C103_unreachable_bootstrap_kept",
    "C103_repeated_connection",
    "C103_grave_drops_peer",
    "C103_passing_counts",
    "C103_ping_clears",
    "C103_announced_addresses",
    "C103_discovered_address",
    "C103_of_nobody"
   ],
   "note": "Per kind of report, stated through the transport, the channel and the manager; the sixth failure is C83/C84, who gets charged when two peers claim one address is C88."
  },
  {
   "property": "C104",
   "status": "proved",
   "theorems": [
    "C104_tries_are_maps",
    "C104_committed_stays_readable",
    "C104_root_identifies_map",
    "C104_root_of_contents",
    "C104_empty_root",
    "C104_executor_roots_clash_free",
    "C104_executor_database",
    "C104_executor_entries",
    "C104_node_roots"
   ],
   "note": "The algorithm of cita_trie (an external crate) is written out in Mpt.v and computes the published Ethereum roots; removal and the light mode are not modelled. The last five theorems put this trie under the executor and node theorems, which take the root function as a parameter."
  },
  {
   "property": "C105",
   "status": "proved",
   "theorems": [
    "C105_database_is_maps",
    "C105_orders_irrelevant",
    "C105_state_readable",
    "C105_old_balance",
    "C105_crash_leaves_no_trace"
   ],
   "note": "DbExec.v repeats the executor on encoded entries and lazily loaded trie nodes over one database of bytes; with this the typed state and the eager decoding of Executor.v, on which the other executor theorems rest, are no simplification (within the sizes and the absence of collisions)."
  },
  {
   "property": "C106",
   "status": "proved",
   "theorems": [
    "C106_node_over_bytes",
    "C106_own_roots",
    "C106_own_node",
    "C106_deaths_alike",
    "C106_states_kept",
    "C106_balance_query",
    "C106_own_balance"
   ],
   "note": "Simulation between the node of Consensus.v, whose states are maps, and the uses of the one byte database of DbExec.v; the hypothesis about the roots asked for is discharged for nodes that do not synchronise."
  },
  {
   "property": "C107",
   "status": "proved",
   "theorems": [
    "C107_formats_unambiguous",
    "C107_transaction_format",
    "C107_receipt_format",
    "C107_epoch_format",
    "C107_primitive_formats",
    "C107_genesis_format",
    "C107_account_format",
    "C107_wallet_hash",
    "C107_epoch_hashes",
    "C107_wire_transaction",
    "C107_wire_receipt",
    "C107_wire_epoch",
    "C107_wire_primitives"
   ],
   "note": "FormatSpec.v states both standards and the field tables as relations, without the model's encoders. An Approve transaction or result has no consensus form (C03)."
  },
  {
   "property": "C108",
   "status": "proved",
   "theorems": [
    "C108_requests",
    "C108_responses",
    "C108_messages",
    "C108_envelope",
    "C108_peer_file",
    "C108_database"
   ],
   "note": "Relational layout (`little`, `counted`, `sequence`, `request_b`, `response_b`, `peer_b`, `rows_of`) over the formats of FormatSpec; each relation is shown to hold of exactly the bytes the encoder writes. Compression of the envelope (snappy) is outside; keys and addresses of peers are arbitrary byte strings."
  },
  {
   "property": "C109",
   "status": "proved",
   "theorems": [
    "C109_bytes_show_the_ledger",
    "C109_no_inflation",
    "C109_answers_bounded",
    "C109_supply_kept",
    "C109_block_carried_out"
   ],
   "note": "Composition of C29, C90 and C106 through the simulation between maps and bytes: `in_bytes` reads every account and asset through the encoded nodes. Examples: the life of NodeDbExamples, with a death in the middle of a block's state commit."
  },
  {
   "property": "C110",
   "status": "proved",
   "theorems": [
    "C110_announcement_sent",
    "C110_announced",
    "C110_copies",
    "C110_completes",
    "C110_one_behind_ignored",
    "C110_any_bytes",
    "C110_transactions_delivered"
   ],
   "note": "Refinement of C89's handed-over answers by the bytes of both nodes' network layers. Hypothesis: compression gives back what it was given (`compression_ok`). Examples: TwoNodesExamples, with noise on other sessions."
  },
  {
   "property": "C111",
   "status": "proved",
   "theorems": [
    "C111_waits_for_ever",
    "C111_one_message_stops_a_node",
    "C111_other_messages_do_not",
    "C111_restart_helps"
   ],
   "note": "Model of the waiting call: RpcMap has no timeout and nothing clears it on disconnection. Finding 48."
  },
  {
   "property": "C112",
   "status": "proved",
   "theorems": [
    "C112_answers_stay",
    "C112_next_epoch_shows",
    "C112_block_shown",
    "C112_transfer_shown",
    "C112_over_the_bytes"
   ],
   "note": "On top of C29, C60, C81 and C96, and of a proof (BalanceFacts) that the trie database of a node never loses a state. An epoch the node does not have is answered with balance 0 (C81_errors_become_zero_refuted). C112_over_the_bytes: the same read from the bytes of the tries of a node that does not synchronise. Examples: BalanceExamples, DiskBalanceExamples, two epochs of a concrete node."
  },
  {
   "property": "C113",
   "status": "proved",
   "theorems": [
    "C113_same_root_same_answer",
    "C113_answer_or_zero",
    "C113_always_answered"
   ],
   "note": "Hypothesis: the Merkle root does not collide on the tries the two nodes wrote. A node that lacks the state answers zero (C113_answer_or_zero; finding of C81, C94). Examples: ZeroExamples, a node before and after a forged epoch; AgreeExamples, two nodes with different configurations, one asked by number, the other for the latest."
  }
 ]
}