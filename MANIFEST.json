{
 "claims": [
  {
   "property": "C01",
   "status": "proved",
   "theorems": [
    "C01_value_conserved"
   ],
   "note": ""
  },
  {
   "property": "C02",
   "status": "proved",
   "theorems": [
    "C02_well_formed"
   ],
   "note": ""
  },
  {
   "property": "C03",
   "status": "proved",
   "theorems": [
    "C03_inputs_authorised"
   ],
   "note": ""
  },
  {
   "property": "C04",
   "status": "proved",
   "theorems": [
    "C04_accepts_exactly_valid",
    "C04_rejects_with_first_fault",
    "C04_total",
    "C04_p2pk_spendable"
   ],
   "note": ""
  },
  {
   "property": "C05",
   "status": "proved",
   "theorems": [
    "C05_attestation_check_exact",
    "C05_hash_ignores_attestations",
    "C05_hash_commits"
   ],
   "note": "The alternative to C05_hash_commits names the two texts that would have to have the same hash."
  },
  {
   "property": "C06",
   "status": "proved",
   "theorems": [
    "C06_output_id_is_spender_id",
    "C06_spend_deletes_it",
    "C06_spender_carries_output",
    "C06_distinct_outputs_distinct_ids"
   ],
   "note": "The alternative to C06_distinct_outputs_distinct_ids names the two texts that would have to have the same hash."
  },
  {
   "property": "C07",
   "status": "proved",
   "theorems": [
    "C07_id_ignores_witness",
    "C07_id_commits"
   ],
   "note": "The alternative to C07_id_commits names the two texts that would have to have the same hash."
  },
  {
   "property": "C08",
   "status": "proved",
   "theorems": [
    "C08_integers",
    "C08_arrays",
    "C08_bool",
    "C08_buffer",
    "C08_option",
    "C08_pair",
    "C08_vector",
    "C08_set",
    "C08_unordered_set",
    "C08_unordered_map",
    "C08_rpc_request",
    "C08_rpc_response",
    "C08_full_tx",
    "C08_compact_tx",
    "C08_out_point",
    "C08_output",
    "C08_input",
    "C08_tx_error",
    "C08_execute_response",
    "C08_sentinel_request",
    "C08_sentinel_response",
    "C08_wt_error",
    "C08_status_update_request",
    "C08_status_check_success",
    "C08_watchtower_request",
    "C08_watchtower_response",
    "C08_block",
    "C08_tx_notify_request",
    "C08_agg_tx",
    "C08_agg_request",
    "C08_make_block_response",
    "C08_atomizer_request",
    "C08_atomizer_sm_request",
    "C08_atomizer_sm_response",
    "C08_ls_request",
    "C08_ls_response",
    "C08_ls_status_request",
    "C08_sm_header",
    "C08_prepare_tx",
    "C08_commit_tx",
    "C08_coord_state",
    "C08_coord_state_raw",
    "C08_try_lock",
    "C08_rls_prepare",
    "C08_rls_request",
    "C08_shard_error",
    "C08_rls_response",
    "C08_repl_prepare",
    "C08_repl_request",
    "C08_repl_ticket",
    "C08_repl_response",
    "C08_agent_request",
    "C08_agent_response",
    "C08_ticket_request",
    "C08_ticket_response",
    "C08_evm_account",
    "C08_evm_sig",
    "C08_evm_tx",
    "C08_evm_dryrun",
    "C08_evm_log",
    "C08_evm_receipt",
    "C08_code_key",
    "C08_storage_key",
    "C08_pretend_block",
    "C08_log_query",
    "C08_log_index"
   ],
   "note": ""
  },
  {
   "property": "C09",
   "status": "proved",
   "theorems": [
    "C09_nuraft_buffer_filled",
    "C09_stream_same_bytes",
    "C09_unsized_buffer",
    "C09_nuraft_too_small",
    "C08_full_tx"
   ],
   "note": "size_exact is a conjunct of wire_correct, proved for every message type by the C08_* theorems; C09_* cover NuRaft buffers and streams."
  },
  {
   "property": "C10",
   "status": "proved",
   "theorems": [
    "C08_integers",
    "C08_arrays",
    "C08_bool",
    "C08_buffer",
    "C08_option",
    "C08_pair",
    "C08_vector",
    "C08_set",
    "C08_unordered_set",
    "C08_unordered_map",
    "C08_full_tx",
    "C08_compact_tx",
    "C08_block",
    "C08_evm_tx"
   ],
   "note": "prefix_free and injective are conjuncts of wire_correct, proved for every message type by the C08_* theorems."
  },
  {
   "property": "C11",
   "status": "partial",
   "theorems": [
    "C11_option_cut",
    "C11_read_exact",
    "C11_decoders_use_it",
    "C11_failure_is_sticky",
    "C11_read_exact_refuted",
    "C11_truncation_reported_refuted",
    "C08_full_tx"
   ],
   "note": "Truncated messages are detected for every message type (truncation_detected in wire_correct). The statement for arbitrary 64-bit lengths is false (C11_read_exact_refuted): the bound check wraps. Truncation can surface as an exception rather than the failed state (C11_truncation_reported_refuted)."
  },
  {
   "property": "C12",
   "status": "partial",
   "theorems": [
    "C12_no_double_spend_partial",
    "C12_respend_needs_creation_partial",
    "C12_lock_decision_partial",
    "C12_check_unspent_exact_partial",
    "C12_no_double_spend_refuted",
    "C12_one_batch_refuted",
    "C12_system_no_double_spend_partial",
    "C12_system_completes_locked",
    "C12_system_no_double_spend_refuted"
   ],
   "note": "The full statement is false of the code: cancelling a refused transaction releases an input that another transaction has locked (C12_no_double_spend_refuted, C12_one_batch_refuted, and through the complete protocol C12_system_no_double_spend_refuted). Proved under the rule no_conflicting_cancel; that only locked transactions are completed is proved for the whole system."
  },
  {
   "property": "C13",
   "status": "partial",
   "theorems": [
    "C13_locked_owned",
    "C13_holder_is_prepared",
    "C13_disjoint_partial",
    "C13_held_once_partial",
    "C13_disjoint_refuted"
   ],
   "note": "Ownership of locked IDs is proved for every history. Disjointness is false when an inputless transaction re-creates a locked ID (C13_disjoint_refuted) and proved otherwise."
  },
  {
   "property": "C14",
   "status": "proved",
   "theorems": [
    "C14_lock_retry",
    "C14_apply_retry",
    "C14_discard_retry",
    "C14_late_lock_refuted",
    "C14_late_apply_refuted"
   ],
   "note": "Any requests of other distributed transactions may come in between. Requests delayed past the end of the distributed transaction are not harmless: C14_late_lock_refuted, C14_late_apply_refuted."
  },
  {
   "property": "C15",
   "status": "proved",
   "theorems": [
    "C15_atomic",
    "C15_completed_all_locked",
    "C15_cancelled_some_refused",
    "C15_answer",
    "C15_events_only_sent",
    "C15_events_once"
   ],
   "note": "For every schedule of any number of batches, shards, lost answers, crashes and recoveries. A request of a crashed coordinator that arrives after the recovery is not in the system model; see C14_late_* for what it does to a shard."
  },
  {
   "property": "C16",
   "status": "partial",
   "theorems": [
    "C16_decision_stable",
    "C16_recovery_completes",
    "C16_same_ledgers_partial",
    "C16_same_state_refuted"
   ],
   "note": "Decision and ledgers (unspent, locked, prepared, completed) are the same for every crash pattern. The shards' memory of applied IDs is not (C16_same_state_refuted): recovery in the discard phase contacts no shard."
  },
  {
   "property": "C17",
   "status": "proved",
   "theorems": [
    "C17_never_fatal",
    "C17_never_fatal_release",
    "C17_coordinator_never_fatal",
    "C17_one_phase",
    "C17_duplicate_input_refuted"
   ],
   "note": "Including shards and coordinators. Transactions that list an input twice bring a shard down if assertions are compiled in (C17_duplicate_input_refuted)."
  },
  {
   "property": "C18",
   "status": "proved",
   "theorems": [
    "C18_exactly_one_owner",
    "C18_part_is_filter",
    "C18_part_index",
    "C18_sent_iff",
    "C18_owner_sees"
   ],
   "note": "is_hash and ranges as configured; contiguous states that the ranges cover 0..255 in order without overlap."
  },
  {
   "property": "C19",
   "status": "partial",
   "theorems": [
    "C19_confirms_finished_partial",
    "C19_answers_from_recent",
    "C19_only_completed_refuted"
   ],
   "note": "False of the code: cancelled transactions are confirmed too (C19_only_completed_refuted). Proved: only applied transactions, completed or cancelled, are confirmed, and the answers are exactly those of the bounded cache."
  },
  {
   "property": "C20",
   "status": "proved",
   "theorems": [
    "C20_complete_transactions",
    "C20_attested_transactions",
    "C20_cache_wide_refuted",
    "C20_indices_refuted",
    "C20_wrapped_height_refuted",
    "C20_total_refuted",
    "C20_one_error_refuted"
   ],
   "note": "Hypotheses: heights + depth and block count below 2^64, equal IDs mean equal inputs/outputs, attested indices name inputs (each shown necessary by a refutation). Not true: no ID is spent twice within the cached blocks (C20_cache_wide_refuted), every call returns (C20_total_refuted), at most one error per transaction (C20_one_error_refuted)."
  },
  {
   "property": "C21",
   "status": "proved",
   "theorems": [
    "C21_no_double_spend",
    "C21_always_answers",
    "C21_id_collision_refuted"
   ],
   "note": "Shards, aggregating nodes, replicated state machine; arbitrary lag, duplication, loss, crashes. Needs that two transactions with one ID are the same (C21_id_collision_refuted) and fewer than 2^64 blocks. An input repeated within one transaction is left to validation (C02)."
  },
  {
   "property": "C22",
   "status": "proved",
   "theorems": [
    "C22_implements_ledger",
    "C22_consecutive",
    "C22_block_contents",
    "C22_blocks_kept_until_pruned"
   ],
   "note": "Refinement of the state machine to a ledger without caches; heights, contents, availability until pruned."
  },
  {
   "property": "C23",
   "status": "proved",
   "theorems": [
    "C23_snapshot_round_trip",
    "C23_states_can_be_written",
    "C23_replicas_agree",
    "C23_replicas_survive",
    "C23_crash_in_snapshot",
    "C23_snapshots_last"
   ],
   "note": "Process crashes at any point of the snapshot writer; loss of unsynced file data in a machine crash is not modelled. NuRaft's log and its snapshot description are trusted."
  },
  {
   "property": "C24",
   "status": "proved",
   "theorems": [
    "C24_unspent_set",
    "C24_next_block_only",
    "C24_restart_loses_nothing",
    "C24_crash_is_all_or_nothing",
    "C24_shards_follow_the_chain",
    "C24_write_failure_refuted"
   ],
   "note": "leveldb batches are atomic. When leveldb reports a write error the property fails (C24_write_failure_refuted)."
  },
  {
   "property": "C25",
   "status": "proved",
   "theorems": [
    "C25_truthful",
    "C25_read_error_refuted"
   ],
   "note": "When leveldb reports a read error the property fails (C25_read_error_refuted)."
  },
  {
   "property": "C26",
   "status": "proved",
   "theorems": [
    "C26_gapless",
    "C26_immutable",
    "C26_write_failure_refuted"
   ],
   "note": "All delivery orders, duplicates, crashes inside the recursive storing and restarts; blocks_fit: blocks encodable, fewer than 2^64-2 of them. Sampling not modelled. C26_write_failure_refuted: with assertions compiled out a failed write leaves a hole."
  },
  {
   "property": "C27",
   "status": "proved",
   "theorems": [
    "C27_sound",
    "C27_exact",
    "C27_chain_once",
    "C27_best_height",
    "C27_exact_refuted"
   ],
   "note": "For every sequence of blocks and k (0 = unbounded). Exact if no ID is spent or created twice within k blocks (true of the atomizer chain); C27_exact_refuted otherwise."
  },
  {
   "property": "C28",
   "status": "partial",
   "theorems": [
    "C28_sound",
    "C28_by_tx_partial",
    "C28_by_uhs_partial",
    "C28_refuted"
   ],
   "note": "Soundness in general; each of the last k errors is found if no k consecutive errors share a transaction (or ID). The literal property is false: C28_refuted (evicting an older error with the same key erases the newer one)."
  },
  {
   "property": "C29",
   "status": "partial",
   "theorems": [
    "C29_status_partial",
    "C29_error_filter",
    "C29_one_state_refuted",
    "C29_spent_on_refuted"
   ],
   "note": "Everything but 'exactly one': an error that arrived before the block is reported beside the confirmation (C29_one_state_refuted), and the creator of an output that was spent on is told 'no history' (C29_spent_on_refuted)."
  },
  {
   "property": "C30",
   "status": "proved",
   "theorems": [
    "C30_balance",
    "C30_no_failure",
    "C30_restart",
    "C30_foreign_debit_refuted",
    "C30_debit_value_refuted",
    "C30_seed_restart_refuted",
    "C30_overflow_refuted",
    "C30_truncated_file_refuted"
   ],
   "note": "Proved for every history of calls in which confirmed transactions spend no coin still held, no unused seed coin is credited, no seed range is overwritten or lost in a restart, and coins are worth less than 2^64; outside of that refuted: the balance wraps and spent coins are offered again (foreign debit), the debit uses the claimed value, seeded coins are lost in a restart, totals wrap, truncated files load silently."
  },
  {
   "property": "C31",
   "status": "proved",
   "theorems": [
    "C31_send",
    "C31_fan",
    "C31_send_coins",
    "C31_send_accepted",
    "C31_fan_accepted",
    "C31_send_coins_accepted",
    "C31_send_confirm",
    "C31_send_zero_refuted",
    "C31_fan_wrap_refuted"
   ],
   "note": "send_to (both overloads) and fan, in every state reached by a history as in C30; validity against the model of check_tx for sound signatures. Refuted: send_to(0) and a fan amount of 2^64 or more."
  },
  {
   "property": "C32",
   "status": "proved",
   "theorems": [
    "C32_lock_exclusion",
    "C32_granted_is_held"
   ],
   "note": "In every execution from an empty or recovered shard."
  },
  {
   "property": "C33",
   "status": "proved",
   "theorems": [
    "C33_waits_only_for_older_or_prepared",
    "C33_prepared_waits_for_nothing",
    "C33_no_deadlock",
    "C33_progress",
    "C33_oldest_waits_only_for_prepared",
    "C33_no_deadlock_across_shards"
   ],
   "note": "Acyclic wait-for relation on one shard, and on any number of shards when tickets prepare only after all their locks are granted."
  },
  {
   "property": "C34",
   "status": "proved",
   "theorems": [
    "C34_no_lost_wakeup",
    "C34_waiting_has_reason"
   ],
   "note": ""
  },
  {
   "property": "C35",
   "status": "proved",
   "theorems": [
    "C35_prepared_untouched",
    "C35_prepared_commits",
    "C35_values_change_only_by_commit",
    "C35_commit_or_rollback_refuted"
   ],
   "note": "Finding: rollback reports success for a ticket already committed (C35_commit_or_rollback_refuted); its writes stay."
  },
  {
   "property": "C36",
   "status": "proved",
   "theorems": [
    "C36_state_is_committed_store",
    "C36_grant_is_current",
    "C36_serializable",
    "C36_locked_value_stable"
   ],
   "note": "Serialisability in commit order, by simulation with a plain store."
  },
  {
   "property": "C37",
   "status": "proved",
   "theorems": [
    "C37_answered_once",
    "C37_waits_as_asked"
   ],
   "note": "At-most-once and accounting; liveness (an answer comes eventually) depends on the holders finishing: C33_progress names whom a request waits for."
  },
  {
   "property": "C38",
   "status": "partial",
   "theorems": [
    "C38_failover",
    "C38_served_values_survive",
    "C38_open_tickets",
    "C38_commits_once",
    "C38_prepare_answer",
    "C38_no_early_answer",
    "C38_prepared_stays",
    "C38_commit_answer",
    "C38_repeated_commit_refuted",
    "C38_prepare_during_rollback_refuted",
    "C38_refused_finish_refuted"
   ],
   "note": "Proved for every schedule in which brokers follow the protocol (no second commit request while the first is replicating, no prepare overlapping a rollback, no finish refused by the shard but replicated). Outside it the property is false of the code: C38_repeated_commit_refuted, C38_prepare_during_rollback_refuted, C38_refused_finish_refuted."
  },
  {
   "property": "C39",
   "status": "partial",
   "theorems": [
    "C39_all_or_nothing",
    "C39_no_update_lost",
    "C39_commit_writes",
    "C39_commit_reported",
    "C39_rollback_safe",
    "C39_rollback_reported",
    "C39_finish_reported",
    "C39_commit_after_failed_rollback_refuted",
    "C39_commit_with_other_updates_refuted",
    "C39_every_commit_answered_refuted",
    "C39_answered_once_refuted"
   ],
   "note": "All-or-nothing, what a commit writes, and the meaning of a reported commit, rollback or finish are proved for every execution (any number of shards and transactions, other brokers, unreachable shards, broker crashes at any point) of clients that follow the rules stated in BrokerSpec.allowed. Refuted without the rules: a commit repeated after a rollback that did not succeed tears the transaction, a commit repeated with other updates mixes the two. Also refuted: that each commit is answered exactly once. Requests of a crashed broker that reach a shard after the crash, and shard failures (C38), are outside this system."
  },
  {
   "property": "C40",
   "status": "proved",
   "theorems": [
    "C40_recovered",
    "C40_second_recovery_refuted"
   ],
   "note": "For one recovery per process, as agentd.cpp does it. A second one in the same process is refuted. Requests of the crashed broker still in flight when the new one recovers are outside the system: a crash loses them."
  },
  {
   "property": "C41",
   "status": "proved",
   "theorems": [
    "C41_numbers_unique",
    "C41_answered_once",
    "C41_no_needless_wait",
    "C41_oldest_first",
    "C41_range_serves_all",
    "C41_waiting_is_served_partial",
    "C41_waiting_is_served_refuted"
   ],
   "note": "Ticket machine, its client with ranges and callback queue, lost messages and restarts, any interleaving. While no message is lost, whoever waits has a request or a range on its way (C41_waiting_is_served_partial). Finding C41_waiting_is_served_refuted: when the response to a range request is lost and the client gives up, callers already queued wait until another caller comes."
  },
  {
   "property": "C42",
   "status": "proved",
   "theorems": [
    "C42_location_exists"
   ],
   "note": "The directory's location of a key is below the number of shards and a function of the key; with no shards there is no location (modulo by zero in the code)."
  },
  {
   "property": "C43",
   "status": "proved",
   "theorems": [
    "C43_most_recent_kept",
    "C43_contains_is_membership",
    "C43_size_bounded",
    "C43_no_duplicates",
    "C43_present_unchanged",
    "C43_capacity_refuted"
   ],
   "note": "The number of elements kept is one less than the configured size (C43_capacity_refuted)."
  },
  {
   "property": "C44",
   "status": "partial",
   "theorems": [
    "C44_log",
    "C44_flushed_survives",
    "C44_append_durable_refuted",
    "C44_reopen_refuted",
    "C44_outside_refuted"
   ],
   "note": "Refinement to an abstract log proved for every history of operations inside the log, with crashes of the process and the machine. Refuted parts: an acknowledged append is not durable before a flush (C44_append_durable_refuted); a store compacted to its end loses its position on reopening (C44_reopen_refuted); calls outside the log throw or are undefined (C44_outside_refuted). Trusted: NuRaft's entry serialisation, LevelDB."
  },
  {
   "property": "C45",
   "status": "proved",
   "theorems": [
    "C45_never_broken",
    "C45_at_most_once",
    "C45_own_answer",
    "C45_own_returned",
    "C45_ids_distinct",
    "C45_failed_never_called",
    "C45_answer_completes",
    "C45_closed_no_wait",
    "C45_callback_at_close_refuted"
   ],
   "note": "All interleavings of the calling threads, handler thread, network and destructor, until 2^64 calls. Finding C45_callback_at_close_refuted: callbacks of outstanding calls are not called when the client is destroyed."
  },
  {
   "property": "C46",
   "status": "proved",
   "theorems": [
    "C46_wire",
    "C46_standard",
    "C46_reads_standard",
    "C46_canonical_refuted",
    "C46_nested_truncation_refuted",
    "C46_no_exception_refuted"
   ],
   "note": "Round trip, exactness, conformance with the yellow paper and uniqueness proved for every value that fits into memory. Beyond the property, refuted: non-canonical inputs and strings cut off inside a list are accepted; a large length makes the reader throw."
  },
  {
   "property": "C47",
   "status": "proved",
   "theorems": [
    "C47_add",
    "C47_sub",
    "C47_sub_exact",
    "C47_mul",
    "C47_shift",
    "C47_uint64",
    "C47_to_uint64",
    "C47_equal"
   ],
   "note": "All operators, for all 32-byte words, modulo 2^256."
  },
  {
   "property": "C48",
   "status": "partial",
   "theorems": [
    "C48_no_mint_partial",
    "C48_exact_total",
    "C48_precompiles",
    "C48_gas_wraps_refuted",
    "C48_value_wraps_refuted"
   ],
   "note": "Proved when gas limit * gas price + value < 2^256 (C48_no_mint_partial), with equality unless value goes to a precompile or something is destroyed (C48_exact_total). Without that bound the claim is false: the cost of the gas and the required funds are computed modulo 2^256 (C48_gas_wraps_refuted, C48_value_wraps_refuted). The virtual machine is assumed to act in the name of the running account and not to overspend or return more gas than it got."
  },
  {
   "property": "C49",
   "status": "partial",
   "theorems": [
    "C49_accounts_partial",
    "C49_no_writes_partial",
    "C49_storage_refuted",
    "C49_failure_refuted",
    "C49_inner_revert_refuted"
   ],
   "note": "Accounts of a reverted transaction, and storage and code when nothing was written, are proved. False in general: revert restores accounts only (C49_storage_refuted), other failures restore nothing (C49_failure_refuted), and inner calls are never undone (C49_inner_revert_refuted)."
  },
  {
   "property": "C50",
   "status": "proved",
   "theorems": [
    "C50_nonces",
    "C50_no_replay"
   ],
   "note": "For senders whose address has no code and is not a contract address, and histories shorter than 2^256."
  },
  {
   "property": "C51",
   "status": "partial",
   "theorems": [
    "C51_round_trip",
    "C51_standard",
    "C51_accepts",
    "C51_terminates",
    "C51_id",
    "C51_unused_fields_refuted",
    "C51_chain_refuted",
    "C51_throws_refuted",
    "C51_memory_safe_refuted"
   ],
   "note": "Round trip, conformance with the EIPs, well-formedness of what is accepted, termination and uniqueness of IDs proved. Refuted: unused fields are lost, chain IDs equal modulo 2^64 are accepted, malformed input throws or is undefined behaviour."
  },
  {
   "property": "C52",
   "status": "partial",
   "theorems": [
    "C52_roundtrip",
    "C52_roundtrip_empty_refuted",
    "C52_prefixed",
    "C52_prefix_optional",
    "C52_hash_roundtrip",
    "C52_accepts_hex",
    "C52_rejects_length",
    "C52_rejects_partial",
    "C52_rejects_refuted",
    "C52_hash_text_refuted"
   ],
   "note": "Round trip proved exactly for 1 to 51200 bytes, for every hash and for prefixed strings; it fails for the empty buffer and above 51200 bytes (both directions in C52_roundtrip). Rejection of non-hexadecimal strings is false of the code (C52_rejects_refuted: '1g', ' 1', '-1' are accepted), what is rejected is in C52_rejects_length and C52_rejects_partial; hash_from_hex has undefined behaviour for wrong lengths (C52_hash_text_refuted)."
  },
  {
   "property": "C53",
   "status": "proved",
   "theorems": [
    "C53_fifo",
    "C53_nothing_lost",
    "C53_pop_order",
    "C53_false_only_cleared",
    "C53_no_lost_wakeup",
    "C53_woken_pops",
    "C53_reset_loses_wakeup_refuted"
   ],
   "note": "Any number of producers and consumers, any interleaving of push, pop, clear, reset at the granularity of the mutex and the condition variable. Finding C53_reset_loses_wakeup_refuted: reset after clear before the consumer wakes leaves the consumer asleep."
  },
  {
   "property": "C54",
   "status": "partial",
   "theorems": [
    "C54_never_undefined",
    "C54_never_exits_refuted"
   ],
   "note": "True for everything except a repeated first lock, which ends the process: C54_never_exits_refuted."
  },
  {
   "property": "C55",
   "status": "partial",
   "theorems": [
    "C55_shard_safe",
    "C55_shard_live",
    "C55_shard_old",
    "C55_watchtower_safe",
    "C55_watchtower_live",
    "C55_watchtower_old_refuted"
   ],
   "note": "Shard: fully proved. Watchtower: proved for new blocks; for an old block the handler never returns (C55_watchtower_old_refuted)."
  },
  {
   "property": "C57",
   "status": "partial",
   "theorems": [
    "C57_round_trip",
    "C57_signer",
    "C57_signed_hash",
    "C57_chain0_refuted",
    "C57_malleable_refuted"
   ],
   "note": "Round trip of signatures, recovery of the signer and uniqueness of the signed hash proved. Refuted: chain ID 0 with recovery ID 0; third parties can change v and thereby the ID."
  },
  {
   "property": "C58",
   "status": "partial",
   "theorems": [
    "C58_hex_back",
    "C58_json_refuted"
   ],
   "note": "to_hex_trimmed and uint256be_from_hex are inverse. Refuted for transactions in JSON: numbers below 2^248 read as 0."
  },
  {
   "property": "C59",
   "status": "proved",
   "theorems": [
    "C59_others_money"
   ],
   "note": "For accounts without code at addresses that are not contract addresses; the bound on gas limit * gas price + value is needed (see C48)."
  },
  {
   "property": "C60",
   "status": "partial",
   "theorems": [
    "C60_created",
    "C60_apart_partial",
    "C60_code_replaced_refuted"
   ],
   "note": "The address and code of a creation by a transaction are proved, and that such addresses differ. Creations by contracts reuse addresses and replace code (C60_code_replaced_refuted)."
  },
  {
   "property": "C61",
   "status": "partial",
   "theorems": [
    "C61_receipt_partial",
    "C61_transfer",
    "C61_logs",
    "C61_receipt_refuted"
   ],
   "note": "Proved when code ran or value was transferred; the logs are those emitted, in order (C61_logs), also when reverted (C49_storage_refuted). A call without value of an account without code is recorded as failed (C61_receipt_refuted)."
  },
  {
   "property": "C62",
   "status": "partial",
   "theorems": [
    "C62_agent_lives_partial",
    "C62_retried_only_if_refused",
    "C62_destroy_refuted",
    "C62_wounded_refuted",
    "C62_dry_run_refuted",
    "C62_precompile_refuted"
   ],
   "note": "Proved when all locks are granted, no missing account is destroyed and asserts are compiled out; each of the three restrictions is shown necessary, and dry runs can end the agent too. A transaction is given back for a retry only if a lock request was refused."
  },
  {
   "property": "C63",
   "status": "proved",
   "theorems": [
    "C63_dry_run"
   ],
   "note": "Every dry run that completes."
  },
  {
   "property": "C56",
   "status": "proved",
   "theorems": [
    "C56_accounting",
    "C56_no_failure",
    "C56_create",
    "C56_fan",
    "C56_send",
    "C56_confirm",
    "C56_abandon",
    "C56_restart",
    "C56_stuck"
   ],
   "note": "Calls are made one at a time. C56_stuck: the coins of a payment that was made but never handed back to the client for sending stay tied for ever (the code's behaviour, a finding)."
  },
  {
   "property": "C64",
   "status": "partial",
   "theorems": [
    "C64_two_coins_refuted",
    "C64_twophase",
    "C64_atomizer_partial",
    "C64_atomizer_all_partial",
    "C64_atomizer_refuted",
    "C64_forged_coin_refuted",
    "C64_replayed_coin_refuted"
   ],
   "note": "Two-phase: exactly the transactions a shard says yes to are confirmed. Atomizer: only those in a block, and all of them if all are; false in general: a transaction that is in no block keeps every later one in the reply pending. Refuted: the second of two announced coins of one transaction is lost; a forged value of an announced coin is credited; a coin spent before is credited again."
  },
  {
   "property": "C65",
   "status": "partial",
   "theorems": [
    "C65_crash_between_partial",
    "C65_torn_file_refuted",
    "C65_crash_confirm_refuted",
    "C65_crash_abandon_refuted",
    "C65_crash_wallet_refuted"
   ],
   "note": "A crash between the files leaves a client that opens with a mixture. Refuted: a torn client file makes every later start fail; crashes between the files lose the change of a confirmed payment or the coins of an abandoned one; a torn wallet file opens without coins and keys."
  },
  {
   "property": "C66",
   "status": "proved",
   "theorems": [
    "C66_vouches",
    "C66_submits_2pc",
    "C66_forwards_atomizer",
    "C66_answer_2pc",
    "C66_lying_peer_refuted"
   ],
   "note": "The attestations of other sentinels are passed on unchecked: one misbehaving peer spoils a valid transaction (C66_lying_peer_refuted)."
  },
  {
   "property": "C67",
   "status": "proved",
   "theorems": [
    "C67_attested_means_valid"
   ],
   "note": "Unless the text that was signed and the text that is checked are different and have the same hash. honest_key: whoever owns the key signs only what it validated."
  },
  {
   "property": "C68",
   "status": "partial",
   "theorems": [
    "C68_single_shard_partial",
    "C68_at_most_one_refuted",
    "C68_two_shards_refuted",
    "C68_one_input_refuted"
   ],
   "note": "True with one shard. The code indexes the inputs with the counter of the shards: at most one shard is sent to (C68_at_most_one_refuted), so inputs in two shards never reach both (C68_two_shards_refuted), and a transaction with one input reaches its shard for one random draw only, every other draw reads past the end of the vector (C68_one_input_refuted)."
  },
  {
   "property": "C69",
   "status": "partial",
   "theorems": [
    "C69_answers_2pc_partial",
    "C69_no_crash_partial",
    "C69_threshold_refuted",
    "C69_alone_refuted",
    "C69_no_key_refuted",
    "C69_pending_refuted"
   ],
   "note": "Answers are proved for the two-phase sentinel when there are enough peers that answer. Refuted: too high a threshold keeps it busy for ever, a sentinel without peers and threshold 2 crashes, a sentinel without key crashes on a validation request, the atomizer's sentinel answers 'pending' for transactions that go nowhere."
  },
  {
   "property": "C70",
   "status": "partial",
   "theorems": [
    "C70_money_conserved",
    "C70_atomizer_partial",
    "C70_mint_replay_refuted",
    "C70_two_phase_refuted"
   ],
   "note": "Proved for every ledger of valid transactions and issues without double spend, and end to end for the atomizer architecture (values never leave the sentinels, yet the hashes the shards hold are worth what was issued, or two of the texts hashed for these transactions, their coins and attestations have the same hash) provided no issue is executed twice. Nothing enforces that: an issue delivered again after its coins were spent puts them back (C70_mint_replay_refuted). False for two-phase commit because of C12's double spend (C70_two_phase_refuted)."
  },
  {
   "property": "C71",
   "status": "partial",
   "theorems": [
    "C71_send_writes_frame",
    "C71_prefix_delivered",
    "C71_all_delivered",
    "C71_complete_frames_delivered",
    "C71_eight_bytes_end_process_refuted"
   ],
   "note": "Proved for every schedule of writes and reads, every cut and all packets the receiver can hold: a prefix of the packets arrives whole and in order, and all complete frames arrive. Refuted for hostile bytes: eight bytes 0xff make std::vector(pkt_sz) throw in the receiving thread, which ends the process (C71_eight_bytes_end_process_refuted); there is no bound on the size a peer may announce. Modelled: tcp_socket::send/receive and the receive loop of a peer over a byte stream; both machines little-endian."
  },
  {
   "property": "C72",
   "status": "partial",
   "theorems": [
    "C72_nothing_lost",
    "C72_handled_in_order",
    "C72_sender_is_named",
    "C72_ids_differ",
    "C72_answers_go_back",
    "C72_no_lost_wakeup",
    "C72_no_starvation",
    "C72_send_to_one",
    "C72_close_hangs_refuted"
   ],
   "note": "Proved for every interleaving of any number of connections and handlers, up to 2^64 connections: every packet once, in order per connection, with the right sender; answers go back where the packet came from; no lost wake-up while the manager runs; no starvation; send_to_one. Refuted: close() sets m_running and notifies without the mutex of the condition variable, so a handler thread about to sleep misses it and the join hangs (C72_close_hangs_refuted). With several handler threads the packets of one connection are handed out in order but may be handled concurrently."
  },
  {
   "property": "C73",
   "status": "partial",
   "theorems": [
    "C73_sent_in_order",
    "C73_no_assertion_fails",
    "C73_failure_is_noticed",
    "C73_single_connection",
    "C73_shutdown_ends_partial",
    "C73_shutdown_hangs_refuted",
    "C73_reconnects_forever_refuted",
    "C73_packets_dropped_refuted"
   ],
   "note": "Proved for every interleaving: packets leave in order, none twice; a failure is never overlooked; a peer that may not reconnect ends after a failure; shutdown ends everything but in one case. Refuted: that case (shutdown's notification lost on a thread about to sleep: C73_shutdown_hangs_refuted); the second request for a connection, made by the receiving thread while the first is served, is kept and takes down the new, good connection, for ever (C73_reconnects_forever_refuted); packets that wait when a connection is replaced are dropped (C73_packets_dropped_refuted)."
  },
  {
   "property": "C74",
   "status": "partial",
   "theorems": [
    "C74_export",
    "C74_exported_unspent",
    "C74_exported_worth",
    "C74_payment",
    "C74_one_by_one_partial",
    "C74_fan_refuted"
   ],
   "note": "Proved: the coins exported for a payee are exactly the outputs its key can spend, each with the ID under which it is in the UHS; a payment made by one client and announced to the other raises the other's balance by the amount paid; any number of coins announced and confirmed one after the other are all credited. Refuted: the coins of one transaction announced together. The pending coins are kept by transaction ID, so of a fan to one payee only the first coin is credited (C74_fan_refuted)."
  },
  {
   "property": "C75",
   "status": "partial",
   "theorems": [
    "C75_one_ticket",
    "C75_commits_what_ran",
    "C75_read_only",
    "C75_success_partial",
    "C75_survives_partial",
    "C75_exec_any_time_refuted",
    "C75_lock_asked",
    "C75_lock_answered"
   ],
   "note": "Any calls in any order, repeated answers included. Not true: that no call ends the process. Without a ticket number it ends (C76_survives_no_ticket_refuted), and exec called while the function's code is awaited fails an assertion (C75_exec_any_time_refuted; the servers do not call it then). That the confirmed commit is the one of the reported updates needs that no request is answered twice (C76_success)."
  },
  {
   "property": "C76",
   "status": "partial",
   "theorems": [
    "C76_success",
    "C76_commits_last_run",
    "C76_commit_is_final",
    "C76_told_after_commit_partial",
    "C76_committed_is_success_refuted",
    "C76_failure_undone",
    "C76_reason",
    "C76_locks_true",
    "C76_one_answer",
    "C76_never_stuck",
    "C76_survives_partial",
    "C76_survives_no_ticket_refuted",
    "C76_survives_unfinished_refuted",
    "C76_no_use_after_free_refuted",
    "C76_released_refuted",
    "C76_answered_twice_refuted",
    "C76_is_agent"
   ],
   "note": "Proved if no request is answered twice. Refuted: a committed transaction whose end fails is reported as failed (C76_committed_is_success_refuted) and then ends the Lua server (C76_survives_unfinished_refuted); a failure to get a ticket number ends either server; the EVM server never destroys the agent of a failed request (C76_released_refuted); a lock's answer that comes after the agent was destroyed uses freed memory (C76_no_use_after_free_refuted); if a commit is answered twice, the client is told of a commit that was not confirmed (C76_answered_twice_refuted; the broker does answer twice, C39_answered_once_refuted)."
  },
  {
   "property": "C77",
   "status": "partial",
   "theorems": [
    "C77_read_back",
    "C77_environment_wins",
    "C77_names_differ",
    "C77_endpoint",
    "C77_comment_refuted",
    "C77_odd_values_refuted",
    "C77_empty_variable_refuted",
    "C77_endpoint_refuted"
   ],
   "note": "Proved for files of well-written settings and other lines without an equals sign. Refuted otherwise: a comment with an equals sign ends the program, a negative number is read as a huge one, trailing characters are ignored, a blank before the equals sign makes the setting another one, a text with one quote loses a character (C77_odd_values_refuted), an empty environment variable is read out of bounds, IPv6 endpoints and bad ports end the program (C77_endpoint_refuted). Decimal numbers are read by the C library (a parameter)."
  },
  {
   "property": "C78",
   "status": "partial",
   "theorems": [
    "C78_faithful",
    "C78_accepted",
    "C78_refusal_has_reason",
    "C78_accepted_or_refused_partial",
    "C78_coverage_refuted",
    "C78_range_end_refuted",
    "C78_nodes_refuted",
    "C78_threshold_refuted",
    "C78_key_length_refuted"
   ],
   "note": "Accepted options are as written and complete, refusals have the reason given, for every file and environment. That a file is accepted or refused is proved if its values are well formed; a sentinel key of another length than 64 digits is undefined behaviour (C78_key_length_refuted). Refuted: that accepted ranges cover all hashes, that a range ends where it was said to (256 is 0), that every shard has a node, that a threshold written in quotes or as a decimal counts."
  },
  {
   "property": "C79",
   "status": "partial",
   "theorems": [
    "C79_generators_apart",
    "C79_generator_share",
    "C79_coins_exist_partial",
    "C79_shard_gets_its_coins_partial",
    "C79_shard_loads",
    "C79_first_seed_refuted",
    "C79_uneven_refuted",
    "C79_same_range_refuted",
    "C79_few_seeds_refuted",
    "C79_unused_refuted"
   ],
   "note": "That the wallets start apart, that a coin held was written for exactly one shard, and that a shard starts with what was written for it. Proved for seeds from 0 (the seeder counts from 0, the generators from seed_from: C79_first_seed_refuted) and for shards with even ranges (C79_uneven_refuted, C79_same_range_refuted). The last seed of every generator's share is never used, and too few seeds stop the generators or make one believe it has 2^64-1 coins."
  },
  {
   "property": "C80",
   "status": "partial",
   "theorems": [
    "C80_blocking_answer",
    "C80_blocking_unready",
    "C80_async_taken",
    "C80_async_answers",
    "C80_async_once",
    "C80_async_survives",
    "C80_raft_taken",
    "C80_raft_once",
    "C80_raft_served",
    "C80_replay_survives",
    "C80_answered_refuted",
    "C80_once_refuted",
    "C80_early_request_refuted",
    "C80_failure_refuted",
    "C80_poison_refuted"
   ],
   "note": "All event sequences of the blocking, asynchronous and raft servers, for every lawful message format. False in full: a malformed packet is not answered (C80_answered_refuted), a handler that answers and reports failure makes two answers (C80_once_refuted), a request before the handler is registered ends the process of sentinels, coordinators and PArSEC shards (C80_early_request_refuted), a failure may be carried out (C80_failure_refuted), and one packet ends every replica at every replay (C80_poison_refuted)."
  },
  {
   "property": "C81",
   "status": "partial",
   "theorems": [
    "C81_delivered_partial",
    "C81_tickets_delivered_partial",
    "C81_internal_error_refuted",
    "C81_refused_refuted",
    "C81_tickets_refuted"
   ],
   "note": "Proved for results that the shard's methods give. False for failures: an internal error reaches the caller as an answer of another kind and ends it (C81_internal_error_refuted), and so do refusals (C81_refused_refuted, C81_tickets_refuted)."
  },
  {
   "property": "C82",
   "status": "proved",
   "theorems": [
    "C82_names",
    "C82_state",
    "C82_config",
    "C82_state_survives",
    "C82_config_survives",
    "C82_votes_once",
    "C82_first_config",
    "C82_full_disk_refuted",
    "C82_power_refuted",
    "C82_options_refuted"
   ],
   "note": "Crashes of processes at any step of a save, any number of nodes. NuRaft's formats are parameters that read back what they wrote; its voting rule is in RaftFilesSpec.v. A full disk and a stop of the machine do lose the files (C82_full_disk_refuted, C82_power_refuted); a saved configuration hides changed endpoints (C82_options_refuted)."
  },
  {
   "property": "C83",
   "status": "partial",
   "theorems": [
    "C83_taken_or_not",
    "C83_answered_once_partial",
    "C83_refused_is_final",
    "C83_own_result",
    "C83_batches",
    "C83_all_answered",
    "C83_stop_ends_partial",
    "C83_stop_hangs_refuted",
    "C83_answered_refuted",
    "C83_no_room_refuted",
    "C83_no_thread_refuted"
   ],
   "note": "All interleavings of handler, executor, batch threads and stop. A running coordinator answers everything it took (C83_all_answered). False in full: what is in the current batch when the coordinator stops is never answered (C83_answered_refuted), a full batch makes stop() wait for ever (C83_stop_hangs_refuted), and a batch size or thread count of 0 is accepted (C83_no_room_refuted, C83_no_thread_refuted)."
  },
  {
   "property": "C84",
   "status": "partial",
   "theorems": [
    "C84_keys_apart",
    "C84_logs_exact_partial",
    "C84_logs_errors",
    "C84_range_partial",
    "C84_answered_refuted",
    "C84_finite_refuted",
    "C84_limit_refuted",
    "C84_defined_refuted",
    "C84_once_refuted",
    "C84_repeated_refuted"
   ],
   "note": "Proved for block numbers below 2^63: keys apart up to hash collisions, exact answers in any order, failures never shown as results. Refuted: a query from block 2^64-1 to 5 is accepted and never answered; one ending at 2^64-1 never ends; the product of range and addresses wraps, so huge queries are accepted; the difference of the block numbers can overflow (undefined behaviour); two failing requests answer twice; an address asked for twice shows its events twice."
  },
  {
   "property": "C85",
   "status": "partial",
   "theorems": [
    "C85_filter_exact",
    "C85_filter_size",
    "C85_no_miss_partial",
    "C85_block",
    "C85_standard_refuted"
   ],
   "note": "The filter is exact and denies nothing to a reader that takes the pairs of bytes little-endian, as the code does. Refuted against Ethereum's standard: the code reads each pair of hash bytes in machine order, so a standard reader is told that an event's address is absent."
  },
  {
   "property": "C86",
   "status": "partial",
   "theorems": [
    "C86_documented_partial",
    "C86_unknown",
    "C86_malformed",
    "C86_once_partial",
    "C86_id_partial",
    "C86_survives_refuted",
    "C86_defined_refuted",
    "C86_defined_raw_refuted",
    "C86_twice_refuted",
    "C86_id_refuted",
    "C86_blockhash_refuted",
    "C86_no_topics_refuted",
    "C86_fee_refuted"
   ],
   "note": "Documented requests are answered exactly as documented, unknown methods and malformed bodies are refused once, and no request that the agent survives is both answered and run. Refuted: batches, numbers as bodies, an empty address, a non-Boolean second parameter of eth_getBlockByNumber, a non-numeric count of eth_feeHistory, a large type, parameters that are an object, and nested topics raise exceptions that nothing catches and end the agent; extreme ranges and certain raw transactions are undefined behaviour; eth_getBlockByNumber with one parameter is answered twice; IDs that are strings come back as 0; blockHash is looked up as blockhash; topics are mandatory; eth_feeHistory reads its numbers in decimal and as full words and gives up to 2^64 - 1 entries. Partial because these are false of the code."
  },
  {
   "property": "C87",
   "status": "partial",
   "theorems": [
    "C87_place",
    "C87_balance",
    "C87_count",
    "C87_absent",
    "C87_data",
    "C87_damaged",
    "C87_height",
    "C87_index_partial",
    "C87_index_refuted",
    "C87_code_safe_refuted",
    "C87_only_accounts_refuted",
    "C87_blocks_refuted"
   ],
   "note": "The place read is the one asked for and what is stored is shown, for all values. Refuted: the index equal to the number of a block's transactions reads outside of the list; eth_getCode with more than 20 bytes writes over the stack; eth_getBalance takes keys of any length and so shows receipts as balances; block numbers of eth_getLogs are taken modulo 2^64. Partial because these are false of the code."
  },
  {
   "property": "C88",
   "status": "partial",
   "theorems": [
    "C88_explained_partial",
    "C88_returns",
    "C88_load",
    "C88_check_sig",
    "C88_survives_refuted",
    "C88_ends_refuted",
    "C88_dropped_refuted",
    "C88_readonly_refuted"
   ],
   "note": "Every run is explained by what the contract asked for and the answers, and a contract with its locks has its table reported exactly. Refuted: the loop over the returned table converts numeric keys in place, so that {\"x\"} ends the agent (lua_next fails outside of a protected call), a number and the string of the same text as keys loop forever or lose an entry; a read-only run of a contract that asks for any key fails, because locks are always asked for writing. The interpreter's own ways to end the process (os.exit, malformed bytecode) are outside of the model. Partial because these are false of the code."
  },
  {
   "property": "C89",
   "status": "partial",
   "theorems": [
    "C89_once",
    "C89_no_waiting",
    "C89_threads",
    "C89_idle",
    "C89_reuse",
    "C89_destroy_partial",
    "C89_survives_partial",
    "C89_dropped_refuted",
    "C89_deadlock_refuted",
    "C89_self_refuted"
   ],
   "note": "Proved for every interleaving: each task is started at most once, pushes return and tasks start within a bounded number of the pool's own steps without waiting for other tasks, threads are reused, and the destructor ends when tasks return. Refuted: the destructor drops tasks that were queued and not yet started; it deadlocks with a task that calls push; run by a task of the pool it ends the process."
  },
  {
   "property": "C90",
   "status": "partial",
   "theorems": [
    "C90_roundtrip",
    "C90_typos",
    "C90_distance",
    "C90_case",
    "C90_dropped",
    "C90_shape",
    "C90_bounds_partial",
    "C90_bounds_refuted",
    "C90_unique_refuted",
    "C90_insertion_refuted"
   ],
   "note": "Round trip, at least five differences between accepted texts of a length, up to four wrong characters or a missing one refused, mixed case refused, accepted texts begin like the printed address. Refuted: a text without data but with a right checksum reads an empty vector; padding bits are not checked, so several texts name one key; a character inserted into a printed address can give another key."
  },
  {
   "property": "C91",
   "status": "partial",
   "theorems": [
    "C91_send_partial",
    "C91_fan_partial",
    "C91_mint_partial",
    "C91_only_send",
    "C91_only_fan",
    "C91_only_mint",
    "C91_only_import",
    "C91_bad_address",
    "C91_printed_partial",
    "C91_misspelt",
    "C91_import",
    "C91_import_else",
    "C91_confirm",
    "C91_others",
    "C91_unknown",
    "C91_too_short",
    "C91_too_few_partial",
    "C91_too_few_fan",
    "C91_defined_partial",
    "C91_amount_refuted",
    "C91_text_refuted",
    "C91_word_refuted",
    "C91_defined_refuted"
   ],
   "note": "Amounts below 2^32 and valid addresses give exactly the call; every payment comes from such a command; printed coins and transaction IDs are taken back. Refuted: amounts are taken modulo 2^32, trailing text and signs are accepted, a word is an uncaught exception, and missing or short arguments are undefined behaviour."
  },
  {
   "property": "C92",
   "status": "partial",
   "theorems": [
    "C92_round_trip_partial",
    "C92_faithful",
    "C92_malformed",
    "C92_nodes_refuted",
    "C92_clash",
    "C92_ignored_refuted",
    "C92_refused_refuted"
   ],
   "note": "Round trip for deployments whose shards have at most ten nodes, in any order of options; everything accepted is what the options say; malformed arguments refused. Refuted: names of shard nodes are ambiguous beyond ten nodes, so some deployments cannot be described at all; unknown options and log levels are ignored, the default level is not the documented one, and bad numbers or endpoints end the process instead of being refused."
  },
  {
   "property": "C93",
   "status": "partial",
   "theorems": [
    "C93_put_true",
    "C93_put_calls",
    "C93_put_once",
    "C93_put_quiet",
    "C93_put_false_refuted",
    "C93_put_open_refuted",
    "C93_mint",
    "C93_get_returned",
    "C93_get_value",
    "C93_get_calls",
    "C93_get_safe_partial",
    "C93_get_no_throw",
    "C93_get_returns_partial",
    "C93_get_hangs",
    "C93_get_hangs_refuted",
    "C93_get_undefined_refuted",
    "C93_get_twice_refuted",
    "C93_get_reason_refuted"
   ],
   "note": "Proved for put_row with any broker: success only after the value was stored, and only this key is locked and written; with a broker that keeps to its interface: exactly one outcome. Proved for get_row: what is returned was read, nothing is written, no exception, and it returns once its read is answered. Refuted of the code: failure can be reported after the value was committed (finish failed); after a failure the ticket is never rolled back; get_row never returns if try_lock is refused; a broker that answers after its call returned makes it use the ticket number and the caller's arguments after their life; its callback may hear a value and then an error; errors of shards are all reported as an unreachable shard."
  },
  {
   "property": "C94",
   "status": "partial",
   "theorems": [
    "C94_once",
    "C94_asked",
    "C94_answered_partial",
    "C94_answered_refuted",
    "C94_result",
    "C94_delivered",
    "C94_body_partial",
    "C94_body_refuted",
    "C94_sent_refuted",
    "C94_endpoint",
    "C94_balance_partial",
    "C94_balance_refuted",
    "C94_defined_partial",
    "C94_no_endpoint_refuted"
   ],
   "note": "Proved for every run: at most one answer per call, only for calls made; a result is made from the data of that very call and only after a 2xx code; completed responses are delivered at once; only the client's endpoints are used; with a working libcurl every call is answered by the end. Refuted: callbacks are dropped when a failed request cannot be given to libcurl again; data of a broken-off response stay in front of the next one; failed requests are repeated for ever, to the same endpoint; calls made one after the other all go to the first endpoint; without endpoints a call is undefined."
  },
  {
   "property": "C95",
   "status": "partial",
   "theorems": [
    "C95_runs",
    "C95_accepted",
    "C95_effect_partial",
    "C95_money_partial",
    "C95_self_refuted",
    "C95_owner",
    "C95_replay_partial",
    "C95_replay_refuted",
    "C95_large_refuted",
    "C95_frozen_refuted",
    "C95_wallet",
    "C95_wallet_refuses",
    "C95_wallet_failure",
    "C95_wallet_follows"
   ],
   "note": "The payment contract is a definition over Lua's values, compared with the Lua text by reading: signed 64-bit arithmetic, string.pack and unpack, and the order of lock requests. C95_runs ties it to the runner of C88. Signatures and SHA-256 are arbitrary functions. Missing from the full statement, because it is false: paying oneself adds the value without taking it and does not use up the sequence number, so one request can be repeated (C95_self_refuted); after the sequence number 2^63-1 old requests succeed again (C95_replay_refuted); values of 2^63 and more succeed and pay nothing (C95_large_refuted); an account that reaches 2^63 cannot spend (C95_frozen_refuted). C95_effect_partial, C95_money_partial and C95_replay_partial exclude exactly these cases. Each payment runs alone here; that concurrent payments behave as if run alone rests on the locks of the shards, which are modelled separately and not composed with this contract."
  },
  {
   "property": "C96",
   "status": "partial",
   "theorems": [
    "C96_serial",
    "C96_payments",
    "C96_money_partial",
    "C96_once_partial"
   ],
   "note": "C96_serial holds for every contract and every execution of one shard that starts without prepared tickets. agents_follow states what agents do, which is C75 (an agent commits what its function computed) and C88 (the runner asks for the keys and reports what was returned); it is a hypothesis about the trace and is not derived from the agent's model. Missing: contracts whose keys lie on several shards (all-or-nothing across shards is C39), failover (C38). C96_money_partial and C96_once_partial have the exceptions of C95 (payments to oneself, the last sequence number)."
  },
  {
   "property": "C97",
   "status": "partial",
   "theorems": [
    "C97_stream",
    "C97_seeds",
    "C97_secret_refuted",
    "C97_hashes",
    "C97_hash_bytes",
    "C97_unreadable"
   ],
   "note": "The stream, its dependence on the seed and the hashes made of it are proved for every compression function. The secrecy of the stream is refuted: Finalize is called again and again without Reset, so each 32 bytes given out are the whole state of the hasher, and eight consecutive numbers of a block determine all later ones without the seed. (random_hash shows only the upper byte of each number, so its users do not publish whole states.) That the program does not start without a full seed holds only where assertions are compiled in: with NDEBUG the missing bytes are zeros. Not modelled: the distribution of uniform_int_distribution beyond libstdc++'s way of taking the upper bits, big-endian machines, other users' distributions."
  },
  {
   "property": "C98",
   "status": "partial",
   "theorems": [
    "C98_standard",
    "C98_pieces",
    "C98_padding",
    "C98_block",
    "C98_constants",
    "C98_collision",
    "C98_reuse_refuted"
   ],
   "note": "Proved in full for the implementation in C++ (sha256::Transform) and for the buffering of CSHA256. Not modelled: the SSE4, AVX2 and SHA-NI implementations that SHA256AutoDetect may choose at the start, TransformD64 and SHA256D64. A hasher used again after Finalize without Reset does not give the hash of what is written (C98_reuse_refuted); random_source does that (C97)."
  },
  {
   "property": "C99",
   "status": "partial",
   "theorems": [
    "C99_standard",
    "C99_numbers",
    "C99_location",
    "C99_spread_refuted"
   ],
   "note": "SipHash-2-4 and the place of a key are proved in full. That nobody can choose IDs that fall into one bucket is refuted for the tables that use the first eight bytes of an ID (C99_spread_refuted): attestations and public keys are chosen by clients. The tables that use SipHash have the constant key 0x1337, 0x1337 (a TODO in the code), so whoever reads the code can compute the shard and the bucket of any key in advance. Machines are little-endian."
  }
 ]
}