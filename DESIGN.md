# Formal model of opencbdc-tx in Rocq/Coq

## 1. Layout and conventions

* `rocq/theories/<Topic>Model.v`: executable Gallina definitions only. Every
  definition carries a comment with the file and lines of `/repo` it models and
  says what was simplified.
* `rocq/theories/<Topic>Spec.v`: the small specification a property is stated
  against (sometimes at the top of the property file when it is two or three
  lines).
* `rocq/theories/<Topic>Proofs.v`: lemmas.
* `rocq/theories/P_<Topic>.v`: property theorems only. Each is closed by
  `exact <lemma>`, followed by `Print Assumptions`, and is next to an `Example`
  showing that a concrete non-trivial case meets its hypotheses.

A theorem named `..._refuted` proves, on a concrete witness, that the full
English property is false of the model, and hence is a finding about the code
(listed in section 5). A theorem named `..._partial` proves part of a property;
the comment above it says what is missing.

Modelling conventions:

* `hash_t` (32 bytes) is the natural number `N` of its big-endian bytes; its
  first byte is `h / 2^248`. `uint64_t` is `N`; wherever the code adds or
  subtracts, the wrap `mod 2^64` is written out.
* SHA-256, Keccak, SipHash, Schnorr and ECDSA are section variables: theorems
  hold for every function in their place. Where a property needs
  collision-freedom it is an explicit hypothesis or an explicit disjunct
  ("or two of these texts have the same hash"). The texts are named in the
  theorem (CollideSpec.v): that some two texts collide is true of every hash
  function, by counting, and would make the theorem say nothing.
* C++ `fatal`, `exit`, failed `assert`, exceptions that escape, out-of-bounds
  accesses and other undefined behaviour are distinct outcomes of the model.
* Unordered containers are std++ `gmap`/`gset`; where the iteration order is
  observable the model takes the order as a parameter or the property is stated
  for every order.
* Crash points: a persistent object is modelled separately from the volatile
  state and the model has an explicit crash/reopen operation between any two
  atomic writes.

## 2. Plan per property

| id | what is modelled | how it is proved |
|----|------------------|------------------|
| C01-C04 | `validation.cpp` check_tx and all helpers, with 64-bit wrap and oracle signature/hash | declarative `valid_tx`; soundness and completeness by case analysis and induction over inputs/outputs |
| C05 | check_attestations, compact_tx::hash/verify | equivalence with the declarative statement |
| C06, C07 | transaction.cpp over the byte-level serialisation model | byte equality of the two serialisation paths; injectivity from C10 |
| C08-C11 | serializer operators for all types, buffer_serializer/size_serializer | codec combinators with a correctness record; structural induction over values |
| C12-C14, C19 | locking_shard.cpp | invariant over histories; the unrestricted C12 and C19 are expected to fail (see findings), with the discipline under which they hold proved |
| C15, C16, C18 | distributed_tx.cpp + several locking shards + replicated coordinator state, explicit crash points | simulation against "apply decision once on every shard" |
| C17 | coordinator state_machine.cpp | invariant over interleavings of per-dtx phase automata |
| C20-C23 | atomizer.cpp, state_machine.cpp | invariants over op lists; system theorem with shards at arbitrary lag; snapshot round trip and file-system crash model |
| C24, C25 | atomizer shard.cpp with leveldb as atomic batch store | refinement: fold of the chain |
| C26 | archiver digest_block with deferred map and atomic batch | invariant over arbitrary deliveries and crashes |
| C27-C29 | watchtower block_cache, error_cache, status logic | refinement to "last k" lists; refutations where the caches lose entries |
| C30, C31 | wallet.cpp | invariant over operation histories with 64-bit wrap |
| C32-C37 | runtime_locking_shard/impl.cpp | one large inductive invariant over all requests |
| C38 | replicated_shard.cpp, server.cpp, recover | refinement between volatile and replicated state, explicit failover |
| C39, C40 | broker/impl.cpp with shards and an asynchronous network | invariant over message schedules |
| C41, C42 | ticket_machine, directory | invariant over interleavings; arithmetic |
| C43, C44, C53 | cache_set, log_store, blocking_queue | refinement to lists |
| C45 | rpc tcp_client bookkeeping | invariant over interleavings |
| C46, C47, C51, C52 | RLP, 256-bit math, EVM tx encoding, hex | round trips, arithmetic by induction over bytes |
| C48-C50, C59-C63 | evm runner/host with the VM as an arbitrary sequence of host calls | the host's cache refines a map of accounts; sums over maps; refutations |
| C54 | runtime_locking_shard/impl.cpp with the terminating paths explicit | invariant; refutations |
| C55 | shard and watchtower controllers following the block stream | induction over the missing blocks |
| C56, C64, C65 | client.cpp and its two architectures' sync, over the wallet model; the two files with explicit crash points | invariant against the user's own books; refutations for sync and crashes |
| C66-C69 | both sentinels' controllers with arbitrary peers, coordinator and random draws | case analysis, induction over the gathering of attestations; refutations |
| C70 | sequences of accepted transactions over the set of UHS IDs | invariant: a backing set of coins whose hashes are the UHS |
| C71-C73 | util/network: tcp_socket's framing over a byte stream with arbitrary splits, connection_manager's queues and handler threads, peer's three threads and shutdown | induction over the stream; invariants over interleavings; refutations by concrete schedules |
| C74 | export_send_inputs, import_send_input and confirmation, over the client model: a payer's and a payee's client | induction over the outputs and over the coins received; a concrete fan refutes several coins announced together |
| C75 | the agent's state machine, every function of impl.cpp, with broker and runner as the environment and a record of the past | invariant by induction over the calls, stated about the record of what was asked and answered |
| C76 | the agent, the retry and cleanup threads and the result callbacks of the Lua and the EVM server | invariant relating the state to the requests that are pending, by induction over the steps; concrete runs refute the rest |
| C77 | the configuration parser: lines, keys, values, environment, endpoints and the names of all settings | the text of a list of settings is parsed back, by induction over the list; names are injective; odd files refute the rest |
| C78 | reading and checking of all options | the options are compared with a table of the settings' names and defaults, by inversion of the reader; concrete files refute coverage and totality |
| C79 | the division of the seeds, the shard seeder, the shards' preseed files and the generators' wallets | arithmetic of the division; the ranges partition the first bytes; round trip of the file; concrete options refute the rest |
| C80 | the blocking, asynchronous, TCP and raft RPC servers, raft replication and the commit of a state machine | invariant over all event sequences that ties replies to requests; replay of the log; concrete packets refute the rest |
| C81 | the server and client halves of the PArSEC shards' and the ticket machine's messages | case analysis over the methods through the wire format; refuted for failures |
| C82 | the raft state manager and the names of its files, saves as sequences of file system steps | refinement to a register that holds the last save; names are injective; votes by invariant over runs with crashes |
| C83 | the coordinator's current batch, its executor and handler threads and its stop, as a transition system | invariant over all interleavings; a rank that every internal step lowers, so that a quiet state is reached and has no unanswered transaction; refutations |
| C84 | the keys of an EVM agent, the index of the events, the query and the answers of the shards in any order | injectivity of the keys up to hash collisions; the values read are those stored (induction over the history); permutation of sums over blocks, addresses and transactions; refutations of the range checks |
| C85 | add_to_bloom and the filters of receipts and blocks over an arbitrary 32-byte hash | bit-level invariant of the fold; refutation against the standard byte order |
| C86 | the HTTP server's handling of a body and all handlers of the JSON-RPC interface, over JSON values with jsoncpp's exceptions | a relation of documented requests, each shown to be answered exactly so; case analysis of the handlers for the number of answers; counterexamples that end the process |
| C87 | what the runs started by these requests read, and how what was read is shown | the keys of C84, the round trips of C52, C58 and C08; counterexamples at the boundaries |
| C88 | the Lua runner over an arbitrary interpreter, with the traversal of tables by lua_next and its conversion of keys | a big-step relation of what the contract asks for and how runs end, shown of every run by induction over the answers; counterexamples with numeric keys |
| C89 | the pool of threads as a transition system: callers, the holder of the mutex, worker threads with their queues, the destructor | an invariant over all interleavings and a rank that every step of the pool lowers; counterexample runs |
| C90 | Bech32 encoding and decoding, conversion between 8- and 5-bit groups, the type byte and the length of addresses | the checksum is linear; a checked table shows that no error of weight four or less within the length of an address cancels; counterexamples by computation |
| C91 | the argument vector of client-cli to the call of the client it makes, with exceptions and undefined behaviour as outcomes | case analysis, composed with C90 and the theorems on numbers, hexadecimal and encodings; counterexamples by computation |
| C92 | the options of the PArSEC programs: arguments to a map of options, options to the configuration | a round trip for all deployments whose names are unambiguous, faithfulness for all accepted vectors; a deployment no vector describes |
| C93 | put_row and get_row as machines driven by an arbitrary broker: answers, returns, and the threads going on | invariants over all runs; runs that leave tickets behind, hang or use dead objects |
| C94 | the HTTP client as a machine driven by its user and an arbitrary libcurl: data, completions, failures, failing handles | invariants over all runs (handles, open calls, data received); runs that mix responses, lose callbacks or retry for ever |
| C95 | the payment contract as an instance of the Lua runner of C88, over arbitrary stored accounts, with Lua's 64-bit integers; the wallet | characterisation of success and effect, induction over sequences of payments; payments to oneself, wrapping numbers |
| C96 | the shard of C32-C37 with tickets whose updates are what the Lua runner of C88 reports for the values granted; the payment contract of C95 | invariant over executions: updates of prepared tickets are what their contracts would report now; corollaries for payments |
| C97 | the source of random numbers and the hasher under it, with the compression function a parameter (and SHA-256 itself in the examples) | invariant over the calls (what is left of the last block); a predictor as a function of eight numbers |
| C98 | SHA-256 of the C++ implementation, word by word, and its buffering; FIPS 180-4 as the specification, constants computed from primes | refinement: eight unrolled rounds to eight standard ones, the sixteen words updated in place to the schedule, writes to one message; induction on blocks from the end for collisions |
| C99 | SipHash as written in the code, byte by byte; the authors' definition as the specification | refinement: rounds statement by statement to two layers of the network, writes to words of the filled message by induction; a family of IDs with the same hash |
| C57, C58 | EVM signatures and numbers in JSON-RPC | algebra of the encodings; refutations |

Not modelled at all: thread scheduling below the granularity of a lock-protected
critical section, real time, LevelDB internals, NuRaft's consensus, the
EVM bytecode interpreter, the Lua interpreter.

## 3. Trusted base

* The Coq 8.16.1 kernel (including its `vm_compute` machine) and the OCaml
  runtime it runs on. std++ (gset, gmap, tactics) is used as a library; none of
  its axioms is used.
* The reading of the C++ source that the `*Model.v` files encode, definition by
  definition, with the simplifications stated there.
* `Print Assumptions` of each theorem: all say "Closed under the global
  context", that is, no axiom, neither of ours nor of a library. (`coqchk` lists
  `Under_rel` constants: they come from a module type of ssreflect that std++
  loads and no theorem depends on them.)
* Hash functions, signatures, the virtual machine of the EVM, replies of the
  network and random draws are universally quantified in the theorems. What a
  theorem needs of them (a signature made with a key verifies, a hash has 256
  bits, no collision) is among its hypotheses or in its conclusion.

## 4. What is modelled and what is not

Modelled (the `*Model.v` files cite the lines, definition by definition):

| part of the code | model |
|------------------|-------|
| util/serialization (format.hpp, buffer/size/istream/ostream serializers), raft/serialization | CodecModel |
| all message formats of uhs/ and util/rpc | MsgModel, TxModel |
| uhs/transaction: transaction, validation, messages, wallet | TxModel, ValidationModel, WalletModel |
| uhs/client: client, twophase_client, atomizer_client | ClientModel |
| uhs/twophase: locking_shard and its state machine, coordinator controller, distributed_tx, coordinator state machine, sentinel | LockingShardModel, TwoPhaseModel, SentinelModel |
| uhs/twophase coordinator controller: execute_transaction, the batch executor, schedule_exec, start and stop as threads | CoordBatchModel |
| parsec EVM runner: keys, events, eth_getLogs, Bloom filters (host.cpp, impl.cpp, http_server.cpp, util.cpp) | EvmLogModel |
| util/rpc/http/json_rpc_http_server.cpp (a request's way), parsec EVM http_server.cpp (dispatch, parameters, answers; not the JSON of transactions, receipts and blocks) | ApiModel |
| parsec/agent/runners/lua/impl.cpp (not the interpreter) | LuaModel |
| util/common/thread_pool.cpp | PoolModel |
| 3rdparty/bech32, uhs/client/client.cpp (address) | AddressModel |
| uhs/client/client-cli.cpp | CliModel |
| parsec/util.cpp, parsec/util.hpp (options) | ParsecCfgModel |
| parsec/util.cpp (put_row, get_row), parsec/agent/runners/evm/util.cpp (mint_initial_accounts) | RowModel |
| util/rpc/http/json_rpc_http_client.cpp, .hpp | HttpModel |
| scripts/gen_bytecode.lua, tools/bench/parsec/lua/wallet.cpp | LuaPayModel |
| util/common/random_source.cpp, util/common/hash.cpp (hash_data), 3rdparty/crypto/sha256.cpp (CSHA256, Transform) | RandModel, ShaModel |
| 3rdparty/crypto/siphash.cpp, util/common/hashmap.{hpp,cpp} | SipModel |
| uhs/atomizer: atomizer, its raft state machine with snapshots, shard, archiver, watchtower with its caches, sentinel, block following of the controllers | AtomizerModel, AtomizerSnapshotModel, AtomizerShardModel, AtomizerSystemModel, ArchiverModel, WatchtowerModel, SentinelModel |
| parsec: runtime_locking_shard (impl, replicated shard, server, state machine), broker, ticket machine and client, directory | ParsecShardModel, FailoverModel, BrokerModel, TicketModel |
| parsec/agent: impl, server_interface, the result callbacks of runners/lua/server and runners/evm/http_server | AgentModel |
| util/common/config.{hpp,cpp} (but for the overload that reads from disk and get_args) | ConfigModel |
| tools/shard-seeder, the seeding halves of locking_shard.cpp, its controller and tools/bench | SeedModel |
| parsec/agent/runners/evm: rlp, math, serialization, signature, host, runner | RlpModel, EvmMathModel, EvmTxModel, EvmHostModel |
| util/network: tcp_socket send and receive, peer, connection_manager (not tcp_listener, socket_selector, name resolution) | SocketModel, PeerModel, DispatchModel |
| util: cache_set, buffer/hash hex, blocking_queue, raft log_store, rpc tcp_client | CacheModel, HexModel, QueueModel, LogStoreModel, RpcModel |
| util/rpc: server, blocking_server, async_server, tcp_server; util/raft/rpc_server, node::replicate; messages of the PArSEC shards and the ticket machine | ServerModel |
| util/raft/state_manager, the file names of util/raft/node | RaftFilesModel |

Granularity: a function that runs under one mutex, or as the only thread that
touches its data, is one step. Between such steps the models interleave
arbitrarily. Messages may be delayed, lost, repeated and reordered wherever the
code does not rule it out; where a model restricts this, the note of the
property says so. In particular a request of a crashed coordinator or broker
that is still in the network when its successor recovers is not in the system
models of C15 and C40; C14_late_lock_refuted and C14_late_apply_refuted show
what such a request does to a shard. Crashes are between any two durable
writes.

Not modelled: data races and thread scheduling inside a critical section, real
time and timeouts (a timeout is a nondeterministic choice), the system calls
behind a socket, LevelDB internals (a write batch is atomic; errors are an
explicit outcome), NuRaft's consensus (a replicated command is applied once, in
order, on every replica, and survives crashes), the bytecode interpreter of the
EVM (an arbitrary sequence of calls to the host), the Lua interpreter
(an arbitrary function that resumes a contract), libcurl (an
arbitrary source of data, completions and failures), the HTTP server library and
the text of JSON, logging, telemetry, the rest of the load
generators and benchmarks, memory exhaustion.

## 5. Results

<!-- generated by tools/design_tail.py; do not edit below -->

### Theorems and their assumptions

Every theorem below is followed by `Print Assumptions` in its file and is
"Closed under the global context" (no axioms at all), unless marked.

| file | theorems |
|------|----------|
| P_Address.v | C90_roundtrip, C90_typos, C90_distance, C90_case, C90_dropped, C90_shape, C90_bounds_partial, C90_bounds_refuted, C90_unique_refuted, C90_insertion_refuted |
| P_Agent.v | C75_one_ticket, C75_commits_what_ran, C75_read_only, C75_success_partial, C75_survives_partial, C75_exec_any_time_refuted, C75_lock_asked, C75_lock_answered, C76_success, C76_commits_last_run, C76_commit_is_final, C76_told_after_commit_partial, C76_committed_is_success_refuted, C76_failure_undone, C76_reason, C76_locks_true, C76_one_answer, C76_never_stuck, C76_survives_partial, C76_survives_no_ticket_refuted, C76_survives_unfinished_refuted, C76_no_use_after_free_refuted, C76_released_refuted, C76_answered_twice_refuted, C76_is_agent |
| P_Api.v | C86_documented_partial, C86_unknown, C86_malformed, C86_once_partial, C86_id_partial, C86_survives_refuted, C86_defined_refuted, C86_defined_raw_refuted, C86_twice_refuted, C86_id_refuted, C86_blockhash_refuted, C86_no_topics_refuted, C86_fee_refuted, C87_place, C87_balance, C87_count, C87_absent, C87_data, C87_damaged, C87_height, C87_index_partial, C87_index_refuted, C87_code_safe_refuted, C87_only_accounts_refuted, C87_blocks_refuted |
| P_Archiver.v | C26_gapless, C26_immutable, C26_write_failure_refuted |
| P_Atomizer.v | C20_complete_transactions, C20_attested_transactions, C20_cache_wide_refuted, C20_indices_refuted, C20_wrapped_height_refuted, C20_total_refuted, C20_one_error_refuted, C21_no_double_spend, C21_always_answers, C21_id_collision_refuted, C22_implements_ledger, C22_consecutive, C22_block_contents, C22_blocks_kept_until_pruned, C24_unspent_set, C24_next_block_only, C24_restart_loses_nothing, C24_crash_is_all_or_nothing, C24_shards_follow_the_chain, C24_write_failure_refuted, C25_truthful, C25_read_error_refuted |
| P_AtomizerSnapshot.v | C23_snapshot_round_trip, C23_states_can_be_written, C23_replicas_agree, C23_replicas_survive, C23_crash_in_snapshot, C23_snapshots_last |
| P_Broker.v | C39_all_or_nothing, C39_no_update_lost, C39_commit_writes, C39_commit_reported, C39_rollback_safe, C39_rollback_reported, C39_finish_reported, C39_commit_after_failed_rollback_refuted, C39_commit_with_other_updates_refuted, C39_every_commit_answered_refuted, C39_answered_once_refuted, C40_recovered, C40_second_recovery_refuted |
| P_Cache.v | C43_most_recent_kept, C43_contains_is_membership, C43_size_bounded, C43_no_duplicates, C43_present_unchanged, C43_capacity_refuted |
| P_Cli.v | C91_send_partial, C91_fan_partial, C91_mint_partial, C91_only_send, C91_only_fan, C91_only_mint, C91_only_import, C91_bad_address, C91_printed_partial, C91_misspelt, C91_import, C91_import_else, C91_confirm, C91_others, C91_unknown, C91_too_short, C91_too_few_partial, C91_too_few_fan, C91_defined_partial, C91_amount_refuted, C91_text_refuted, C91_word_refuted, C91_defined_refuted |
| P_Client.v | C56_accounting, C56_no_failure, C56_create, C56_fan, C56_send, C56_confirm, C56_abandon, C56_restart, C56_stuck, C64_two_coins_refuted, C65_crash_between_partial, C65_torn_file_refuted, C65_crash_confirm_refuted, C65_crash_abandon_refuted, C65_crash_wallet_refuted, C64_twophase, C64_atomizer_partial, C64_atomizer_all_partial, C64_atomizer_refuted, C64_forged_coin_refuted, C64_replayed_coin_refuted |
| P_Codec.v | C08_integers, C08_arrays, C08_bool, C08_buffer, C08_option, C11_option_cut, C08_pair, C08_vector, C08_set, C08_unordered_set, C08_unordered_map, C08_rpc_request, C08_rpc_response, C08_full_tx, C08_compact_tx, C08_out_point, C08_output, C08_input, C08_tx_error, C08_execute_response, C08_sentinel_request, C08_sentinel_response, C08_wt_error, C08_status_update_request, C08_status_check_success, C08_watchtower_request, C08_watchtower_response, C08_block, C08_tx_notify_request, C08_agg_tx, C08_agg_request, C08_make_block_response, C08_atomizer_request, C08_atomizer_sm_request, C08_atomizer_sm_response, C08_ls_request, C08_ls_response, C08_ls_status_request, C08_sm_header, C08_prepare_tx, C08_commit_tx, C08_coord_state, C08_coord_state_raw, C08_try_lock, C08_rls_prepare, C08_rls_request, C08_shard_error, C08_rls_response, C08_repl_prepare, C08_repl_request, C08_repl_ticket, C08_repl_response, C08_agent_request, C08_agent_response, C08_ticket_request, C08_ticket_response, C08_evm_account, C08_evm_sig, C08_evm_tx, C08_evm_dryrun, C08_evm_log, C08_evm_receipt, C08_code_key, C08_storage_key, C08_pretend_block, C08_log_query, C08_log_index, C09_nuraft_buffer_filled, C09_stream_same_bytes, C09_unsized_buffer, C09_nuraft_too_small, C11_read_exact, C11_decoders_use_it, C11_failure_is_sticky, C11_read_exact_refuted, C11_truncation_reported_refuted |
| P_Config.v | C77_read_back, C77_environment_wins, C77_names_differ, C77_endpoint, C77_comment_refuted, C77_odd_values_refuted, C77_empty_variable_refuted, C77_endpoint_refuted, C78_faithful, C78_accepted, C78_refusal_has_reason, C78_accepted_or_refused_partial, C78_coverage_refuted, C78_range_end_refuted, C78_nodes_refuted, C78_threshold_refuted, C78_key_length_refuted |
| P_CoordBatch.v | C83_taken_or_not, C83_answered_once_partial, C83_refused_is_final, C83_own_result, C83_batches, C83_all_answered, C83_stop_ends_partial, C83_stop_hangs_refuted, C83_answered_refuted, C83_no_room_refuted, C83_no_thread_refuted |
| P_EvmHost.v | C48_no_mint_partial, C48_exact_total, C48_precompiles, C48_gas_wraps_refuted, C48_value_wraps_refuted, C49_accounts_partial, C49_no_writes_partial, C49_storage_refuted, C49_failure_refuted, C49_inner_revert_refuted, C50_nonces, C50_no_replay, C59_others_money, C60_created, C60_apart_partial, C60_code_replaced_refuted, C61_receipt_partial, C61_transfer, C61_logs, C61_receipt_refuted, C62_agent_lives_partial, C62_retried_only_if_refused, C62_destroy_refuted, C62_wounded_refuted, C62_dry_run_refuted, C62_precompile_refuted, C63_dry_run |
| P_EvmLog.v | C84_keys_apart, C84_logs_exact_partial, C84_logs_errors, C84_range_partial, C84_answered_refuted, C84_finite_refuted, C84_limit_refuted, C84_defined_refuted, C84_once_refuted, C84_repeated_refuted, C85_filter_exact, C85_filter_size, C85_no_miss_partial, C85_block, C85_standard_refuted |
| P_EvmMath.v | C47_add, C47_sub, C47_sub_exact, C47_mul, C47_shift, C47_uint64, C47_to_uint64, C47_equal |
| P_EvmTx.v | C51_round_trip, C51_standard, C51_accepts, C51_terminates, C51_id, C51_unused_fields_refuted, C51_chain_refuted, C51_throws_refuted, C51_memory_safe_refuted, C57_round_trip, C57_signer, C57_signed_hash, C57_chain0_refuted, C57_malleable_refuted, C58_hex_back, C58_json_refuted |
| P_Failover.v | C38_failover, C38_served_values_survive, C38_open_tickets, C38_commits_once, C38_prepare_answer, C38_no_early_answer, C38_prepared_stays, C38_commit_answer, C38_repeated_commit_refuted, C38_prepare_during_rollback_refuted, C38_refused_finish_refuted |
| P_Hex.v | C52_roundtrip, C52_roundtrip_empty_refuted, C52_prefixed, C52_prefix_optional, C52_hash_roundtrip, C52_accepts_hex, C52_rejects_length, C52_rejects_partial, C52_rejects_refuted, C52_hash_text_refuted |
| P_Http.v | C94_once, C94_asked, C94_answered_partial, C94_answered_refuted, C94_result, C94_delivered, C94_body_partial, C94_body_refuted, C94_sent_refuted, C94_endpoint, C94_balance_partial, C94_balance_refuted, C94_defined_partial, C94_no_endpoint_refuted |
| P_LockingShard.v | C12_no_double_spend_partial, C12_respend_needs_creation_partial, C12_lock_decision_partial, C12_check_unspent_exact_partial, C12_no_double_spend_refuted, C12_one_batch_refuted, C13_locked_owned, C13_holder_is_prepared, C13_disjoint_partial, C13_held_once_partial, C13_disjoint_refuted, C14_lock_retry, C14_apply_retry, C14_discard_retry, C14_late_lock_refuted, C14_late_apply_refuted, C19_confirms_finished_partial, C19_answers_from_recent, C19_only_completed_refuted |
| P_LogStore.v | C44_log, C44_flushed_survives, C44_append_durable_refuted, C44_reopen_refuted, C44_outside_refuted |
| P_Lua.v | C88_explained_partial, C88_returns, C88_load, C88_check_sig, C88_survives_refuted, C88_ends_refuted, C88_dropped_refuted, C88_readonly_refuted |
| P_LuaPay.v | C95_runs, C95_accepted, C95_effect_partial, C95_money_partial, C95_self_refuted, C95_owner, C95_replay_partial, C95_replay_refuted, C95_large_refuted, C95_frozen_refuted, C95_wallet, C95_wallet_refuses, C95_wallet_failure, C95_wallet_follows |
| P_LuaShard.v | C96_serial, C96_payments, C96_money_partial, C96_once_partial |
| P_Network.v | C71_send_writes_frame, C71_prefix_delivered, C71_all_delivered, C71_complete_frames_delivered, C71_eight_bytes_end_process_refuted, C72_nothing_lost, C72_handled_in_order, C72_sender_is_named, C72_ids_differ, C72_answers_go_back, C72_no_lost_wakeup, C72_no_starvation, C72_send_to_one, C72_close_hangs_refuted, C73_sent_in_order, C73_no_assertion_fails, C73_failure_is_noticed, C73_single_connection, C73_shutdown_ends_partial, C73_shutdown_hangs_refuted, C73_reconnects_forever_refuted, C73_packets_dropped_refuted |
| P_ParsecCfg.v | C92_round_trip_partial, C92_faithful, C92_malformed, C92_nodes_refuted, C92_clash, C92_ignored_refuted, C92_refused_refuted |
| P_ParsecShard.v | C32_lock_exclusion, C32_granted_is_held, C33_waits_only_for_older_or_prepared, C33_prepared_waits_for_nothing, C33_no_deadlock, C33_progress, C33_oldest_waits_only_for_prepared, C33_no_deadlock_across_shards, C34_no_lost_wakeup, C34_waiting_has_reason, C35_prepared_untouched, C35_prepared_commits, C35_values_change_only_by_commit, C35_commit_or_rollback_refuted, C36_state_is_committed_store, C36_grant_is_current, C36_serializable, C36_locked_value_stable, C37_answered_once, C37_waits_as_asked, C54_never_undefined, C54_never_exits_refuted |
| P_Pay.v | C74_export, C74_exported_unspent, C74_exported_worth, C74_payment, C74_one_by_one_partial, C74_fan_refuted |
| P_Pool.v | C89_once, C89_no_waiting, C89_threads, C89_idle, C89_reuse, C89_destroy_partial, C89_survives_partial, C89_dropped_refuted, C89_deadlock_refuted, C89_self_refuted |
| P_Queue.v | C53_fifo, C53_nothing_lost, C53_pop_order, C53_false_only_cleared, C53_no_lost_wakeup, C53_woken_pops, C53_reset_loses_wakeup_refuted |
| P_RaftFiles.v | C82_names, C82_state, C82_config, C82_state_survives, C82_config_survives, C82_votes_once, C82_first_config, C82_full_disk_refuted, C82_power_refuted, C82_options_refuted |
| P_Rand.v | C97_stream, C97_seeds, C97_secret_refuted, C97_hashes, C97_hash_bytes, C97_unreadable |
| P_Rlp.v | C46_wire, C46_standard, C46_reads_standard, C46_canonical_refuted, C46_nested_truncation_refuted, C46_no_exception_refuted |
| P_Row.v | C93_put_true, C93_put_calls, C93_put_once, C93_put_quiet, C93_put_false_refuted, C93_put_open_refuted, C93_mint, C93_get_returned, C93_get_value, C93_get_calls, C93_get_safe_partial, C93_get_no_throw, C93_get_returns_partial, C93_get_hangs, C93_get_hangs_refuted, C93_get_undefined_refuted, C93_get_twice_refuted, C93_get_reason_refuted |
| P_Rpc.v | C45_never_broken, C45_at_most_once, C45_own_answer, C45_own_returned, C45_ids_distinct, C45_failed_never_called, C45_answer_completes, C45_closed_no_wait, C45_callback_at_close_refuted |
| P_Seed.v | C79_generators_apart, C79_generator_share, C79_coins_exist_partial, C79_shard_gets_its_coins_partial, C79_shard_loads, C79_first_seed_refuted, C79_uneven_refuted, C79_same_range_refuted, C79_few_seeds_refuted, C79_unused_refuted |
| P_Sentinel.v | C66_vouches, C66_submits_2pc, C66_forwards_atomizer, C66_answer_2pc, C66_lying_peer_refuted, C67_attested_means_valid, C68_single_shard_partial, C68_at_most_one_refuted, C68_two_shards_refuted, C68_one_input_refuted, C69_answers_2pc_partial, C69_no_crash_partial, C69_threshold_refuted, C69_alone_refuted, C69_no_key_refuted, C69_pending_refuted |
| P_Server.v | C80_blocking_answer, C80_blocking_unready, C80_async_taken, C80_async_answers, C80_async_once, C80_async_survives, C80_raft_taken, C80_raft_once, C80_raft_served, C80_replay_survives, C80_answered_refuted, C80_once_refuted, C80_early_request_refuted, C80_failure_refuted, C80_poison_refuted, C81_delivered_partial, C81_tickets_delivered_partial, C81_internal_error_refuted, C81_refused_refuted, C81_tickets_refuted |
| P_Sha.v | C98_standard, C98_pieces, C98_padding, C98_block, C98_constants, C98_collision, C98_reuse_refuted |
| P_Sip.v | C99_standard, C99_numbers, C99_location, C99_spread_refuted |
| P_Supply.v | C70_money_conserved, C70_atomizer_partial, C70_mint_replay_refuted, C70_two_phase_refuted |
| P_Ticket.v | C41_numbers_unique, C41_answered_once, C41_no_needless_wait, C41_oldest_first, C41_range_serves_all, C41_waiting_is_served_partial, C41_waiting_is_served_refuted, C42_location_exists |
| P_TwoPhase.v | C15_atomic, C15_completed_all_locked, C15_cancelled_some_refused, C15_answer, C15_events_only_sent, C15_events_once, C12_system_no_double_spend_partial, C12_system_completes_locked, C12_system_no_double_spend_refuted, C16_decision_stable, C16_recovery_completes, C16_same_ledgers_partial, C16_same_state_refuted, C17_never_fatal, C17_never_fatal_release, C17_coordinator_never_fatal, C17_one_phase, C17_duplicate_input_refuted, C18_exactly_one_owner, C18_part_is_filter, C18_part_index, C18_sent_iff, C18_owner_sees |
| P_Tx.v | C05_attestation_check_exact, C05_hash_ignores_attestations, C05_hash_commits, C06_output_id_is_spender_id, C06_spend_deletes_it, C06_spender_carries_output, C06_distinct_outputs_distinct_ids, C07_id_ignores_witness, C07_id_commits |
| P_Validation.v | C01_value_conserved, C02_well_formed, C03_inputs_authorised, C04_accepts_exactly_valid, C04_rejects_with_first_fault, C04_total, C04_p2pk_spendable |
| P_Wallet.v | C30_balance, C30_no_failure, C30_restart, C30_foreign_debit_refuted, C30_debit_value_refuted, C30_seed_restart_refuted, C30_overflow_refuted, C30_truncated_file_refuted, C31_send, C31_fan, C31_send_coins, C31_send_accepted, C31_fan_accepted, C31_send_coins_accepted, C31_send_confirm, C31_send_zero_refuted, C31_fan_wrap_refuted |
| P_Watchtower.v | C27_sound, C27_exact, C27_chain_once, C27_best_height, C27_exact_refuted, C28_sound, C28_by_tx_partial, C28_by_uhs_partial, C28_refuted, C29_status_partial, C29_error_filter, C29_one_state_refuted, C29_spent_on_refuted, C55_shard_safe, C55_shard_live, C55_shard_old, C55_watchtower_safe, C55_watchtower_live, C55_watchtower_old_refuted |

### Statements that the model refutes (findings about the code)

* `C11_read_exact_refuted`: Without the bound on the length the claim is false: the 64-bit sum wraps.
* `C11_truncation_reported_refuted`: A truncated message can make the reader throw instead of reporting failure: the second of two buffers is read even though the first one failed, from bytes that are not a length.
* `C12_no_double_spend_refuted`: Finding: without that rule the shard lets one UHS ID be spent twice, although every transaction completed was locked and no ID is created twice.
* `C12_one_batch_refuted`: Finding: the same inside a single distributed transaction.
* `C12_system_no_double_spend_refuted`: Finding: the complete protocol, without crash, lost answer or duplicated input, confirms two transactions that spend the same UHS ID.
* `C13_disjoint_refuted`: Finding: an inputless transaction that creates a locked UHS ID puts it in both sets.
* `C14_late_apply_refuted`
* `C14_late_lock_refuted`: Finding: a lock request repeated after the apply of a cancelled transaction locks its inputs again, and an apply repeated after the discard ends the process. A request delayed by the network past the end of its distributed transaction has these effects.
* `C16_same_state_refuted`: Finding: the ledgers agree but the whole state of the shard does not. A coordinator that recovers in the discard phase contacts no shard, so the shard remembers the ID for ever.
* `C17_duplicate_input_refuted`: Finding: a duplicated input brings a shard with assertions down.
* `C19_only_completed_refuted`: Finding: a transaction that was refused and cancelled everywhere is reported as confirmed.
* `C20_cache_wide_refuted`: Not true: "no ID is spent by two of the blocks covered by the cache". The second transaction comes with a newer attestation.
* `C20_indices_refuted`: Not true without the hypothesis on indices: attestations of inputs the transaction does not have are counted.
* `C20_one_error_refuted`: Not true: "a transaction gets at most one error".
* `C20_total_refuted`: Not true: "every call returns".
* `C20_wrapped_height_refuted`: Not true without the bound on heights: one far above the best height is accepted.
* `C21_id_collision_refuted`: Not true if two transactions may share an ID.
* `C24_write_failure_refuted`: Not true when leveldb fails to write: the status of Write is ignored.
* `C25_read_error_refuted`: Not true when leveldb fails to read: any error but "not found" counts as found.
* `C26_write_failure_refuted`: Only the assertion protects against a failing write: compiled without it, the archiver counts the block as stored, has the atomizers prune it, and stores the next one.
* `C27_exact_refuted`: Without that, a spend in the last k blocks can be missing.
* `C28_refuted`: In general the property does not hold: evicting an older error about the same transaction or ID hides the newer one.
* `C29_one_state_refuted`: An ID can get two states: an error, and that the transaction is confirmed.
* `C29_spent_on_refuted`: A confirmed transaction whose output was spent on has "no history" with respect to it.
* `C30_debit_value_refuted`: The amount taken off the balance is the one the transaction claims for the coin.
* `C30_foreign_debit_refuted`: What goes wrong outside of that. A confirmed transaction that spends a coin the wallet still holds fails the assertion of update_balance; a build without assertions goes on, offers the spent coin again and its balance wraps below zero.
* `C30_overflow_refuted`: Two coins worth 2^64 together show as a balance of zero.
* `C30_seed_restart_refuted`: Seeded coins do not survive a restart, and the wallet cannot be seeded again.
* `C30_truncated_file_refuted`: A truncated wallet file is loaded without a word, with coins missing.
* `C31_fan_wrap_refuted`: fan computes the amount modulo 2^64: an empty wallet pays out 2^33 outputs.
* `C31_send_zero_refuted`: Sending nothing builds a transaction that validation rejects.
* `C35_commit_or_rollback_refuted`: A rollback may report success for a ticket whose commit reported success: its writes stay.
* `C38_prepare_during_rollback_refuted`: A prepare that overtakes the answer of a rollback: the next leader restores two tickets that hold the write lock of one key.
* `C38_refused_finish_refuted`: A finish of a prepared ticket is refused, and yet removes the ticket from the replicated state: the next leader does not know it.
* `C38_repeated_commit_refuted`: Without the client's good manners the property is false. A repeated commit request empties the replicated values: the next leader has lost an acknowledged write.
* `C39_answered_once_refuted`: Nor is it answered at most once.
* `C39_commit_after_failed_rollback_refuted`: The rules are needed. A client that commits again after a rollback that did not succeed can tear the transaction: one shard commits, the other has rolled back.
* `C39_commit_with_other_updates_refuted`: A client that repeats a failed commit with other updates gets a mixture of the two committed, and is told that it succeeded.
* `C39_every_commit_answered_refuted`: A commit is not always answered: for a transaction that locked nothing, nothing is sent, nothing is outstanding and the callback has not been called.
* `C40_second_recovery_refuted`: Calling it again in the same process is not safe: its answers are taken for those of the first, and a transaction begun meanwhile is rolled back under its client.
* `C41_waiting_is_served_refuted`: Not true: "a waiting call always has a request or a response on its way". With the code's ranges of 1000 numbers, the 1001st call waits for ever when the connection is down at the moment the first range arrives, even if it is up again later, unless somebody calls again.
* `C43_capacity_refuted`: Finding: the cache is documented to hold [max_size] elements; it evicts when the [max_size]-th arrives.
* `C44_append_durable_refuted`: Without a flush an acknowledged append may be lost: index 1 was returned for it, and after a crash of the machine the next index is 1 again.
* `C44_outside_refuted`: Outside of the log the calls are not safe: an overwrite beyond the next index throws, a read beyond it is undefined, and after a pack that leaves a gap a read returns an entry of another index.
* `C44_reopen_refuted`: A store compacted up to its last entry forgets its position when it is opened again, although all was flushed: the next index was 3 and is 1.
* `C45_callback_at_close_refuted`: But the callbacks of calls that are under way then are never called: the failure is swallowed.
* `C46_canonical_refuted`: Not every accepted input is an RLP encoding: a byte below 128 written with a length.
* `C46_nested_truncation_refuted`: Within a list a string that is cut off is not noticed, and its bytes are read twice: the two-byte string of which one byte is there becomes [0;0] followed by that byte.
* `C46_no_exception_refuted`: Nine bytes make the reader throw std::length_error.
* `C48_gas_wraps_refuted`: The cost of the gas is computed modulo 2^256: an account without money is left with 2^255.
* `C48_value_wraps_refuted`: So is the sum of the value and the cost.
* `C49_failure_refuted`: A transaction that fails without reverting (out of gas, say) keeps its transfers.
* `C49_inner_revert_refuted`: A call that is reverted inside a transaction that succeeds keeps its effects.
* `C49_storage_refuted`: A reverted transaction keeps what it wrote to storage, and its logs.
* `C51_chain_refuted`: A typed transaction for the chain 2^64 + 1 is accepted on the chain 1.
* `C51_memory_safe_refuted`
* `C51_throws_refuted`: There are bytes on which decoding throws std::out_of_range, and ones (the empty message among them) on which it accesses memory outside its buffers.
* `C51_unused_fields_refuted`: Fields that the type does not have are lost.
* `C52_hash_text_refuted`: A hash read from a string that is too short has bytes nobody wrote; one read from a string that is too long writes outside of it; one read from no number is 0.
* `C52_rejects_refuted`: "1g", " 1" and "-1" are accepted, as the bytes 01, 01 and ff.
* `C52_roundtrip_empty_refuted`: So the round trip fails on the empty buffer.
* `C53_reset_loses_wakeup_refuted`: Not true without that condition: a reset between a push and the wake-up of the thread it was for leaves the thread asleep beside the element.
* `C54_never_exits_refuted`: It does end the process then.
* `C55_watchtower_old_refuted`: But a block it has already seen makes it wait for ever.
* `C57_chain0_refuted`: On chain 0 the recovery ID 0 of a legacy transaction comes back as another one.
* `C57_malleable_refuted`: The ID of a signed transaction is not fixed by what was signed: anyone can change [v] so that the transaction is accepted, has the same signer and another encoding.
* `C58_json_refuted`: The reader used for the fields of a transaction in JSON reads every number below 2^248 in that form as 0.
* `C60_code_replaced_refuted`: A contract's second creation replaces the code of its first: the nonce of a contract is never increased.
* `C61_receipt_refuted`: A call without value of an account without code succeeds and is recorded as failed.
* `C62_destroy_refuted`: A constructor without endowment that destroys itself ends the agent.
* `C62_dry_run_refuted`: So does a dry run that sends value from an account that does not exist.
* `C62_precompile_refuted`: So does a call of a precompile, when asserts are compiled in.
* `C62_wounded_refuted`: So does a lock request that is refused (an older ticket came first) while a contract pays.
* `C64_atomizer_refuted`: Missing: a transaction that is in a block stays unconfirmed if another one, earlier in the reply, is in none.
* `C64_forged_coin_refuted`: An announced coin with a forged value: the transaction exists, so the forged value is credited.
* `C64_replayed_coin_refuted`: A coin that the user spent before, announced again, is credited again.
* `C64_two_coins_refuted`: Two coins of one transaction are announced: only one is credited.
* `C65_crash_abandon_refuted`: While abandoning: the coins are in neither file.
* `C65_crash_confirm_refuted`: Dying between the two files while confirming: the transaction is forgotten, the change is not credited, and confirming again does nothing.
* `C65_crash_wallet_refuted`: While writing the wallet file: the client opens without its coins and without a key.
* `C65_torn_file_refuted`: A process that dies while it writes the client file leaves a client that cannot be opened: whatever was saved before, and however much was written.
* `C66_lying_peer_refuted`: The answers of other sentinels are not checked: one bad signature spoils the transaction.
* `C68_at_most_one_refuted`: False with more: whatever the shards, the transaction and the draw, at most one shard is sent to.
* `C68_one_input_refuted`: And one with a single input reaches its shard for one draw only: every other draw reads past the end of the inputs ([None]).
* `C68_two_shards_refuted`: So a transaction with inputs in two shards never reaches all of them.
* `C69_alone_refuted`: A lone sentinel that wants two attestations uses a client that does not exist.
* `C69_no_key_refuted`: A sentinel that needs no attestations may be started without a key; any request to validate a valid transaction then brings it down.
* `C69_pending_refuted`: The atomizer's sentinel says "pending" also if the transaction goes nowhere.
* `C69_threshold_refuted`: If more attestations are wanted than there are sentinels, every valid transaction keeps the sentinel busy for ever.
* `C70_mint_replay_refuted`: Finding: without [issued_once] it is false, and nothing in the atomizer enforces it. The attested issue is sent once; delivered again after its coins were spent, it is put into another block: the spent coins are back, 300 circulate and 150 were issued.
* `C70_two_phase_refuted`: Finding: two-phase commit. 150 are issued once; of three valid payments of the same two coins, submitted at once, two are confirmed to their clients (the double spend of C12_system_no_double_spend_refuted) and the shard holds coins worth 300.
* `C71_eight_bytes_end_process_refuted`: Not true of any bytes from a peer: eight bytes of ones, from anyone who can connect, end the receiving process: the vector of that size cannot be made, and nothing catches the exception in the receiving thread.
* `C72_close_hangs_refuted`: Not true: close() does not always end the handler threads. Its notification is lost on a thread that has looked at m_running and is not asleep yet, so that joining it waits for ever.
* `C73_packets_dropped_refuted`: Not true: that a packet which send() accepted is sent once the peer is connected: what waits when a connection is replaced is dropped.
* `C73_reconnects_forever_refuted`: Not true: that a peer settles after a failure. The network fails once; closing the old socket makes the receiving thread ask for a new connection a second time, after the request was cleared, and so on for ever.
* `C73_shutdown_hangs_refuted`: Not true: that case occurs. The thread has found nothing to do and is about to sleep when shutdown() sets the flag and notifies, neither under the mutex.
* `C74_fan_refuted`: Missing: announced together, of the coins of one transaction only the first is credited.
* `C75_exec_any_time_refuted`: C75, refuted in general: exec may end the process, if it is called while the function's code is awaited.
* `C76_answered_twice_refuted`: C76, refuted if the broker answers twice: the client is told that updates were committed of which the broker confirmed no commit.
* `C76_committed_is_success_refuted`: C76, refuted: a client whose transaction was committed is told of success.
* `C76_no_use_after_free_refuted`: C76, refuted: no answer reaches a destroyed agent.
* `C76_released_refuted`: C76, refuted for the EVM server, which destroys the agents of its requests: the agent of a request that failed is never destroyed.
* `C76_survives_no_ticket_refuted`: C76, refuted: a server survives a request for which no ticket number can be had.
* `C76_survives_unfinished_refuted`: C76, refuted: the Lua server survives a request that was committed and not finished.
* `C77_comment_refuted`: C77, refuted if other lines may contain an equals sign: a comment that does ends the program.
* `C77_empty_variable_refuted`: C77, refuted for an environment variable that is set to nothing: the program reads outside the text.
* `C77_endpoint_refuted`: C77, refuted for other endpoints: an IPv6 address ends the program with an exception, a port that is missing or too large by a failed assertion.
* `C77_odd_values_refuted`: C77, refuted for values of any other form: a negative number is read as a huge one, a number with something behind it as that number, a setting with a blank before the equals sign or with a quoted number not at all, and a text with one quote loses a character.
* `C78_coverage_refuted`: C78, refuted: accepted options may leave hashes to no shard ...
* `C78_key_length_refuted`: ... and a key of any other length is neither accepted nor refused: a longer one is written beyond its array, a shorter one leaves bytes unset.
* `C78_nodes_refuted`: ... a shard may have no node ...
* `C78_range_end_refuted`: ... a range that ends at 256 ends at 0 ...
* `C78_threshold_refuted`: ... an attestation threshold written as "2" or as 2.0 is 1, and a time of 2^31 is negative ...
* `C79_few_seeds_refuted`: C79, refuted for few seeds: with as many generators as seeds none starts, with more the first believes it has 2^64 - 1 coins.
* `C79_first_seed_refuted`: C79, refuted for seeds that do not begin with 0: a wallet holds coins that were written for no shard.
* `C79_same_range_refuted`: C79, refuted for two shards with the same range: one starts with nothing.
* `C79_uneven_refuted`: C79, refuted for shards whose ranges are not even: a coin is written for a shard that does not answer for it, and not for the one that does.
* `C79_unused_refuted`: C79, refuted: not every seed is somebody's.
* `C80_answered_refuted`: Not every packet is answered: a malformed one is dropped, and its sender waits.
* `C80_early_request_refuted`: The sentinels, the coordinators and the PArSEC shards listen before their handler is registered: any request that arrives in between ends the process.
* `C80_failure_refuted`: A failure does not mean that the request was not carried out.
* `C80_once_refuted`: A handler that answers and then reports failure makes the server answer twice.
* `C80_poison_refuted`: One packet of 41 bytes ends the leader of a locking shard when it is committed, and every replica whenever it commits the log.
* `C81_internal_error_refuted`: An internal error of the shard ends the process of the caller of every other method.
* `C81_refused_refuted`: So does a shard that cannot replicate, and a ticket machine that is not the leader.
* `C81_tickets_refuted`
* `C82_full_disk_refuted`: No write is checked: when the disk is full the truncated file replaces the good one, and the node can not start again.
* `C82_options_refuted`: Once a configuration was saved, the endpoints in the options are not looked at.
* `C82_power_refuted`: Nothing is synchronised to the disk: when the machine stops after a save that returned, the state may be gone, and the vote that was answered with it.
* `C83_answered_refuted`: An accepted transaction whose batch has not begun when the coordinator stops is forgotten without an answer, although the coordinator is started again.
* `C83_no_room_refuted`: The options are not checked: without room in a batch, or without a thread, a coordinator stands still with the first transaction.
* `C83_no_thread_refuted`
* `C83_stop_hangs_refuted`: stop() waits for the handler thread before it wakes it: with a full batch a coordinator that is no longer the leader never stops, and never leads again; what it had collected is never answered.
* `C84_answered_refuted`: Refuted: an accepted query is answered. From block 2^64-1 to block 5 no key is asked for, so no answer comes and nothing is reported.
* `C84_defined_refuted`: Refuted: the check of the range is defined for all block numbers.
* `C84_finite_refuted`: Refuted: an accepted query asks for finitely many keys.
* `C84_limit_refuted`: Refuted: an accepted query covers at most 100 blocks and addresses.
* `C84_once_refuted`: Refuted: a query is answered once. Two failing requests give two reports.
* `C84_repeated_refuted`: Refuted: an event is shown as often as it was emitted. An address asked for twice gives its events twice.
* `C85_standard_refuted`: Refuted: a reader that takes the pairs as Ethereum does is not denied an address of the filter's events.
* `C86_blockhash_refuted`: Refuted: events can be asked for by a block's hash, and without topics.
* `C86_defined_raw_refuted`
* `C86_defined_refuted`: Refuted: every request is handled within what the language defines.
* `C86_fee_refuted`: Refuted: eth_feeHistory takes numbers as the other methods do, and its answers are bounded.
* `C86_id_refuted`: Refuted: the answer has the request's ID.
* `C86_no_topics_refuted`
* `C86_survives_refuted`: Refuted: no request ends the agent.
* `C86_twice_refuted`: Refuted: every request is answered once.
* `C87_blocks_refuted`: Refuted: a query is about the blocks it names: numbers are taken modulo 2^64.
* `C87_code_safe_refuted`: Refuted: asking for an account's code is safe: more than 20 bytes are written over what follows an address on the stack.
* `C87_index_refuted`
* `C87_only_accounts_refuted`: Refuted: balances are read from accounts: a receipt can be read as one.
* `C88_dropped_refuted`: Refuted: all that a contract returned is reported.
* `C88_ends_refuted`: Refuted: the run of a contract that returned ends. This one returns {["1.5"] = "a", [1.5] = "b"}.
* `C88_readonly_refuted`: Refuted: contracts can be run read-only. One that asks for a key always fails, because its locks are asked for writing.
* `C88_survives_refuted`: Refuted: no contract ends the agent. This one returns {"x"}.
* `C89_deadlock_refuted`: "The destructor returns when the tasks are done": a task that calls push meanwhile waits for the mutex that the destructor holds while it waits for the task.
* `C89_dropped_refuted`: "Every task that push took is run": the destructor drops tasks.
* `C89_self_refuted`: "Whoever drops the last reference to the pool destroys it": a task of the pool ends the process by it.
* `C90_bounds_refuted`: An address without data and a right checksum makes it read [data[0]] of an empty vector.
* `C90_insertion_refuted`: And one character too many is not always noticed: there is a printed address that, with one more character, is read as another key.
* `C90_unique_refuted`: The text of an accepted address is not unique: padding is not checked.
* `C91_amount_refuted`: The amount that is paid need not be the one that was typed: 4294967301 pays 5.
* `C91_defined_refuted`: A missing argument, a short transaction ID or an empty address: undefined behaviour.
* `C91_text_refuted`: A text that is not a number is not refused: "1,000" pays 1 and "-1" pays 4294967295.
* `C91_word_refuted`: A text without a number ends the program with an exception.
* `C92_ignored_refuted`: Misspelt options are ignored; an unknown log level, and none, mean TRACE although WARN is documented; a system without shards is accepted.
* `C92_nodes_refuted`: There is a deployment that no arguments whatsoever describe: the names of node 10 of shard 1 and of node 0 of shard 11 are the same.
* `C92_refused_refuted`: A number that is none throws, an endpoint without a port fails an assertion.
* `C93_get_hangs_refuted`
* `C93_get_reason_refuted`: The reason of a failure is replaced by another one, and the ticket left behind.
* `C93_get_twice_refuted`: The callback may hear a value and an error.
* `C93_get_undefined_refuted`: A broker that answers after its call has returned makes get_row use objects that are gone: the ticket number, or the arguments of get_row.
* `C93_put_false_refuted`: Failure does not mean that nothing was written.
* `C93_put_open_refuted`: After a failure the ticket, with its lock on the key, is left behind for good.
* `C94_answered_refuted`: C94 is false in full: when a failed request cannot be given to libcurl again, its callback is dropped. It is not even called when the client is destroyed.
* `C94_balance_refuted`: C94 is false of calls made one after the other: all of them go to the first endpoint.
* `C94_body_refuted`: C94 is false in full: what arrived before a transfer failed stays in front of the response to the next attempt.
* `C94_no_endpoint_refuted`: C94 is false of a client without endpoints: the first call has no defined behaviour.
* `C94_sent_refuted`: C94 is false of the number of requests: one call sends its request as often as transfers fail, without bound and without an answer, and always to the same endpoint, however many there are. A request the server carried out before the transfer failed is carried out again.
* `C95_frozen_refuted`: C95 is false of accounts with 2^63 or more: a payment can bring an account there, and nothing of it can be spent any more.
* `C95_large_refuted`: C95 is false of values of 2^63 and more: the request succeeds, uses up its sequence number and pays nothing. Values of 0 do the same, as intended.
* `C95_replay_refuted`: C95 is false in full: after the sequence number 2^63 - 1, requests from before succeed again.
* `C95_self_refuted`: C95 is false of payments to oneself: the money is added but not taken, and the sequence number is not used up.
* `C97_secret_refuted`: Nobody who sees numbers can tell the next ones: false, for every seed and at every block. The guess uses the eight numbers seen and the position only.
* `C98_reuse_refuted`: A hasher that was finalized is not new: what it gives next is not the hash of what was written since. (Reset would make it new; nothing in src calls it.)
* `C99_spread_refuted`: Nobody can choose IDs that all fall into one bucket: false of the sets of unspent IDs, locked IDs, attestations and public keys, which use the first eight bytes. There are as many IDs as one likes (up to 2^192) with the same hash.

### Status and limits per property

* C01 Accepted transactions conserve value: proved. 
* C02 Accepted transactions are well-formed: proved. 
* C03 Every spent input is authorised by its owner: proved. 
* C04 Validation is exact: it rejects exactly the invalid transactions and reports a fault that is really there: proved. 
* C05 Attestation threshold counts distinct trusted sentinels: proved. The alternative to C05_hash_commits names the two texts that would have to have the same hash.
* C06 The UHS ID an output is created under is the one its spender deletes: proved. The alternative to C06_distinct_outputs_distinct_ids names the two texts that would have to have the same hash.
* C07 Transaction IDs commit to inputs and outputs and nothing else: proved. The alternative to C07_id_commits names the two texts that would have to have the same hash.
* C08 Every wire message decodes to the value that was encoded: proved. 
* C09 serialized_size equals the number of bytes written: proved. size_exact is a conjunct of wire_correct, proved for every message type by the C08_* theorems; C09_* cover NuRaft buffers and streams.
* C10 Encodings are unambiguous: proved. prefix_free and injective are conjuncts of wire_correct, proved for every message type by the C08_* theorems.
* C11 Reading a truncated or malformed buffer fails instead of reading past its end: partial. Truncated messages are detected for every message type (truncation_detected in wire_correct). The statement for arbitrary 64-bit lengths is false (C11_read_exact_refuted): the bound check wraps. Truncation can surface as an exception rather than the failed state (C11_truncation_reported_refuted).
* C12 2PC shard: no UHS ID is spent twice: partial. The full statement is false of the code: cancelling a refused transaction releases an input that another transaction has locked (C12_no_double_spend_refuted, C12_one_batch_refuted, and through the complete protocol C12_system_no_double_spend_refuted). Proved under the rule no_conflicting_cancel; that only locked transactions are completed is proved for the whole system.
* C13 2PC shard: spendable and locked sets stay disjoint and every locked UHS ID belongs to an unapplied transaction that holds it: partial. Ownership of locked IDs is proved for every history. Disjointness is false when an inputless transaction re-creates a locked ID (C13_disjoint_refuted) and proved otherwise.
* C14 2PC shard calls are safe to retry: proved. Any requests of other distributed transactions may come in between. Requests delayed past the end of the distributed transaction are not harmless: C14_late_lock_refuted, C14_late_apply_refuted.
* C15 2PC distributed transactions are atomic across shards and agree with the answer given to the client: proved. For every schedule of any number of batches, shards, lost answers, crashes and recoveries. A request of a crashed coordinator that arrives after the recovery is not in the system model; see C14_late_* for what it does to a shard.
* C16 2PC coordinator crash recovery finishes what was started with the same decision: partial. Decision and ledgers (unspent, locked, prepared, completed) are the same for every crash pattern. The shards' memory of applied IDs is not (C16_same_state_refuted): recovery in the discard phase contacts no shard.
* C17 The coordinator's replicated state machine never aborts in any run of the coordinator protocol: proved. Including shards and coordinators. Transactions that list an input twice bring a shard down if assertions are compiled in (C17_duplicate_input_refuted).
* C18 Shard ranges: every hash has an owner: proved. is_hash and ranges as configured; contiguous states that the ranges cover 0..255 in order without overlap.
* C19 A 2PC status query for a transaction ID only confirms applied transactions: partial. False of the code: cancelled transactions are confirmed too (C19_only_completed_refuted). Proved: only applied transactions, completed or cancelled, are confirmed, and the answers are exactly those of the bounded cache.
* C20 Atomizer: a transaction is accepted only when all inputs are attested recently enough and unspent since: proved. Hypotheses: heights + depth and block count below 2^64, equal IDs mean equal inputs/outputs, attested indices name inputs (each shown necessary by a refutation). Not true: no ID is spent twice within the cached blocks (C20_cache_wide_refuted), every call returns (C20_total_refuted), at most one error per transaction (C20_one_error_refuted).
* C21 Atomizer system: no double spend in the chain of blocks: proved. Shards, aggregating nodes, replicated state machine; arbitrary lag, duplication, loss, crashes. Needs that two transactions with one ID are the same (C21_id_collision_refuted) and fewer than 2^64 blocks. An input repeated within one transaction is left to validation (C02).
* C22 Atomizer blocks are consecutive and complete: proved. Refinement of the state machine to a ledger without caches; heights, contents, availability until pruned.
* C23 Atomizer replicas that apply the same log answer the same, also after restoring a snapshot: proved. Process crashes at any point of the snapshot writer; loss of unsynced file data in a machine crash is not modelled. NuRaft's log and its snapshot description are trusted.
* C24 Atomizer-architecture shard: the unspent set is the result of applying the chain: proved. leveldb batches are atomic. When leveldb reports a write error the property fails (C24_write_failure_refuted).
* C25 Atomizer-architecture shard: attestations are truthful: proved. When leveldb reports a read error the property fails (C25_read_error_refuted).
* C26 Archiver: stored blocks form a gapless immutable chain: proved. All delivery orders, duplicates, crashes inside the recursive storing and restarts; blocks_fit: blocks encodable, fewer than 2^64-2 of them. Sampling not modelled. C26_write_failure_refuted: with assertions compiled out a failed write leaves a hole.
* C27 Watchtower block cache answers are those of the last k blocks: proved. For every sequence of blocks and k (0 = unbounded). Exact if no ID is spent or created twice within k blocks (true of the atomizer chain); C27_exact_refuted otherwise.
* C28 Watchtower error cache remembers the last k errors: partial. Soundness in general; each of the last k errors is found if no k consecutive errors share a transaction (or ID). The literal property is false: C28_refuted (evicting an older error with the same key erases the newer one).
* C29 Watchtower status answers are consistent with blocks and errors: partial. Everything but 'exactly one': an error that arrived before the block is reported beside the confirmation (C29_one_state_refuted), and the creator of an output that was spent on is told 'no history' (C29_spent_on_refuted).
* C30 Wallet: balance is the sum of the coins it can still spend: proved. Proved for every history of calls in which confirmed transactions spend no coin still held, no unused seed coin is credited, no seed range is overwritten or lost in a restart, and coins are worth less than 2^64; outside of that refuted: the balance wraps and spent coins are offered again (foreign debit), the debit uses the claimed value, seeded coins are lost in a restart, totals wrap, truncated files load silently.
* C31 Wallet: transactions it builds conserve value and never reuse an input within a transaction: proved. send_to (both overloads) and fan, in every state reached by a history as in C30; validity against the model of check_tx for sound signatures. Refuted: send_to(0) and a fan amount of 2^64 or more.
* C32 PArSEC shard: locks exclude conflicting access: proved. In every execution from an empty or recovered shard.
* C33 PArSEC shard: no deadlock: proved. Acyclic wait-for relation on one shard, and on any number of shards when tickets prepare only after all their locks are granted.
* C34 PArSEC shard: no lost wake-up: proved. 
* C35 PArSEC shard: a prepared ticket is never wounded and a committed one never undone: proved. Finding: rollback reports success for a ticket already committed (C35_commit_or_rollback_refuted); its writes stay.
* C36 PArSEC shard: isolation (values read under a lock stay current): proved. Serialisability in commit order, by simulation with a plain store.
* C37 PArSEC shard: every lock request is answered exactly once: proved. At-most-once and accounting; liveness (an answer comes eventually) depends on the holders finishing: C33_progress names whom a request waits for.
* C38 PArSEC shard: prepared tickets and their writes survive leader failover: partial. Proved for every schedule in which brokers follow the protocol (no second commit request while the first is replicating, no prepare overlapping a rollback, no finish refused by the shard but replicated). Outside it the property is false of the code: C38_repeated_commit_refuted, C38_prepare_during_rollback_refuted, C38_refused_finish_refuted.
* C39 PArSEC broker: commit is all-or-nothing across shards: partial. All-or-nothing, what a commit writes, and the meaning of a reported commit, rollback or finish are proved for every execution (any number of shards and transactions, other brokers, unreachable shards, broker crashes at any point) of clients that follow the rules stated in BrokerSpec.allowed. Refuted without the rules: a commit repeated after a rollback that did not succeed tears the transaction, a commit repeated with other updates mixes the two. Also refuted: that each commit is answered exactly once. Requests of a crashed broker that reach a shard after the crash, and shard failures (C38), are outside this system.
* C40 PArSEC broker recovery decides consistently: proved. For one recovery per process, as agentd.cpp does it. A second one in the same process is refuted. Requests of the crashed broker still in flight when the new one recovers are outside the system: a crash loses them.
* C41 PArSEC ticket numbers are unique: proved. Ticket machine, its client with ranges and callback queue, lost messages and restarts, any interleaving. While no message is lost, whoever waits has a request or a range on its way (C41_waiting_is_served_partial). Finding C41_waiting_is_served_refuted: when the response to a range request is lost and the client gives up, callers already queued wait until another caller comes.
* C42 PArSEC directory: a key is always on the same existing shard: proved. The directory's location of a key is below the number of shards and a function of the key; with no shards there is no location (modulo by zero in the code).
* C43 Completed-transaction cache is a bounded FIFO set: proved. The number of elements kept is one less than the configured size (C43_capacity_refuted).
* C44 Raft log store behaves as a log: partial. Refinement to an abstract log proved for every history of operations inside the log, with crashes of the process and the machine. Refuted parts: an acknowledged append is not durable before a flush (C44_append_durable_refuted); a store compacted to its end loses its position on reopening (C44_reopen_refuted); calls outside the log throw or are undefined (C44_outside_refuted). Trusted: NuRaft's entry serialisation, LevelDB.
* C45 RPC client: each call completes at most once with its own response: proved. All interleavings of the calling threads, handler thread, network and destructor, until 2^64 calls. Finding C45_callback_at_close_refuted: callbacks of outstanding calls are not called when the client is destroyed.
* C46 RLP encoding round-trips: proved. Round trip, exactness, conformance with the yellow paper and uniqueness proved for every value that fits into memory. Beyond the property, refuted: non-canonical inputs and strings cut off inside a list are accepted; a large length makes the reader throw.
* C47 EVM 256-bit arithmetic is exact modulo 2^256: proved. All operators, for all 32-byte words, modulo 2^256.
* C48 EVM native value is conserved: partial. Proved when gas limit * gas price + value < 2^256 (C48_no_mint_partial), with equality unless value goes to a precompile or something is destroyed (C48_exact_total). Without that bound the claim is false: the cost of the gas and the required funds are computed modulo 2^256 (C48_gas_wraps_refuted, C48_value_wraps_refuted). The virtual machine is assumed to act in the name of the running account and not to overspend or return more gas than it got.
* C49 A reverted or failed EVM transaction has no effect but the gas charge: partial. Accounts of a reverted transaction, and storage and code when nothing was written, are proved. False in general: revert restores accounts only (C49_storage_refuted), other failures restore nothing (C49_failure_refuted), and inner calls are never undone (C49_inner_revert_refuted).
* C50 EVM transactions cannot be replayed: proved. For senders whose address has no code and is not a contract address, and histories shorter than 2^256.
* C51 EVM transaction wire format round-trips: partial. Round trip, conformance with the EIPs, well-formedness of what is accepted, termination and uniqueness of IDs proved. Refuted: unused fields are lost, chain IDs equal modulo 2^64 are accepted, malformed input throws or is undefined behaviour.
* C52 Hex encoding round-trips: partial. Round trip proved exactly for 1 to 51200 bytes, for every hash and for prefixed strings; it fails for the empty buffer and above 51200 bytes (both directions in C52_roundtrip). Rejection of non-hexadecimal strings is false of the code (C52_rejects_refuted: '1g', ' 1', '-1' are accepted), what is rejected is in C52_rejects_length and C52_rejects_partial; hash_from_hex has undefined behaviour for wrong lengths (C52_hash_text_refuted).
* C53 Blocking queue is a FIFO that loses nothing: proved. Any number of producers and consumers, any interleaving of push, pop, clear, reset at the granularity of the mutex and the condition variable. Finding C53_reset_loses_wakeup_refuted: reset after clear before the consumer wakes leaves the consumer asleep.
* C54 PArSEC shard: no request brings it down: partial. True for everything except a repeated first lock, which ends the process: C54_never_exits_refuted.
* C55 Following the block stream: partial. Shard: fully proved. Watchtower: proved for new blocks; for an old block the handler never returns (C55_watchtower_old_refuted).
* C56 A client's books balance: proved. Calls are made one at a time. C56_stuck: the coins of a payment that was made but never handed back to the client for sending stay tied for ever (the code's behaviour, a finding).
* C57 EVM transaction signatures identify the signer: partial. Round trip of signatures, recovery of the signer and uniqueness of the signed hash proved. Refuted: chain ID 0 with recovery ID 0; third parties can change v and thereby the ID.
* C58 Numbers in the JSON-RPC interface read back: partial. to_hex_trimmed and uint256be_from_hex are inverse. Refuted for transactions in JSON: numbers below 2^248 read as 0.
* C59 An EVM transaction spends only its sender's money: proved. For accounts without code at addresses that are not contract addresses; the bound on gas limit * gas price + value is needed (see C48).
* C60 A contract creation makes a new contract: partial. The address and code of a creation by a transaction are proved, and that such addresses differ. Creations by contracts reuse addresses and replace code (C60_code_replaced_refuted).
* C61 Receipts tell the truth: partial. Proved when code ran or value was transferred; the logs are those emitted, in order (C61_logs), also when reverted (C49_storage_refuted). A call without value of an account without code is recorded as failed (C61_receipt_refuted).
* C62 No transaction ends the agent: partial. Proved when all locks are granted, no missing account is destroyed and asserts are compiled out; each of the three restrictions is shown necessary, and dry runs can end the agent too. A transaction is given back for a retry only if a lock request was refused.
* C63 Dry runs change nothing: proved. Every dry run that completes.
* C64 Synchronising credits what was really received: partial. Two-phase: exactly the transactions a shard says yes to are confirmed. Atomizer: only those in a block, and all of them if all are; false in general: a transaction that is in no block keeps every later one in the reply pending. Refuted: the second of two announced coins of one transaction is lost; a forged value of an announced coin is credited; a coin spent before is credited again.
* C65 A client survives a crash while saving: partial. A crash between the files leaves a client that opens with a mixture. Refuted: a torn client file makes every later start fail; crashes between the files lose the change of a confirmed payment or the coins of an abandoned one; a torn wallet file opens without coins and keys.
* C66 A sentinel vouches only for valid transactions and submits what it vouched for: proved. The attestations of other sentinels are passed on unchecked: one misbehaving peer spoils a valid transaction (C66_lying_peer_refuted).
* C67 Accepted attestations mean a validated transaction: proved. Unless the text that was signed and the text that is checked are different and have the same hash. honest_key: whoever owns the key signs only what it validated.
* C68 An accepted transaction reaches the shards that hold its inputs: partial. True with one shard. The code indexes the inputs with the counter of the shards: at most one shard is sent to (C68_at_most_one_refuted), so inputs in two shards never reach both (C68_two_shards_refuted), and a transaction with one input reaches its shard for one random draw only, every other draw reads past the end of the vector (C68_one_input_refuted).
* C69 A sentinel answers every request and survives it: partial. Answers are proved for the two-phase sentinel when there are enough peers that answer. Refuted: too high a threshold keeps it busy for ever, a sentinel without peers and threshold 2 crashes, a sentinel without key crashes on a validation request, the atomizer's sentinel answers 'pending' for transactions that go nowhere.
* C70 The money in circulation is the money issued: partial. Proved for every ledger of valid transactions and issues without double spend, and end to end for the atomizer architecture (values never leave the sentinels, yet the hashes the shards hold are worth what was issued, or two of the texts hashed for these transactions, their coins and attestations have the same hash) provided no issue is executed twice. Nothing enforces that: an issue delivered again after its coins were spent puts them back (C70_mint_replay_refuted). False for two-phase commit because of C12's double spend (C70_two_phase_refuted).
* C71 Packets cross a connection whole and in order: partial. Proved for every schedule of writes and reads, every cut and all packets the receiver can hold: a prefix of the packets arrives whole and in order, and all complete frames arrive. Refuted for hostile bytes: eight bytes 0xff make std::vector(pkt_sz) throw in the receiving thread, which ends the process (C71_eight_bytes_end_process_refuted); there is no bound on the size a peer may announce. Modelled: tcp_socket::send/receive and the receive loop of a peer over a byte stream; both machines little-endian.
* C72 The connection manager hands every packet to a handler, once, with its sender: partial. Proved for every interleaving of any number of connections and handlers, up to 2^64 connections: every packet once, in order per connection, with the right sender; answers go back where the packet came from; no lost wake-up while the manager runs; no starvation; send_to_one. Refuted: close() sets m_running and notifies without the mutex of the condition variable, so a handler thread about to sleep misses it and the join hangs (C72_close_hangs_refuted). With several handler threads the packets of one connection are handed out in order but may be handled concurrently.
* C73 A peer keeps its connection up and can be shut down: partial. Proved for every interleaving: packets leave in order, none twice; a failure is never overlooked; a peer that may not reconnect ends after a failure; shutdown ends everything but in one case. Refuted: that case (shutdown's notification lost on a thread about to sleep: C73_shutdown_hangs_refuted); the second request for a connection, made by the receiving thread while the first is served, is kept and takes down the new, good connection, for ever (C73_reconnects_forever_refuted); packets that wait when a connection is replaced are dropped (C73_packets_dropped_refuted).
* C74 What is paid arrives: partial. Proved: the coins exported for a payee are exactly the outputs its key can spend, each with the ID under which it is in the UHS; a payment made by one client and announced to the other raises the other's balance by the amount paid; any number of coins announced and confirmed one after the other are all credited. Refuted: the coins of one transaction announced together. The pending coins are kept by transaction ID, so of a fan to one payee only the first coin is credited (C74_fan_refuted).
* C75 An agent commits what its function computed, under one ticket: partial. Any calls in any order, repeated answers included. Not true: that no call ends the process. Without a ticket number it ends (C76_survives_no_ticket_refuted), and exec called while the function's code is awaited fails an assertion (C75_exec_any_time_refuted; the servers do not call it then). That the confirmed commit is the one of the reported updates needs that no request is answered twice (C76_success).
* C76 A client's request is answered once and truthfully: partial. Proved if no request is answered twice. Refuted: a committed transaction whose end fails is reported as failed (C76_committed_is_success_refuted) and then ends the Lua server (C76_survives_unfinished_refuted); a failure to get a ticket number ends either server; the EVM server never destroys the agent of a failed request (C76_released_refuted); a lock's answer that comes after the agent was destroyed uses freed memory (C76_no_use_after_free_refuted); if a commit is answered twice, the client is told of a commit that was not confirmed (C76_answered_twice_refuted; the broker does answer twice, C39_answered_once_refuted).
* C77 What a configuration file says is what a program reads: partial. Proved for files of well-written settings and other lines without an equals sign. Refuted otherwise: a comment with an equals sign ends the program, a negative number is read as a huge one, trailing characters are ignored, a blank before the equals sign makes the setting another one, a text with one quote loses a character (C77_odd_values_refuted), an empty environment variable is read out of bounds, IPv6 endpoints and bad ports end the program (C77_endpoint_refuted). Decimal numbers are read by the C library (a parameter).
* C78 Accepted options mean what was written and describe a system that can run: partial. Accepted options are as written and complete, refusals have the reason given, for every file and environment. That a file is accepted or refused is proved if its values are well formed; a sentinel key of another length than 64 digits is undefined behaviour (C78_key_length_refuted). Refuted: that accepted ranges cover all hashes, that a range ends where it was said to (256 is 0), that every shard has a node, that a threshold written in quotes or as a decimal counts.
* C79 Pre-seeded money is where its owners look for it: partial. That the wallets start apart, that a coin held was written for exactly one shard, and that a shard starts with what was written for it. Proved for seeds from 0 (the seeder counts from 0, the generators from seed_from: C79_first_seed_refuted) and for shards with even ranges (C79_uneven_refuted, C79_same_range_refuted). The last seed of every generator's share is never used, and too few seeds stop the generators or make one believe it has 2^64-1 coins.
* C80 An RPC server answers each request once, to the one who asked: partial. All event sequences of the blocking, asynchronous and raft servers, for every lawful message format. False in full: a malformed packet is not answered (C80_answered_refuted), a handler that answers and reports failure makes two answers (C80_once_refuted), a request before the handler is registered ends the process of sentinels, coordinators and PArSEC shards (C80_early_request_refuted), a failure may be carried out (C80_failure_refuted), and one packet ends every replica at every replay (C80_poison_refuted).
* C81 What a PArSEC shard answers reaches its caller: partial. Proved for results that the shard's methods give. False for failures: an internal error reaches the caller as an answer of another kind and ends it (C81_internal_error_refuted), and so do refusals (C81_refused_refuted, C81_tickets_refuted).
* C82 A raft node's vote and its cluster's membership survive: proved. Crashes of processes at any step of a save, any number of nodes. NuRaft's formats are parameters that read back what they wrote; its voting rule is in RaftFilesSpec.v. A full disk and a stop of the machine do lose the files (C82_full_disk_refuted, C82_power_refuted); a saved configuration hides changed endpoints (C82_options_refuted).
* C83 A transaction handed to a two-phase coordinator is answered once, with its own result: partial. All interleavings of handler, executor, batch threads and stop. A running coordinator answers everything it took (C83_all_answered). False in full: what is in the current batch when the coordinator stops is never answered (C83_answered_refuted), a full batch makes stop() wait for ever (C83_stop_hangs_refuted), and a batch size or thread count of 0 is accepted (C83_no_room_refuted, C83_no_thread_refuted).
* C84 A query for events returns exactly the matching events of the committed transactions: partial. Proved for block numbers below 2^63: keys apart up to hash collisions, exact answers in any order, failures never shown as results. Refuted: a query from block 2^64-1 to 5 is accepted and never answered; one ending at 2^64-1 never ends; the product of range and addresses wraps, so huge queries are accepted; the difference of the block numbers can overflow (undefined behaviour); two failing requests answer twice; an address asked for twice shows its events twice.
* C85 Bloom filters of receipts and blocks deny no address or topic of their events: partial. The filter is exact and denies nothing to a reader that takes the pairs of bytes little-endian, as the code does. Refuted against Ethereum's standard: the code reads each pair of hash bytes in machine order, so a standard reader is told that an event's address is absent.
* C86 An agent answers every JSON-RPC request once, with the request's ID, and survives it: partial. Documented requests are answered exactly as documented, unknown methods and malformed bodies are refused once, and no request that the agent survives is both answered and run. Refuted: batches, numbers as bodies, an empty address, a non-Boolean second parameter of eth_getBlockByNumber, a non-numeric count of eth_feeHistory, a large type, parameters that are an object, and nested topics raise exceptions that nothing catches and end the agent; extreme ranges and certain raw transactions are undefined behaviour; eth_getBlockByNumber with one parameter is answered twice; IDs that are strings come back as 0; blockHash is looked up as blockhash; topics are mandatory; eth_feeHistory reads its numbers in decimal and as full words and gives up to 2^64 - 1 entries. Partial because these are false of the code.
* C87 The answers about accounts, code, storage and blocks show what is stored: partial. The place read is the one asked for and what is stored is shown, for all values. Refuted: the index equal to the number of a block's transactions reads outside of the list; eth_getCode with more than 20 bytes writes over the stack; eth_getBalance takes keys of any length and so shows receipts as balances; block numbers of eth_getLogs are taken modulo 2^64. Partial because these are false of the code.
* C88 A Lua contract's run locks the keys it asks for and reports once what it returned: partial. Every run is explained by what the contract asked for and the answers, and a contract with its locks has its table reported exactly. Refuted: the loop over the returned table converts numeric keys in place, so that {"x"} ends the agent (lua_next fails outside of a protected call), a number and the string of the same text as keys loop forever or lose an entry; a read-only run of a contract that asks for any key fails, because locks are always asked for writing. The interpreter's own ways to end the process (os.exit, malformed bytecode) are outside of the model. Partial because these are false of the code.
* C89 The thread pool starts every task once and never makes it wait for another: partial. Proved for every interleaving: each task is started at most once, pushes return and tasks start within a bounded number of the pool's own steps without waiting for other tasks, threads are reused, and the destructor ends when tasks return. Refuted: the destructor drops tasks that were queued and not yet started; it deadlocks with a task that calls push; run by a task of the pool it ends the process.
* C90 A mistyped address pays nobody: partial. Round trip, at least five differences between accepted texts of a length, up to four wrong characters or a missing one refused, mixed case refused, accepted texts begin like the printed address. Refuted: a text without data but with a right checksum reads an empty vector; padding bits are not checked, so several texts name one key; a character inserted into a printed address can give another key.
* C91 The command line client pays what was typed to whom was typed: partial. Amounts below 2^32 and valid addresses give exactly the call; every payment comes from such a command; printed coins and transaction IDs are taken back. Refuted: amounts are taken modulo 2^32, trailing text and signs are accepted, a word is an uncaught exception, and missing or short arguments are undefined behaviour.
* C92 The options of the PArSEC programs configure the deployment they describe: partial. Round trip for deployments whose shards have at most ten nodes, in any order of options; everything accepted is what the options say; malformed arguments refused. Refuted: names of shard nodes are ambiguous beyond ten nodes, so some deployments cannot be described at all; unknown options and log levels are ignored, the default level is not the documented one, and bad numbers or endpoints end the process instead of being refused.
* C93 Writing and reading one key through a broker: partial. Proved for put_row with any broker: success only after the value was stored, and only this key is locked and written; with a broker that keeps to its interface: exactly one outcome. Proved for get_row: what is returned was read, nothing is written, no exception, and it returns once its read is answered. Refuted of the code: failure can be reported after the value was committed (finish failed); after a failure the ticket is never rolled back; get_row never returns if try_lock is refused; a broker that answers after its call returned makes it use the ticket number and the caller's arguments after their life; its callback may hear a value and then an error; errors of shards are all reported as an unreachable shard.
* C94 Calls through the HTTP client for JSON-RPC: partial. Proved for every run: at most one answer per call, only for calls made; a result is made from the data of that very call and only after a 2xx code; completed responses are delivered at once; only the client's endpoints are used; with a working libcurl every call is answered by the end. Refuted: callbacks are dropped when a failed request cannot be given to libcurl again; data of a broken-off response stay in front of the next one; failed requests are repeated for ever, to the same endpoint; calls made one after the other all go to the first endpoint; without endpoints a call is undefined.
* C95 The payment contract of PArSEC moves money and makes none: partial. The payment contract is a definition over Lua's values, compared with the Lua text by reading: signed 64-bit arithmetic, string.pack and unpack, and the order of lock requests. C95_runs ties it to the runner of C88. Signatures and SHA-256 are arbitrary functions. Missing from the full statement, because it is false: paying oneself adds the value without taking it and does not use up the sequence number, so one request can be repeated (C95_self_refuted); after the sequence number 2^63-1 old requests succeed again (C95_replay_refuted); values of 2^63 and more succeed and pay nothing (C95_large_refuted); an account that reaches 2^63 cannot spend (C95_frozen_refuted). C95_effect_partial, C95_money_partial and C95_replay_partial exclude exactly these cases. Each payment runs alone here; that concurrent payments behave as if run alone rests on the locks of the shards, which are modelled separately and not composed with this contract.
* C96 Contracts that run at the same time behave as if run one after the other: partial. C96_serial holds for every contract and every execution of one shard that starts without prepared tickets. agents_follow states what agents do, which is C75 (an agent commits what its function computed) and C88 (the runner asks for the keys and reports what was returned); it is a hypothesis about the trace and is not derived from the agent's model. Missing: contracts whose keys lie on several shards (all-or-nothing across shards is C39), failover (C38). C96_money_partial and C96_once_partial have the exceptions of C95 (payments to oneself, the last sequence number).
* C97 Random numbers come from the seed, differ between seeds and stay secret: partial. The stream, its dependence on the seed and the hashes made of it are proved for every compression function. The secrecy of the stream is refuted: Finalize is called again and again without Reset, so each 32 bytes given out are the whole state of the hasher, and eight consecutive numbers of a block determine all later ones without the seed. (random_hash shows only the upper byte of each number, so its users do not publish whole states.) That the program does not start without a full seed holds only where assertions are compiled in: with NDEBUG the missing bytes are zeros. Not modelled: the distribution of uniform_int_distribution beyond libstdc++'s way of taking the upper bits, big-endian machines, other users' distributions.
* C98 The hash function is SHA-256: partial. Proved in full for the implementation in C++ (sha256::Transform) and for the buffering of CSHA256. Not modelled: the SSE4, AVX2 and SHA-NI implementations that SHA256AutoDetect may choose at the start, TransformD64 and SHA256D64. A hasher used again after Finalize without Reset does not give the hash of what is written (C98_reuse_refuted); random_source does that (C97).
* C99 Keys are placed by SipHash-2-4: partial. SipHash-2-4 and the place of a key are proved in full. That nobody can choose IDs that fall into one bucket is refuted for the tables that use the first eight bytes of an ID (C99_spread_refuted): attestations and public keys are chosen by clients. The tables that use SipHash have the constant key 0x1337, 0x1337 (a TODO in the code), so whoever reads the code can compute the shard and the bucket of any key in advance. Machines are little-endian.
