{
 "C05": {
  "status": "proved",
  "note": "The alternative to C05_hash_commits names the two texts that would have to have the same hash."
 },
 "C06": {
  "status": "proved",
  "note": "The alternative to C06_distinct_outputs_distinct_ids names the two texts that would have to have the same hash."
 },
 "C07": {
  "status": "proved",
  "note": "The alternative to C07_id_commits names the two texts that would have to have the same hash."
 },
 "C09": {
  "status": "proved",
  "also": [
   "C08_full_tx"
  ],
  "note": "size_exact is a conjunct of wire_correct, proved for every message type by the C08_* theorems; C09_* cover NuRaft buffers and streams."
 },
 "C10": {
  "status": "proved",
  "also": [
   "C08_integers",
   "C08_arrays",
   "C08_bool",
   "C08_buffer",
   "C08_option",
   "C08_pair",
   "C08_vector",
   "C08_set",
   "C08_unordered_set",
   "C08_unordered_map",
   "C08_full_tx",
   "C08_compact_tx",
   "C08_block",
   "C08_evm_tx"
  ],
  "note": "prefix_free and injective are conjuncts of wire_correct, proved for every message type by the C08_* theorems."
 },
 "C11": {
  "status": "partial",
  "also": [
   "C08_full_tx"
  ],
  "note": "Truncated messages are detected for every message type (truncation_detected in wire_correct). The statement for arbitrary 64-bit lengths is false (C11_read_exact_refuted): the bound check wraps. Truncation can surface as an exception rather than the failed state (C11_truncation_reported_refuted)."
 },
 "C12": {
  "status": "partial",
  "note": "The full statement is false of the code: cancelling a refused transaction releases an input that another transaction has locked (C12_no_double_spend_refuted, C12_one_batch_refuted, and through the complete protocol C12_system_no_double_spend_refuted). Proved under the rule no_conflicting_cancel; that only locked transactions are completed is proved for the whole system."
 },
 "C13": {
  "status": "partial",
  "note": "Ownership of locked IDs is proved for every history. Disjointness is false when an inputless transaction re-creates a locked ID (C13_disjoint_refuted) and proved otherwise."
 },
 "C14": {
  "status": "proved",
  "note": "Any requests of other distributed transactions may come in between. Requests delayed past the end of the distributed transaction are not harmless: C14_late_lock_refuted, C14_late_apply_refuted."
 },
 "C15": {
  "status": "proved",
  "note": "For every schedule of any number of batches, shards, lost answers, crashes and recoveries. A request of a crashed coordinator that arrives after the recovery is not in the system model; see C14_late_* for what it does to a shard."
 },
 "C16": {
  "status": "partial",
  "note": "Decision and ledgers (unspent, locked, prepared, completed) are the same for every crash pattern. The shards' memory of applied IDs is not (C16_same_state_refuted): recovery in the discard phase contacts no shard."
 },
 "C17": {
  "status": "proved",
  "note": "Including shards and coordinators. Transactions that list an input twice bring a shard down if assertions are compiled in (C17_duplicate_input_refuted)."
 },
 "C18": {
  "status": "proved",
  "note": "is_hash and ranges as configured; contiguous states that the ranges cover 0..255 in order without overlap."
 },
 "C19": {
  "status": "partial",
  "note": "False of the code: cancelled transactions are confirmed too (C19_only_completed_refuted). Proved: only applied transactions, completed or cancelled, are confirmed, and the answers are exactly those of the bounded cache."
 },
 "C20": {
  "status": "proved",
  "note": "Hypotheses: heights + depth and block count below 2^64, equal IDs mean equal inputs/outputs, attested indices name inputs (each shown necessary by a refutation). Not true: no ID is spent twice within the cached blocks (C20_cache_wide_refuted), every call returns (C20_total_refuted), at most one error per transaction (C20_one_error_refuted)."
 },
 "C21": {
  "status": "proved",
  "note": "Shards, aggregating nodes, replicated state machine; arbitrary lag, duplication, loss, crashes. Needs that two transactions with one ID are the same (C21_id_collision_refuted) and fewer than 2^64 blocks. An input repeated within one transaction is left to validation (C02)."
 },
 "C22": {
  "status": "proved",
  "note": "Refinement of the state machine to a ledger without caches; heights, contents, availability until pruned."
 },
 "C23": {
  "status": "proved",
  "note": "Process crashes at any point of the snapshot writer; loss of unsynced file data in a machine crash is not modelled. NuRaft's log and its snapshot description are trusted."
 },
 "C24": {
  "status": "proved",
  "note": "leveldb batches are atomic. When leveldb reports a write error the property fails (C24_write_failure_refuted)."
 },
 "C25": {
  "status": "proved",
  "note": "When leveldb reports a read error the property fails (C25_read_error_refuted)."
 },
 "C26": {
  "status": "proved",
  "note": "All delivery orders, duplicates, crashes inside the recursive storing and restarts; blocks_fit: blocks encodable, fewer than 2^64-2 of them. Sampling not modelled. C26_write_failure_refuted: with assertions compiled out a failed write leaves a hole."
 },
 "C27": {
  "status": "proved",
  "note": "For every sequence of blocks and k (0 = unbounded). Exact if no ID is spent or created twice within k blocks (true of the atomizer chain); C27_exact_refuted otherwise."
 },
 "C28": {
  "status": "partial",
  "note": "Soundness in general; each of the last k errors is found if no k consecutive errors share a transaction (or ID). The literal property is false: C28_refuted (evicting an older error with the same key erases the newer one)."
 },
 "C29": {
  "status": "partial",
  "note": "Everything but 'exactly one': an error that arrived before the block is reported beside the confirmation (C29_one_state_refuted), and the creator of an output that was spent on is told 'no history' (C29_spent_on_refuted)."
 },
 "C30": {
  "status": "proved",
  "note": "Proved for every history of calls in which confirmed transactions spend no coin still held, no unused seed coin is credited, no seed range is overwritten or lost in a restart, and coins are worth less than 2^64; outside of that refuted: the balance wraps and spent coins are offered again (foreign debit), the debit uses the claimed value, seeded coins are lost in a restart, totals wrap, truncated files load silently."
 },
 "C31": {
  "status": "proved",
  "note": "send_to (both overloads) and fan, in every state reached by a history as in C30; validity against the model of check_tx for sound signatures. Refuted: send_to(0) and a fan amount of 2^64 or more."
 },
 "C32": {
  "status": "proved",
  "note": "In every execution from an empty or recovered shard."
 },
 "C33": {
  "status": "proved",
  "note": "Acyclic wait-for relation on one shard, and on any number of shards when tickets prepare only after all their locks are granted."
 },
 "C34": {
  "status": "proved",
  "note": ""
 },
 "C35": {
  "status": "proved",
  "note": "Finding: rollback reports success for a ticket already committed (C35_commit_or_rollback_refuted); its writes stay."
 },
 "C36": {
  "status": "proved",
  "note": "Serialisability in commit order, by simulation with a plain store."
 },
 "C37": {
  "status": "proved",
  "note": "At-most-once and accounting; liveness (an answer comes eventually) depends on the holders finishing: C33_progress names whom a request waits for."
 },
 "C38": {
  "status": "partial",
  "note": "Proved for every schedule in which brokers follow the protocol (no second commit request while the first is replicating, no prepare overlapping a rollback, no finish refused by the shard but replicated). Outside it the property is false of the code: C38_repeated_commit_refuted, C38_prepare_during_rollback_refuted, C38_refused_finish_refuted."
 },
 "C39": {
  "status": "partial",
  "note": "All-or-nothing, what a commit writes, and the meaning of a reported commit, rollback or finish are proved for every execution (any number of shards and transactions, other brokers, unreachable shards, broker crashes at any point) of clients that follow the rules stated in BrokerSpec.allowed. Refuted without the rules: a commit repeated after a rollback that did not succeed tears the transaction, a commit repeated with other updates mixes the two. Also refuted: that each commit is answered exactly once. Requests of a crashed broker that reach a shard after the crash, and shard failures (C38), are outside this system."
 },
 "C40": {
  "status": "proved",
  "note": "For one recovery per process, as agentd.cpp does it. A second one in the same process is refuted. Requests of the crashed broker still in flight when the new one recovers are outside the system: a crash loses them."
 },
 "C41": {
  "status": "proved",
  "note": "Ticket machine, its client with ranges and callback queue, lost messages and restarts, any interleaving. While no message is lost, whoever waits has a request or a range on its way (C41_waiting_is_served_partial). Finding C41_waiting_is_served_refuted: when the response to a range request is lost and the client gives up, callers already queued wait until another caller comes."
 },
 "C42": {
  "status": "proved",
  "note": "The directory's location of a key is below the number of shards and a function of the key; with no shards there is no location (modulo by zero in the code)."
 },
 "C43": {
  "status": "proved",
  "note": "The number of elements kept is one less than the configured size (C43_capacity_refuted)."
 },
 "C44": {
  "status": "partial",
  "note": "Refinement to an abstract log proved for every history of operations inside the log, with crashes of the process and the machine. Refuted parts: an acknowledged append is not durable before a flush (C44_append_durable_refuted); a store compacted to its end loses its position on reopening (C44_reopen_refuted); calls outside the log throw or are undefined (C44_outside_refuted). Trusted: NuRaft's entry serialisation, LevelDB."
 },
 "C45": {
  "status": "proved",
  "note": "All interleavings of the calling threads, handler thread, network and destructor, until 2^64 calls. Finding C45_callback_at_close_refuted: callbacks of outstanding calls are not called when the client is destroyed."
 },
 "C46": {
  "status": "proved",
  "note": "Round trip, exactness, conformance with the yellow paper and uniqueness proved for every value that fits into memory. Beyond the property, refuted: non-canonical inputs and strings cut off inside a list are accepted; a large length makes the reader throw."
 },
 "C47": {
  "status": "proved",
  "note": "All operators, for all 32-byte words, modulo 2^256."
 },
 "C48": {
  "status": "partial",
  "note": "Proved when gas limit * gas price + value < 2^256 (C48_no_mint_partial), with equality unless value goes to a precompile or something is destroyed (C48_exact_total). Without that bound the claim is false: the cost of the gas and the required funds are computed modulo 2^256 (C48_gas_wraps_refuted, C48_value_wraps_refuted). The virtual machine is assumed to act in the name of the running account and not to overspend or return more gas than it got."
 },
 "C49": {
  "status": "partial",
  "note": "Accounts of a reverted transaction, and storage and code when nothing was written, are proved. False in general: revert restores accounts only (C49_storage_refuted), other failures restore nothing (C49_failure_refuted), and inner calls are never undone (C49_inner_revert_refuted)."
 },
 "C50": {
  "status": "proved",
  "note": "For senders whose address has no code and is not a contract address, and histories shorter than 2^256."
 },
 "C51": {
  "status": "partial",
  "note": "Round trip, conformance with the EIPs, well-formedness of what is accepted, termination and uniqueness of IDs proved. Refuted: unused fields are lost, chain IDs equal modulo 2^64 are accepted, malformed input throws or is undefined behaviour."
 },
 "C52": {
  "status": "partial",
  "note": "Round trip proved exactly for 1 to 51200 bytes, for every hash and for prefixed strings; it fails for the empty buffer and above 51200 bytes (both directions in C52_roundtrip). Rejection of non-hexadecimal strings is false of the code (C52_rejects_refuted: '1g', ' 1', '-1' are accepted), what is rejected is in C52_rejects_length and C52_rejects_partial; hash_from_hex has undefined behaviour for wrong lengths (C52_hash_text_refuted)."
 },
 "C53": {
  "status": "proved",
  "note": "Any number of producers and consumers, any interleaving of push, pop, clear, reset at the granularity of the mutex and the condition variable. Finding C53_reset_loses_wakeup_refuted: reset after clear before the consumer wakes leaves the consumer asleep."
 },
 "C54": {
  "status": "partial",
  "note": "True for everything except a repeated first lock, which ends the process: C54_never_exits_refuted."
 },
 "C55": {
  "status": "partial",
  "note": "Shard: fully proved. Watchtower: proved for new blocks; for an old block the handler never returns (C55_watchtower_old_refuted)."
 },
 "C56": {
  "status": "proved",
  "note": "Calls are made one at a time. C56_stuck: the coins of a payment that was made but never handed back to the client for sending stay tied for ever (the code's behaviour, a finding)."
 },
 "C57": {
  "status": "partial",
  "note": "Round trip of signatures, recovery of the signer and uniqueness of the signed hash proved. Refuted: chain ID 0 with recovery ID 0; third parties can change v and thereby the ID."
 },
 "C58": {
  "status": "partial",
  "note": "to_hex_trimmed and uint256be_from_hex are inverse. Refuted for transactions in JSON: numbers below 2^248 read as 0."
 },
 "C59": {
  "status": "proved",
  "note": "For accounts without code at addresses that are not contract addresses; the bound on gas limit * gas price + value is needed (see C48)."
 },
 "C60": {
  "status": "partial",
  "note": "The address and code of a creation by a transaction are proved, and that such addresses differ. Creations by contracts reuse addresses and replace code (C60_code_replaced_refuted)."
 },
 "C61": {
  "status": "partial",
  "note": "Proved when code ran or value was transferred; the logs are those emitted, in order (C61_logs), also when reverted (C49_storage_refuted). A call without value of an account without code is recorded as failed (C61_receipt_refuted)."
 },
 "C62": {
  "status": "partial",
  "note": "Proved when all locks are granted, no missing account is destroyed and asserts are compiled out; each of the three restrictions is shown necessary, and dry runs can end the agent too. A transaction is given back for a retry only if a lock request was refused."
 },
 "C63": {
  "status": "proved",
  "note": "Every dry run that completes."
 },
 "C64": {
  "status": "partial",
  "note": "Two-phase: exactly the transactions a shard says yes to are confirmed. Atomizer: only those in a block, and all of them if all are; false in general: a transaction that is in no block keeps every later one in the reply pending. Refuted: the second of two announced coins of one transaction is lost; a forged value of an announced coin is credited; a coin spent before is credited again."
 },
 "C65": {
  "status": "partial",
  "note": "A crash between the files leaves a client that opens with a mixture. Refuted: a torn client file makes every later start fail; crashes between the files lose the change of a confirmed payment or the coins of an abandoned one; a torn wallet file opens without coins and keys."
 },
 "C66": {
  "status": "proved",
  "note": "The attestations of other sentinels are passed on unchecked: one misbehaving peer spoils a valid transaction (C66_lying_peer_refuted)."
 },
 "C67": {
  "status": "proved",
  "note": "Unless the text that was signed and the text that is checked are different and have the same hash. honest_key: whoever owns the key signs only what it validated."
 },
 "C68": {
  "status": "partial",
  "note": "True with one shard. The code indexes the inputs with the counter of the shards: at most one shard is sent to (C68_at_most_one_refuted), so inputs in two shards never reach both (C68_two_shards_refuted), and a transaction with one input reaches its shard for one random draw only, every other draw reads past the end of the vector (C68_one_input_refuted)."
 },
 "C69": {
  "status": "partial",
  "note": "Answers are proved for the two-phase sentinel when there are enough peers that answer. Refuted: too high a threshold keeps it busy for ever, a sentinel without peers and threshold 2 crashes, a sentinel without key crashes on a validation request, the atomizer's sentinel answers 'pending' for transactions that go nowhere."
 },
 "C70": {
  "status": "partial",
  "note": "Proved for every ledger of valid transactions and issues without double spend, and end to end for the atomizer architecture (values never leave the sentinels, yet the hashes the shards hold are worth what was issued, or two of the texts hashed for these transactions, their coins and attestations have the same hash) provided no issue is executed twice. Nothing enforces that: an issue delivered again after its coins were spent puts them back (C70_mint_replay_refuted). False for two-phase commit because of C12's double spend (C70_two_phase_refuted)."
 },
 "C71": {
  "status": "partial",
  "note": "Proved for every schedule of writes and reads, every cut and all packets the receiver can hold: a prefix of the packets arrives whole and in order, and all complete frames arrive. Refuted for hostile bytes: eight bytes 0xff make std::vector(pkt_sz) throw in the receiving thread, which ends the process (C71_eight_bytes_end_process_refuted); there is no bound on the size a peer may announce. Modelled: tcp_socket::send/receive and the receive loop of a peer over a byte stream; both machines little-endian."
 },
 "C72": {
  "status": "partial",
  "note": "Proved for every interleaving of any number of connections and handlers, up to 2^64 connections: every packet once, in order per connection, with the right sender; answers go back where the packet came from; no lost wake-up while the manager runs; no starvation; send_to_one. Refuted: close() sets m_running and notifies without the mutex of the condition variable, so a handler thread about to sleep misses it and the join hangs (C72_close_hangs_refuted). With several handler threads the packets of one connection are handed out in order but may be handled concurrently."
 },
 "C73": {
  "status": "partial",
  "note": "Proved for every interleaving: packets leave in order, none twice; a failure is never overlooked; a peer that may not reconnect ends after a failure; shutdown ends everything but in one case. Refuted: that case (shutdown's notification lost on a thread about to sleep: C73_shutdown_hangs_refuted); the second request for a connection, made by the receiving thread while the first is served, is kept and takes down the new, good connection, for ever (C73_reconnects_forever_refuted); packets that wait when a connection is replaced are dropped (C73_packets_dropped_refuted)."
 },
 "C74": {
  "status": "partial",
  "note": "Proved: the coins exported for a payee are exactly the outputs its key can spend, each with the ID under which it is in the UHS; a payment made by one client and announced to the other raises the other's balance by the amount paid; any number of coins announced and confirmed one after the other are all credited. Refuted: the coins of one transaction announced together. The pending coins are kept by transaction ID, so of a fan to one payee only the first coin is credited (C74_fan_refuted)."
 },
 "C75": {
  "status": "partial",
  "note": "Any calls in any order, repeated answers included. Not true: that no call ends the process. Without a ticket number it ends (C76_survives_no_ticket_refuted), and exec called while the function's code is awaited fails an assertion (C75_exec_any_time_refuted; the servers do not call it then). That the confirmed commit is the one of the reported updates needs that no request is answered twice (C76_success)."
 },
 "C76": {
  "status": "partial",
  "note": "Proved if no request is answered twice. Refuted: a committed transaction whose end fails is reported as failed (C76_committed_is_success_refuted) and then ends the Lua server (C76_survives_unfinished_refuted); a failure to get a ticket number ends either server; the EVM server never destroys the agent of a failed request (C76_released_refuted); a lock's answer that comes after the agent was destroyed uses freed memory (C76_no_use_after_free_refuted); if a commit is answered twice, the client is told of a commit that was not confirmed (C76_answered_twice_refuted; the broker does answer twice, C39_answered_once_refuted)."
 },
 "C77": {
  "status": "partial",
  "note": "Proved for files of well-written settings and other lines without an equals sign. Refuted otherwise: a comment with an equals sign ends the program, a negative number is read as a huge one, trailing characters are ignored, a blank before the equals sign makes the setting another one, a text with one quote loses a character (C77_odd_values_refuted), an empty environment variable is read out of bounds, IPv6 endpoints and bad ports end the program (C77_endpoint_refuted). Decimal numbers are read by the C library (a parameter)."
 },
 "C78": {
  "status": "partial",
  "note": "Accepted options are as written and complete, refusals have the reason given, for every file and environment. That a file is accepted or refused is proved if its values are well formed; a sentinel key of another length than 64 digits is undefined behaviour (C78_key_length_refuted). Refuted: that accepted ranges cover all hashes, that a range ends where it was said to (256 is 0), that every shard has a node, that a threshold written in quotes or as a decimal counts."
 },
 "C79": {
  "status": "partial",
  "note": "That the wallets start apart, that a coin held was written for exactly one shard, and that a shard starts with what was written for it. Proved for seeds from 0 (the seeder counts from 0, the generators from seed_from: C79_first_seed_refuted) and for shards with even ranges (C79_uneven_refuted, C79_same_range_refuted). The last seed of every generator's share is never used, and too few seeds stop the generators or make one believe it has 2^64-1 coins."
 },
 "C80": {
  "status": "partial",
  "note": "All event sequences of the blocking, asynchronous and raft servers, for every lawful message format. False in full: a malformed packet is not answered (C80_answered_refuted), a handler that answers and reports failure makes two answers (C80_once_refuted), a request before the handler is registered ends the process of sentinels, coordinators and PArSEC shards (C80_early_request_refuted), a failure may be carried out (C80_failure_refuted), and one packet ends every replica at every replay (C80_poison_refuted)."
 },
 "C81": {
  "status": "partial",
  "note": "Proved for results that the shard's methods give. False for failures: an internal error reaches the caller as an answer of another kind and ends it (C81_internal_error_refuted), and so do refusals (C81_refused_refuted, C81_tickets_refuted)."
 },
 "C82": {
  "status": "proved",
  "note": "Crashes of processes at any step of a save, any number of nodes. NuRaft's formats are parameters that read back what they wrote; its voting rule is in RaftFilesSpec.v. A full disk and a stop of the machine do lose the files (C82_full_disk_refuted, C82_power_refuted); a saved configuration hides changed endpoints (C82_options_refuted)."
 },
 "C83": {
  "status": "partial",
  "note": "All interleavings of handler, executor, batch threads and stop. A running coordinator answers everything it took (C83_all_answered). False in full: what is in the current batch when the coordinator stops is never answered (C83_answered_refuted), a full batch makes stop() wait for ever (C83_stop_hangs_refuted), and a batch size or thread count of 0 is accepted (C83_no_room_refuted, C83_no_thread_refuted)."
 },
 "C84": {
  "status": "partial",
  "note": "Proved for block numbers below 2^63: keys apart up to hash collisions, exact answers in any order, failures never shown as results. Refuted: a query from block 2^64-1 to 5 is accepted and never answered; one ending at 2^64-1 never ends; the product of range and addresses wraps, so huge queries are accepted; the difference of the block numbers can overflow (undefined behaviour); two failing requests answer twice; an address asked for twice shows its events twice."
 },
 "C85": {
  "status": "partial",
  "note": "The filter is exact and denies nothing to a reader that takes the pairs of bytes little-endian, as the code does. Refuted against Ethereum's standard: the code reads each pair of hash bytes in machine order, so a standard reader is told that an event's address is absent."
 },
 "C86": {
  "status": "partial",
  "note": "Documented requests are answered exactly as documented, unknown methods and malformed bodies are refused once, and no request that the agent survives is both answered and run. Refuted: batches, numbers as bodies, an empty address, a non-Boolean second parameter of eth_getBlockByNumber, a non-numeric count of eth_feeHistory, a large type, parameters that are an object, and nested topics raise exceptions that nothing catches and end the agent; extreme ranges and certain raw transactions are undefined behaviour; eth_getBlockByNumber with one parameter is answered twice; IDs that are strings come back as 0; blockHash is looked up as blockhash; topics are mandatory; eth_feeHistory reads its numbers in decimal and as full words and gives up to 2^64 - 1 entries. Partial because these are false of the code."
 },
 "C87": {
  "status": "partial",
  "note": "The place read is the one asked for and what is stored is shown, for all values. Refuted: the index equal to the number of a block's transactions reads outside of the list; eth_getCode with more than 20 bytes writes over the stack; eth_getBalance takes keys of any length and so shows receipts as balances; block numbers of eth_getLogs are taken modulo 2^64. Partial because these are false of the code."
 },
 "C88": {
  "status": "partial",
  "note": "Every run is explained by what the contract asked for and the answers, and a contract with its locks has its table reported exactly. Refuted: the loop over the returned table converts numeric keys in place, so that {\"x\"} ends the agent (lua_next fails outside of a protected call), a number and the string of the same text as keys loop forever or lose an entry; a read-only run of a contract that asks for any key fails, because locks are always asked for writing. The interpreter's own ways to end the process (os.exit, malformed bytecode) are outside of the model. Partial because these are false of the code."
 },
 "C89": {
  "status": "partial",
  "note": "Proved for every interleaving: each task is started at most once, pushes return and tasks start within a bounded number of the pool's own steps without waiting for other tasks, threads are reused, and the destructor ends when tasks return. Refuted: the destructor drops tasks that were queued and not yet started; it deadlocks with a task that calls push; run by a task of the pool it ends the process."
 },
 "C90": {
  "status": "partial",
  "note": "Round trip, at least five differences between accepted texts of a length, up to four wrong characters or a missing one refused, mixed case refused, accepted texts begin like the printed address. Refuted: a text without data but with a right checksum reads an empty vector; padding bits are not checked, so several texts name one key; a character inserted into a printed address can give another key."
 },
 "C91": {
  "status": "partial",
  "note": "Amounts below 2^32 and valid addresses give exactly the call; every payment comes from such a command; printed coins and transaction IDs are taken back. Refuted: amounts are taken modulo 2^32, trailing text and signs are accepted, a word is an uncaught exception, and missing or short arguments are undefined behaviour."
 },
 "C92": {
  "status": "partial",
  "note": "Round trip for deployments whose shards have at most ten nodes, in any order of options; everything accepted is what the options say; malformed arguments refused. Refuted: names of shard nodes are ambiguous beyond ten nodes, so some deployments cannot be described at all; unknown options and log levels are ignored, the default level is not the documented one, and bad numbers or endpoints end the process instead of being refused."
 },
 "C93": {
  "status": "partial",
  "note": "Proved for put_row with any broker: success only after the value was stored, and only this key is locked and written; with a broker that keeps to its interface: exactly one outcome. Proved for get_row: what is returned was read, nothing is written, no exception, and it returns once its read is answered. Refuted of the code: failure can be reported after the value was committed (finish failed); after a failure the ticket is never rolled back; get_row never returns if try_lock is refused; a broker that answers after its call returned makes it use the ticket number and the caller's arguments after their life; its callback may hear a value and then an error; errors of shards are all reported as an unreachable shard."
 },
 "C94": {
  "status": "partial",
  "note": "Proved for every run: at most one answer per call, only for calls made; a result is made from the data of that very call and only after a 2xx code; completed responses are delivered at once; only the client's endpoints are used; with a working libcurl every call is answered by the end. Refuted: callbacks are dropped when a failed request cannot be given to libcurl again; data of a broken-off response stay in front of the next one; failed requests are repeated for ever, to the same endpoint; calls made one after the other all go to the first endpoint; without endpoints a call is undefined."
 },
 "C95": {
  "status": "partial",
  "note": "The payment contract is a definition over Lua's values, compared with the Lua text by reading: signed 64-bit arithmetic, string.pack and unpack, and the order of lock requests. C95_runs ties it to the runner of C88. Signatures and SHA-256 are arbitrary functions. Missing from the full statement, because it is false: paying oneself adds the value without taking it and does not use up the sequence number, so one request can be repeated (C95_self_refuted); after the sequence number 2^63-1 old requests succeed again (C95_replay_refuted); values of 2^63 and more succeed and pay nothing (C95_large_refuted); an account that reaches 2^63 cannot spend (C95_frozen_refuted). C95_effect_partial, C95_money_partial and C95_replay_partial exclude exactly these cases. Each payment runs alone here; that concurrent payments behave as if run alone rests on the locks of the shards, which are modelled separately and not composed with this contract."
 },
 "C96": {
  "status": "partial",
  "note": "C96_serial holds for every contract and every execution of one shard that starts without prepared tickets. agents_follow states what agents do, which is C75 (an agent commits what its function computed) and C88 (the runner asks for the keys and reports what was returned); it is a hypothesis about the trace and is not derived from the agent's model. Missing: contracts whose keys lie on several shards (all-or-nothing across shards is C39), failover (C38). C96_money_partial and C96_once_partial have the exceptions of C95 (payments to oneself, the last sequence number)."
 },
 "C97": {
  "status": "partial",
  "note": "The stream, its dependence on the seed and the hashes made of it are proved for every compression function. The secrecy of the stream is refuted: Finalize is called again and again without Reset, so each 32 bytes given out are the whole state of the hasher, and eight consecutive numbers of a block determine all later ones without the seed. (random_hash shows only the upper byte of each number, so its users do not publish whole states.) That the program does not start without a full seed holds only where assertions are compiled in: with NDEBUG the missing bytes are zeros. Not modelled: the distribution of uniform_int_distribution beyond libstdc++'s way of taking the upper bits, big-endian machines, other users' distributions."
 },
 "C98": {
  "status": "partial",
  "note": "Proved in full for the implementation in C++ (sha256::Transform) and for the buffering of CSHA256. Not modelled: the SSE4, AVX2 and SHA-NI implementations that SHA256AutoDetect may choose at the start, TransformD64 and SHA256D64. A hasher used again after Finalize without Reset does not give the hash of what is written (C98_reuse_refuted); random_source does that (C97)."
 },
 "C99": {
  "status": "partial",
  "note": "SipHash-2-4 and the place of a key are proved in full. That nobody can choose IDs that fall into one bucket is refuted for the tables that use the first eight bytes of an ID (C99_spread_refuted): attestations and public keys are chosen by clients. The tables that use SipHash have the constant key 0x1337, 0x1337 (a TODO in the code), so whoever reads the code can compute the shard and the bucket of any key in advance. Machines are little-endian."
 }
}