{"id": "C01", "title": "Accepted transactions conserve value", "statement": "If transaction validation accepts a full transaction then the mathematical (unbounded) sum of the values of its inputs equals the mathematical sum of the values of its outputs, every input and output value is at least 1, and neither total exceeds 2^64-1.", "quantifier": "every full transaction: any number of inputs and outputs, any 64-bit values", "why_tests_cant": "the input space is unbounded and the failure mode is 64-bit wrap-around at specific sums", "anchors": ["src/uhs/transaction/validation.cpp: check_tx, check_in_out_set, check_output_value, check_input_structure"]}
{"id": "C02", "title": "Accepted transactions are well-formed", "statement": "If validation accepts a full transaction then it has at least one input and one output, exactly one witness per input, and no two inputs spend the same outpoint.", "quantifier": "every full transaction", "why_tests_cant": "needs all lists, including duplicates at arbitrary positions", "anchors": ["src/uhs/transaction/validation.cpp: check_tx_structure, check_input_set, check_witness_count"]}
{"id": "C03", "title": "Every spent input is authorised by its owner", "statement": "If validation accepts a full transaction then for every input the witness at the same index is a 97-byte pay-to-public-key witness whose type-and-public-key prefix hashes to the commitment stored in the spent output, whose public key parses, and whose signature verifies on the transaction id under that key.", "quantifier": "every full transaction and every input index, for any hash and signature scheme", "why_tests_cant": "universally quantified over inputs and over the signature oracle", "anchors": ["src/uhs/transaction/validation.cpp: check_witness, check_p2pk_witness*"]}
{"id": "C04", "title": "Validation is exact: it rejects exactly the invalid transactions and reports a fault that is really there", "statement": "Validation accepts a transaction if and only if it satisfies the declarative validity rules; when it rejects, the reported error (code and index) denotes a rule the transaction really violates at that index and no earlier index violates that rule.", "quantifier": "every full transaction", "why_tests_cant": "completeness and soundness over all transactions, not sampled ones", "anchors": ["src/uhs/transaction/validation.cpp: check_tx and all check_* helpers"]}
{"id": "C05", "title": "Attestation threshold counts distinct trusted sentinels", "statement": "A compact transaction passes the attestation check if and only if it carries at least the threshold number of attestations, all of them from distinct public keys of the configured sentinel set and all carrying signatures that verify on the hash of the compact transaction without attestations; adding or removing attestations does not change that hash.", "quantifier": "every compact transaction, every trusted key set, every threshold", "why_tests_cant": "quantifies over all attestation maps and key sets", "anchors": ["src/uhs/transaction/validation.cpp: check_attestations", "src/uhs/transaction/transaction.cpp: compact_tx::hash, compact_tx::verify"]}
{"id": "C06", "title": "The UHS ID an output is created under is the one its spender deletes", "statement": "For every transaction and every output index, the UHS ID put in the compact transaction for that output equals the hash of the input that later spends that output, and two different outputs (different transaction, index, owner or value) have different UHS IDs unless SHA-256 collides.", "quantifier": "every full transaction and output index", "why_tests_cant": "all transactions; relies on byte-exact agreement of two different serialisation paths", "anchors": ["src/uhs/transaction/transaction.cpp: compact_tx ctor, uhs_id_from_output, input::hash, input_from_output"]}
{"id": "C07", "title": "Transaction IDs commit to inputs and outputs and nothing else", "statement": "Two full transactions have the same transaction ID if they have the same inputs and outputs, whatever their witnesses; if their inputs or outputs differ their IDs differ unless SHA-256 collides.", "quantifier": "every pair of full transactions", "why_tests_cant": "all pairs", "anchors": ["src/uhs/transaction/transaction.cpp: tx_id"]}
{"id": "C08", "title": "Every wire message decodes to the value that was encoded", "statement": "For every serialisable value (integers, hashes, vectors, sets, maps, optionals, variants, transactions, blocks, atomizer, shard, coordinator, watchtower and PArSEC messages, RPC headers) decoding the encoding followed by arbitrary further bytes returns the value and leaves exactly the further bytes.", "quantifier": "every value of every message type and every trailing byte string", "why_tests_cant": "unbounded nested values", "anchors": ["src/util/serialization/format.hpp", "src/uhs/transaction/messages.cpp", "src/uhs/atomizer/atomizer/format.cpp", "src/uhs/atomizer/atomizer/messages.cpp", "src/uhs/twophase/coordinator/format.cpp", "src/uhs/twophase/locking_shard/format.cpp", "src/parsec/runtime_locking_shard/format.cpp", "src/util/rpc/format.hpp"]}
{"id": "C09", "title": "serialized_size equals the number of bytes written", "statement": "For every serialisable value the size computed by the size serializer is exactly the number of bytes any serializer writes for it, so a buffer allocated from it is filled exactly.", "quantifier": "every value of every message type", "why_tests_cant": "unbounded nested values", "anchors": ["src/util/serialization/size_serializer.cpp", "src/util/serialization/util.hpp: serialized_size"]}
{"id": "C10", "title": "Encodings are unambiguous", "statement": "No encoding of a value is a proper prefix of another value's encoding of the same type, and distinct values have distinct encodings (so a hash of an encoding commits to the value).", "quantifier": "every pair of values of a message type", "why_tests_cant": "all pairs", "anchors": ["src/util/serialization/format.hpp"]}
{"id": "C11", "title": "Reading a truncated or malformed buffer fails instead of reading past its end", "statement": "A read of len bytes from a buffer or stream succeeds if and only if the remaining bytes are at least len, never yields bytes outside the buffer, and a failed decode leaves the serializer in the failed state that its bool conversion reports.", "quantifier": "every buffer, cursor position and requested length (64-bit, including lengths that wrap)", "why_tests_cant": "arbitrary malformed input", "anchors": ["src/util/serialization/buffer_serializer.cpp: read, write", "src/util/serialization/stream_serializer.cpp"]}
{"id": "C12", "title": "2PC shard: no UHS ID is spent twice", "statement": "On a locking shard, once a transaction that spends a UHS ID has been applied, no other transaction spending the same UHS ID is locked successfully unless some transaction that creates that UHS ID is applied in between.", "quantifier": "every history of lock, apply and discard calls, any batches, any interleaving of distributed transactions", "why_tests_cant": "unbounded histories and interleavings", "anchors": ["src/uhs/twophase/locking_shard/locking_shard.cpp: lock_outputs, check_and_lock_tx, apply_outputs"]}
{"id": "C13", "title": "2PC shard: spendable and locked sets stay disjoint and every locked UHS ID belongs to an unapplied transaction that holds it", "statement": "At every point of every history the unspent set and the locked set are disjoint, and every locked UHS ID is an in-range input of a successfully locked transaction in a distributed transaction that is prepared and not yet applied.", "quantifier": "every history of shard calls", "why_tests_cant": "invariant over unbounded histories", "anchors": ["src/uhs/twophase/locking_shard/locking_shard.cpp"]}
{"id": "C14", "title": "2PC shard calls are safe to retry", "statement": "Repeating a lock request of a prepared distributed transaction returns the same result and changes nothing; repeating an apply request before the distributed transaction is discarded, or a discard request, changes nothing and succeeds. Other distributed transactions may run in between.", "quantifier": "every shard state and every request", "why_tests_cant": "all states", "anchors": ["src/uhs/twophase/locking_shard/locking_shard.cpp: lock_outputs, apply_outputs, discard_dtx"]}
{"id": "C15", "title": "2PC distributed transactions are atomic across shards and agree with the answer given to the client", "statement": "When a coordinator runs a batch to completion, each transaction of the batch is applied on every shard that owns one of its inputs, outputs or its ID, or on none of them; it is applied exactly when all those shards locked it, and that is the result reported to the client.", "quantifier": "every batch, every number of shards with ranges covering the hash space, every shard state", "why_tests_cant": "unbounded batches, shards and states", "anchors": ["src/uhs/twophase/coordinator/distributed_tx.cpp: add_tx, prepare, commit, execute, discard"]}
{"id": "C16", "title": "2PC coordinator crash recovery finishes what was started with the same decision", "statement": "If a coordinator crashes at any point of a distributed transaction and another coordinator recovers from the replicated state, the recovered execution leaves every shard in the state the uninterrupted execution would have left it in, for the decision recorded in the log.", "quantifier": "every crash point, every number of repeated crashes, every batch", "why_tests_cant": "all crash points", "anchors": ["src/uhs/twophase/coordinator/controller.cpp: recovery_func, batch_set_cbs", "src/uhs/twophase/coordinator/distributed_tx.cpp: recover_prepare, recover_commit, recover_discard"]}
{"id": "C17", "title": "The coordinator's replicated state machine never aborts in any run of the coordinator protocol", "statement": "For every sequence of prepare, commit, discard and done commands that coordinators issue (each distributed transaction ID moving through these phases in order, interleaved arbitrarily with others and with recoveries), the replicated state machine never reaches a fatal error, and every ID is in at most one of its three phase maps.", "quantifier": "every interleaving of every set of distributed transactions", "why_tests_cant": "unbounded interleavings", "anchors": ["src/uhs/twophase/coordinator/state_machine.cpp: commit"]}
{"id": "C18", "title": "Shard ranges: every hash has an owner", "statement": "With shard ranges that cover prefixes 0..255 without overlap, every hash is in the range of exactly one shard; a coordinator sends every transaction to every shard that owns its ID, one of its inputs or one of its outputs, and to no other.", "quantifier": "every hash, every list of ranges", "why_tests_cant": "all hashes and configurations", "anchors": ["src/util/common/config.cpp: hash_in_shard_range", "src/uhs/twophase/coordinator/distributed_tx.cpp: add_tx"]}
{"id": "C19", "title": "A 2PC status query for a transaction ID only confirms applied transactions", "statement": "The shard answers true to a query for a transaction ID only if a transaction with that ID was applied as completed.", "quantifier": "every history of shard calls", "why_tests_cant": "all histories", "anchors": ["src/uhs/twophase/locking_shard/locking_shard.cpp: check_tx_id, apply_outputs"]}
{"id": "C20", "title": "Atomizer: a transaction is accepted only when all inputs are attested recently enough and unspent since", "statement": "A transaction is accepted for the next block only if each of its inputs has been attested at a height at most the cache depth below the best height, and no transaction accepted at or after the oldest of these heights spends one of its inputs. A complete transaction that meets this is accepted; any other is refused with the reason (too old, or the exact list of inputs spent), and refusal changes nothing.", "quantifier": "every history of attestations, block creations and prunes", "why_tests_cant": "unbounded histories", "anchors": ["src/uhs/atomizer/atomizer/atomizer.cpp: insert, insert_complete, make_block"]}
{"id": "C21", "title": "Atomizer system: no double spend in the chain of blocks", "statement": "In the whole chain of blocks the system produces, every input of every transaction was created by an earlier transaction and not spent by any transaction since, however the shards lag, whatever is delivered late, repeatedly or never, and whoever crashes.", "quantifier": "every history of the atomizer with any number of shards at any lag", "why_tests_cant": "all schedules of shards and atomizer", "anchors": ["src/uhs/atomizer/atomizer/atomizer.cpp", "src/uhs/atomizer/shard/shard.cpp: digest_transaction, digest_block"]}
{"id": "C22", "title": "Atomizer blocks are consecutive and complete", "statement": "Blocks have heights 1,2,3,... in order; each accepted transaction appears in exactly the next block made after it was accepted; nothing is lost or invented.", "quantifier": "every history of inserts and block creations", "why_tests_cant": "unbounded histories", "anchors": ["src/uhs/atomizer/atomizer/atomizer.cpp: make_block", "src/uhs/atomizer/atomizer/state_machine.cpp: commit"]}
{"id": "C23", "title": "Atomizer replicas that apply the same log answer the same, also after restoring a snapshot", "statement": "Restoring the state machine from a snapshot taken at a log index and replaying the rest of the log gives the same blocks, the same responses and the same state as never having crashed; a crash while the snapshot is written leaves the previous snapshot readable.", "quantifier": "every log, every snapshot point, every crash point of the snapshot writer", "why_tests_cant": "all crash points and logs", "anchors": ["src/uhs/atomizer/atomizer/state_machine.cpp: create_snapshot, read_snapshot, apply_snapshot", "src/uhs/atomizer/atomizer/atomizer.cpp: serialize, deserialize"]}
{"id": "C24", "title": "Atomizer-architecture shard: the unspent set is the result of applying the chain", "statement": "After digesting blocks 1..n a shard contains exactly the in-range UHS IDs created and not later spent by those blocks; a block of any other height is refused and changes nothing; a crash between blocks loses nothing and a crash during a block is as if it had been digested entirely or not at all.", "quantifier": "every chain of blocks, any crash point", "why_tests_cant": "unbounded chains and crash points", "anchors": ["src/uhs/atomizer/shard/shard.cpp: digest_block, open_db"]}
{"id": "C25", "title": "Atomizer-architecture shard: attestations are truthful", "statement": "A shard attests input i of a transaction at height h only if that input is in its range and is unspent after block h; if any in-range input is not, it answers with the exact list of missing inputs.", "quantifier": "every shard state and transaction", "why_tests_cant": "all states and transactions", "anchors": ["src/uhs/atomizer/shard/shard.cpp: digest_transaction"]}
{"id": "C26", "title": "Archiver: stored blocks form a gapless immutable chain", "statement": "At any time the archiver stores exactly the blocks 1..best; a stored block is never overwritten; blocks received out of order are kept until their predecessor arrives and then stored in order; a crash at any point preserves this.", "quantifier": "every order, duplication and loss of incoming blocks, every crash point", "why_tests_cant": "arbitrary delivery orders", "anchors": ["src/uhs/atomizer/archiver/controller.cpp: digest_block, init_best_block, get_block"]}
{"id": "C27", "title": "Watchtower block cache answers are those of the last k blocks", "statement": "The watchtower reports a UHS ID as spent (by transaction t at height h) or unspent only if that is the case in the most recent k blocks it was given.", "quantifier": "every sequence of blocks and every k", "why_tests_cant": "unbounded sequences", "anchors": ["src/uhs/atomizer/watchtower/block_cache.cpp: push_block, check_spent, check_unspent"]}
{"id": "C28", "title": "Watchtower error cache remembers the last k errors", "statement": "Each of the k most recently pushed transaction errors can be found by its transaction ID and by every UHS ID it names; whatever is found is one of them and matches.", "quantifier": "every sequence of errors and every k", "why_tests_cant": "unbounded sequences with repeated IDs", "anchors": ["src/uhs/atomizer/watchtower/error_cache.cpp"]}
{"id": "C29", "title": "Watchtower status answers are consistent with blocks and errors", "statement": "For a status request of a transaction and its UHS IDs the watchtower answers, for each UHS ID, exactly one status, 'spent'/'unspent' only if supported by a cached block containing the transaction and an error only if a cached error supports it; a confirmed spend or creation in the cached blocks and a cached error are always reported.", "quantifier": "every cache content and request", "why_tests_cant": "all states", "anchors": ["src/uhs/atomizer/watchtower/watchtower.cpp: handle_status_update_request, check_uhs_id_statuses"]}
{"id": "C30", "title": "Wallet: balance is the sum of the coins it can still spend", "statement": "After any history of calls (keys, minting, sending, confirming, crediting, seeding, saving and loading) in which a confirmed transaction spends no coin the wallet still counts as its own, seeded coins are not credited while still in the seed range, and the coins are worth less than 2^64 in total, the reported balance and count are the value and number of the distinct coins credited and not yet spent, seeded ones included; no call fails an assertion; and a wallet read back from its file has the same coins and keys. Outside these conditions the balance can wrap and a spent coin can be offered again (refutations).", "quantifier": "every history of wallet operations", "why_tests_cant": "unbounded histories, 64-bit arithmetic", "anchors": ["src/uhs/transaction/wallet.cpp: update_balance, confirm_transaction, send_to, balance"]}
{"id": "C31", "title": "Wallet: transactions it builds conserve value and never reuse an input within a transaction", "statement": "A call of send_to or fan builds a transaction if and only if the coins suffice (otherwise the wallet is unchanged); the transaction pays exactly the requested amounts to the payee, returns the change to a key of the wallet, spends distinct coins the wallet holds, its inputs sum to its outputs and its coins leave the balance; signed, it passes the sentinels' validation; confirming it leaves the wallet poorer by exactly the amount sent.", "quantifier": "every wallet state, amount and coin distribution", "why_tests_cant": "all states and 64-bit amounts", "anchors": ["src/uhs/transaction/wallet.cpp: send_to, fan, accumulate_inputs"]}
{"id": "C32", "title": "PArSEC shard: locks exclude conflicting access", "statement": "At every point, for every key, either one ticket holds a write lock and no other ticket holds any lock, or no ticket holds a write lock and any number hold read locks.", "quantifier": "every history of lock, prepare, commit, rollback and finish requests of any number of tickets", "why_tests_cant": "unbounded histories", "anchors": ["src/parsec/runtime_locking_shard/impl.cpp: try_lock, acquire_lock, release_locks, wound_tickets"]}
{"id": "C33", "title": "PArSEC shard: no deadlock", "statement": "In every reachable state the wait-for relation between tickets (a ticket with a queued request waits for the tickets whose locks prevent granting it) has no cycle: every ticket waited for is older than the waiter or already prepared, and a prepared ticket waits for nothing.", "quantifier": "every reachable state", "why_tests_cant": "all reachable states and schedules", "anchors": ["src/parsec/runtime_locking_shard/impl.cpp: try_lock, wound_tickets, get_waiting_on"]}
{"id": "C34", "title": "PArSEC shard: no lost wake-up", "statement": "In every reachable state, for every key with queued requests, the oldest queued request conflicts with a lock currently held by another ticket (so a request is never left waiting for nothing).", "quantifier": "every reachable state", "why_tests_cant": "all reachable states and schedules", "anchors": ["src/parsec/runtime_locking_shard/impl.cpp: acquire_locks, acquire_lock, rollback, commit, wound_tickets"]}
{"id": "C35", "title": "PArSEC shard: a prepared ticket is never wounded and a committed one never undone", "statement": "Once prepare succeeds for a ticket, no request of other tickets takes its locks or changes its state; once commit succeeds its writes stay in the state until another ticket that holds the write lock commits a write to the same key.", "quantifier": "every history", "why_tests_cant": "unbounded histories", "anchors": ["src/parsec/runtime_locking_shard/impl.cpp: prepare, commit, rollback, wound_tickets"]}
{"id": "C36", "title": "PArSEC shard: isolation (values read under a lock stay current)", "statement": "The value returned with a granted lock is the value of the key in the state, and it does not change, except by the ticket's own commit, as long as that ticket holds the lock; hence committed tickets are serialisable in commit order.", "quantifier": "every history", "why_tests_cant": "unbounded histories", "anchors": ["src/parsec/runtime_locking_shard/impl.cpp: acquire_lock, commit"]}
{"id": "C37", "title": "PArSEC shard: every lock request is answered exactly once", "statement": "Every accepted lock request is eventually answered at most once: either with the value when granted or with an error when its ticket is wounded or rolled back, and never both; while unanswered it is in the queue of its key.", "quantifier": "every history", "why_tests_cant": "unbounded histories", "anchors": ["src/parsec/runtime_locking_shard/impl.cpp: try_lock, release_locks, acquire_lock"]}
{"id": "C38", "title": "PArSEC shard: prepared tickets and their writes survive leader failover", "statement": "After a failover at any point the new leader's key-value state contains exactly the writes of all tickets whose commit was replicated, and every prepared, uncommitted ticket is restored holding its write locks.", "quantifier": "every history and failover point", "why_tests_cant": "all failover points", "anchors": ["src/parsec/runtime_locking_shard/replicated_shard.cpp: prepare, commit, finish", "src/parsec/runtime_locking_shard/impl.cpp: recover", "src/parsec/runtime_locking_shard/server.cpp"]}
{"id": "C39", "title": "PArSEC broker: commit is all-or-nothing across shards", "statement": "A broker commits a ticket on some shard only after every shard the ticket touched has prepared it; after the broker reports commit success every one of those shards has applied its updates.", "quantifier": "every order of responses and failures", "why_tests_cant": "all message orders", "anchors": ["src/parsec/broker/impl.cpp: commit, do_prepare, handle_prepare, do_commit, handle_commit"]}
{"id": "C40", "title": "PArSEC broker recovery decides consistently", "statement": "After a broker crash, recovery commits a ticket everywhere if any shard committed it, and otherwise rolls it back everywhere; it never rolls back a ticket committed on some shard.", "quantifier": "every crash point and combination of shard states", "why_tests_cant": "all crash points", "anchors": ["src/parsec/broker/impl.cpp: recover, handle_get_tickets, do_recovery"]}
{"id": "C41", "title": "PArSEC ticket numbers are unique", "statement": "No two begin requests, from any brokers, receive the same ticket number until 2^64 numbers have been handed out, whatever requests and responses are lost and whatever brokers restart; a request is answered once, oldest first, and never waits while the broker holds an unused number.", "quantifier": "every interleaving of any number of brokers", "why_tests_cant": "all interleavings", "anchors": ["src/parsec/ticket_machine/impl.cpp: get_ticket_number", "src/parsec/ticket_machine/client.cpp"]}
{"id": "C42", "title": "PArSEC directory: a key is always on the same existing shard", "statement": "For every key and shard count n>0 the directory returns an index below n, the same at every call.", "quantifier": "every key and n", "why_tests_cant": "all keys", "anchors": ["src/parsec/directory/impl.cpp: key_location"]}
{"id": "C43", "title": "Completed-transaction cache is a bounded FIFO set", "statement": "The cache contains exactly the most recent distinct elements added, never more than its maximum size, and adding an element already present changes nothing.", "quantifier": "every sequence of adds and every size", "why_tests_cant": "unbounded sequences", "anchors": ["src/util/common/cache_set.hpp"]}
{"id": "C44", "title": "Raft log store behaves as a log", "statement": "For every sequence of append, write_at, pack, apply_pack, compact and reopen, entry_at(i) returns the last entry written at i (since any truncation) and next_slot is one past the last index.", "quantifier": "every sequence of log operations including crashes and reopen", "why_tests_cant": "unbounded sequences", "anchors": ["src/util/raft/log_store.cpp"]}
{"id": "C45", "title": "RPC client: each call completes at most once with its own response", "statement": "For every interleaving of sends, responses, duplicate responses, timeouts and shutdown, each call's callback or future is completed at most once, with the response carrying its request ID or with a failure.", "quantifier": "every interleaving", "why_tests_cant": "all interleavings", "anchors": ["src/util/rpc/tcp_client.hpp", "src/util/rpc/client.hpp"]}
{"id": "C46", "title": "RLP encoding round-trips", "statement": "For every RLP value decoding its encoding yields the same value and consumes exactly the encoding.", "quantifier": "every nested RLP value whose encoding is shorter than 2^64 bytes", "why_tests_cant": "unbounded nesting and sizes", "anchors": ["src/parsec/agent/runners/evm/rlp_writer.cpp", "src/parsec/agent/runners/evm/rlp_reader.cpp"]}
{"id": "C47", "title": "EVM 256-bit arithmetic is exact modulo 2^256", "statement": "Addition, subtraction, multiplication and byte shift of big-endian 256-bit integers compute the mathematical operation modulo 2^256.", "quantifier": "all pairs of 32-byte integers", "why_tests_cant": "2^512 inputs", "anchors": ["src/parsec/agent/runners/evm/math.cpp"]}
{"id": "C48", "title": "EVM native value is conserved", "statement": "Executing a transaction never increases the sum of all account balances.", "quantifier": "every transaction, every account state, every sequence of host calls made by the contract", "why_tests_cant": "all contracts and 256-bit values", "anchors": ["src/parsec/agent/runners/evm/impl.cpp: handle_lock_from_account, exec", "src/parsec/agent/runners/evm/host.cpp: transfer, finalize, revert, selfdestruct"]}
{"id": "C49", "title": "A reverted or failed EVM transaction has no effect but the gas charge", "statement": "If the top-level call of a transaction does not succeed, the state updates produced contain only the sender's account with the gas charge and nonce, and the bookkeeping records of the transaction.", "quantifier": "every transaction and every sequence of host calls", "why_tests_cant": "all contracts", "anchors": ["src/parsec/agent/runners/evm/host.cpp: revert, get_state_updates", "src/parsec/agent/runners/evm/impl.cpp: exec"]}
{"id": "C50", "title": "EVM transactions cannot be replayed", "statement": "A signed EVM transaction that was executed cannot be executed again: execution requires the account nonce to be exactly one less than the transaction's nonce and increments it.", "quantifier": "every history of executed transactions", "why_tests_cant": "unbounded histories", "anchors": ["src/parsec/agent/runners/evm/impl.cpp: handle_lock_from_account"]}
{"id": "C51", "title": "EVM transaction wire format round-trips", "statement": "Decoding the RLP encoding of a transaction yields the same transaction, for legacy, access-list and dynamic-fee transactions with the chain ID used to encode it.", "quantifier": "every transaction", "why_tests_cant": "unbounded inputs and access lists", "anchors": ["src/parsec/agent/runners/evm/serialization.cpp: tx_encode, tx_decode"]}
{"id": "C52", "title": "Hex encoding round-trips", "statement": "Converting any byte buffer or hash to hexadecimal and back yields the same bytes, and strings that are not hexadecimal are rejected.", "quantifier": "every buffer", "why_tests_cant": "unbounded buffers", "anchors": ["src/util/common/buffer.cpp: to_hex, from_hex", "src/util/common/hash.cpp: hash_from_hex, to_string"]}
{"id": "C53", "title": "Blocking queue is a FIFO that loses nothing", "statement": "Elements popped from the blocking queue are exactly the elements pushed, in push order, until the queue is cleared; a pop fails only after a clear; a consumer does not sleep while there is an element for it.", "quantifier": "every interleaving of pushes, pops, clear and reset", "why_tests_cant": "all interleavings", "anchors": ["src/util/common/blocking_queue.hpp"]}
{"id": "C54", "title": "PArSEC shard: no request brings it down", "statement": "In every reachable state every request is served without undefined behaviour, failed assertion or endless loop, and the shard process exits only when a client sends a second 'first lock' request for a ticket the shard still knows.", "quantifier": "every reachable state and every request", "why_tests_cant": "all reachable states and requests", "anchors": ["src/parsec/runtime_locking_shard/impl.cpp: try_lock, release_locks, commit"]}
{"id": "C55", "title": "Following the block stream", "statement": "A shard or watchtower that is sent a block fetches exactly the blocks it lacks, in order and each once, from the archiver before it takes in the new one, and always returns; a block it already has is ignored.", "quantifier": "every block, position and answering behaviour of an honest archiver", "why_tests_cant": "unbounded gaps and delays; non-termination", "anchors": ["src/uhs/atomizer/watchtower/controller.cpp: atomizer_handler", "src/uhs/atomizer/shard/controller.cpp: atomizer_handler"]}
{"id": "C57", "title": "EVM transaction signatures identify the signer", "statement": "A transaction signed for a chain yields the signer's address when checked on that chain; the signed hash fixes the chain and every field, and converting signatures between library and wire form loses nothing.", "quantifier": "every transaction, key, chain ID and signature scheme that recovers its signers", "why_tests_cant": "all transactions, signatures and chain IDs", "anchors": ["src/parsec/agent/runners/evm/signature.cpp: check_signature, sig_hash, eth_sign, evm_sig_to_secp256k1_ecdsa_recoverable_signature"]}
{"id": "C58", "title": "Numbers in the JSON-RPC interface read back", "statement": "A 256-bit number printed by the JSON-RPC interface denotes the same number when it is given back to the interface.", "quantifier": "all 256-bit numbers", "why_tests_cant": "2^256 inputs", "anchors": ["src/parsec/agent/runners/evm/util.cpp: to_hex_trimmed, uint256be_from_hex", "src/parsec/agent/runners/evm/serialization.cpp: uint256be_or_default"]}
{"id": "C59", "title": "An EVM transaction spends only its sender's money", "statement": "Of the accounts without code, only the sender's can have a smaller balance after a transaction, and it loses at most the value and the gas it offered.", "quantifier": "every transaction, state, and sequence of host calls made by contracts", "why_tests_cant": "all contracts and states", "anchors": ["src/parsec/agent/runners/evm/host.cpp: transfer, call, create, finalize", "src/parsec/agent/runners/evm/impl.cpp: handle_lock_from_account"]}
{"id": "C60", "title": "A contract creation makes a new contract", "statement": "A successful creation leaves the contract's code at the address its receipt names; different creations have different addresses, and the code of a contract never changes.", "quantifier": "every history of transactions", "why_tests_cant": "unbounded histories", "anchors": ["src/parsec/agent/runners/evm/host.cpp: create", "src/parsec/agent/runners/evm/address.cpp"]}
{"id": "C61", "title": "Receipts tell the truth", "statement": "The receipt of a transaction says that it succeeded if and only if its outermost call succeeded.", "quantifier": "every transaction, state and sequence of host calls", "why_tests_cant": "all contracts and states", "anchors": ["src/parsec/agent/runners/evm/host.cpp: call, create, get_state_updates"]}
{"id": "C62", "title": "No transaction ends the agent", "statement": "Whatever a transaction and the contracts it calls do, and whatever becomes of its lock requests, the agent process goes on.", "quantifier": "every transaction, state, sequence of host calls and outcome of lock requests", "why_tests_cant": "all contracts and schedules", "anchors": ["src/parsec/agent/runners/evm/host.cpp: transfer, selfdestruct, call", "src/parsec/agent/runners/evm/impl.cpp: exec"]}
{"id": "C63", "title": "Dry runs change nothing", "statement": "A dry run (eth_call, gas estimation) produces no update of an account, of code or of storage.", "quantifier": "every transaction, state and sequence of host calls", "why_tests_cant": "all contracts", "anchors": ["src/parsec/agent/runners/evm/host.cpp: get_state_updates", "src/parsec/agent/runners/evm/impl.cpp: run_execute_dryrun_transaction"]}
{"id": "C56", "title": "A client's books balance", "statement": "After any history of minting, paying, fanning out, importing, confirming, abandoning and restarting, the balance a client shows plus the worth of the coins tied to payments under way is the worth of the coins the user owns; every payment it makes spends owned coins that are not tied, once each; confirming credits exactly what the transaction pays the user; abandoning gives all its coins back; a restart changes nothing.", "quantifier": "every history of client calls used as meant, every amount, every random choice", "why_tests_cant": "all histories", "anchors": ["src/uhs/client/client.cpp: create_transaction, fan, import_transaction, confirm_transaction, abandon_transaction, check_pending, register_pending_tx, load_client_state, save", "src/uhs/transaction/wallet.cpp"]}
{"id": "C64", "title": "Synchronising credits what was really received", "statement": "Synchronising a client confirms exactly the pending transactions and coins that the system has executed, and credits what they pay the user.", "quantifier": "every client state, every set of answers of shards or watchtowers, in every order", "why_tests_cant": "all replies and orders", "anchors": ["src/uhs/client/twophase_client.cpp: sync", "src/uhs/client/atomizer_client.cpp: sync", "src/uhs/client/client.cpp: import_send_input, confirm_transaction"]}
{"id": "C65", "title": "A client survives a crash while saving", "statement": "If the process of a client dies at any moment while it saves its state, the client that is opened afterwards has the coins, keys and pending transactions of before or of after the call.", "quantifier": "every client state, every call, every point of the writing of the two files", "why_tests_cant": "all crash points", "anchors": ["src/uhs/client/client.cpp: save, save_client_state, load_client_state, init", "src/uhs/transaction/wallet.cpp: save, load"]}
{"id": "C66", "title": "A sentinel vouches only for valid transactions and submits what it vouched for", "statement": "A sentinel attests exactly the valid transactions. What it passes on to a coordinator or to the shards is the compact form of a valid transaction with at least the configured number of attestations by different keys, which every shard that knows the sentinels' keys accepts; the client is told 'confirmed' exactly if the coordinator executed it, and 'invalid' with the fault that the transaction has.", "quantifier": "every transaction, every choice of peers, every reply", "why_tests_cant": "all replies and transactions", "anchors": ["src/uhs/twophase/sentinel_2pc/controller.cpp: execute_transaction, validate_transaction, gather_attestations, send_compact_tx", "src/uhs/atomizer/sentinel/controller.cpp", "src/uhs/transaction/transaction.cpp: sign"]}
{"id": "C67", "title": "Accepted attestations mean a validated transaction", "statement": "If fewer sentinels than the attestation threshold sign what they should not, every compact transaction that passes the attestation check of shards, coordinators and atomizer is the compact form of a valid transaction.", "quantifier": "every compact transaction, set of keys and threshold, every set of misbehaving sentinels below the threshold", "why_tests_cant": "all forged messages", "anchors": ["src/uhs/transaction/validation.cpp: check_attestations", "src/uhs/transaction/transaction.cpp: compact_tx::hash, sign, verify", "src/uhs/twophase/sentinel_2pc/controller.cpp: validate_transaction"]}
{"id": "C68", "title": "An accepted transaction reaches the shards that hold its inputs", "statement": "A sentinel of the atomizer architecture sends each accepted transaction to, for each input, a shard that covers it.", "quantifier": "every transaction, configuration of shards and random choice", "why_tests_cant": "all configurations and choices", "anchors": ["src/uhs/atomizer/sentinel/controller.cpp: send_compact_tx"]}
{"id": "C69", "title": "A sentinel answers every request and survives it", "statement": "Every request to execute or validate a transaction is answered, and none brings the sentinel down or keeps it busy for ever.", "quantifier": "every configuration that starts up, every transaction, every behaviour of the peers", "why_tests_cant": "all configurations and replies", "anchors": ["src/uhs/twophase/sentinel_2pc/controller.cpp: init, execute_transaction, gather_attestations", "src/uhs/atomizer/sentinel/controller.cpp: init, execute_transaction, gather_attestations"]}
{"id": "C70", "title": "The money in circulation is the money issued", "statement": "At any time the unspent IDs the system holds are the hashes of coins that valid transactions made and none spent, and the values of those coins add up to what was issued: no schedule, no crash and no set of transactions makes or destroys money.", "quantifier": "every execution of the whole system, any transactions, any number of shards and nodes, any fewer than threshold dishonest sentinels", "why_tests_cant": "all executions; the values are not in the system's state and have to be related to it", "anchors": ["src/uhs/transaction/transaction.cpp: to_compact, uhs_id_from_output", "src/uhs/transaction/validation.cpp: check_in_out_set, check_attestations", "src/uhs/atomizer/atomizer/atomizer.cpp: insert_complete", "src/uhs/atomizer/shard/shard.cpp: digest_block", "src/uhs/twophase/locking_shard/locking_shard.cpp: apply_outputs"]}
{"id": "C71", "title": "Packets cross a connection whole and in order", "statement": "The packets a peer receives over a TCP connection are the packets the other side sent: whole, in the order sent, none doubled or invented, until the connection ends, however the operating system splits the writes and reads; all packets sent completely arrive. Bytes that are no packet do not harm the receiver.", "quantifier": "every sequence of packets of every size, every split of the writes and reads, every point where the connection breaks, every sequence of bytes from a hostile peer", "why_tests_cant": "the splits of the stream are up to the kernel and the network", "anchors": ["src/util/network/tcp_socket.cpp: send, receive", "src/util/network/peer.cpp: do_send, do_recv"]}
{"id": "C72", "title": "The connection manager hands every packet to a handler, once, with its sender", "statement": "Every packet received on any connection is given to the message handler exactly once, those of one connection in the order they arrived, with the identity of the connection it came from; the handler's answer goes to that connection; no waiting packet is forgotten while handlers sleep, no connection starves another; sending to one peer fails only if none is connected; and closing the manager ends the handler threads.", "quantifier": "every number of connections and handler threads, every interleaving of adding, receiving, handling and closing", "why_tests_cant": "all interleavings of the receiving and handling threads", "anchors": ["src/util/network/connection_manager.cpp: add, handle_messages, start_server_handler, close, send, send_to_one", "src/util/network/connection_manager.hpp: message_t, start_server_handler"]}
{"id": "C73", "title": "A peer keeps its connection up and can be shut down", "statement": "A peer that is allowed to reconnect notices every failure of its connection and replaces it, and settles once the network is well; packets given to it are sent in order, none twice, and none is dropped while it is up; one that is not allowed to reconnect ends after a failure; shutting it down returns with all its threads ended.", "quantifier": "every interleaving of the peer's three threads, the callers, and failures of the network at any time", "why_tests_cant": "all interleavings of three threads, failures and shutdown", "anchors": ["src/util/network/peer.cpp: send, shutdown, do_send, do_recv, do_reconnect, close, signal_reconnect", "src/util/network/tcp_socket.cpp: reconnect, disconnect", "src/util/common/blocking_queue.hpp"]}
{"id": "C74", "title": "What is paid arrives", "statement": "The coins a client exports for a payee are exactly the outputs of the transaction that the payee's key can spend, in the form in which they can be spent. A payment made by one client, exported, announced to the payee's client and confirmed there, raises the payee's balance by the amount paid, however many outputs the transaction has.", "quantifier": "every history of the paying and of the receiving client, every amount, payee and transaction, every number of outputs to the payee", "why_tests_cant": "tests pay once, with one output, to a fresh client; whether coins get lost depends on the history of both clients and on the number of outputs to the same payee", "anchors": ["src/uhs/client/client.cpp: export_send_inputs, import_send_input, confirm_transaction, send, fan", "src/uhs/transaction/wallet.cpp: export_send_inputs, confirm_inputs"]}
{"id": "C75", "title": "An agent commits what its function computed, under one ticket", "statement": "Every request an agent makes of its broker names the one ticket number the broker assigned to it, across all attempts. The updates it asks to commit are those a completed run of the function returned, and none if the run is read-only; a read-only run takes no write lock. Locks the function asks for are asked of the broker for the same key and mode, and the answers are passed back unchanged. Success is reported only after a commit and the end were confirmed. No call into an agent ends the process.", "quantifier": "every sequence of calls into an agent: exec at any time, answers of the broker and of the runner in any order, late, repeated or never, lock requests of the function at any time, requests refused or answered before they return", "why_tests_cant": "the agent is a state machine with eighteen states driven by asynchronous callbacks; tests drive it through the few orders a local broker produces", "anchors": ["src/parsec/agent/impl.cpp: exec, do_start, do_try_lock_request, handle_function, do_commit, do_result", "src/parsec/agent/interface.hpp"]}
{"id": "C76", "title": "A client's request is answered once and truthfully", "statement": "A client that is told its transaction succeeded gets exactly the updates whose commit the broker confirmed; what is committed comes from a run started after the last rollback. After a confirmed commit the transaction is neither rolled back nor run again, and the client is told of success. A client that is told its function failed or was not committed: it was rolled back and nothing was committed. A client gets at most one answer. Until then the agent always waits for something it asked for, or is queued to run again. The agent is destroyed after the answer and not used any more, and no request ends the server's process.", "quantifier": "every run of a request in the Lua or EVM server: every order of answers of broker and runner, every number of wounded attempts, every interleaving of the retry and cleanup threads", "why_tests_cant": "the order of callbacks, retries and cleanup depends on other transactions and on threads; a wrong order shows as a lost answer, a double answer, a transaction applied though reported failed, or a crash", "anchors": ["src/parsec/agent/impl.cpp: handle_run, handle_commit, handle_finish, handle_rollback, do_result, ~impl", "src/parsec/agent/server_interface.cpp", "src/parsec/agent/runners/lua/server.cpp: request_handler", "src/parsec/agent/runners/evm/http_server.cpp: exec_tx"]}
{"id": "C77", "title": "What a configuration file says is what a program reads", "statement": "Every setting written in a configuration file is read back as the value it was given, the first one if it is given twice, whatever else the file contains; an environment variable of the setting's name in capitals takes precedence. Different settings of different components have different names and variables. An endpoint is read as the host and port it was written as.", "quantifier": "every file of settings (texts in quotes, numbers below 2^64) and other lines, every environment, every component number and setting, every host and port", "why_tests_cant": "tests read a handful of fixed files; whether two names clash, or a number is read wrongly, depends on component numbers, digits and characters no test lists", "anchors": ["src/util/common/config.cpp: parser::init, parse_value, find_or_env, get_string, get_ulong, get_endpoint, parse_ip_port", "src/util/common/config.cpp: get_*_key"]}
{"id": "C78", "title": "Accepted options mean what was written and describe a system that can run", "statement": "Options that are accepted are, one by one, what the file and the environment say about the setting the user knows them by, or the documented default. They describe a system that can run: every role of the architecture is filled, there are at least as many different sentinel keys as attestations are required, seeds come with a key and a value, and what is configured per component is configured for all components of the kind. Options that are refused are refused for the reason given. Every file is either accepted or refused.", "quantifier": "every file content and environment, both architectures, every number of components and nodes", "why_tests_cant": "the options are some forty settings whose meaning depends on counts and on each other; tests load a few complete files and a few broken ones", "anchors": ["src/util/common/config.cpp: load_options, read_options, check_options, read_*_options", "src/util/common/config.hpp: options"]}
{"id": "C79", "title": "Pre-seeded money is where its owners look for it", "statement": "The seeds of a benchmark are divided among the load generators such that no two may spend the same one, and every seed lies in the configured range. Every coin a generator's wallet starts with was written by the seeder for exactly one shard, the one that answers for it, under the ID with which the wallet spends it; and the shard starts with exactly the coins that were written for it.", "quantifier": "every seed range, seed value, number of generators and of shards, every generator and coin", "why_tests_cant": "the division depends on remainders and on 64-bit arithmetic, and three programs (seeder, shard, generator) must agree on it; tests run one fixed configuration", "anchors": ["src/util/common/config.cpp: loadgen_seed_range", "tools/shard-seeder/shard-seeder.cpp", "src/uhs/twophase/locking_shard/locking_shard.cpp: read_preseed_file", "src/uhs/twophase/locking_shard/controller.cpp", "src/uhs/transaction/wallet.cpp: seed, seed_readonly, create_seeded_transaction, create_seeded_input", "tools/bench/twophase_gen.cpp"]}
{"id": "C80", "title": "An RPC server answers each request once, to the one who asked", "statement": "A request that can be read is handed to the server's handler once. Every reply goes to the peer that sent the request, carries the request's ID and says what the handler said, or that it failed. A handler that gives one answer makes its client see one. A server in front of a replicated state machine answers a request with a failure, or with what the request does in the state that the committed log before it leads to, and everything it committed is answered. No packet ends a server.", "quantifier": "every request, ID and peer, every sequence of packets, handler answers at any later time, commits, refusals and cancellations, every handler and message format", "why_tests_cant": "answers come from other threads and after other requests, the same ID may be in use by several peers, a cancelled request may still be committed, and the servers' own tests send only well-formed packets after start-up", "anchors": ["src/util/rpc/server.hpp", "src/util/rpc/blocking_server.hpp", "src/util/rpc/async_server.hpp", "src/util/rpc/tcp_server.hpp", "src/util/raft/rpc_server.hpp", "src/util/raft/node.cpp: replicate", "src/uhs/twophase/locking_shard/state_machine.cpp: commit"]}
{"id": "C81", "title": "What a PArSEC shard answers reaches its caller", "statement": "For each method of a PArSEC shard, the result the shard gives to a request is the one that the callback at the calling agent receives, and a shard or ticket machine that cannot carry out a request makes its caller see an error.", "quantifier": "every method, every result and error, every request ID", "why_tests_cant": "results pass through a variant of messages on the way, and the failures that matter (lost leadership, internal errors) do not occur in the shards' tests", "anchors": ["src/parsec/runtime_locking_shard/server.cpp", "src/parsec/runtime_locking_shard/client.cpp", "src/parsec/runtime_locking_shard/messages.hpp", "src/parsec/ticket_machine/client.cpp", "src/parsec/ticket_machine/server.cpp"]}
{"id": "C82", "title": "A raft node's vote and its cluster's membership survive", "statement": "A node that starts finds the state and the configuration that it saved last, or those it was saving when its process died, whatever other nodes save in the same directory; reading them never fails. So a node that saves its vote before it answers never votes for two candidates in a term. Without a saved configuration a node takes the one of the options, in which it finds itself under its own number and port.", "quantifier": "every history of saves by any number of nodes of any clusters, with the process dying at any step and after any part of a write, every list of endpoints", "why_tests_cant": "crash points inside a save and the votes before and after a restart cannot be enumerated", "anchors": ["src/util/raft/state_manager.cpp: load_config, save_config, save_state, read_state", "src/util/raft/node.cpp: node"]}
{"id": "C83", "title": "A transaction handed to a two-phase coordinator is answered once, with its own result", "statement": "A coordinator takes or refuses each transaction it is handed. A transaction that it takes joins one batch, is answered once, and the answer is what the batch's execution said about that transaction, or that the batch could not be executed. No batch is larger than configured or lists a transaction twice. While a coordinator runs, whatever the threads' order, every transaction it took is answered when the shards answer, and stopping it ends.", "quantifier": "every sequence of transactions, every interleaving of the handler, the batch executor, the batch threads and the stopping thread, every batch size and number of threads, every result of a batch, any number of stops and starts", "why_tests_cant": "the outcome depends on which thread runs between the unlocking of a batch and the waking of a handler, on when leadership is lost, and on batches being full at that moment", "anchors": ["src/uhs/twophase/coordinator/controller.cpp: execute_transaction, batch_executor_func, schedule_exec, start, stop"]}
{"id": "C84", "title": "A query for events returns exactly the matching events of the committed transactions", "statement": "What an EVM agent stores (accounts, code, storage, receipts, transactions by ticket, events) is stored under keys that never coincide. A query for events (eth_getLogs) that is accepted is answered once, and the answer lists exactly the events of the committed transactions whose ticket number is in the range, whose address is among the addresses and one of whose topics is among the topics, each as often as it was emitted. If a shard cannot answer, the query fails and shows no events. No accepted query covers more than the announced number of blocks and addresses.", "quantifier": "every history of committed transactions with any events, every query, every order of the shards' answers, every subset of failing answers; SHA-256 without collisions among the inputs used", "why_tests_cant": "the answers of the shards come in any order, block numbers span 64 bits, and the set of events and addresses is unbounded", "anchors": ["src/parsec/agent/runners/evm/host.cpp: get_state_updates, get_sorted_logs, log_index_key, ticket_number_key", "src/parsec/agent/runners/evm/impl.cpp: run_get_logs, handle_get_logs_try_lock_response, handle_complete_get_logs", "src/parsec/agent/runners/evm/http_server.cpp: parse_evm_log_query, extract_evm_log_query_block, handle_get_logs_result"]}
{"id": "C85", "title": "Bloom filters of receipts and blocks deny no address or topic of their events", "statement": "The filter of a receipt has 256 bytes, and a bit is set exactly if the address or a topic of one of the receipt's events sets it. A reader who looks up an address or topic of one of the events, as Ethereum's standard says, is never told that it is absent. A block's filter is the union of its receipts' filters.", "quantifier": "every list of events of every transaction of a block, every entry, every 32-byte hash function", "why_tests_cant": "there are 2048 bits, and a filter built wrongly still looks like a filter; the property is about all entries", "anchors": ["src/parsec/agent/runners/evm/util.cpp: add_to_bloom", "src/parsec/agent/runners/evm/serialization.cpp: tx_receipt_to_json", "src/parsec/agent/runners/evm/http_server.cpp: fetch block, logsBloom"]}
{"id": "C86", "title": "An agent answers every JSON-RPC request once, with the request's ID, and survives it", "statement": "Every request of the documented form gets exactly the documented answer, or starts exactly the documented run, and the answer carries the request's ID; a request for a method that is not there is told so; what is not a request is refused. Whatever is sent, the agent goes on, and there is one answer.", "quantifier": "every HTTP body: no JSON, or any JSON value; every method name, every parameters, every ID; every height of the chain", "why_tests_cant": "JSON values are unbounded and nested, and each of fifty methods reads its parameters in its own way; a single value of an unexpected kind is enough", "anchors": ["src/util/rpc/http/json_rpc_http_server.cpp: callback, handle_request, handle_response", "src/parsec/agent/runners/evm/http_server.cpp: request_handler, handle_*, fetch_block, parse_evm_log_query", "src/parsec/agent/runners/evm/serialization.cpp: raw_tx_from_json, tx_from_json, address_from_json"]}
{"id": "C87", "title": "The answers about accounts, code, storage and blocks show what is stored", "statement": "A request for a balance, a transaction count, code, storage, a receipt or a transaction reads the place it asks for and no other. A balance is shown as the number stored, a count as the nonce that the next transaction has to have, code and storage as the bytes stored; where nothing is stored the answers are 0, 1 and no data; damaged values are reported. The latest block's number is shown. A transaction of a block is found by its index, and an index that the block does not have is reported.", "quantifier": "every address, key, hash and index, every stored value", "why_tests_cant": "values have 256 bits, and indexes and parameters of every length must be handled; the boundary is where it fails", "anchors": ["src/parsec/agent/runners/evm/http_server.cpp: handle_get_balance, handle_get_transaction_count, handle_get_code, handle_get_storage_at, handle_get_block_tx, handle_block_number", "src/parsec/agent/runners/evm/impl.cpp: run_get_account, run_get_account_code"]}
{"id": "C88", "title": "A Lua contract's run locks the keys it asks for and reports once what it returned", "statement": "A run of a contract resumes it with its parameter, locks every key that the contract asks for before going on, gives the contract the value stored there, and in the end reports exactly once: the table that the contract returned, or an error that says what went wrong (code that is not Lua's, wrong number or type of what was yielded or returned, an error in the contract, a lock not granted, a wounded ticket). check_sig lets a contract go on exactly if the signature is valid. No contract ends the agent, and read-only contracts can be run.", "quantifier": "every contract (an arbitrary interpreter state machine), every parameter, every sequence of answers to the lock requests, every table returned", "why_tests_cant": "contracts are arbitrary programs of users; the errors come from tables and values that no test contract returns", "anchors": ["src/parsec/agent/runners/lua/impl.cpp: run, schedule_contract, contract_epilogue, get_stack_string, handle_try_lock, check_sig", "src/parsec/agent/impl.cpp: do_try_lock_request"]}
{"id": "C89", "title": "The thread pool starts every task once and never makes it wait for another", "statement": "A task given to the pool is started exactly once, after boundedly many steps of the pool's own code and without any other task having to finish; a new thread is made only if none is idle. Destroying the pool waits for the tasks that run, returns when they are done, and loses no task that was accepted. Tasks may themselves give the pool tasks, and whoever drops the last reference may destroy it.", "quantifier": "every number of callers, tasks and threads; every interleaving of push, of the worker threads and of the destructor; every duration of the tasks", "why_tests_cant": "the scan of the threads races with threads that become idle, and the destructor with tasks that are queued or that call the pool; only some interleavings show it", "anchors": ["src/util/common/thread_pool.cpp: push, thread_loop, ~thread_pool", "src/util/common/blocking_queue.hpp: push, pop, clear", "src/parsec/agent/runners/evm/impl.cpp: schedule"]}
{"id": "C90", "title": "A mistyped address pays nobody", "statement": "The address a client prints for a key is read as that key by every client, in lower or upper case. Texts that differ from a printed address by a few wrong, missing or extra characters, or that mix cases, are refused; each key has one address; and no text makes the reader misbehave.", "quantifier": "every key, every text of any length, every choice of up to four wrong characters", "why_tests_cant": "the claim is about all pairs of texts; whether four wrong characters can cancel in the checksum depends on the algebra of the code, not on samples", "anchors": ["3rdparty/bech32/bech32.cpp: Encode, Decode, PolyMod, CreateChecksum, VerifyChecksum", "3rdparty/bech32/util/strencodings.h: ConvertBits", "src/uhs/client/client.cpp: address::decode", "src/uhs/client/client-cli.cpp: newaddress_command"]}
{"id": "C91", "title": "The command line client pays what was typed to whom was typed", "statement": "A send, fan or mint command asks the client for exactly the amounts that were typed, to the key of the address that was typed; anything else that is typed is refused with a message. importinput takes what send printed, and confirmtx the ID of the transaction.", "quantifier": "every argument vector", "why_tests_cant": "amounts and addresses are arbitrary texts; conversions truncate or stop early for some of them only", "anchors": ["src/uhs/client/client-cli.cpp: main, mint_command, send_command, fan_command, importinput_command, confirmtx_command"]}
{"id": "C92", "title": "The options of the PArSEC programs configure the deployment they describe", "statement": "Every deployment (ticket machines, shards with their nodes, agents, identity of the process, runner, log level) can be given to the PArSEC programs as --name=value options, in any order, and is configured exactly so. Whatever is accepted, each part is what its option says or the documented default, and options that cannot be understood are refused.", "quantifier": "every argument vector, every deployment of any size", "why_tests_cant": "names are concatenated from numbers, so whether two parts share a name depends on the size of the deployment; arguments are arbitrary texts", "anchors": ["src/parsec/util.cpp: split, parse_args, read_endpoints, read_cluster_endpoints, read_config", "src/parsec/util.hpp: config"]}
{"id": "C93", "title": "Writing and reading one key through a broker", "statement": "put_row tells its caller exactly one outcome once the broker has dealt with its calls; success is reported only after the value was locked for, committed and finished under a ticket the broker gave, failure only if nothing was written, and no ticket is left behind. get_row returns the value the key was locked with, or why that failed, always returns when the broker has dealt with its calls, and its behaviour is defined however late the broker answers.", "quantifier": "every behaviour of the broker: every answer, refusal, order and delay, on any thread", "why_tests_cant": "the tests use a broker in the same process that answers at once; whether callbacks outlive the objects they refer to depends on the schedule", "anchors": ["src/parsec/util.cpp: put_row, get_row", "src/parsec/agent/runners/evm/util.cpp: mint_initial_accounts"]}
{"id": "C94", "title": "Calls through the HTTP client for JSON-RPC", "statement": "Every call made through the HTTP client is answered exactly once, at the latest when the client is destroyed; the result is the body of the response to that very call, and is present only if the server reported success; a call sends its request once, to one of the endpoints of the client, and calls are spread over the endpoints.", "quantifier": "every sequence of calls, deliveries of data in any pieces, HTTP codes, transport failures, failures of libcurl and calls made from callbacks", "why_tests_cant": "the tests use one well-behaved local server; broken-off responses, repeated failures and the reuse of handles depend on the network and on the order of events", "anchors": ["src/util/rpc/http/json_rpc_http_client.cpp: call, pump, write_data, ~json_rpc_http_client", "src/util/rpc/http/json_rpc_http_client.hpp: transfer"]}
{"id": "C95", "title": "The payment contract of PArSEC moves money and makes none", "statement": "A payment through the Lua payment contract succeeds exactly if the payer signed it, has the money and has not used up its sequence number; it takes the value from the payer, gives it to the payee and changes no other account; no sequence of payments makes or loses money or lets a request succeed twice; the wallet of the benchmark asks for the payment it was told to make and afterwards knows its account.", "quantifier": "every request, every contents of the accounts, every sequence of requests, every signature scheme and hash function", "why_tests_cant": "the conservation of money and the protection against replay quantify over all histories of payments and all 64-bit values; the tests run a few payments of small values", "anchors": ["scripts/gen_bytecode.lua: gen_bytecode, pay_contract", "tools/bench/parsec/lua/wallet.cpp: account_wallet::pay, make_pay_params, update_balance, execute_params", "src/parsec/agent/runners/lua/impl.cpp: check_sig"]}
{"id": "C96", "title": "Contracts that run at the same time behave as if run one after the other", "statement": "What a PArSEC shard holds after any number of Lua contracts ran at the same time, some of them wounded, rolled back and begun again, is what the contracts of the committed tickets leave when run one after the other in the order of their commits; so payments at the same time make no money, lose none, and a signed payment is carried out at most once however often it is submitted.", "quantifier": "every contract, every number of tickets, every order of lock, prepare, commit, rollback and finish requests, every initial contents", "why_tests_cant": "the interleavings of lock requests, wounds and commits of many tickets cannot be enumerated; a lost update or a stale read shows only in particular ones", "anchors": ["src/parsec/runtime_locking_shard/impl.cpp: try_lock, prepare, commit, rollback, finish", "src/parsec/agent/runners/lua/impl.cpp: schedule_contract, handle_try_lock, contract_epilogue", "scripts/gen_bytecode.lua: pay_contract"]}
{"id": "C97", "title": "Random numbers come from the seed, differ between seeds and stay secret", "statement": "The source of random numbers that makes wallet keys and transaction ids reads a seed of 32 bytes and from then on gives a stream determined by it; two different seeds give different streams unless the hash function has a collision; every hash it makes uses 32 numbers of its own; it does not start without a full seed; and whoever has seen some of its numbers cannot tell the next ones.", "quantifier": "every seed file, every number of calls, every position in the stream, every implementation of the compression function", "why_tests_cant": "a test sees a few numbers of one seed; the stream, its dependence on the seed and whether it can be predicted are statements about all seeds and all positions", "anchors": ["src/util/common/random_source.cpp: random_source, operator(), random_hash, hash_at_index", "3rdparty/crypto/sha256.cpp: CSHA256::Write, Finalize, Transform"]}
{"id": "C98", "title": "The hash function is SHA-256", "statement": "The hash the system takes of transactions, outputs, keys and messages is the SHA-256 digest that FIPS 180-4 defines, for messages of every length and however they are handed over in pieces; two different messages have the same hash only if the compression function has a collision.", "quantifier": "every message, every way to cut it into pieces, every state and block", "why_tests_cant": "the self-test and the test vectors are a few messages; the lengths at which padding and buffering change behaviour, the ways to cut a message and the values of the words are unbounded or too many", "anchors": ["3rdparty/crypto/sha256.cpp: CSHA256::Write, Finalize, sha256::Transform, Round", "src/util/common/hash.cpp: hash_data"]}
{"id": "C99", "title": "Keys are placed by SipHash-2-4", "statement": "The hash by which the directory assigns a key to a shard and by which tables are keyed is SipHash-2-4 of the key's bytes, for keys of every length and however they are handed over in pieces, so that all processes look for a key at the same shard; and nobody can choose IDs that all fall into one bucket of a table.", "quantifier": "every key of the hash, every sequence of writes, every number of shards, every set of IDs", "why_tests_cant": "keys have any length and may be written in any pieces, the byte count wraps at 256; a test sees a few keys and no adversary", "anchors": ["3rdparty/crypto/siphash.cpp: CSipHasher", "src/util/common/hashmap.hpp: const_sip_hash", "src/util/common/hashmap.cpp: null", "src/parsec/directory/impl.cpp: key_location"]}
