{"id": "C01", "title": "Fixed (consensus) codec round-trips", "statement": "For every Hash, UserAddress, ContractAddress, Address, Asset, Fee, Account, RawTransaction and SignedTransaction (whose action is not Approve), Proof, Validator, EpochHeader, Epoch, Pill, EpochId, Receipt and ReceiptResult (not Approve) and every Genesis record, decode_fixed(encode_fixed(v)) returns exactly v.", "quantifier": "all values of every fixed-codec type, all vector lengths and map sizes, all byte contents (encodings shorter than 2^64 bytes)", "why_tests_cant": "the value space is infinite (unbounded vectors, maps, big integers); the repo's tests sample one random value per type", "anchors": ["protocol/src/fixed_codec/*.rs: encode_fixed, decode_fixed", "rlp 0.4 crate semantics"]}
{"id": "C02", "title": "Transaction hash binds the transaction content", "statement": "If two raw transactions (transfer, deploy or call) have the same hash digest(encode_fixed(raw)) then they are equal, or their two encodings are distinct byte strings with the same digest (an explicit collision of the hash function). Distinct transactions never have the same encoding.", "quantifier": "all pairs of raw transactions, all digest functions", "why_tests_cant": "a statement about all pairs of values", "anchors": ["protocol/src/fixed_codec/transaction.rs: RawTransaction::rlp_append", "core/mempool/src/adapter/mod.rs: check_transaction", "core/api/src/lib.rs: send_unsafe_*"]}
{"id": "C03", "title": "Approve transactions have distinct, decodable encodings", "statement": "Two different Approve transactions have different encodings (hence different hashes) and an encoded Approve transaction can be decoded again. (The code violates this: the encoder writes nothing for Approve.)", "quantifier": "all pairs of Approve transactions", "why_tests_cant": "needs a universally quantified statement or its refutation", "anchors": ["protocol/src/fixed_codec/transaction.rs: `_ => {}` arm of rlp_append", "protocol/src/fixed_codec/receipt.rs"]}
{"id": "C04", "title": "Wire (protobuf) codec round-trips", "statement": "For every value of every wire type, decode(encode(v)) = v; unknown-field tolerance aside, no field is lost, reordered or truncated. Deploy actions must keep their contract type (violated for App, Library and Native).", "quantifier": "all values of every protobuf-encoded type, all lengths", "why_tests_cant": "infinite value space; the existing tests use one value per type and never App/Library/Native deploys", "anchors": ["protocol/src/codec/*.rs", "prost 0.5 wire format"]}
{"id": "C05", "title": "Hex and address text forms", "statement": "from_hex(as_hex(x)) = x for hashes and addresses, with or without a 0x prefix and in upper or lower case; from_hex accepts a string only if it denotes exactly the right number of bytes; the address kind is determined by its first byte and user and contract addresses are disjoint.", "quantifier": "all hashes, addresses and all candidate strings", "why_tests_cant": "infinitely many strings; acceptance must be characterised exactly", "anchors": ["protocol/src/types/primitive.rs: Hash::from_hex/as_hex, Address::from_hex, UserAddress::from_bytes, ContractAddress::from_bytes, clean_0x"]}
{"id": "C06", "title": "Address derivation", "statement": "UserAddress::from_pubkey_bytes always succeeds and yields 0x10 followed by the first 20 bytes of the digest of the key; ContractAddress::from_code always succeeds, yields the magic byte of the contract type followed by the first 20 bytes of digest(code || nonce_be8), and its contract_type() is the requested one.", "quantifier": "all public keys, codes, nonces, contract types and digest functions", "why_tests_cant": "all inputs", "anchors": ["protocol/src/types/primitive.rs: from_pubkey_bytes, from_code"]}
{"id": "C07", "title": "Decoding untrusted bytes never crashes the node", "statement": "decode_fixed on arbitrary bytes returns a value or an error, never panics. (Violated by every type that contains a list; holds for the list-free types.)", "quantifier": "all byte strings", "why_tests_cant": "all adversarial inputs", "anchors": ["protocol/src/fixed_codec/*.rs: rlp::decode_list", "rlp::decode_list expect"]}
{"id": "C08", "title": "State encoding does not depend on insertion history", "statement": "The bytes stored for an account depend only on its nonce and the contents of its asset and approval maps, not on the order in which entries were inserted; keys are emitted in ascending order, each once.", "quantifier": "all insertion histories of all accounts", "why_tests_cant": "all permutations of all histories", "anchors": ["protocol/src/fixed_codec/primitive.rs: Account::rlp_append (BTreeMap iteration)"]}
{"id": "C09", "title": "One value, one accepted encoding", "statement": "Every byte string accepted by decode_fixed is the encoding of the value it decodes to. (Violated: surplus list elements are ignored, so a value has many accepted encodings.)", "quantifier": "all byte strings and values", "why_tests_cant": "a universal statement or its refutation", "anchors": ["protocol/src/fixed_codec/*.rs: decode (`if !r.is_list() && r.size() != n`)"]}
{"id": "C10", "title": "Asset conservation", "statement": "Executing any list of transactions never changes, for any asset id, the sum of the committed balances of all accounts: every transfer moves value, none creates or destroys it.", "quantifier": "all initial states, all transaction lists, all asset ids", "why_tests_cant": "must hold for every block and history", "anchors": ["core/executor/src/lib.rs: exec", "core/executor/src/native_contract/account.rs: transfer, add_balance, sub_balance"]}
{"id": "C11", "title": "Exact effect of a successful transfer; no overdraft", "statement": "A transfer succeeds exactly when the asset is registered, the sender has an entry for that asset (even for amount 0) whose balance covers the amount, and the fee cycle limit is at least 210; then the sender's balance drops and the receiver's grows by exactly the amount (net zero for a self-transfer), nothing else changes, the receipt reports the sender's balance before and after; a balance never becomes negative.", "quantifier": "all states, senders, receivers (including sender = receiver), amounts", "why_tests_cant": "all inputs including aliasing of sender and receiver", "anchors": ["core/executor/src/lib.rs: handle_transfer", "core/executor/src/native_contract/account.rs"]}
{"id": "C12", "title": "Failed transactions have no effect", "statement": "A transaction whose execution returns an error leaves balances and registered assets exactly as they were before it, and every account as it was but for its nonce (none appears or disappears, no entry is gained or lost); its receipt is Fail and reports zero cycles.", "quantifier": "all states and transactions", "why_tests_cant": "all failure points (asset check, balance check, cycles check after balances were already modified)", "anchors": ["core/executor/src/lib.rs: exec, revert", "core/executor/src/adapter/contract.rs: revert_cache"]}
{"id": "C13", "title": "Receipts match the block", "statement": "A successful exec returns exactly one receipt per transaction, in order, each carrying that transaction's hash, the executor's epoch id and the post-block state root; the response's state root is that same root; cycles charged are 210, 2100 or 0 times the price.", "quantifier": "all transaction lists", "why_tests_cant": "all block lengths and contents", "anchors": ["core/executor/src/lib.rs: exec"]}
{"id": "C14", "title": "Cycles never exceed the transaction's limit", "statement": "The cycles consumed by a transaction never exceed the limit stated in its fee.", "quantifier": "all transactions and states", "why_tests_cant": "all inputs", "anchors": ["core/executor/src/cycles.rs: consume_cycles"]}
{"id": "C15", "title": "Contract state adapter is a layered map", "statement": "For every sequence of insert/stash/revert/commit/get operations the adapter behaves as one abstract map with savepoints: get returns the latest non-reverted insert; revert forgets exactly the inserts since the last stash (or revert); commit makes exactly the stashed entries durable under the returned root; data in the cache at commit time is neither durable nor lost from view.", "quantifier": "all operation sequences, all keys and values", "why_tests_cant": "all histories", "anchors": ["core/executor/src/adapter/contract.rs", "core/executor/src/trie/mod.rs"]}
{"id": "C16", "title": "State root is deterministic", "statement": "The post-state and root computed by exec do not depend on hash-map iteration order (of the cache, of the stash, of the contract table): any two iteration orders give the same committed map and root.", "quantifier": "all iteration orders of all hash maps", "why_tests_cant": "Rust randomises HashMap order per process; a test run sees one order", "anchors": ["core/executor/src/adapter/contract.rs: stash, commit (drain)", "core/executor/src/lib.rs: stash, revert, commit"]}
{"id": "C17", "title": "Asset registration", "statement": "A deploy of an Asset contract registers a new asset under id digest(chain_id || address) with the fixed name, symbol and supply, never overwrites or alters an existing asset, fails with AssetExists if the id is taken, and costs 2100 cycles; registered assets are never removed by later blocks.", "quantifier": "all states, codes, nonces, histories", "why_tests_cant": "all histories", "anchors": ["core/executor/src/native_contract/bank.rs: register", "core/executor/src/lib.rs: handle_deploy"]}
{"id": "C18", "title": "Coinbase receives the fees", "statement": "After exec, reading the coinbase account from the committed state root shows the sum of the fees of the block credited to it. (Violated: the credit stays in the uncommitted cache.)", "quantifier": "all blocks", "why_tests_cant": "needs a refutation over the committed state, not the live executor", "anchors": ["core/executor/src/lib.rs: exec lines 114-136"]}
{"id": "C19", "title": "Nonce accounting", "statement": "After a block, the committed nonce of every account equals its previous nonce plus the number of its transactions in the block. (Violated; what holds exactly: an increment is durable iff the next transaction in the same block exists and succeeds.)", "quantifier": "all blocks and accounts", "why_tests_cant": "all interleavings of senders and failures", "anchors": ["core/executor/src/lib.rs: exec", "core/executor/src/native_contract/account.rs: inc_nonce"]}
{"id": "C20", "title": "A single transaction cannot abort a block", "statement": "exec of a block returns Ok for every list of signed transactions. (Violated: a sender without an account makes the whole exec fail; Approve, Call and non-Asset deploys panic. What holds: exec succeeds iff all actions are supported and every sender has an account when its turn ends.)", "quantifier": "all transaction lists", "why_tests_cant": "needs exact characterisation for all blocks", "anchors": ["core/executor/src/lib.rs: exec, dispatch, handle_deploy"]}
{"id": "C21", "title": "Fees are aggregated per asset", "statement": "all_cycles_used lists each fee asset exactly once in first-use order with the (u64) sum of the cycles of the receipts in that asset.", "quantifier": "all receipt lists", "why_tests_cant": "all lists", "anchors": ["core/executor/src/lib.rs: modify_all_cycles_used"]}
{"id": "C22", "title": "Genesis state is exactly the allocation", "statement": "After create_genesis, every account listed with at least one asset holds exactly the sum of its listed balances per asset, no other account exists, and exactly one asset (the system token) is registered; malformed hex or addresses make it fail.", "quantifier": "all genesis documents", "why_tests_cant": "all inputs", "anchors": ["core/executor/src/lib.rs: create_genesis"]}
{"id": "C23", "title": "Untouched accounts are unchanged", "statement": "An account that is neither sender nor receiver of any transaction of a block (nor the coinbase) has byte-identical committed state after the block.", "quantifier": "all blocks, all accounts", "why_tests_cant": "frame property over all accounts", "anchors": ["core/executor/src/lib.rs: exec"]}
{"id": "C24", "title": "A committed state root can be reopened", "statement": "Opening an executor at the root returned by exec or create_genesis shows exactly the balances and assets committed, for every later point in time, whatever is committed in between (absent hash collisions).", "quantifier": "all histories of commits", "why_tests_cant": "all histories", "anchors": ["core/executor/src/lib.rs: from_root, gen_contract_state, commit"]}
{"id": "C25", "title": "Fees are paid by the sender", "statement": "A successful transaction's fee is deducted from the sender. (Violated: no code path debits the fee.)", "quantifier": "all transactions", "why_tests_cant": "universal / refutation", "anchors": ["core/executor/src/lib.rs: exec"]}
{"id": "C30", "title": "Insert accepts exactly new transactions within capacity", "statement": "Inserting a transaction succeeds iff the pool holds fewer than pool_size transactions and does not already contain that hash; on success it is retrievable and counted once; on failure the pool is unchanged.", "quantifier": "all reachable pools, all transactions", "why_tests_cant": "all histories", "anchors": ["core/mempool/src/tx_cache.rs: insert_new_tx", "core/mempool/src/lib.rs: insert"]}
{"id": "C31", "title": "Pool size bound", "statement": "The number of pooled transactions never exceeds pool_size through the insert API. (insert_propose_tx bypasses the bound: refuted for the sync path.)", "quantifier": "all operation sequences", "why_tests_cant": "all histories", "anchors": ["core/mempool/src/tx_cache.rs: check_pool, insert_propose_tx"]}
{"id": "C32", "title": "Packaging respects first-in first-out", "statement": "The order list returned by package is exactly the longest prefix, in insertion order, of the live unexpired transactions whose cumulative cycles stay within the limit; no later transaction overtakes an earlier live one.", "quantifier": "all pools, epochs and limits", "why_tests_cant": "all queue contents", "anchors": ["core/mempool/src/tx_cache.rs: package"]}
{"id": "C33", "title": "Packaging respects the cycles limit", "statement": "The sum of the cycles of the returned order list never exceeds the limit. (Violated when the u64 sum wraps.)", "quantifier": "all pools and limits", "why_tests_cant": "overflow needs arithmetic reasoning over the full range", "anchors": ["core/mempool/src/tx_cache.rs: package (cycle_count += ...)"]}
{"id": "C34", "title": "Packaged lists have no duplicates and are disjoint", "statement": "In any reachable pool the order and propose lists contain no hash twice and share none.", "quantifier": "all histories", "why_tests_cant": "all histories", "anchors": ["core/mempool/src/tx_cache.rs: package"]}
{"id": "C35", "title": "Expired and flushed transactions are never packaged", "statement": "No transaction whose timeout is at or below the packaging epoch, and no flushed transaction, appears in a package result; expired transactions leave the pool.", "quantifier": "all histories, epochs", "why_tests_cant": "all histories", "anchors": ["core/mempool/src/tx_cache.rs: package, flush"]}
{"id": "C36", "title": "Packaging loses no live transaction", "statement": "Every live unexpired transaction in the pool before package is still in the pool after it and can be packaged later, in the same relative order (sequential use, queues not full).", "quantifier": "all pools", "why_tests_cant": "all histories", "anchors": ["core/mempool/src/tx_cache.rs: package, process_omission"]}
{"id": "C37", "title": "Flush removes exactly the given transactions", "statement": "After flush(hashes) no given hash is contained in the pool, every other transaction remains.", "quantifier": "all pools and hash lists", "why_tests_cant": "all histories", "anchors": ["core/mempool/src/tx_cache.rs: flush", "core/mempool/src/lib.rs: flush"]}
{"id": "C38", "title": "get_full_txs returns the requested transactions in order", "statement": "get_full_txs(hashes) returns Ok only with a list of the same length whose i-th element was stored under the i-th hash; it fails iff some hash is unknown.", "quantifier": "all pools, all hash lists", "why_tests_cant": "all inputs", "anchors": ["core/mempool/src/lib.rs: get_full_txs"]}
{"id": "C39", "title": "Order transactions are complete before voting", "statement": "After ensure_order_txs(hashes) returns Ok, get_full_txs(hashes) succeeds until the next flush.", "quantifier": "all pools, hash lists and peer answers", "why_tests_cant": "all peer behaviours", "anchors": ["core/mempool/src/lib.rs: ensure_order_txs"]}
{"id": "C40", "title": "Pulled transactions are authentic", "statement": "Every transaction returned by get_full_txs carries the hash it is requested under and passed the signature/hash checks. (Violated on the pull path: only the number of returned transactions is checked.)", "quantifier": "all peer answers", "why_tests_cant": "adversarial peers", "anchors": ["core/mempool/src/lib.rs: ensure_order_txs, sync_propose_txs", "core/mempool/src/adapter/mod.rs: pull_txs"]}
{"id": "C41", "title": "Admission check", "statement": "check_transaction accepts iff the hash is the digest of the encoded raw transaction, the signature verifies for the key, the chain id and gap match and latest <= timeout <= latest + gap; otherwise it returns the first failing check's error.", "quantifier": "all transactions, chain heights, gaps", "why_tests_cant": "boundary behaviour for all u64", "anchors": ["core/mempool/src/adapter/mod.rs: check_transaction"]}
{"id": "C42", "title": "Concurrent insertion and packaging", "statement": "Under every interleaving of atomic steps of concurrent inserts with packaging, no accepted transaction is lost or packaged twice in one package, and no inserter observes success without its transaction ending in the pool.", "quantifier": "all schedules, all numbers of threads", "why_tests_cant": "schedules cannot be enumerated by tests", "anchors": ["core/mempool/src/tx_cache.rs: insert, package, process_omission, concurrent_count"]}
{"id": "C43", "title": "Sharded map behaves as one map", "statement": "The 16-way sharded map answers every sequence of insert/contains/get/remove/clear like a single map; len is the number of distinct keys.", "quantifier": "all operation sequences, all keys", "why_tests_cant": "all histories", "anchors": ["core/mempool/src/map.rs"]}
{"id": "C44", "title": "Transaction broadcast batching", "statement": "Every transaction handed to the broadcaster is sent exactly once, in order, in batches of at most broadcast_txs_size, and is sent at the latest at the next interval tick.", "quantifier": "all arrival sequences and tick schedules", "why_tests_cant": "all schedules", "anchors": ["core/mempool/src/adapter/mod.rs: IntervalTxsBroadcaster"]}
{"id": "C45", "title": "Liveness of the pool head", "statement": "A transaction whose own cycles exceed the block limit cannot block others from being packaged. (Violated: head-of-line blocking.)", "quantifier": "all pools", "why_tests_cant": "universal / refutation", "anchors": ["core/mempool/src/tx_cache.rs: package"]}
{"id": "C46", "title": "Proposed transactions are not re-proposed", "statement": "A transaction already marked proposed is not listed for propose again. (Violated at the order/propose boundary.)", "quantifier": "all pools", "why_tests_cant": "universal / refutation", "anchors": ["core/mempool/src/tx_cache.rs: package"]}
{"id": "C47", "title": "Exactly the node's own new transactions are broadcast", "statement": "A transaction is handed to the broadcaster iff an insert call newly pooled it and the call did not originate from the network; nothing else is, and in the order of acceptance.", "quantifier": "all operation histories, all transactions and origins", "why_tests_cant": "Depends on every accept/reject path of insert in every reachable pool state.", "anchors": ["core/mempool/src/lib.rs::HashMemPool::insert", "core/mempool/src/adapter/mod.rs::broadcast_tx"]}
{"id": "C50", "title": "Storage reads return the last write", "statement": "Each get returns the most recent value written under that key by any earlier operation, for transactions, receipts, epochs (by id and by hash), the latest epoch and the latest proof, independently of interleaved writes to other schemas (RocksDB adapter).", "quantifier": "all operation histories", "why_tests_cant": "all histories", "anchors": ["core/storage/src/lib.rs", "core/storage/src/adapter/rocks.rs"]}
{"id": "C51", "title": "Keys of different schemas never collide", "statement": "Writing one schema never changes what another schema reads. (True for the column-family adapter; violated for the in-memory adapter, which shares one map.)", "quantifier": "all pairs of schemas and keys", "why_tests_cant": "all keys", "anchors": ["core/storage/src/lib.rs: impl_storage_schema_for!", "core/storage/src/adapter/memory.rs"]}
{"id": "C52", "title": "Batch reads", "statement": "get_transactions/get_receipts return the stored values for the requested hashes in request order, omitting exactly the missing ones.", "quantifier": "all hash lists", "why_tests_cant": "all inputs", "anchors": ["core/storage/src/lib.rs: get_transactions, get_receipts", "core/storage/src/adapter/*.rs: get_batch"]}
{"id": "C53", "title": "Parent lookup by hash", "statement": "get_epoch_by_hash(header.pre_hash) finds the parent epoch. (Violated: the index uses a different encoding than pre_hash.)", "quantifier": "all chains", "why_tests_cant": "universal / refutation", "anchors": ["core/storage/src/lib.rs: insert_epoch, get_epoch_by_hash", "core/consensus/src/engine.rs"]}
{"id": "C60", "title": "Committing extends the chain by one linked epoch", "statement": "A commit for epoch n+1 on a node at epoch n stores the epoch, its transactions and receipts, sets the node's current epoch id to n+1 and prev hash to the hash of the committed epoch; the next proposed epoch links to it.", "quantifier": "all histories of commits", "why_tests_cant": "all histories", "anchors": ["core/consensus/src/engine.rs: commit, get_epoch, update_status"]}
{"id": "C61", "title": "Crash-safe commit order", "statement": "At every crash point during commit, the stored latest epoch has all its transactions and receipts stored, and the latest proof's epoch id is the latest epoch's id or one more.", "quantifier": "all crash points, all histories", "why_tests_cant": "crash points between any two writes", "anchors": ["core/consensus/src/engine.rs: commit, save", "core/consensus/src/adapter.rs"]}
{"id": "C62", "title": "Restart resumes from the post-state of the latest epoch", "statement": "After a restart, execution continues from the state root produced by the latest committed epoch. (Violated: it restarts from the header's pre-state root.)", "quantifier": "all histories", "why_tests_cant": "universal / refutation", "anchors": ["src/main.rs: start", "core/consensus/src/engine.rs"]}
{"id": "C63", "title": "Synchronisation only accepts hash-linked epochs", "statement": "update_epoch applies a fetched epoch only if the previously fetched epoch is the digest preimage of its pre_hash; otherwise it stops with an error and applies nothing further.", "quantifier": "all peer answers", "why_tests_cant": "adversarial peers", "anchors": ["core/consensus/src/consensus.rs: update_epoch"]}
{"id": "C64", "title": "A proposal is voted for only if checked", "statement": "check_epoch of a received proposal validates header, proof and transactions. (Violated: header and proof are not checked.)", "quantifier": "all proposals", "why_tests_cant": "universal / refutation", "anchors": ["core/consensus/src/engine.rs: check_epoch"]}
{"id": "C65", "title": "Authority list", "statement": "The authority list handed to the consensus engine is sorted by address, has one entry per validator and preserves weights, independent of validator order in the header.", "quantifier": "all validator lists", "why_tests_cant": "all permutations", "anchors": ["core/consensus/src/engine.rs", "core/consensus/src/consensus.rs"]}
{"id": "C66", "title": "Consensus message codecs", "statement": "Consensus-level messages (FixedPill, FixedSignedTxs, FixedEpochID, RPC responses, ...) round-trip.", "quantifier": "all messages", "why_tests_cant": "all values", "anchors": ["core/consensus/src/fixed_types.rs", "core/consensus/src/message.rs"]}
{"id": "C48", "title": "A peer's pull of transactions is answered", "statement": "A request for transactions sent by a node reaches a handler that decodes it and answers. (Violated: the handler registered for that endpoint decodes another message type.)", "quantifier": "all non-empty hash lists", "why_tests_cant": "universal / refutation", "anchors": ["src/main.rs: registrations", "core/mempool/src/adapter/message.rs: NewTxsHandler, PullTxsHandler"]}
{"id": "C67", "title": "A committed transaction is not accepted again", "statement": "Inserting a transaction that is in a stored epoch is refused. (Violated while the epoch is being committed: the pool is flushed before the transactions are stored.)", "quantifier": "all histories, crash points and interleavings of inserts with commits", "why_tests_cant": "all histories and interleavings", "anchors": ["core/consensus/src/engine.rs: commit", "core/mempool/src/lib.rs: insert"]}
{"id": "C68", "title": "The order root commits to the ordered transactions", "statement": "Two lists of transaction hashes with the same order root are equal (up to digest collisions). (Holds for lists of equal length; violated in general because leaves and inner nodes are not told apart.)", "quantifier": "all lists of hashes", "why_tests_cant": "all lists", "anchors": ["common/merkle/src/lib.rs: Merkle", "core/consensus/src/engine.rs: get_epoch"]}
{"id": "C69", "title": "Synchronisation continues from the node's state and only moves forward", "statement": "A node that synchronises executes the first pulled epoch on the state after its latest epoch, and hands the engine a number past its latest epoch. (Violated: a new node uses the empty state and can execute no transaction, a node with history uses the state before its latest epoch, and an announcement of epoch 1 resets the engine to epoch 1.)", "quantifier": "all histories and peer messages", "why_tests_cant": "adversarial peers, all histories", "anchors": ["core/consensus/src/consensus.rs: update_epoch"]}
{"id": "C70", "title": "RPC responses reach exactly their caller", "statement": "A response completes the pending call with the same session and id, at most once; a response from another session or with an unknown id completes nothing; ids are unique among outstanding calls.", "quantifier": "all interleavings of calls and responses from all peers", "why_tests_cant": "all schedules and adversarial peers", "anchors": ["core/network/src/rpc_map.rs", "core/network/src/outbound/rpc.rs", "core/network/src/reactor/mod.rs"]}
{"id": "C71", "title": "Endpoint parsing", "statement": "An endpoint string is accepted iff it is 1..120 bytes long, starts with a known scheme and has 3 or 4 non-empty components; equality is equality of the first three components; the rpc id of an extended endpoint is the id it was extended with.", "quantifier": "all strings, all ids", "why_tests_cant": "all strings", "anchors": ["core/network/src/endpoint.rs"]}
{"id": "C72", "title": "Message routing", "statement": "A received message is delivered to the reactor registered for the endpoint with the same first three components, at most once, and to no other; unparsable messages are dropped without effect.", "quantifier": "all registrations and messages", "why_tests_cant": "all inputs", "anchors": ["core/network/src/reactor/router.rs", "core/network/src/reactor/mod.rs"]}
{"id": "C73", "title": "Network envelope round-trip", "statement": "A gossip or rpc message sent is received with identical url and content (given a lossless compressor).", "quantifier": "all messages", "why_tests_cant": "all values", "anchors": ["core/network/src/message/mod.rs", "core/network/src/outbound/*.rs"]}
{"id": "C74", "title": "Session tables stay consistent", "statement": "In every reachable peer-manager state, a peer's recorded session maps back to that peer, a connected peer is not also connecting, and users are routed to the session of the peer owning that address.", "quantifier": "all event sequences", "why_tests_cant": "all histories of network events", "anchors": ["core/network/src/peer_manager/mod.rs: process_event"]}
{"id": "C75", "title": "users_cast delivers or reports", "statement": "For every multi-user send, each addressed user is either sent to on its session or reported as missed, never both, none is dropped.", "quantifier": "all peer-manager states and user lists", "why_tests_cant": "all states", "anchors": ["core/network/src/peer_manager/mod.rs: route_multi_users_message", "core/network/src/connection/control.rs"]}
{"id": "C76", "title": "Failed dials are retried", "statement": "A known peer or discovered address whose dial timed out becomes a dial candidate again after its back-off. (Violated: `connecting` is not cleared; unknown addresses are dropped after one failure.)", "quantifier": "all event sequences", "why_tests_cant": "universal / refutation over histories", "anchors": ["core/network/src/peer_manager/mod.rs: ReconnectLater, reach_max_retry"]}
{"id": "C77", "title": "Bootstrap peers are never forgotten", "statement": "No event sequence removes a bootstrap peer from the peer pool (only the connection to it).", "quantifier": "all event sequences", "why_tests_cant": "all histories", "anchors": ["core/network/src/peer_manager/mod.rs: cleanly_remove_peer"]}
{"id": "C78", "title": "Connection slots", "statement": "The routine never requests more peers than the configured free slots.", "quantifier": "all peer-manager states", "why_tests_cant": "all states", "anchors": ["core/network/src/peer_manager/mod.rs: poll, unconnected_addrs"]}
{"id": "C79", "title": "Connection commands are not lost or reordered while the transport is busy", "statement": "Every connection command is eventually handed to the transport or retained as pending, in order, unless the transport is closed.", "quantifier": "all sequences of busy/ok answers", "why_tests_cant": "all schedules", "anchors": ["core/network/src/connection/mod.rs: process_event, poll"]}
{"id": "C54", "title": "Wire decoding is total", "statement": "Decoding arbitrary bytes received from a peer or read from disk returns a value or an error; it never panics. (Violated by the messages that carry a bloom filter.)", "quantifier": "all byte strings", "why_tests_cant": "all inputs", "anchors": ["protocol/src/codec/*.rs: TryFrom impls, decode_sync"]}
{"id": "C55", "title": "Epoch tables survive a crash at any write", "statement": "If the process stops between any two database writes of any history of storage operations, then in what remains the latest epoch can be read by its own id and every hash index entry leads to a stored epoch.", "quantifier": "all histories and crash points", "why_tests_cant": "all histories and crash points", "anchors": ["core/storage/src/lib.rs: insert_epoch", "core/storage/src/adapter/rocks.rs"]}
{"id": "C56", "title": "A storage schema behaves as a map", "statement": "For every sequence of insert, remove and batch_modify on one schema of either adapter, get and contains answer as a finite map would; a batch whose key and value lists differ in length is refused and changes nothing.", "quantifier": "all operation sequences, both adapters", "why_tests_cant": "all sequences", "anchors": ["core/storage/src/adapter/memory.rs", "core/storage/src/adapter/rocks.rs", "protocol/src/traits/storage.rs"]}
{"id": "C80", "title": "API conversions are faithful", "statement": "A transaction submitted through the API reaches the mempool with exactly the fields given, in any letter case and with or without the 0x prefix; a request with a field that is not hexadecimal of the right size is refused and nothing is submitted; the sign-for-me mutations submit the transaction with the digest of its own encoding and the key's signature; values returned by the API parse back to the stored values. (Violated for the Unicode ligature U+FB00, accepted as the digits FF.)", "quantifier": "all request strings, all stored values, all mempool answers", "why_tests_cant": "all strings", "anchors": ["core/api/src/lib.rs", "core/api/src/schema/*.rs"]}
{"id": "C81", "title": "API balance reflects the requested epoch", "statement": "getBalance at epoch n returns the balance after epoch n. (Violated: it returns the state before epoch n; errors become zero.)", "quantifier": "all chains, accounts", "why_tests_cant": "universal / refutation", "anchors": ["core/api/src/adapter/mod.rs: get_balance", "core/api/src/lib.rs"]}
{"id": "C82", "title": "The node's endpoints are wired to the right handlers", "statement": "Every endpoint the node registers at start-up is well-formed and distinct from the others, so registration succeeds; what a node gossips (transactions, proposals, aggregated votes, votes, heights) runs on every other node the handler meant for it with the value sent; and a peer's request on each request endpoint is answered, as synchronisation requests are. (Violated for transaction pulls: the handler registered for pull requests is the one for new-transaction gossip, which never responds.)", "quantifier": "all registrations of start-up; all pull requests", "why_tests_cant": "universal over requests", "anchors": ["src/main.rs: start", "core/mempool/src/adapter/message.rs: NewTxsHandler, PullTxsHandler", "core/network/src/endpoint.rs"]}
{"id": "C83", "title": "A peer the manager gives up on is disconnected", "statement": "When the manager drops a peer (told to remove it, told its session is broken, or after its sixth counted failure) the connection to it is closed. (Violated: the peer is only erased from the tables, no disconnect command is issued; earlier failures do disconnect.)", "quantifier": "all states and events; refutation for every state", "why_tests_cant": "universal / refutation over all states", "anchors": ["core/network/src/peer_manager/mod.rs: cleanly_remove_peer, process_event"]}
{"id": "C84", "title": "Back-off of failing peers", "statement": "A peer's k-th counted failure delays its next dial by 5^k seconds, no routine dials it earlier, and the count never exceeds five. (Violated for bootstraps at the sixth failure: meant to fall back to the second delay, they get the sixth, over four hours.)", "quantifier": "all histories and clocks", "why_tests_cant": "all histories", "anchors": ["core/network/src/peer_manager/peer.rs: increase_retry, retry_ready", "core/network/src/peer_manager/mod.rs: increase_peer_retry, cleanly_remove_peer"]}
{"id": "C85", "title": "Known peers survive a restart", "statement": "With persistence on, every known peer is known after a restart with the same key and addresses and no failures, and no other peer appears. (Violated for bootstrap peers, whose learned addresses are overwritten.)", "quantifier": "all histories before the restart", "why_tests_cant": "all histories", "anchors": ["core/network/src/peer_manager/mod.rs: package_peers, insert_peers, bootstrap, load_peers", "core/network/src/peer_manager/persist.rs"]}
{"id": "C86", "title": "Recorded sessions are the transport's", "statement": "The session the node records for a peer was opened by the holder of that peer's key and is open, or the report of its close is waiting; the report of a close never reaches the node while it records another session of that peer; a routed message goes, for each addressee, to a session authenticated by the addressee's own key, or the addressee is reported missed. An open session is used. (The last is violated: once the node has forgotten an open session, for instance after a protocol error on it, no later history recovers it while it stays open.)", "quantifier": "all interleavings of transport reports, routing requests, event processing and routine runs", "why_tests_cant": "all histories and schedules", "anchors": ["core/network/src/connection/keeper.rs: handle_error, handle_event", "core/network/src/peer_manager/mod.rs", "core/network/src/protocols/ping.rs", "core/network/src/peer_manager/disc.rs, ident.rs"]}
{"id": "C87", "title": "The connection limit is enforced", "statement": "The node never has more than max_connections connections. (Violated: the limit only restrains its own dials; any number of inbound sessions is accepted, recorded and never told to close.)", "quantifier": "all numbers of peers, all limits", "why_tests_cant": "refutation for every number", "anchors": ["core/network/src/peer_manager/mod.rs: attach_peer_session, poll", "core/network/src/connection/keeper.rs: handle_event"]}
{"id": "C88", "title": "Addresses come from somewhere and failures go to their owner", "statement": "Every address the node dials or hands to other peers was configured, loaded from its peer file or told to it. A failure to reach an address counts against the peer dialled there. (The second is violated: any other known peer that announces the same address takes the failure over.)", "quantifier": "all histories of reports; all states", "why_tests_cant": "all histories", "anchors": ["core/network/src/peer_manager/mod.rs: add_peer_addr, match_pid, try_remove_addr, random_addrs, process_event", "core/network/src/peer_manager/disc.rs, ident.rs"]}
{"id": "C89", "title": "Catching up from an honest peer copies its chain", "statement": "A node two or more epochs behind a peer that stores a linked chain with its transactions starts synchronising when that peer announces itself; wherever it stops, fails or crashes, the epochs and transactions it has added are a prefix of the peer's, read back equal, its latest epoch is the last of them and nothing else changed; if no execution fails it ends with the peer's latest epoch and tells the consensus engine the next number. Only a failing execution can stop it. Every node with a well-behaved history is such a peer. The peer need not stand still: it may commit, synchronise, crash and restart between its answers, and as long as its own chain is only extended and the transactions in it keep their bytes, the node copies the same. A node one epoch behind ignores the announcement.", "quantifier": "all peers' chains, nodes, distances, crash points", "why_tests_cant": "all chains of any length, all crash points of the copying node, two nodes at once", "anchors": ["core/consensus/src/consensus.rs: update_epoch", "core/consensus/src/adapter.rs: pull_epoch, pull_txs", "core/consensus/src/message.rs: RpcHandler::process", "core/consensus/src/fixed_types.rs"]}
{"id": "C90", "title": "No money appears or disappears", "statement": "Over the whole life of a node -- whatever is committed, whatever peers send, with crashes and restarts anywhere -- every state root that can be opened on its disk opens either the whole ledger (for each asset the balances add up to exactly what the genesis allocated; the system token is registered) or an empty one; so no balance the API reports, at any epoch, exceeds the total allocation of that asset. While the node does not synchronise and commits headers carrying its own state root, its latest epoch's state and the one its next block is executed on open as the whole ledger.", "quantifier": "all histories of a node: engine calls, client calls, peer messages, crash points, iteration orders; all state roots, assets and accounts", "why_tests_cant": "all histories of any length", "anchors": ["core/executor/src/executor.rs: exec, create_genesis, from_root, get_balance", "core/executor/src/state_adapter.rs", "core/consensus/src/consensus.rs: commit, update_epoch", "core/consensus/src/adapter.rs: execute", "src/main.rs: create_genesis", "core/api/src/adapter/mod.rs: get_balance"]}
{"id": "C91", "title": "Nodes given the same blocks agree", "statement": "Two nodes of one chain -- with different addresses, pool sizes, block limits, intervals, validator lists and iteration orders of their maps, and different client and peer traffic -- that hand the same blocks to their executors agree: on the next epoch number, previous hash, roots and proof of the next header, on every stored epoch, transaction and receipt, and on every state. Nodes that commit the same epochs agree. (The second is violated: an epoch orders transaction hashes, the hash does not cover who signed, and each node executes the signed transaction its own pool holds.)", "quantifier": "all pairs of histories from genesis without restarts or synchronisation; all configurations with the same chain id, genesis and cycles price", "why_tests_cant": "all pairs of histories of any length, all iteration orders", "anchors": ["core/consensus/src/engine.rs: commit", "core/consensus/src/consensus.rs", "core/consensus/src/adapter.rs: execute, save_*", "core/executor/src/executor.rs", "core/mempool/src/lib.rs: get_full_txs", "src/main.rs: create_genesis"]}
{"id": "C92", "title": "The hash of a transaction identifies its sender", "statement": "Two admitted transactions with the same hash have the same sender. (Violated: the hash covers the raw transaction only, so anyone can sign somebody else's raw transaction with a key of their own: it has the same hash, passes every admission check the original passes and, once pooled, keeps the original out.)", "quantifier": "all transactions, keys, pools and pool histories", "why_tests_cant": "all histories of the pool", "anchors": ["core/mempool/src/adapter/mod.rs: check_signature, check_transaction", "core/mempool/src/lib.rs: insert_tx", "protocol/src/types/transaction.rs: SignedTransaction"]}
{"id": "C94", "title": "A node can always go on from what it has stored", "statement": "Whatever a node has stored, it can be restarted and go on: it can commit a block or apply an epoch from a peer. (Violated: synchronising stores the peer's header, whose state root the node itself need not hold; from then on nothing opens the state, every execution fails, and no restart, engine call, client call or peer message ever changes the chain again. A node catching up with an honest peer gets there.)", "quantifier": "all disks, all histories of calls, messages, crashes and restarts from them", "why_tests_cant": "all histories of any length from the stuck disk", "anchors": ["core/consensus/src/consensus.rs: update_epoch, commit", "core/consensus/src/adapter.rs: execute, save_epoch", "core/executor/src/executor.rs: from_root", "src/main.rs: start"]}
{"id": "C93", "title": "A commit that fails can be made again", "statement": "When a commit fails, nothing is lost: the engine can commit the same epoch again, and no single client can make a commit fail. (Violated: a failed commit leaves status and chain as they were, but the pool has dropped the epoch's transactions, the latest proof is already the failed epoch's, and the same commit fails from then on, also after a restart. A client without an account whose transaction an idle node with an empty pool accepts makes the node's next proposal, and so its commit, fail.)", "quantifier": "all nodes, commits and iteration orders; all histories, transactions and senders without accounts", "why_tests_cant": "all commits, all histories", "anchors": ["core/consensus/src/engine.rs: commit, get_epoch", "core/executor/src/executor.rs: exec, inc_nonce", "core/mempool/src/lib.rs: insert, package, flush, get_full_txs"]}
{"id": "C95", "title": "A node's own proposals go through", "statement": "A running node that knows its latest epoch can always propose at its number; the proposal names distinct, unexpired transactions of its pool and carries the node's number, previous hash and state root; checking it gives exactly these transactions and an idle node accepts its commit. A commit under way whose transactions are transfers or asset deployments from accounts that exist always completes: the epoch is the latest, its transactions and receipts can be read, the number goes up by one and the engine is told.", "quantifier": "all histories with crashes and restarts; completion: histories without synchronisation, with headers carrying the node's own state root; all iteration orders", "why_tests_cant": "all histories of any length, all pools", "anchors": ["core/consensus/src/engine.rs: get_epoch, check_epoch, commit", "core/mempool/src/lib.rs", "core/executor/src/executor.rs: exec", "core/consensus/src/adapter.rs"]}
{"id": "C97", "title": "Votes and proofs are authenticated", "statement": "A vote a node signs is accepted by every node as a vote of the address of its public key, and a vote is accepted as an address's only if it carries a valid signature under a public key with that address; bad votes are refused with an error; an aggregated vote and the proof of an epoch are accepted only if validators signed. (The first half holds. Violated otherwise: a signature of fewer than 33 bytes panics, aggregated signatures keep nothing of the votes or voters and every one, and every proof, is accepted.)", "quantifier": "all byte strings, hashes, keys and signature schemes that verify what they sign", "why_tests_cant": "all byte strings a peer can send", "anchors": ["core/consensus/src/util.rs: OverlordCrypto", "core/consensus/src/consensus.rs: check_proof"]}
{"id": "C96", "title": "Stored history is immutable", "statement": "Once an epoch is at or below a node's latest epoch, it is read back unchanged by its number for ever after, whatever the node does or receives, across crashes and restarts; the latest number never goes down; the epoch's transactions and receipts stay readable; and nothing about them changes. (Holds as long as what is committed or received extends the chain. Violated otherwise: a peer's epoch with an old number is written over the stored one; and the receipt of a committed transaction changes when the transaction is executed again.)", "quantifier": "all histories of commits, crashes, restarts, synchronisation and messages, and all their extensions", "why_tests_cant": "all histories and all extensions of any length, all crash points", "anchors": ["core/consensus/src/consensus.rs: update_epoch", "core/consensus/src/engine.rs: commit", "core/consensus/src/adapter.rs: save_epoch, save_receipts", "core/storage/src/lib.rs"]}
{"id": "C98", "title": "The header of a proposal sums up the epoch before it", "statement": "A proposal's header commits to the outcome of the epoch before: it carries the Merkle root of that epoch's transaction hashes, the Merkle root of the receipts the node stores for them, the state root those receipts name, the proof the epoch was committed with, the hash of the epoch, and the cycles and logs it used. (All but the last holds for an epoch the running node committed, whatever is called on it in between. Violated otherwise: after a restart the roots are those of nothing and state root and proof are those of an epoch earlier; the cycles used and the logs' bloom are never updated and stay 0.)", "quantifier": "all histories of commits, crashes, restarts, synchronisation and messages, and all calls between commit and proposal", "why_tests_cant": "all histories, all interleavings of calls and all crash points", "anchors": ["core/consensus/src/engine.rs: get_epoch, commit", "core/consensus/src/engine.rs: update_status", "src/main.rs: start"]}
{"id": "C57", "title": "The file of known peers survives a crash", "statement": "The peers a node saves are the peers it loads: keys, addresses and times of every one. A crash at any point while saving leaves the peers known before or those being saved, and never makes up others. (The first part holds, and no peer is made up. Violated otherwise: the old file is truncated first and a partly written one is refused, so a crash before the last byte loses every known peer.)", "quantifier": "all lists of peers, all orders in which sets are written, all previous contents of the file and all crash points of a save", "why_tests_cant": "all peer lists and all crash points", "anchors": ["core/network/src/peer_manager/persist.rs: PeerPersistence, PeerPubKey", "core/network/src/peer_manager/peer.rs: PeerState", "core/network/src/service.rs: NetworkService::new"]}
{"id": "C58", "title": "Registering and listening take effect or fail", "statement": "When registering a message handler or a listen address succeeds it takes effect: messages for the endpoint go to the handler from then on, and the node listens on the address and tells its peers that address; otherwise the call returns an error and changes nothing. A running node listens on exactly the address it tells its peers. (Holds before the service runs. Violated otherwise: registering a handler while it runs, and every call of listen after the first that succeeded, answer success and do nothing.)", "quantifier": "all histories of registrations, listen calls with any outcome of the transport, and polls", "why_tests_cant": "all interleavings of calls and all outcomes of the transport", "anchors": ["core/network/src/service.rs: register_endpoint_handler, register_rpc_response, listen, poll", "core/network/src/reactor/router.rs: register_reactor"]}
{"id": "C59", "title": "A node runs on its configuration and on the data of its chain", "statement": "A node starts exactly when its configuration can be read, and then runs on the chain id, key, price, limit, interval, validators and pool it says; on a disk that already holds a chain it changes nothing; a configuration that is refused leaves no trace; and a disk that holds another chain is refused. (The first two hold. Violated otherwise: an unreadable validator, bootstrap key or pool size is noticed only after the genesis epoch has been written, and no later configuration or genesis replaces it; and a node configured for one chain starts on the data of another and proposes epochs of its chain that continue the other.)", "quantifier": "all configurations, genesis files and contents of the disk", "why_tests_cant": "all configuration texts and all disks", "anchors": ["src/main.rs: main, handle_init, start", "src/config.rs: Config", "core/network/src/config.rs: bootstraps, secio_keypair"]}
{"id": "C49", "title": "An accepted transaction is kept until it is committed or expires", "statement": "Once a node reports success for a submitted transaction, the transaction stays in its pool, with the same content, through any further calls (other transactions from users or peers, proposals, checks of other proposals, commits, synchronisation, whatever the other nodes answer), until the first call that commits an epoch ordering it, or that proposes an epoch when its timeout is not above the latest epoch (or is further above than the configured gap). It does not survive a restart: the pool of a node that starts is empty and nothing is sent again (refuted for crashes).", "quantifier": "every configuration, history of a node with crashes and restarts, pooled transaction, and sequence of calls after it, with any answers of peers", "why_tests_cant": "a lost transaction shows only for some interleaving of proposals, pulls and commits; a test tries a few", "anchors": ["core/mempool/src/lib.rs: insert, package, flush, sync_propose_txs, ensure_order_txs", "core/mempool/src/tx_cache.rs", "core/consensus/src/engine.rs: commit, get_epoch, check_epoch", "src/main.rs: start"]}
{"id": "C26", "title": "A Merkle proof proves exactly its hash", "statement": "For every position of a list of hashes there is a proof, and for no other; the hash at the position and its proof lead to the root; with siblings on the same sides no other hash and no other siblings do (unless the hash function collides on the strings involved); and the sides tell the position. (Violated for a receiver who does not know the sides: leaves and inner nodes are hashed alike, so in every list of three or more hashes, one that is not in the list has a proof.)", "quantifier": "all lists of hashes, positions, proofs and hash functions, and every way of arranging the hashes in a tree", "why_tests_cant": "all lists, all forged proofs and all hash functions", "anchors": ["common/merkle/src/lib.rs: from_hashes, get_root_hash, get_proof_by_input_index, merge"]}
{"id": "C27", "title": "The pool size bounds concurrent submissions", "statement": "However submissions from users and peers overlap with one another and with packaging and flushing, the pool never holds more transactions than its configured size. (Holds when they come one at a time; with at most k under way at any time it never holds more than size + k - 1. Violated beyond that: any number of transactions up to four times the size, submitted at once, are all accepted. And since the size is counted bucket by bucket, a submission may be refused for a full pool that was never full, or accepted by a pool that has been full since it was made.)", "quantifier": "every pool size, number of concurrent submissions and interleaving of their steps with those of packaging and flushing", "why_tests_cant": "the excess needs particular interleavings of many threads", "anchors": ["core/mempool/src/lib.rs: insert", "core/mempool/src/tx_cache.rs: check_reach_limit, check_exist, insert_new_tx", "core/mempool/src/map.rs: len"]}
{"id": "C28", "title": "A gossiped transaction is pooled by the nodes it reaches", "statement": "Every transaction a user's node accepts is handed to the other nodes, which pool it exactly as it was submitted, provided they have room, have neither pooled nor stored it and their latest epoch is within the transaction's timeout window; a received transaction is checked like a submitted one and is not sent on, and no message removes or alters what is pooled. Refuted for deployments: one of an application is refused by every other node, and one of a native contract makes every transaction of its batch undeliverable.", "quantifier": "all sender histories, all interleavings of its broadcaster, all receiver histories, all message bytes, all orders of the inserts spawned for a batch", "why_tests_cant": "a delivery involves two nodes' histories, the batching schedule and the byte encoding together; the refuted part appears only for one field value of one action", "anchors": ["core/mempool/src/adapter/message.rs:NewTxsHandler::process", "core/mempool/src/adapter/mod.rs:IntervalTxsBroadcaster", "core/mempool/src/lib.rs:insert", "protocol/src/codec/transaction.rs"]}
{"id": "C29", "title": "A submitted transfer is carried out", "statement": "When a client asks an idle node with an empty pool for a transfer the sender can pay, in time and within the cycle limits, and the node answers with a hash, then the node's next proposal consists of that transaction, committing the proposal completes, and afterwards the transaction and its receipt can be read from the node, the receipt gives the sender's balances before and after, and in the state the node continues on exactly this amount of exactly this asset has moved from sender to recipient, no other balance being changed. For every completed commit of any block: its transactions and their receipts can be read, and the new state differs from the old by exactly the transfers whose receipts are successes; no asset is lost.", "quantifier": "all histories of a node, requests, transfers and blocks", "why_tests_cant": "the claim spans request parsing, pool, proposal, execution, trie, codecs and storage, for every history and block", "anchors": ["core/api/src/lib.rs: sendTransferTransaction", "core/mempool/src/lib.rs: insert, package", "core/consensus/src/engine.rs: get_epoch, commit", "core/executor/src/lib.rs: exec", "core/storage/src/lib.rs: get_transaction_by_hash, get_receipt"]}
{"id": "C99", "title": "A transfer submitted to one node is carried out on the others", "statement": "Take two nodes of one chain that were handed the same blocks, with whatever pools, clients, peers and iteration orders of their own. When a client asks the first for a transfer the sender can pay and it answers with a hash, the second accepts the transaction from the first's message, its next proposal consists of it, and when both are told to commit that proposal both complete and agree: on the chain, on every stored epoch, transaction and receipt and on every state. On both the transaction and its receipt can be read, and exactly the amount asked for has moved from sender to recipient.", "quantifier": "all pairs of histories of two nodes, requests and transfers, and all iteration orders on either node", "why_tests_cant": "the claim spans two nodes, their histories, the request, the gossip message, proposal, execution, trie and storage", "anchors": ["core/api/src/lib.rs: sendTransferTransaction", "core/mempool/src/lib.rs: insert, package", "core/mempool/src/adapter/message.rs: NewTxsHandler", "core/consensus/src/engine.rs: get_epoch, commit", "core/executor/src/lib.rs: exec", "core/storage/src/lib.rs"]}
{"id": "C100", "title": "A transaction is carried out at most once", "statement": "Once a transaction has been committed it is never proposed, accepted in a proposal or executed again. (Holds for the node's own proposals as long as no client or peer submits a transaction while it is being committed, no proposal of others orders a transaction the node has stored, and no epoch it takes over contains a transaction of its pool: then no transaction it proposes has been stored or is being committed. Violated otherwise: a proposal that orders a committed transfer once more is accepted, its commit completes and the amount moves a second time; and a node that takes over an epoch from a peer leaves the epoch's transactions in its pool and proposes them again.)", "quantifier": "all configurations, histories of a node with crashes, restarts and synchronisation, proposals and transactions", "why_tests_cant": "a double execution needs a particular history of pool, commit and synchronisation, or a dishonest proposer", "anchors": ["core/mempool/src/lib.rs: insert, package, flush, ensure_order_txs", "core/mempool/src/adapter/mod.rs: check_transaction, check_storage_exist", "core/consensus/src/engine.rs: get_epoch, check_epoch, commit", "core/consensus/src/consensus.rs: update_epoch", "core/executor/src/lib.rs: exec"]}
{"id": "C101", "title": "Only the owner spends", "statement": "An account's balance falls only by a transfer its owner signed. (Holds as far as transactions sent by other nodes are signed: in every block the node executes - for a commit or for an epoch it takes over, whether or not it then completes or the node crashes - in which an account's balance of an asset falls, there is a transfer of that asset signed with the account's key; and between two moments without restart and synchronisation, an account whose owner has signed nothing handed to the node has lost nothing. Violated otherwise: the signatures of transactions pulled for a proposal or with an epoch are never checked, so a proposer can order an unsigned transfer of anybody's money, and its commit completes and the amount moves.)", "quantifier": "all histories of a node with crashes, restarts and synchronisation, accounts, assets, blocks and signature schemes", "why_tests_cant": "a forged spend can enter through the pool, a proposal, a synchronisation or a restart; no finite set of histories excludes it", "anchors": ["core/mempool/src/lib.rs: insert, sync_propose_txs, ensure_order_txs, get_full_txs", "core/mempool/src/adapter/mod.rs: check_signature", "core/consensus/src/engine.rs: check_epoch, commit", "core/consensus/src/consensus.rs: update_epoch", "core/executor/src/lib.rs: exec"]}
{"id": "C102", "title": "Only transactions of the chain are executed, and only in time", "statement": "A transaction is executed only by nodes of the chain it names and never in an epoch after its timeout. (Holds for the chain as far as the epochs and transactions other nodes hand over name it: then every block the node executes - for a commit or an epoch taken over, completed or not - consists of such transactions, and its latest epoch names the chain. Holds for the timeout in the node's own proposals: the timeouts of the transactions they name are not before the epoch proposed. Violated otherwise: a proposal whose header names any other chain is accepted and committed, after which every transaction of the configured chain is refused and those of the other accepted; and a transfer that names another chain, or has timed out, is carried out when somebody else proposes it.)", "quantifier": "all histories of a node with crashes, restarts and synchronisation, proposals and transactions", "why_tests_cant": "foreign and expired transactions can come in by every message, at any point of a history", "anchors": ["core/mempool/src/adapter/mod.rs: check_transaction, get_latest_epoch_id", "core/mempool/src/tx_cache.rs: package, is_timeout", "core/mempool/src/lib.rs: insert, ensure_order_txs", "core/consensus/src/engine.rs: get_epoch, check_epoch, commit", "core/consensus/src/consensus.rs: update_epoch"]}
{"id": "C103", "title": "Network trouble is held against the address or peer it is about", "statement": "Every report of the network transport is held against exactly the address or the peer it is about: an address at which the node met itself, or on which it listens, becomes one of its own; a dial that timed out or was interrupted counts as one failure of the peer the address leads to and costs nobody an address; an address that cannot be reached is taken from that peer and no failure is counted (a bootstrap's address is kept); the address of a repeated dial becomes one of the peer it reached; a broken protocol, an unknown protocol, a blocked session or misbehaviour drops the peer; a session that timed out, broke or stopped answering pings counts as one failure and its session is closed; a ping clears the failures; announced and discovered addresses go to the peer they lead to or wait to be tried; everything else changes nothing. What the node holds about every other peer stays the same.", "quantifier": "every state of the peer tables with no report waiting, every report of the transport, every clock", "why_tests_cant": "the report kinds times the states of the tables; tests feed the manager single events and never the transport's errors", "anchors": ["core/network/src/connection/keeper.rs: ConnectionServiceKeeper::handle_error, handle_event, process_connect_error", "core/network/src/protocols/ping.rs: PingEventReporter", "core/network/src/peer_manager/disc.rs: DiscoveryAddrManager", "core/network/src/peer_manager/ident.rs: IdentifyCallback", "core/network/src/peer_manager/mod.rs: PeerManager::process_event"]}
{"id": "C104", "title": "The state trie is a store of maps, and a root identifies its map", "statement": "Working on the state tries of a node is working on finite maps: opening, reading, inserting and committing any number of tries over one database gives what maps give, whatever was committed or lost in a crash in between. A commit gives a root that depends only on the contents, not on the order or the history of the insertions; every map ever committed can be opened by its root for ever and reads as it did; two maps with one root are the same map, so long as the hash function does not collide on the nodes stored; the empty map has the root a new chain starts from.", "quantifier": "every history of operations on any number of tries (non-empty values, keys below 2 GB, values below 4 GB), every crash point, every hash function without collisions on the encoded nodes of the committed tries; every pair of maps; every order of insertion", "why_tests_cant": "keys sharing prefixes in any way, nodes inline or by hash, sharing between tries in one database, any history of commits and crashes", "anchors": ["core/executor/src/trie/mod.rs: MPTTrie::{new,from,get,contains,insert,commit}", "core/executor/src/trie/trie_db.rs: RocksTrieDB::{get,insert_batch,remove_batch}", "core/executor/src/adapter/contract.rs: GeneralContractStateAdapter::{get,commit}"]}
{"id": "C105", "title": "Executed state lives in one database of bytes, and comes out of it unchanged", "statement": "Start from an empty state database and apply any sequence of: executing the genesis block, executing a block of transactions on top of a state root, asking an account's balance at a state root, and dying while a block or the genesis is executed (before, between or after the three batches its commit writes). The executors of all these steps share one database of encoded trie nodes and keep only encoded entries in memory. Every result (state roots, receipts, fees, balances, errors) is the one obtained when states are plain maps from addresses to accounts and from identifiers to assets; it does not depend on the iteration order of the hash maps; every state root handed out can be opened at any later point and shows exactly the accounts and assets committed under it; and the deaths leave no trace: the other results are those of the same sequence without the blocks that died.", "quantifier": "every sequence of genesis, blocks, balance queries and crashes (any number, any transactions, any of the crash points in each commit), every iteration order of the four hash maps at every step, every digest that does not collide on the trie nodes of the sequence, every root asked for that is empty, was handed out, or is the hash of no node; encoded entries under 4 GB", "why_tests_cant": "Tests commit one or two blocks against a fresh memory database with the iteration order the process happens to have and never die between two batches; whether nodes of different blocks, contracts and half-written commits can get into each other's way needs an induction over histories.", "anchors": ["core/executor/src/lib.rs: TransactionExecutor::{create_genesis,exec,get_balance,from_root,stash,revert_cache,commit}, TransactionExecutorFactory::from_root", "core/executor/src/adapter/contract.rs: GeneralContractStateAdapter::{get,contains,insert_cache,revert_cache,stash,commit}", "core/executor/src/native_contract/account.rs", "core/executor/src/native_contract/bank.rs", "core/executor/src/trie/mod.rs: MPTTrie", "core/executor/src/trie/trie_db.rs: RocksTrieDB"]}
{"id": "C106", "title": "A node's states live in, and survive in, the bytes of its database", "statement": "Take any history of a node: booting on an empty disk, committing blocks, synchronising blocks, dying at any point (including in the middle of the three batches in which a state is written) and booting again. Let every execution of that history, in its order, run on the one database of encoded trie nodes. Every execution returns what the node's executor returned (state root, receipts, fees, errors); how far a death in the middle of a state commit got makes no difference to anything later; every state completed before can be opened in the bytes at the end and shows exactly the accounts and assets committed then; and a balance query of the API is the same query on the bytes. A node that does not synchronise asks for no state roots other than those it was handed.", "quantifier": "every history of calls, crashes and boots of a node, every crash point, every split of every interrupted commit, every iteration order of every hash map on both sides, every digest without collisions on the trie nodes of the history, encoded entries under 4 GB; for synchronised blocks, every root the history asks for that is empty, was handed out, or is the hash of no node", "why_tests_cant": "The node tests of the repository never run the executor on the database the previous block and the previous process left; no finite number of restarts shows that half-written states of dead processes never surface.", "anchors": ["src/main.rs: start, create_genesis", "core/consensus/src/engine.rs: commit", "core/consensus/src/consensus.rs: update_epoch", "core/executor/src/lib.rs: TransactionExecutorFactory::from_root, TransactionExecutor::{create_genesis,exec,get_balance}", "core/executor/src/adapter/contract.rs: commit", "core/executor/src/trie/trie_db.rs: RocksTrieDB", "core/api/src/adapter/mod.rs: get_balance"]}
{"id": "C107", "title": "Encodings are the published formats", "statement": "What is hashed and signed is RLP (Ethereum Yellow Paper, appendix B) of a fixed list of fields per type, and what travels and is stored is protocol buffers with fixed tags, defaults left out: any other program that follows these two standards and the field tables writes exactly the bytes the node writes, for every transaction (except Approve), receipt, epoch, proposal, genesis and account. In particular the pool only admits a transaction whose hash is the digest of that published form, as a wallet computes it, and epochs are linked by the digest of theirs.", "quantifier": "all values of all types whose encodings fit in memory; all programs that follow the formats", "why_tests_cant": "round-trip tests pass for any encoding the decoder inverts, including one with fields swapped or tags renumbered on both sides; a few golden vectors do not cover lengths, zero, defaults or repeated fields", "anchors": ["protocol/src/fixed_codec/*.rs: rlp_append", "protocol/src/codec/{primitive,transaction,receipt,epoch}.rs", "core/mempool/src/adapter/mod.rs: check_transaction", "core/storage/src/lib.rs: insert_epoch"]}
{"id": "C108", "title": "Messages between nodes, the file of peers and the database have a fixed layout", "statement": "What a node sends to another (its transactions, the pool's and the synchronisation's questions and their answers, proposals and announced numbers, and the envelope around them), the file in which it keeps its peers, and the rows of its database are laid out as written down once: counts and lengths in eight little-endian bytes, questions numbered 0 and 1 in four, answers ended by the letter a or b, inside them the published encodings of C107; the database has three columns, transactions and receipts under the hash of the transaction, an epoch under its number and once more as the latest, the hash of its header leading to the number, and the latest proof. Another implementation that reads and writes this layout talks to these nodes and opens their disks: after any history of saves the database is exactly the rows of that history, a later row replacing an earlier one.", "quantifier": "all messages, all peer lists and all histories of saves whose encodings fit in memory; every digest", "why_tests_cant": "a node and its test harness use the same encoder and decoder: renumbering a question, swapping the two letters or two fields of a peer, or moving a key to another column passes every round trip and breaks every running network and every existing disk", "anchors": ["core/consensus/src/fixed_types.rs: ConsensusRpcRequest, ConsensusRpcResponse, FixedPill, FixedEpochID, PullTxsRequest, FixedSignedTxs", "core/consensus/src/message.rs: Proposal, Vote, QC, RichEpochID", "core/mempool/src/adapter/message.rs: MsgNewTxs, MsgPullTxs, MsgPushTxs", "protocol/src/traits/network.rs: MessageCodec", "core/network/src/message/serde.rs, serde_multi.rs", "core/network/src/message/mod.rs: NetworkMessage", "core/network/src/peer_manager/persist.rs: PeerPersistence", "core/storage/src/lib.rs: insert_transactions, insert_receipts, insert_epoch, update_latest_proof", "core/storage/src/adapter/rocks.rs: map_category"]}
{"id": "C109", "title": "The money of the chain lies on the disk, and adds up there", "statement": "Read the ledger from the bytes of a node's state database, through the encoded trie nodes, as the next process will. After any history of the node, with deaths in the middle of state commits and restarts: a state root opens in the bytes exactly when it opens for the node, and shows the same accounts and assets; whatever root opens, it opens either the whole ledger (for every asset the balances add up to what the genesis allocated, and the system token is registered) or an empty one, and no balance answered from the bytes exceeds what was allocated. On a node that does not synchronise, the root of its latest epoch and the root its next block starts from open the whole ledger in the bytes; and when a block is carried out, the balances in the bytes after it differ from those before it by exactly the transfers whose receipts say they succeeded.", "quantifier": "every history of calls, crashes and boots of a node, every split of every interrupted commit, every iteration order of the hash maps, every state root asked for that is empty, was handed out or is the hash of no node, every account and asset, every block of transfers and deployments; digests without collisions on the trie nodes and encodings of the history", "why_tests_cant": "no test of the repository reads balances back from a database that several processes wrote and died over; adding up a ledger over all accounts needs an invariant, not samples", "anchors": ["src/main.rs: start, create_genesis", "core/executor/src/lib.rs: TransactionExecutorFactory::from_root, TransactionExecutor::{create_genesis,exec,get_balance}", "core/executor/src/native_contract/{account,bank}.rs", "core/executor/src/trie/mod.rs: MPTTrie", "core/executor/src/trie/trie_db.rs: RocksTrieDB", "core/consensus/src/engine.rs: commit", "core/consensus/src/consensus.rs: update_epoch"]}
{"id": "C110", "title": "A node catches up from another over the wire, and gossip arrives", "statement": "A node and an honest peer exchange the bytes the peer's broadcast and both nodes' rpc calls really send (endpoint URLs, message encodings, compression, call numbers), while other sessions carry anything at all and other calls are made. The node reacts to the announcement and to each answer exactly as if the peer's epochs and transactions were handed to it directly: whatever happens in between, at every crash point and at the end its disk holds exactly the peer's epochs and transactions up to some point not after the announced epoch, in order and nothing else; if no execution fails it holds all of them and tells the engine to go on after the peer's latest epoch; an announcement one epoch ahead is ignored. Transactions broadcast by a peer are in the pool of the node that receives them, under their hashes, if they are valid and there is room. Whatever bytes a peer sends, one message changes nothing on the disk, nothing the engine knows and no transaction already pooled, and every transaction it adds to the pool was in the message, is signed by its key, hashes to its name and is not expired nor stored.", "quantifier": "every pair of nodes started as main.rs starts them, every peer with a chain built by the code, every distance between them, every other traffic of any session (also the same peer's, except a forged answer to the very call that waits), every number of rounds, every byte string received", "why_tests_cant": "the tests of the repository hand decoded structs to the synchronisation; sockets, sessions and the order of everything else that arrives cannot be enumerated", "anchors": ["core/consensus/src/message.rs: RichEpochIDMessageHandler::process, RpcHandler::process", "core/consensus/src/adapter.rs: pull_epoch, pull_txs, broadcast_epoch_id", "core/consensus/src/consensus.rs: update_epoch", "core/network/src/outbound/{rpc,gossip}.rs", "core/network/src/reactor/mod.rs: Reactor::react", "core/network/src/message/mod.rs: NetworkMessage", "core/mempool/src/adapter/message.rs: NewTxsHandler::process", "src/main.rs: start"]}
{"id": "C111", "title": "A synchronisation that gets no answer waits for ever, and one message brings a node there", "statement": "Any peer, validator or not, stops a node by one message: an announcement of an epoch number two or more ahead (or 0, or 1 after the genesis) makes an idle node ask that peer for an epoch. From then on, for as long as no response naming that call comes on that session, whatever else arrives and whatever the node's own consensus engine calls: nothing is written to the disk, every commit of the engine fails, every further announcement by anyone is ignored, and the call is still waiting - there is no timeout, and a session that closes does not end it. No other message does this; a restart frees the node.", "quantifier": "every idle node state, every announced number of that kind, every sequence of messages from any session and calls to the node with no response to the waiting call, of any length below 2^64", "why_tests_cant": "waiting for ever is a property of all continuations; a test can only wait for a while", "anchors": ["core/network/src/outbound/rpc.rs: NetworkRpc::call (no timeout)", "core/network/src/rpc_map.rs: RpcMap", "core/consensus/src/consensus.rs: update_epoch (sync lock)", "core/consensus/src/engine.rs: commit", "core/consensus/src/message.rs: RichEpochIDMessageHandler::process"]}
{"id": "C112", "title": "What the API answers about balances stays, and adds up block by block", "statement": "The answer to getBalance at an epoch number the node has (and whose state it has) never changes, whatever the node does afterwards. When a node finishes the commit of an epoch whose header names a state, getBalance at that epoch's number answers the balances of that state, at once without a number and for ever with it. So, when the header of epoch p names the state p was executed on and the header of a later epoch p' names the state p left, the balances answered at the two numbers differ by exactly what the successful transfers of p moved, by the receipts the node stores. In particular a lone transfer sent over the API, for an amount its sender has, shows as exactly that amount leaving the sender and reaching the receiver, for every account and asset, and nothing else changes. On a node that does not synchronise the bytes of the state database hold, under the header of every epoch that was once its latest, the same whole ledger for ever, and that is what is answered.", "quantifier": "every history (calls, crashes, restarts, synchronisation) whose commits extend the chain, every continuation of it, every account, asset and way of writing them, every later epoch that names the state", "why_tests_cant": "the answers must be right for every epoch ever, after everything that may follow; a test asks a few at one moment", "anchors": ["core/api/src/adapter/mod.rs: get_balance", "core/api/src/lib.rs: get_balance, send_transfer_transaction", "core/executor/src/lib.rs: from_root", "core/storage/src/lib.rs: get_epoch_by_epoch_id", "core/consensus/src/engine.rs: get_epoch, commit"]}
{"id": "C113", "title": "What a node answers about balances depends on the state root alone", "statement": "Take two nodes with any configurations, genesis allocations, blocks, clients, peers, map orders, crashes and synchronisations of their own (or one node at two times, or two epochs of one node). If the headers of an epoch of the first and an epoch of the second name the same state root, and both have that state, then it holds the same accounts and assets on both, and getBalance at the two epochs - by number, or the latest - gives the same answer, or the same refusal, for every address and asset, however written. And of every epoch a node holds, either the node has the state its header names and every well-formed getBalance at it is answered with the balance in that state, or it has not and every one is answered with zero (not refused) - as after a forged epoch from a peer. Whatever a node went through, every well-formed getBalance, for any epoch, held or not, gets exactly an amount: never an error, never a panic.", "quantifier": "every two histories of nodes, every two epochs with the same state root in their headers, every request", "why_tests_cant": "two different runs of the node have to be compared, for all pairs of histories; a test compares two short ones", "anchors": ["core/api/src/adapter/mod.rs: get_balance", "core/executor/src/lib.rs: from_root, commit, gen_contract_state", "core/executor/src/trie/mod.rs", "core/consensus/src/engine.rs: commit", "core/consensus/src/consensus.rs: update_epoch"]}
