{"id": "C01", "title": "Raw transaction round trip", "statement": "Encoding any well-formed signed Legacy, EIP-2930 or EIP-1559 transaction to its raw wire bytes and decoding those bytes yields exactly the same transaction: same type, nonce, prices, limits, destination, value, payload, access list, chain id and signature, with the hash equal to the digest of the bytes.", "quantifier": "every signed transaction of the three kinds whose fields fit their declared widths, any payload and access list, Ethereum-style or interoperation signature", "why_tests_cant": "the payload, access list and signature lengths are unbounded and the RLP length headers change form at 55/256/65536...; sampled vectors cover only a few of the header forms", "anchors": ["protocol/src/codec/transaction.rs: LegacyTransaction/Eip2930Transaction/Eip1559Transaction::rlp_encode/rlp_decode, SignatureComponents::rlp_decode, UnverifiedTransaction::rlp_bytes/decode"]}
{"id": "C02", "title": "Signing payload binds chain id and content", "statement": "The bytes a sender signs determine the transaction completely: if two unsigned transactions (with a chain id) produce the same signing payload then they have the same type, the same chain id and the same fields, so a signature made for one chain or one transaction can never be valid for a different one (up to hash collisions).", "quantifier": "all pairs of unsigned transactions of any of the three kinds and all pairs of chain ids", "why_tests_cant": "injectivity ranges over pairs of unbounded inputs, including pairs of different transaction types", "anchors": ["protocol/src/types/transaction.rs: UnverifiedTransaction::signature_hash, UnsignedTransaction::encode", "protocol/src/codec/transaction.rs: rlp_encode"]}
{"id": "C03", "title": "Decoding network bytes never crashes", "statement": "Decoding an arbitrary byte string as a raw transaction or as a signed transaction always returns a transaction or an error and never panics.", "quantifier": "every byte string", "why_tests_cant": "the input space is unbounded; a single crashing input is enough for a remote crash", "anchors": ["protocol/src/codec/transaction.rs: impl Decodable for UnverifiedTransaction / SignedTransaction", "protocol/src/types/transaction.rs: extract_interoperation_tx_sender"]}
{"id": "C04", "title": "Accepted transaction bytes are canonical", "statement": "Every byte string accepted as a raw transaction is the canonical encoding of the transaction it decodes to; hence the decoded hash equals the hash recomputed from the fields and no third party can produce a second byte string for the same transaction.", "quantifier": "every accepted byte string", "why_tests_cant": "malleability is a statement about all byte strings, including ones no encoder would produce", "anchors": ["protocol/src/codec/transaction.rs", "protocol/src/types/transaction.rs: get_hash, check_hash"]}
{"id": "C05", "title": "Header, block and proof round trip", "statement": "Encoding any header, block or consensus proof and decoding the result yields the same value.", "quantifier": "every header, block and proof with fields in their declared widths and lists of any length", "why_tests_cant": "unbounded lists of hashes and extra data; RLP header form changes with size", "anchors": ["protocol/src/types/block.rs: Header, Block, Proof, ExtraData", "protocol/src/codec/block.rs"]}
{"id": "C06", "title": "Proposal round trip", "statement": "Encoding any proposal and decoding it yields the same proposal.", "quantifier": "every proposal, including any base fee and chain id", "why_tests_cant": "the repository's own test only exercises the one base fee and chain id for which the codec is lossless", "anchors": ["protocol/src/codec/block.rs: impl Encodable/Decodable for Proposal"]}
{"id": "C07", "title": "Receipt and execution-result round trip", "statement": "Encoding any receipt or any transaction execution result and decoding it yields the same value.", "quantifier": "every receipt and every execution result, any number of logs and topics, any exit reason", "why_tests_cant": "unbounded logs; tests use a default receipt only and never touch the execution-result codec", "anchors": ["protocol/src/codec/receipt.rs", "protocol/src/codec/executor.rs", "protocol/src/types/executor.rs: TxResp"]}
{"id": "C08", "title": "Log bloom has no false negatives", "statement": "For every receipt, the bloom filter stored in it tests positive for the address and for each topic of each of its logs; and the block header's bloom tests positive for every log emitted in the block.", "quantifier": "every list of logs, every hash function", "why_tests_cant": "quantifies over all log lists and hash outputs; a missing bit makes light clients silently lose logs", "anchors": ["protocol/src/types/executor.rs: logs_bloom, m3_2048", "protocol/src/types/block.rs: Block::new, generate_receipts_and_logs"]}
{"id": "C09", "title": "Fixed-width database and contract keys are unambiguous and ordered", "statement": "Storage keys (block number prefixes, number+hash keys) and image-cell keys are injective, decode back to what was encoded, and number-prefixed keys sort in numerical block order.", "quantifier": "all block numbers, hashes, output indexes, and all pairs of them", "why_tests_cant": "injectivity and order preservation range over all pairs of keys", "anchors": ["core/storage/src/schema.rs, hash_key.rs: CommonPrefix, CommonHashKey", "core/executor/src/system_contract/image_cell/store.rs: CellKey"]}
{"id": "C10", "title": "Pool capacity is enforced", "statement": "After any sequence of pool operations the number of user transactions held never exceeds the configured capacity, unless they were brought in by a consensus pull (which bypasses the limit); a limited insert at or above capacity is rejected with a reach-limit error and changes nothing.", "quantifier": "every sequence of insert / system insert / package / block-flush / queue-drain operations with any transactions and any capacity", "why_tests_cant": "needs an invariant over all operation histories, including duplicates, replacements, drops and timeouts", "anchors": ["core/mempool/src/pool.rs: PirorityPool::insert, flush, flush_inner, package, reach_limit"]}
{"id": "C11", "title": "Pool length counter matches its content", "statement": "The pool length reported after any history equals the number of transactions the pool actually holds.", "quantifier": "every sequence of pool operations", "why_tests_cant": "counter drift only shows after particular histories", "anchors": ["core/mempool/src/pool.rs: stock_len, BuiltInContractTxBucket::flush"]}
{"id": "C12", "title": "Accepted transactions are never lost", "statement": "A transaction whose insertion was accepted stays retrievable by its hash until it is explicitly removed: by a block that includes it, by its time-out, by a committed nonce or replacement that supersedes it, or by the per-account pending limit.", "quantifier": "every pool history, every accepted transaction", "why_tests_cant": "needs a history invariant; the bounded hand-off queue silently discards on overflow", "anchors": ["core/mempool/src/pool.rs: insert, co_queue, flush_to_pending_queue, flush_inner"]}
{"id": "C13", "title": "Packaged hashes are distinct, live and within the gas limit", "statement": "Every package returns pairwise distinct hashes, all of them in the pool and not dropped, no more than the requested number of user transactions, with total gas limit within the block gas limit.", "quantifier": "every reachable pool state and all gas and size limits", "why_tests_cant": "ranges over all histories and limits", "anchors": ["core/mempool/src/pool.rs: package"]}
{"id": "C14", "title": "Packaged transactions of one sender come in nonce order", "statement": "In every package the transactions of one sender appear in strictly increasing nonce order.", "quantifier": "every pool history, every interleaving of several senders, prices and replacements", "why_tests_cant": "the queue comparator is not transitive, so order can only fail for particular mixes of senders and prices", "anchors": ["core/mempool/src/tx_wrapper.rs: impl Ord for TxPtr", "core/mempool/src/pool.rs: package"]}
{"id": "C15", "title": "Replacement by fee is monotone", "statement": "For one account and nonce the pool keeps exactly one live transaction: a new one replaces the old only when its gas price is strictly higher, and the loser is marked dropped and never packaged afterwards.", "quantifier": "every pending queue and every pair of competing transactions", "why_tests_cant": "ranges over all queue states", "anchors": ["core/mempool/src/tx_wrapper.rs: PendingQueue::insert"]}
{"id": "C16", "title": "Committed transactions leave the pool", "statement": "After a block is flushed, none of its transaction hashes is contained in the pool and none is ever returned by a later package unless it is inserted again.", "quantifier": "every pool state, every block content, any order of operations", "why_tests_cant": "quantifies over histories before and after the flush", "anchors": ["core/mempool/src/pool.rs: flush, flush_inner, BuiltInContractTxBucket::flush"]}
{"id": "C17", "title": "Synchronising a proposal makes its transactions available", "statement": "When the pool reports success for synchronising the ordered transactions of a proposal, every ordered hash is afterwards retrievable from the pool.", "quantifier": "every pool state, every list of hashes, every answer from the remote peer", "why_tests_cant": "ranges over adversarial peers", "anchors": ["core/mempool/src/lib.rs: ensure_order_txs, get_full_txs, check_dup_order_hashes"]}
{"id": "C18", "title": "Fetched full transactions keep the proposal order", "statement": "get_full_txs returns exactly the transactions of the requested hashes in the requested order, or an error.", "quantifier": "every split of the requested hashes between pool and database", "why_tests_cant": "depends on which hashes happen to be in memory", "anchors": ["core/mempool/src/lib.rs: get_full_txs"]}
{"id": "C19", "title": "Pending-account transaction limit", "statement": "For every account the number of transactions waiting in its pending queue never exceeds the per-account limit plus one.", "quantifier": "every pool history", "why_tests_cant": "history invariant", "anchors": ["core/mempool/src/pool.rs: flush_to_pending_queue", "core/mempool/src/tx_wrapper.rs"]}
{"id": "C20", "title": "Transaction admission rules", "statement": "A transaction passes the pool's static checks exactly when its hash matches its content, its size is within the configured maximum, its gas price is positive and below 500 Gwei, its gas limit is between 21000 and the maximum, and its chain id (if any) is the node's.", "quantifier": "every transaction and node configuration", "why_tests_cant": "boundary conditions over full-width integers", "anchors": ["core/mempool/src/adapter/mod.rs: check_transaction, verify_chain_id, verify_tx_size, verify_gas_price, verify_gas_limit"]}
{"id": "C21", "title": "Block gas accounting", "statement": "Executing a block reports a gas total equal to the sum of the per-transaction gas used and returns exactly one response per transaction, in order.", "quantifier": "every list of transactions, every EVM behaviour", "why_tests_cant": "unbounded transaction lists and arbitrary contract behaviour", "anchors": ["core/executor/src/lib.rs: AxonExecutor::exec"]}
{"id": "C22", "title": "Sender nonce advances by exactly one", "statement": "Executing an EVM transaction always leaves the sender's nonce exactly one above its value before, whatever the outcome of the call or creation.", "quantifier": "every state, every transaction, every EVM outcome", "why_tests_cant": "ranges over arbitrary EVM outcomes", "anchors": ["core/executor/src/lib.rs: evm_exec"]}
{"id": "C23", "title": "Gas payment conserves value", "statement": "An EVM transaction takes from the sender exactly the fee reported in its result (gas used times price) besides value transfers, and never creates balance.", "quantifier": "every sender balance, price, gas limit and outcome", "why_tests_cant": "the failing case needs a sender that cannot cover its prepayment at execution time", "anchors": ["core/executor/src/lib.rs: evm_exec"]}
{"id": "C24", "title": "Proposal counting credits the block's proposer", "statement": "After executing a block, the epoch's proposal counter of the block's proposer is increased by one and no other counter changes.", "quantifier": "every block, every proposer, every list of transactions and senders", "why_tests_cant": "depends on who sent the block's last transaction", "anchors": ["core/executor/src/lib.rs: exec", "core/executor/src/system_contract/metadata/mod.rs: after_block_hook", "core/executor/src/adapter/backend/apply.rs: set_origin"]}
{"id": "C25", "title": "Fee split is bounded and proportional", "statement": "At the end of a block each validator receives floor(fee / total weight) times its weight, the credited total never exceeds the collected fee, and the part left undistributed is smaller than the total weight; no other account is credited.", "quantifier": "every collected fee and validator list", "why_tests_cant": "rounding over arbitrary fees and weights", "anchors": ["core/executor/src/utils.rs: DefaultFeeAllocator::allocate", "core/executor/src/lib.rs: exec"]}
{"id": "C26", "title": "Native token issue and burn are exact", "statement": "A successful native token transaction changes only the target account's balance, by exactly the requested amount, and the caller must be authorised; any overflow, underflow or unauthorised call leaves all balances unchanged.", "quantifier": "every state, amount and caller", "why_tests_cant": "arithmetic boundaries of 256-bit balances", "anchors": ["core/executor/src/system_contract/native_token.rs"]}
{"id": "C27", "title": "System contracts are reachable only at their addresses", "statement": "A transaction is executed by a system contract exactly when it is a call to one of the four fixed system addresses; every other transaction goes to the EVM and contract creation never does.", "quantifier": "every transaction", "why_tests_cant": "all 2^160 addresses", "anchors": ["core/executor/src/system_contract/mod.rs: system_contract_dispatch, is_call_system_script"]}
{"id": "C28", "title": "Epoch segments partition the block axis", "statement": "Appending epochs keeps the segment list contiguous, and looking up any block number in range returns the unique epoch whose version range contains it.", "quantifier": "every sequence of appended epochs and every block number", "why_tests_cant": "binary search and boundary conditions over all histories", "anchors": ["core/executor/src/system_contract/metadata/segment.rs: EpochSegment"]}
{"id": "C29", "title": "Image cells roll back exactly", "statement": "Applying an image-cell block update and then rolling that block back restores exactly the live-cell set seen before, and cells created or consumed carry the right block numbers.", "quantifier": "every cell store and every block of inputs and outputs", "why_tests_cant": "ranges over all stores and blocks, including blocks that spend their own outputs", "anchors": ["core/executor/src/system_contract/image_cell/store.rs: update, rollback, save_cells, mark_cells_consumed"]}
{"id": "C30", "title": "CKB header updates and rollbacks are atomic", "statement": "A header update makes exactly the given headers readable; a rollback removes exactly the given hashes, and fails without effect when one is absent.", "quantifier": "every header store, update list and rollback list", "why_tests_cant": "ranges over all stores and lists, including duplicates", "anchors": ["core/executor/src/system_contract/ckb_light_client/store.rs, mod.rs"]}
{"id": "C31", "title": "State cache is coherent with the database", "statement": "Reads through the cached trie database always return the latest written value, whether it is still cached, flushed or evicted.", "quantifier": "every sequence of writes, removals, flushes and evictions", "why_tests_cant": "needs a refinement over all cache histories and any eviction policy", "anchors": ["core/executor/src/adapter/trie/db.rs: RocksTrieDB"]}
{"id": "C32", "title": "Block store: read your writes", "statement": "After saving blocks, transactions, receipts and code, every get returns what was saved: the block at its number and by its hash, the latest block, each transaction and receipt by hash, and unknown keys return nothing.", "quantifier": "every sequence of saves and every queried key", "why_tests_cant": "refinement over all histories", "anchors": ["core/storage/src/lib.rs"]}
{"id": "C33", "title": "Caches never serve stale data", "statement": "A read through the storage cache returns the same answer as reading the database directly, after any sequence of saves, overwrites and removals.", "quantifier": "every sequence of operations, every cache eviction behaviour", "why_tests_cant": "staleness needs particular overwrite/remove histories", "anchors": ["core/storage/src/cache.rs", "core/storage/src/lib.rs: set_block, remove_block, get_block"]}
{"id": "C34", "title": "Batch lookup is positional", "statement": "Looking up a list of transaction or receipt hashes of one block returns a list of the same length whose i-th entry is the stored item of the i-th hash, or nothing if unknown.", "quantifier": "every list of hashes, including repeated ones, any split between cache and database", "why_tests_cant": "depends on cache content and duplicates", "anchors": ["core/storage/src/lib.rs: get_transactions, get_receipts"]}
{"id": "C35", "title": "Consensus WAL survives crashes", "statement": "After any sequence of saves with a crash at any point inside a save, loading returns the last state whose save completed (or the newer one whose write finished), and loading always terminates.", "quantifier": "every save history, every crash point, any partially written file", "why_tests_cant": "crash points are not enumerable by unit tests", "anchors": ["core/consensus/src/wal.rs: ConsensusWal::update_overlord_wal, load_overlord_wal"]}
{"id": "C36", "title": "Transaction WAL keeps exactly the uncommitted heights", "statement": "After any sequence of saves and removals, loading a height returns exactly the transactions last saved for it, and removing up to a height removes exactly the heights at or below it.", "quantifier": "every history of saves and removals", "why_tests_cant": "histories and proposals are unbounded", "anchors": ["core/consensus/src/wal.rs: SignedTxsWAL"]}
{"id": "C37", "title": "Proof weight means more than two thirds", "statement": "A block proof is accepted by weight only when the voting weight of the distinct signers is strictly more than two thirds of the total weight; hence any two accepted proofs of one validator set share a signer, and share an honest one when under a third is faulty.", "quantifier": "every validator set, every voter subset, all weights", "why_tests_cant": "quorum intersection quantifies over all subsets", "anchors": ["core/consensus/src/adapter.rs: verify_proof_weight, verify_proof"]}
{"id": "C38", "title": "Only the next block is committed", "statement": "The consensus engine commits a height only when it is exactly one above the last committed one; repeating the last committed height is harmless and any other height is refused; committed heights therefore form an unbroken increasing chain.", "quantifier": "every sequence of commit calls", "why_tests_cant": "ranges over all call sequences", "anchors": ["core/consensus/src/engine.rs: commit", "core/consensus/src/status.rs"]}
{"id": "C39", "title": "Header verification links blocks", "statement": "A block passes header verification during synchronisation only if it extends the current block: its previous hash, state root, proof and number relation hold; so a synchronised chain is hash-linked from the start.", "quantifier": "every block offered by a peer and every chain prefix", "why_tests_cant": "induction over unbounded chains and adversarial blocks", "anchors": ["core/consensus/src/adapter.rs: verify_block_header", "core/consensus/src/synchronization.rs: verify_block, start_sync"]}
{"id": "C40", "title": "Crash during commit leaves a restartable node", "statement": "At every crash point inside block commit, the persisted latest proof belongs to the persisted latest block, so the restarted node resumes from a consistent pair.", "quantifier": "every crash point of every commit, on the consensus and on the synchronisation path", "why_tests_cant": "crash points", "anchors": ["core/consensus/src/engine.rs: commit, update_status", "core/consensus/src/synchronization.rs: commit_block, save_chain_data", "core/run/src/lib.rs: get_status_agent"]}
{"id": "C41", "title": "Synchronisation progress is bounded and monotone", "statement": "One synchronisation run advances the chain height by at most the batch limit, never decreases it, and only towards the advertised height; at most one run is active at a time.", "quantifier": "every remote height, local height and interleaving of received height announcements", "why_tests_cant": "concurrency and histories", "anchors": ["core/consensus/src/synchronization.rs: receive_remote_block, start_sync, SyncStatus"]}
{"id": "C42", "title": "Proposal timestamps", "statement": "A proposal is accepted only if its timestamp is not earlier than its parent's and not in the future of the local clock.", "quantifier": "all timestamps", "why_tests_cant": "boundary conditions over all u64 triples", "anchors": ["core/consensus/src/engine.rs: validate_timestamp"]}
{"id": "C43", "title": "Hardfork switches activate monotonically", "statement": "A hardfork flag once activated at a block stays active for all later blocks, and is not active before its activation block.", "quantifier": "every sequence of hardfork announcements and every block number", "why_tests_cant": "histories", "anchors": ["protocol/src/types/primitive.rs: HardforkInfo::push", "core/executor/src/system_contract/metadata/store.rs"]}
{"id": "C44", "title": "Compression layer round trip and bound", "statement": "Decompressing a compressed message yields the original message for every message, and no message decompresses to more than the maximum size.", "quantifier": "every message and every received byte string", "why_tests_cant": "unbounded messages; adversarial input", "anchors": ["core/network/src/compress.rs"]}
{"id": "C45", "title": "RPC responses reach exactly their caller", "statement": "A response is delivered to at most one pending call, and only to the call with the same session and request id.", "quantifier": "every interleaving of calls, responses, time-outs and id wrap-around", "why_tests_cant": "interleavings", "anchors": ["core/network/src/reactor/rpc_map.rs", "core/network/src/outbound/rpc.rs"]}
{"id": "C46", "title": "Banned peers are kept out", "statement": "A peer that was banned is not accepted while its ban lasts, unless it is a consensus or bootstrap peer, and banning a connected peer disconnects it.", "quantifier": "every sequence of peer events and times", "why_tests_cant": "histories and time", "anchors": ["core/network/src/peer_manager/mod.rs: ban_id, always_allow, register", "core/network/src/service.rs: SessionOpen", "core/network/src/peer_store/ban_list.rs"]}
{"id": "C47", "title": "Connection limits are enforced", "statement": "The number of connected ordinary inbound (outbound) peers never exceeds the configured limit.", "quantifier": "every sequence of connection events", "why_tests_cant": "histories", "anchors": ["core/network/src/peer_manager/registry.rs: connection_status", "core/network/src/service.rs"]}
{"id": "C48", "title": "Peer address book consistency", "statement": "After any sequence of additions, removals and updates the address book contains exactly the live addresses, every random pick returns a stored address, and lookups by peer id never crash.", "quantifier": "every operation sequence", "why_tests_cant": "index bookkeeping over swap-removal histories", "anchors": ["core/network/src/peer_store/addr_manager.rs"]}
{"id": "C49", "title": "Gossip excludes the origin", "statement": "A relayed message is never sent back to the peer it came from, and every broadcast target is a connected peer.", "quantifier": "every set of sessions", "why_tests_cant": "all session sets", "anchors": ["core/network/src/outbound/gossip.rs"]}
{"id": "C50", "title": "Log query returns exactly the matching logs", "statement": "eth_getLogs over a block range returns exactly the logs of those blocks whose address and topics match the filter, in chain order.", "quantifier": "every chain content, filter and range", "why_tests_cant": "filter semantics over all positions and wildcards", "anchors": ["core/api/src/jsonrpc/impl/web3.rs: get_logs", "core/api/src/jsonrpc/web3_types.rs"]}
{"id": "C51", "title": "Filters deliver each block once", "statement": "Polling a block filter returns each new block hash exactly once and in order, over any polling schedule.", "quantifier": "every polling schedule and chain growth", "why_tests_cant": "schedules", "anchors": ["core/api/src/jsonrpc/impl/filter.rs"]}
{"id": "C52", "title": "Fee history shape", "statement": "eth_feeHistory over n blocks returns n+1 base fees, n gas-used ratios, n reward rows when percentiles are requested and the number of the oldest block, and rejects percentile lists that are not sorted values between 0 and 100.", "quantifier": "every block count, newest block and percentile list", "why_tests_cant": "all ranges and percentile lists", "anchors": ["core/api/src/jsonrpc/impl/web3.rs: fee_history, inner_fee_history, check_reward_percentiles"]}
{"id": "C53", "title": "Merkle proofs verify", "statement": "Every leaf of every list has a Merkle proof that verifies against the list's root, and a verifying proof for a different leaf yields a hash collision.", "quantifier": "every list of hashes and index", "why_tests_cant": "unbounded lists, odd sizes", "anchors": ["common/merkle/src/lib.rs"]}
{"id": "C54", "title": "Receipts line up with transactions", "statement": "The receipts generated for a block are, position by position, those of the block's transactions with their execution results; the transaction index is the position and the first log index is the number of logs emitted by the preceding transactions; generation cannot crash unless the block has 2^32 logs.", "quantifier": "every block, list of transactions and list of execution results of equal length", "why_tests_cant": "positions and cumulative counts range over unbounded lists", "anchors": ["protocol/src/types/block.rs: generate_receipts_and_logs"]}
{"id": "C55", "title": "Admitted transactions are payable, not stale and not committed", "statement": "When MemPool::insert newly accepts a transaction, the sender account nonce is not above the transaction nonce, its balance covers gas price times gas limit plus value (or, for calls to system contracts, the sender is a validator), the transaction is not in the database, calls to reserved addresses are refused, and every transaction satisfying these rules is accepted while the pool is below capacity; a batch is accepted exactly when each member would be.", "quantifier": "every chain state, pool state, nonce cache and transaction", "why_tests_cant": "the verdict depends on a cache shared between concurrent checks and on full-width arithmetic", "anchors": ["core/mempool/src/adapter/mod.rs: check_authorization, check_storage_exist", "core/mempool/src/lib.rs: insert_tx, verify_tx_in_parallel", "core/executor/src/system_contract/mod.rs: is_call_system_script"]}
{"id": "C56", "title": "Epoch metadata reads back as appended", "statement": "Reading the metadata of an epoch after any number of later operations returns the version range, validators, weights and consensus configuration that were appended for it, with one proposal counter per distinct validator address.", "quantifier": "every history of appended epochs, counter updates, configuration updates and hardforks", "why_tests_cant": "a test appends one or two epochs; interference needs later operations of other kinds", "anchors": ["core/executor/src/system_contract/metadata/store.rs:84-210", "protocol/src/types/primitive.rs:349-371"]}
{"id": "C57", "title": "Every executed transaction consumes its nonce", "statement": "Executing a transaction, by the EVM or a system contract and whatever the outcome, leaves the sender's nonce one above its value before, so it cannot be executed twice.", "quantifier": "every state, transaction and EVM behaviour", "why_tests_cant": "a test replays particular transactions; replay safety is about all transactions and outcomes", "anchors": ["core/executor/src/system_contract/utils.rs:13-62", "core/executor/src/system_contract/native_token.rs:17-57", "core/executor/src/lib.rs:296-393"]}
{"id": "C58", "title": "Executing a block does not create balance", "statement": "The sum of all balances after a block is at most the sum before plus the amounts issued through the native token contract.", "quantifier": "every state, block, validator list and conserving EVM", "why_tests_cant": "supply is a global invariant over all accounts and all transaction sequences", "anchors": ["core/executor/src/lib.rs:130-208", "core/executor/src/lib.rs:296-393", "core/executor/src/system_contract/utils.rs:13-37"]}
{"id": "C59", "title": "A committed block can be extended", "statement": "A proposal that passes the checks of the nodes and is committed with a quorum proof can be extended: its proof verifies as the proof of the committed block, so the next proposal carrying it is accepted.", "quantifier": "every proposal, every quorum, every chain", "why_tests_cant": "the next height is only reached after a commit; a single-step test of check_block never sees the failure", "anchors": ["core/consensus/src/engine.rs: check_block, inner_check_block, commit", "core/consensus/src/adapter.rs: verify_proof", "protocol/src/types/block.rs: Proposal::new_with_state_root"]}
{"id": "C60", "title": "Endpoint identifiers survive the wire", "statement": "Parsing an endpoint never crashes, whatever text a peer sends; extending an RPC endpoint with any 64-bit request id and parsing the result gives the same scheme and request id back.", "quantifier": "every endpoint text and every request id", "why_tests_cant": "unbounded texts, 2^64 ids", "anchors": ["core/network/src/endpoint.rs"]}
{"id": "C61", "title": "Peer messages reach the right reactor and cannot crash the router", "statement": "A call sent by one node arrives at the other as a call with the same endpoint, session and payload, a response arrives at the pending call; no message content crashes the handling task.", "quantifier": "every received message", "why_tests_cant": "adversarial input", "anchors": ["core/network/src/reactor/router.rs", "core/network/src/reactor/mod.rs", "core/network/src/message/mod.rs"]}
{"id": "C62", "title": "Peer store survives a restart", "statement": "After dumping and loading the peer store every address looks up as before, no address is lost or invented, and every ban that has not expired is still in force until the same time.", "quantifier": "every reachable address book, every ban list, every order of the dumped entries, every time", "why_tests_cant": "dump order is hash order; entries interact through replacement and periodic expiry", "anchors": ["core/network/src/peer_manager/peer_store/peer_store_db.rs: load, dump", "core/network/src/peer_manager/peer_store/addr_manager.rs: add", "core/network/src/peer_manager/peer_store/ban_list.rs: ban"]}
{"id": "C63", "title": "Log filters deliver each matching log once", "statement": "Polling a log filter returns, over any polling schedule, each matching log of the blocks appended since its creation (and within its bounds) exactly once and in chain order, as long as the polls are answered; a poll is refused only for a range longer than the configured maximum.", "quantifier": "every polling schedule, chain growth and filter", "why_tests_cant": "schedules, filters and chain contents are unbounded", "anchors": ["core/api/src/jsonrpc/impl/filter.rs: filter_logs, handle", "core/api/src/jsonrpc/impl/web3.rs: from_receipt_to_web3_log"]}
{"id": "C64", "title": "Subscriptions push each header and log once", "statement": "A newHeads subscriber is sent the header of every block after its subscription once and in order, and a logs subscriber the matching logs with the same fields as eth_getLogs.", "quantifier": "every interleaving of subscriptions, disconnections, timer ticks and block appends", "why_tests_cant": "interleavings of subscriptions and block production", "anchors": ["core/api/src/jsonrpc/ws_subscription.rs: notify, run"]}
{"id": "C65", "title": "Modular exponentiation precompile is exact, priced by EIP-2565, and total", "statement": "A call of address 5 with any input returns base^exponent mod modulus (0 for modulus 0) as exactly as many bytes as the modulus has, reading the input as followed by zeros; it charges the gas of EIP-2565, runs out of gas exactly when the limit is lower, and never crashes the node. The sizes of numbers it reads are bounded by the gas paid.", "quantifier": "all inputs shorter than 2^62 bytes, all gas limits below 2^62", "why_tests_cant": "The input contains three 256-bit lengths; saturation, wrapping and overflow cases lie far outside any table of vectors.", "anchors": ["core/executor/src/precompiles/modexp.rs"]}
{"id": "C66", "title": "BLAKE2 F precompile is the function of RFC 7693", "statement": "For every input, number of rounds and gas limit, a call of address 9 returns what EIP-152 prescribes, at one gas for each round; inputs of another length or with another final byte than 0 or 1 are refused.", "quantifier": "all inputs, up to 2^32-1 rounds", "why_tests_cant": "The function mixes sixteen 64-bit words for an arbitrary number of rounds; vectors sample a handful of points.", "anchors": ["core/executor/src/precompiles/blake2_f.rs"]}
{"id": "C67", "title": "Other precompiles have Ethereum's prices and results", "statement": "SHA-256, RIPEMD-160, identity and the CKB hash cost a base plus a price for each 32-byte word; signature recovery, curve addition, multiplication and pairing accept what the Ethereum specification accepts and answer the same; the CKB-VM call gets 6000 cycles for each gas and charges for what was used.", "quantifier": "all inputs and gas limits, any hash, curve and virtual machine implementation", "why_tests_cant": "Differences show only on malformed, short or unaligned inputs, one of infinitely many.", "anchors": ["core/executor/src/precompiles/sha256.rs", "core/executor/src/precompiles/ripemd160.rs", "core/executor/src/precompiles/identity.rs", "core/executor/src/precompiles/ckb_blake2b.rs", "core/executor/src/precompiles/ecrecover.rs", "core/executor/src/precompiles/ec_add.rs", "core/executor/src/precompiles/ec_mul.rs", "core/executor/src/precompiles/ec_pairing.rs", "core/executor/src/precompiles/call_ckb_vm.rs", "core/interoperation/src/lib.rs"]}
{"id": "C68", "title": "Contracts read the CKB headers and cells that were committed", "statement": "After any sequence of calls of the light client and image cell contracts, the header precompile answers a block hash with the header last given for it and not rolled back since, fails when there is none, and never panics; the cell precompile answers an out point with its cell.", "quantifier": "all sequences of calls of the two contracts, all inputs", "why_tests_cant": "The reader shares one trie with another contract and unwraps what it decodes; that it never meets foreign bytes is an invariant over all histories.", "anchors": ["core/executor/src/precompiles/get_header.rs", "core/executor/src/precompiles/get_cell.rs", "core/executor/src/precompiles/mod.rs", "core/executor/src/system_contract/ckb_light_client/store.rs"]}
{"id": "C69", "title": "A light client accepts exactly the blocks a quorum signed", "statement": "axon-tools' verify_proof(block, previous_state_root, validators, proof) returns Ok exactly when the hash of the proposal rebuilt from the block and the given root is the one in the proof, more than two thirds of the listed validators are marked in the bitmap at their rank by public key, and the aggregated signature of exactly these validators over the precommit vote of that hash verifies; it writes the same bytes as the node's own types, never panics, does not depend on the order of the list, two blocks accepted for one hash agree on everything the proposal covers, and it accepts what a node holding the previous block accepts.", "quantifier": "all blocks, state roots, validator lists with distinct keys, proofs and node stores; BLS and the hash function arbitrary", "why_tests_cant": "The tests replay a handful of recorded blocks with equal weights; agreement with the node is a statement about two independently written encoders, orderings and thresholds on all inputs.", "anchors": ["devtools/axon-tools/src/proof.rs:28-102", "devtools/axon-tools/src/rlp_codec.rs", "devtools/axon-tools/src/types.rs", "core/consensus/src/adapter.rs:453-640"]}
{"id": "C70", "title": "Only validators change the chain's metadata", "statement": "After the genesis block a transaction changes the epochs, the validator lists, the consensus configuration or the CKB information only if it calls the metadata contract, its sender is a validator of the current block's epoch, its receipt is a success, and the change is the one its call data describes; anyone else's call is reverted without effect; a validator's well-formed call succeeds; a block without such a call leaves all of these as they were; and beyond the end of the last epoch no call is accepted and no block can be executed.", "quantifier": "all states of the executor, transactions and blocks, all behaviours of the EVM and all call data", "why_tests_cant": "Access control is a statement about every other path through the executor: EVM code, the other system contracts and the hooks must not be able to write these either.", "anchors": ["core/executor/src/system_contract/metadata/mod.rs:48-137", "core/executor/src/system_contract/metadata/handle.rs:20-47", "core/executor/src/lib.rs:130-208"]}
{"id": "C71", "title": "Contracts read back the state that was written", "statement": "What the EVM reads from the node - existence, nonce, balance, code and storage slots of any account - is the result of the changes made so far, applied one after the other: the last write to a slot wins, a storage reset clears the rest, new code is returned in full, a deleted account is gone and no other account changes. A transaction runs on the world in which its sender has paid for the gas limit, and leaves that world with the interpreter's changes (if it succeeded), the sender's nonce raised and the unused gas paid back. The interpreter works under the contract size limit in force, and block hashes are those of the last 256 blocks.", "quantifier": "all states reachable by blocks, all lists of changes an interpreter can request, all addresses and slots; up to a hash collision", "why_tests_cant": "Sequences of changes to one account (reset, rewrite, delete, recreate, shared code) and non-interference between accounts are unbounded.", "anchors": ["core/executor/src/adapter/backend/apply.rs:148-275", "core/executor/src/adapter/backend/read_only.rs:36-191", "core/executor/src/lib.rs:296-424"]}
{"id": "C72", "title": "Peer-to-peer messages survive the wire", "statement": "Every ping, discovery, identify and network message is read back by the receiver exactly as the sender wrote it, also when the sender appends fields this version does not know and whatever the order of the header map. The bytes are those of the protobuf format with the declared field numbers. What a decoded message holds is never longer than the data it came from.", "quantifier": "all messages with u32 numbers and UTF-8 strings, all unknown trailing fields, all byte strings for the size bound", "why_tests_cant": "Varint lengths, nesting of messages and unknown fields are unbounded; tests only round-trip a few messages, if any.", "anchors": ["core/network/src/protocols/ping.rs:215-258", "core/network/src/protocols/discovery/proto.rs:1-118", "core/network/src/protocols/identify/protocol.rs:1-57", "core/network/src/message/mod.rs:25-60"]}
{"id": "C73", "title": "A silent peer is dropped and a responsive one is not", "statement": "The ping protocol sends a ping to exactly the open sessions that have none outstanding; a session is closed when its outstanding ping is older than the timeout at a check, or when it sends a pong that does not answer the outstanding ping, and for no other reason. A ping is answered with a pong of the same nonce. Unreadable data is ignored. No event sequence makes the handler panic as long as session addresses carry a peer id.", "quantifier": "all sequences of connections, disconnections, messages, ticks and checks on any number of sessions", "why_tests_cant": "Interleavings of sessions, ticks and late pongs are unbounded.", "anchors": ["core/network/src/protocols/ping.rs:30-215"]}
{"id": "C74", "title": "Only peers of the same chain are let in", "statement": "A session is closed when the peer's first message is unreadable, has no addresses, names another chain, lists more than ten addresses, when the peer introduces itself twice, or when it has not introduced itself eight seconds after the session was opened; an honest peer of the chain is never closed for its introduction. The other protocols are opened only on outbound sessions and only after an introduction for the same chain. From one connection at most ten addresses are learnt, all of them reachable, and they are exactly the reachable ones the peer listed. The introduction a node sends carries its own chain id and at most ten of its own reachable addresses. No orderly event sequence makes the handler panic.", "quantifier": "all event sequences on any number of sessions, all messages, all address tables", "why_tests_cant": "Attackers choose the messages and their order; the number of sessions and messages is unbounded.", "anchors": ["core/network/src/protocols/identify/mod.rs:60-385"]}
{"id": "C75", "title": "Discovery neither drops honest peers nor spreads bad addresses", "statement": "On one connection a node asks for addresses once if it dialed and never otherwise, answers once, and sends only lists within the limits it enforces itself; hence a session between two honest nodes is never closed by discovery, whatever is lost or reordered. A session is closed exactly for unreadable data, a second question, a list beyond the limits or a second answer. Addresses learnt from a list are exactly its reachable ones; a peer's own address is learnt with its own host and the port it named. Announcements carry one to ten addresses, each of a connected consensus peer or a reachable one of a session that was open at an earlier timer event. No event sequence makes the handler panic as long as session addresses carry a peer id.", "quantifier": "all event sequences on any number of sessions, all random choices and filter answers, all pairs of nodes", "why_tests_cant": "The claim about two nodes quantifies over both histories; session counts, messages and random choices are unbounded.", "anchors": ["core/network/src/protocols/discovery/mod.rs:62-400", "core/network/src/protocols/discovery/state.rs:20-163", "core/network/src/protocols/discovery/proto.rs:1-118"]}
{"id": "C76", "title": "A node that is behind catches up from an honest peer", "statement": "If the validators agreed on a chain, a peer holding it answers every request for a block, its proof and its transactions with the chain's own; a node at any earlier height that hears the announcement and asks such peers stores exactly the chain's next blocks, fifty per announcement or up to the announced height, whatever part of the transactions its own pool already has and however the requests are split, and ends idle at that height with the matching state root, previous hash and proof. Enough announcements take it to any height. A node that has caught up can be caught up from in turn, at every height it announces.", "quantifier": "all chains with quorum proofs, all heights, all peers (possibly different for each block and still growing), all mempool contents without a second transaction of the same hash, all chunk sizes but 0", "why_tests_cant": "The number of blocks, transactions, peers and the overlap with the mempool are unbounded, and both sides of the protocol have to agree.", "anchors": ["core/consensus/src/message.rs:221-342", "core/consensus/src/synchronization.rs:36-297", "core/consensus/src/synchronization.rs:304-470"]}
{"id": "C77", "title": "Votes are checked with the keys of the validators of the height", "statement": "A node counts a vote for the next height exactly when its sender is one of that height's validators and the signature verifies under the BLS key the validator registered; this holds after every history of commits, synchronisations and restarts. Votes that count one by one can be aggregated, the aggregate verifies in any order of the voters, and it passes the check made on the proof in the block. An aggregate that verifies was signed by everybody it lists. The messages that carry the votes arrive as they were sent.", "quantifier": "all validator sets, epochs, votes, orders of voters, and all histories of commits, synchronisations and restarts", "why_tests_cant": "Which keys are loaded depends on the whole history and on where epochs end; unit tests build the key map by hand and never change it.", "anchors": ["core/consensus/src/util.rs:33-190", "core/consensus/src/engine.rs:440-480", "core/consensus/src/engine.rs:700-726", "core/consensus/src/engine.rs:789-800", "core/consensus/src/synchronization.rs:304-379", "core/run/src/lib.rs:204-229", "core/run/src/lib.rs:377-394", "core/consensus/src/message.rs:23-85"]}
{"id": "C78", "title": "A proposal is accepted exactly when it passes every check", "statement": "A node accepts a proposal of another node exactly when it names the stored block before it as parent and carries a quorum proof of that block, its time lies between the parent's and now, the mempool vouches for its transactions, and both transaction digests match; a hardfork announcement must be the node's own. Only the node's own proposals since its last commit are exempt. The transactions of an accepted proposal can be read back from the log. Every other field of an accepted proposal is the one the node would have written itself.", "quantifier": "all nodes, proposals, mempool answers, clocks and histories", "why_tests_cant": "The check has eight conditions over arbitrary stored chains, and the exemption depends on the history.", "anchors": ["core/consensus/src/engine.rs:153-242", "core/consensus/src/engine.rs:544-633", "core/consensus/src/engine.rs:63-144"]}
{"id": "C79", "title": "State queries answer from the block that was asked for", "statement": "eth_getBalance, eth_getTransactionCount, eth_getCode, eth_getStorageAt, eth_getProof, eth_call and eth_estimateGas answer from the state after the block that their block parameter names: a number, a hash, \"earliest\", \"latest\", or no parameter. An account or slot that is absent there counts as empty. This also holds while blocks are committed during the request. eth_call and eth_estimateGas run with the header fields of that block, except where the request overrides them. A parameter that names no block is refused.", "quantifier": "all chains, states, accounts, slots, requests and commits that happen while the request is served", "why_tests_cant": "The answer joins the block index, the state trie and the code store at different moments; unit tests use one block and no concurrent commits.", "anchors": ["core/api/src/jsonrpc/impl/web3.rs:44-91", "core/api/src/jsonrpc/impl/web3.rs:362-530", "core/api/src/jsonrpc/impl/web3.rs:965-1053", "core/api/src/jsonrpc/impl/web3.rs:1097-1130", "core/api/src/adapter.rs:46-331"]}
{"id": "C80", "title": "Block, transaction and receipt lookups agree with the committed block", "statement": "A committed transaction is found by its hash and by its position in the block, named by number or by hash; the answer repeats every field of the transaction and names the block and the position. Positions beyond the last transaction answer null. A block is shown with all header fields and its transactions in order, as hashes or in full. A receipt shows status, gas, contract, bloom and logs of exactly that transaction's execution. A transaction that waits in the pool is shown without a place and has no receipt, an unknown one is not shown. The receipt also gives the price that was paid, the gas used in the block up to there and the position of every log in the block.", "quantifier": "all committed blocks, transactions, executions, pool contents, and commits that happen while the request is served", "why_tests_cant": "Each answer is assembled from five tables written by different functions; unit tests check the tables one by one.", "anchors": ["core/api/src/jsonrpc/impl/web3.rs:239-360", "core/api/src/jsonrpc/impl/web3.rs:532-568", "core/api/src/jsonrpc/impl/web3.rs:890-963", "core/api/src/jsonrpc/web3_types.rs:43-300", "core/api/src/adapter.rs:93-157", "protocol/src/types/block.rs:196-228"]}
{"id": "C81", "title": "The pending transaction count is the next nonce to use", "statement": "eth_getTransactionCount with \"pending\" answers the first nonce, from the nonce of the account after the last block the pool has seen, that no transaction of that account waiting in the pool uses. Transactions that were superseded do not count.", "quantifier": "all reachable pools, accounts, states and commits that happen while the request is served", "why_tests_cant": "The answer adds a number from the pool's queue to a number from the state of a block chosen by the pool; unit tests look at one of the two.", "anchors": ["core/api/src/jsonrpc/impl/web3.rs:355-402", "core/mempool/src/pool.rs:94-101", "core/mempool/src/tx_wrapper.rs:166-171"]}
{"id": "C82", "title": "No request ends the node", "statement": "Whatever an eth_ request carries, as long as it has the right types, and whatever the called contract answers, the node gives an answer or an error and goes on.", "quantifier": "all requests, chains, pools, contract behaviours and commits that happen while the request is served", "why_tests_cant": "A panic in a handler ends the process; the panicking values are single points in large input spaces.", "anchors": ["core/api/src/jsonrpc/impl/web3.rs:195-568", "core/api/src/jsonrpc/impl/web3.rs:890-1053", "core/api/src/jsonrpc/error.rs", "core/api/src/jsonrpc/web3_types.rs:43-300", "core/run/src/components/system.rs:27-37"]}
{"id": "C83", "title": "A gas estimate covers the run and can be used", "statement": "A successful eth_estimateGas answers at least the gas the run used and at most a quarter more. A transaction with the estimate as its gas limit is not refused for its gas limit by the same node.", "quantifier": "all requests, states and gas consumptions", "why_tests_cant": "Needs every gas consumption up to the limit; unit tests estimate small calls.", "anchors": ["core/api/src/jsonrpc/impl/web3.rs:464-507", "core/api/src/jsonrpc/impl/web3.rs:60-91", "core/api/src/jsonrpc/impl/web3.rs:195-237"]}
{"id": "C84", "title": "A raw transaction is accepted exactly as it was signed", "statement": "eth_sendRawTransaction succeeds only if the bytes are the encoding of a transaction with a price between 1 and 500 Gwei and a gas limit between 21000 and the cap, whose signature yields its sender, and the pool has taken exactly this transaction with this sender; the answer is the digest of the submitted bytes. The encoding of any well-formed signed transaction within these limits that the pool takes is accepted.", "quantifier": "all byte strings and transactions, any hash function and signature recovery", "why_tests_cant": "Malleable encodings, all three transaction kinds and both signature kinds; unit tests have a handful of transactions.", "anchors": ["core/api/src/jsonrpc/impl/web3.rs:195-237", "protocol/src/codec/transaction.rs:312-327", "protocol/src/types/transaction.rs:292-328", "protocol/src/types/transaction.rs:433-461"]}
{"id": "C85", "title": "What is written as text is read back and only one text stands for a value", "statement": "Bytes, keys, numbers, block identifiers and addresses in requests, responses and configuration have the documented text: two digits per byte behind 0x, numbers in the shortest form, addresses in the case that the checksum gives. A value that the node writes is read back as the same value, a text stands for the value that its digits spell, no text with another case is taken for an address, and texts that stand for no value are refused with an error.", "quantifier": "all byte strings, numbers below 2^256, block identifiers, addresses and texts, any hash function of 32 bytes for the checksum", "why_tests_cant": "Leading zeros, odd lengths, letter case and doubled prefixes combine freely; unit tests convert a few literals.", "anchors": ["protocol/src/types/primitive.rs:91-175", "protocol/src/types/primitive.rs:240-290", "protocol/src/types/primitive.rs:650-690", "protocol/src/codec/mod.rs:71-186", "core/api/src/jsonrpc/web3_types.rs:326-456", "devtools/axon-tools/src/types.rs:583-696"]}
{"id": "C86", "title": "A hardfork is adopted only by announcement and is reported as it stands", "statement": "A validator agrees to a block that announces a hardfork only if its own operator announced the same hardfork for the same block number; a proposer announces only what its operator gave and only while it lies ahead, and exactly the nodes with the same announcement agree. An announced hardfork is in force from its block number on, for good and nowhere before, and nothing but the chain spec or an announcing block puts one in force. The operator's command fails for a block that is past and otherwise changes only the stored announcement. axon_getHardforkInfo says enabled, determined or proposed exactly when the hardfork is in force, will be in force, or is only announced on this node.", "quantifier": "all chain specs and all sequences of commands, starts, stops at any point, proposals, commits and synchronised blocks with any extra data", "why_tests_cant": "The register is changed by the command line, the proposer, commits and restarts; tests check the flags of single steps, not their interleavings over the life of a chain.", "anchors": ["common/config-parser/src/types/spec.rs:226-283", "core/run/src/lib.rs:240-252", "core/run/src/lib.rs:530-617", "core/consensus/src/engine.rs:89-111", "core/consensus/src/engine.rs:168-197", "core/consensus/src/engine.rs:684-708", "core/api/src/jsonrpc/impl/axon.rs:110-210", "core/executor/src/system_contract/metadata/mod.rs:109-137"]}
{"id": "C87", "title": "The first state of a chain is the one that the chain spec describes", "statement": "After `axon init` the directory holds block 0 with the number, time, chain id and base fee of the chain spec, every account of the spec with its balance and no other account but the system contracts, without code, storage or nonces, the spec's validators and consensus parameters for the first epoch and one more of the same length, and the spec's hardforks at every block; `axon run` then works with exactly these, and after any later block a restart works with the same hardforks as before it. init takes every spec that a chain can start with and refuses the others; it never touches an existing directory; an init that failed or was interrupted can be repeated. Contracts are held to the size limit of the spec when the hardfork that governs it is on.", "quantifier": "all chain specs, all points at which init can stop, all blocks after which a node restarts", "why_tests_cant": "The tests run init on the three specs of the repository and compare hashes; they say nothing about other specs, duplicate accounts, refused specs or interruptions.", "anchors": ["core/run/src/lib.rs:52-114", "core/run/src/lib.rs:141-225", "core/run/src/lib.rs:451-528", "core/run/src/components/storage.rs:58-105", "core/run/src/components/chain_spec.rs:13-23", "common/config-parser/src/types/spec.rs:203-223", "core/executor/src/system_contract/mod.rs:126-201", "protocol/src/types/primitive.rs:555-567"]}
{"id": "C88", "title": "A data directory is opened only by a node that can read it", "statement": "`axon init` and `axon run` record the version of the node in the data directory. They work on a directory without a record and on one whose record does not precede the least compatible version in the order of semver.org (build identifiers do not count), and then the record names the node; with an older record they refuse and change nothing, with anything that is not a version they report an error. Whatever nodes were started on the directory, and wherever they were interrupted, the record is absent or the version of one of them, and a node that was let in once is let in again. A record of a newer node is refused, and a command that fails leaves the record as it was.", "quantifier": "all contents of the version file, all pairs of versions, all histories of starts by different versions with interruptions", "why_tests_cant": "The tests try two pairs of release versions; pre-release order, unreadable files, interruptions and histories of different nodes are not tried, and the order is that of another crate.", "anchors": ["core/cli/src/utils.rs:14-62", "common/version/src/lib.rs:6-50", "core/cli/src/args/init.rs:29-41", "core/cli/src/args/run.rs:30-56", "src/main.rs:6-16"]}
{"id": "C89", "title": "A node that is told to stop at a block stops there", "statement": "`axon run --mine-blocks N` makes exactly N blocks and ends, `--mine-to-height H` ends with H as the last block of the chain: no block above is stored, the node does not end before the block is stored, it is ended by the first attempt to go on, and an ended node commits nothing. This holds for every start height, with or without synchronisation, and for both options together the nearer of the two counts.", "quantifier": "all start heights and options, all interleavings of decided blocks, failed or locked commits and synchronised blocks", "why_tests_cant": "The option is only used by scripts that run a single node from the start; no test starts above the height, synchronises or gives both options.", "anchors": ["core/consensus/src/stop_signal.rs:5-47", "core/run/src/lib.rs:145-157", "core/run/src/lib.rs:305-311", "core/consensus/src/engine.rs:253-289", "core/cli/src/args/run.rs:20-45"]}
{"id": "C90", "title": "A trie is the map of what was put into it, and its root depends on nothing else", "statement": "After any sequence of insertions, removals and commits on a new trie, every look-up returns the value last put under that key, and nothing if the key was removed, never put, or put with an empty value; no call fails; a removal says whether the key was there. Two sequences that leave the same map give the same root, whatever was put, overwritten or removed on the way and wherever commits fell. A trie opened at a root that was committed earlier answers as the trie did at that commit, whatever was done to the database since. The same with the keys hashed, which is how accounts and storage are kept.", "quantifier": "all sequences of insertions, removals and commits, all values, all keys of a set in which no key starts another (digests; positions of a list), all earlier roots", "why_tests_cant": "The tests insert a few keys and compare with fixed roots; node splitting, merging on removal, inlined nodes shorter than 32 bytes and reopening old roots depend on the exact paths, and the crate is another project's.", "anchors": ["core/executor/src/adapter/trie/wrapped.rs:12-72", "common/merkle/src/lib.rs:56-104", "core/executor/src/adapter/trie/db.rs:100-140"]}
{"id": "C91", "title": "A root stands for one content", "statement": "If two tries have the same root then they hold the same map, and if two lists (of transaction hashes, of receipts) have the same Merkle root then they are the same list: same length, same items, same order. Every list has a root. The only assumption is that the hash function gives different results on the different nodes that were stored.", "quantifier": "all pairs of histories of tries, all pairs of lists of non-empty items", "why_tests_cant": "Different contents with the same root can only be searched for; a collision of encodings (compact paths, inlined nodes, branch values) would be missed by any sample.", "anchors": ["core/executor/src/adapter/trie/wrapped.rs:12-72", "common/merkle/src/lib.rs:56-104", "core/consensus/src/engine.rs:79-87"]}
{"id": "C92", "title": "A trie proof shows what the trie holds", "statement": "The proof that a committed trie gives for a key is accepted against its root and yields the value of the key, or that it is absent. No list of nodes whatsoever makes the check yield another value than that of the trie with this root; and if it yields absence, the key is absent.", "quantifier": "all histories of tries, all keys, all lists of byte strings offered as proofs", "why_tests_cant": "A forged proof is any list of byte strings; tests check honest proofs of single keys.", "anchors": ["devtools/axon-tools/src/proof.rs:16-25", "core/executor/src/adapter/trie/wrapped.rs:50-58", "core/api/src/adapter.rs:257-331"]}
{"id": "C93", "title": "The node does not pester addresses that do not answer", "statement": "An address the node heard of but never reached is dialled at most three times in all, and one not reached for a week at most ten times, each time more than a minute after the last; this holds over any further operation of the node in which nothing reaches that address, it is not a bootstrap node or one of the node's own, and the address book is not full. No address is dialled again while a dial of it is in progress, and the regular ticks never dial a peer the node is connected to.", "quantifier": "all runs of a node (ticks with any random choices, sessions opening and closing, failed dials, bans, addresses learned, multicasts), all addresses", "why_tests_cant": "The tests mark entries by hand and look at one fetch; the limits are the joint effect of four dialling routines, the retry counters in the address book and the sets of dials in progress over hours of operation.", "anchors": ["core/network/src/service.rs:351-500", "core/network/src/service.rs:510-580", "core/network/src/peer_manager/mod.rs:57-104", "core/network/src/peer_manager/peer_store/types.rs:71-105", "core/network/src/peer_manager/peer_store/peer_store_impl.rs:130-197", "core/network/src/outbound/gossip.rs:87-120"]}
{"id": "C94", "title": "Accounts kept in tries are the accounts, and the state root stands for them", "statement": "The executor keeps accounts and contract storage in Merkle Patricia tries that share one database. Whatever sequence of account changes, storage writes, code deployments, deletions and commits is applied, no step fails, and existence, nonce, balance, code and storage of every address read back as from plain maps. The state root depends on the resulting accounts alone, two states with the same root agree on every account, slot and code, and any committed root can be opened again after any further blocks and carried on from as if these had not happened. The only assumption is that no two different strings hashed on the way have the same hash.", "quantifier": "all sequences of operations of the EVM backend, of get_account/save_account and of commits, on any addresses, slots, codes and values", "why_tests_cant": "Tests write a few accounts and read them back in one trie; the interplay of nested tries over one database, empty storage, resets, deletions, old roots and equality of roots after different histories is a property of all sequences.", "anchors": ["core/executor/src/adapter/backend/apply.rs:128-276", "core/executor/src/adapter/backend/read_only.rs:36-51", "core/executor/src/adapter/backend/read_only.rs:111-230", "core/executor/src/adapter/trie/wrapped.rs:13-73"]}
{"id": "C95", "title": "eth_getStorageAt and eth_getProof are right about a state root and their proofs can be checked", "statement": "Asked for a state root that was committed at any earlier time, eth_getStorageAt returns the slot of that state; eth_getProof returns nonce, balance, code hash and storage root of the account with a proof that verifies against the state root and shows exactly these fields, and each slot with a proof that verifies against the returned storage root and shows its value or its absence. An absent account gets a proof of absence that verifies. Whatever list of nodes is accepted as proof of an account or of a slot shows the account and the slot of that state.", "quantifier": "all states reached by any operations, all later operations, all addresses and slots, all lists of nodes as proofs", "why_tests_cant": "Tests check a proof of one slot of one contract; the claim is about every state, account and slot, about later commits to the same database and about adversarial proofs.", "anchors": ["core/api/src/adapter.rs:232-331", "core/executor/src/adapter/trie/wrapped.rs:31-44", "devtools/axon-tools/src/proof.rs:16-25"]}
{"id": "C96", "title": "Only the holder of a key can send transactions of its account", "statement": "A transaction that the pool newly accepts, whether submitted by a user or received from a peer, bears a signature of exactly its content made with the key whose address is its sender. Nobody who lacks that key can make the pool accept a transaction of the account that the holder did not sign, short of a hash collision, and the check never crashes.", "quantifier": "all transactions that reach the pool, all pool and chain states, any signature scheme, any set of image cells and any behaviour of the CKB-VM", "why_tests_cant": "Tests sign a few transactions with known keys and see them accepted; that no other transaction is accepted is a statement about all byte strings, keys and programs.", "anchors": ["core/mempool/src/adapter/mod.rs:293-321", "core/mempool/src/adapter/mod.rs:441-457", "core/interoperation/src/lib.rs:43-66", "protocol/src/types/transaction.rs:407-461"]}
{"id": "C97", "title": "A peer that answers wrongly cannot take a node off the chain", "statement": "Whatever a single peer answers while a node synchronises, the node ends up with the blocks of the chain that the validators agreed on: a block that it accepts at a height is the chain's block of this height, and when later peers answer honestly it goes on along the chain.", "quantifier": "all honest chains, all states of a node that follows the chain by synchronising, all answers of the wrong peer, all later histories of announcements, answers, reads, crashes and restarts", "why_tests_cant": "A test feeds a few wrong blocks and sees them refused; that no wrong block is accepted, or that a node can never recover from one, quantifies over all answers and over all later histories.", "anchors": ["core/consensus/src/synchronization.rs:158-203", "core/consensus/src/synchronization.rs:208-297", "core/consensus/src/synchronization.rs:304-379", "core/consensus/src/adapter.rs:414-571", "protocol/src/types/block.rs:90-108"]}
{"id": "C98", "title": "A block hash stands for one block, its transactions and their outcome", "statement": "Two blocks with the same hash are the same block: the same header, the same transactions in the same order, each with its signature and sender, and for each the same success, gas and logs in the receipt, short of a hash collision. Making the roots never fails. Whoever has only the header can check that a transaction or a receipt is at a position of the block from a short proof, and no list of nodes proves a wrong item. The receipts are those of Ethereum.", "quantifier": "all lists of transactions, results and logs of any length, all positions, all lists of nodes offered as a proof", "why_tests_cant": "One reference vector with one receipt is tested; that no two lists share a root, and that no forged proof is accepted, is a statement about all lists and byte strings.", "anchors": ["core/consensus/src/engine.rs:70-88", "core/consensus/src/engine.rs:605-625", "core/consensus/src/util.rs:19-25", "protocol/src/types/transaction.rs:494-516", "core/executor/src/lib.rs:160-201", "common/merkle/src/lib.rs:56-104", "devtools/axon-tools/src/proof.rs:16-25"]}
{"id": "C99", "title": "A signed transaction takes effect at most once", "statement": "However transactions arrive, whatever is proposed and however the peers asked for transactions answer, along the life of a chain no transaction that a node executes was executed before: neither the same hash, nor the same signed content under another hash, nor another transaction of the sender with the same nonce. Every block executes the transactions its header names.", "quantifier": "all runs of a node: any interleaving of transactions from users and peers, proposals with any hashes and any answers, own proposals and commits", "why_tests_cant": "The tests execute single blocks and check single proposals; that nothing is executed twice is a statement about all histories, and depends on the pool, the database, the answers of other nodes and the executor together.", "anchors": ["core/mempool/src/lib.rs:95-133", "core/mempool/src/lib.rs:242-324", "core/consensus/src/engine.rs:591-602", "core/consensus/src/engine.rs:253-348", "core/executor/src/lib.rs:296-393", "protocol/src/codec/transaction.rs:128-133"]}
{"id": "C100", "title": "What is stored on disk is what the node works with", "statement": "The database keeps each kind of data apart, and a read gives the value of the last successful write of its key, over any number of restarts; a write that fails changes nothing, and a batch is done as a whole. The bytes kept for a block, header, proof, transaction, receipt or code are decoded to the same value, so after a restart, or when the caches have dropped it, every query is answered as if the value had stayed in memory. A test with the in-memory database says how the node behaves with the one on disk.", "quantifier": "all histories of writes, removals, batches, reads, cache evictions, restarts and failing library calls; all keys and values of the types of the node", "why_tests_cant": "Tests store a few values and read them back from a running process; the claim is about all values, all histories with restarts and failures, and about two database implementations agreeing.", "anchors": ["core/db/src/rocks.rs:20-334", "core/db/src/memory.rs:14-216", "core/storage/src/lib.rs:91-559", "core/storage/src/schema.rs:23-46"]}
{"id": "C101", "title": "A system-contract call means what the caller encoded and costs memory in proportion to its size", "statement": "Calldata made by any correct Solidity ABI encoder for a function of the metadata, image cell or light client contract (or for the call_ckb_vm precompile) is read by the node as exactly that function with exactly those arguments, for all nested structures, arrays and byte strings; no two calls have the same calldata, and calldata that does not start with the selector of one of the contract's functions does nothing. The memory a node needs for the arguments is bounded by the size of the calldata.", "quantifier": "all functions of the three system contracts and all arguments of their types; all calldata; all sizes", "why_tests_cant": "Tests encode a few calls with the same library that decodes them; the claim is about all arguments against an independent encoder, and about calldata no encoder makes.", "anchors": ["core/executor/src/system_contract/metadata/abi/metadata_abi.rs:150-336", "core/executor/src/system_contract/image_cell/abi/image_cell_abi.rs:115-307", "core/executor/src/system_contract/ckb_light_client/abi/ckb_light_client_abi.rs:110-225", "core/executor/src/precompiles/call_ckb_vm.rs:56-79", "core/executor/src/system_contract/image_cell/mod.rs:30-68"]}
{"id": "C102", "title": "A transaction that the Merkle precompile accepts is in the CKB block", "statement": "A contract that calls the precompile at 0x\u20260107 with the transactions root of a CKB block and a proof gets the answer true only when every leaf it gave is the hash of a transaction of that block (of a witness, for the other type), at the position its index says; every transaction of every block can be proved so; the answer costs 56000 gas and is never given for less; and no input ends the node.", "quantifier": "all CKB blocks (lists of transactions and witnesses of any length), all payloads: types, roots, indices, lemmas and leaves; all inputs and gas limits; all hashes without collisions", "why_tests_cant": "Tests check one proof made by the same library and one broken one; the claim is about every tree and every forged proof.", "anchors": ["core/executor/src/precompiles/ckb_mbt_verify.rs:14-113", "devtools/axon-tools/src/precompile.rs:6-92"]}
{"id": "C103", "title": "An accepted transaction reaches the other nodes", "statement": "When a node accepts a transaction it passes it on, in batches of at most the configured number, and so do the nodes that get it and accept it, so that in a connected network in which no message is lost and nobody refuses it every node ends up with it; a node passes each transaction on once; no node has a transaction that was not submitted to some node; and a user who submits the transaction again makes up for one that got lost.", "quantifier": "all networks and session lists, all submissions of any number of transactions at any nodes, all interleavings of admissions, broadcaster ticks, deliveries and losses, all random choices and session orders, all batch sizes", "why_tests_cant": "Tests run one broadcaster with a mock network; which nodes of a network get a transaction depends on topology, timing and the random starts of every hop.", "anchors": ["core/mempool/src/adapter/mod.rs:42-115", "core/mempool/src/adapter/mod.rs:366-384", "core/mempool/src/adapter/message.rs:30-78", "core/mempool/src/lib.rs:95-133", "core/network/src/outbound/gossip.rs:150-230", "core/network/src/protocols/mod.rs:64-102"]}
{"id": "C104", "title": "No line of the log is lost when the files are rotated", "statement": "Whatever is logged, to the node's log and to the metrics log, is in the files of the log directory: the archives in the order of their rotations followed by the current file give all lines in order. The current file never stays longer than the configured limit, the two logs do not disturb each other and no other file is touched.", "quantifier": "all log directories, size limits, contents of the directory beforehand, and sequences of lines to both logs at any times", "why_tests_cant": "The test rotates one file once; loss shows only in sequences of rotations and in how the names of the archives can coincide.", "anchors": ["common/logger/src/date_fixed_roller.rs:18-85", "common/logger/src/lib.rs:60-92"]}
{"id": "C105", "title": "A query means what its JSON says", "statement": "A log filter, a subscription and a call object mean what their JSON says: the logs of an accepted filter are exactly those whose address and topics the members select, null and missing members do not restrict, the blocks and the values of a call are those that are written, the order of the members does not matter, and the same JSON selects the same logs in eth_getLogs, eth_newFilter and eth_subscribe. Nothing that is written is silently ignored: an unknown or repeated member is refused.", "quantifier": "all JSON values, chains, logs and readers of hashes and numbers", "why_tests_cant": "Tests read a few literal objects; which combinations of members, nestings of null and lists and orders are accepted, and what they select, is a statement about all JSON.", "anchors": ["core/api/src/jsonrpc/web3_types.rs:303-325", "core/api/src/jsonrpc/web3_types.rs:345-456", "core/api/src/jsonrpc/web3_types.rs:511-640", "core/api/src/jsonrpc/web3_types.rs:813-823", "core/api/src/jsonrpc/impl/filter.rs:31-72", "core/api/src/jsonrpc/ws_subscription.rs:238-300"]}
{"id": "C106", "title": "The CKB data that the node serves is what was imported", "statement": "ckb_getBlockHeaderByHash and ckb_getCellInfo, and the data loader that programs of the CKB-VM are run with, answer from the latest block: the header is the one last imported under the hash and not rolled back, with every field as imported; a cell is served with the imported output and data exactly if it exists and is live; clients and programs are told the same.", "quantifier": "all histories of blocks with any calls of the light client and image cell contracts, all hashes and out points, any ABI codec and hash functions", "why_tests_cant": "Which header or cell is current depends on the whole history of updates, consumptions and rollbacks across blocks.", "anchors": ["core/executor/src/system_contract/mod.rs:238-315", "core/executor/src/system_contract/image_cell/store.rs:289-309", "core/api/src/jsonrpc/impl/ckb_light_client.rs:20-59", "core/api/src/adapter.rs:356-366"]}
{"id": "C107", "title": "What a block does depends on its parent's state and the block, not on the process", "statement": "Nodes that store the same blocks have the same states and the same answers for their transactions, whatever threads executed them, whatever was queried in between and wherever the nodes were stopped and started again; a query on an old block uses the limits that were in force after it. An execution that is thrown away leaves no trace.", "quantifier": "all chains, blocks and transactions, all histories of executions, rejected executions, queries and restarts on any threads, any interpreter", "why_tests_cant": "The flags of the hardforks and the roots of the system contracts live in process-wide and thread-local variables; whether they influence a result depends on everything that happened in the process before.", "anchors": ["core/executor/src/lib.rs:46-49", "core/executor/src/lib.rs:128-208", "core/executor/src/lib.rs:395-424", "core/executor/src/system_contract/metadata/mod.rs:109-137", "core/executor/src/system_contract/metadata/handle.rs:57-64", "core/consensus/src/synchronization.rs:304-341", "core/run/src/lib.rs:203-213"]}
{"id": "C108", "title": "An operator's keys are kept and are the keys that the node acts with", "statement": "The pairs that generate-keypair prints are the ones in the files it writes, recover-keypair shows the same pair again, and a node that is given the two files is the peer, the address and the validator that was printed: when the chain lists the printed public keys, every node treats it as a validator and accepts its votes. Files that hold no key are refused. No key that was on the disk is lost.", "quantifier": "all directories and file systems, all numbers of keys, all failures of writes at any point, all validator lists and configurations, any libraries that keep their promises", "why_tests_cant": "The promise joins a command, the disk, the configuration, the network layer and consensus, which only meet on running nodes; and what a failed or repeated command leaves behind depends on every write that can fail.", "anchors": ["core/cli/src/args/generate_keypair.rs:36-150", "core/cli/src/args/recover_keypair.rs:29-52", "common/config-parser/src/types/config.rs:96-176", "core/run/src/lib.rs:229-250", "core/run/src/lib.rs:317-394", "core/run/src/components/network.rs:56-64", "core/run/src/key_provider.rs:1-58"]}
{"id": "C109", "title": "The metadata tool encodes exactly the validators it is given and shows exactly those a cell holds", "statement": "axon-metadata get-data reads a list of validators from JSON, TOML or a chain specification as what it says and writes cell data in the molecule format that holds these validators in order, each with the address of its public key; parse-data shows of any well formed data the validators of its first metadata, shows those that get-data was given, and get-data makes the same data again from what is shown. No bytes but one form are taken for the same content. Neither command changes a file other than its output.", "quantifier": "all validator lists, all JSON and TOML trees, all byte strings given as cell data, all file systems; sizes below 2^32", "why_tests_cant": "Test vectors cover one example file; the promise is about every list and every byte string, including those that a reader must refuse, and about what is left on the disk when a run fails.", "anchors": ["devtools/metadata-cli/src/main.rs:16-215", "devtools/metadata-cli/src/serde_helpers.rs:1-71", "devtools/metadata-cli/README.md:1-47", "devtools/metadata-cli/data.example.hex:1", "protocol/src/types/primitive.rs:211-232"]}
{"id": "C110", "title": "The API servers offer the documented methods within the configured limits and report the state of the node", "statement": "With a configured address that can be listened on, the HTTP and the WebSocket server come up; every documented method is answered by the same function over both, no name means two functions, subscriptions are offered over WebSocket alone, no request and no answer above the configured size is served and never more connections than configured. The code of an error tells its kind. eth_chainId and net_version are the same number, web3_sha3 is the Keccak hash of its bytes. eth_syncing tells, at every point of every execution, whether a synchronisation is under way, where it began, how far it is and where it goes.", "quantifier": "all configurations, requests, answers and method names; all executions of a node, with every interleaving of announcements, commits, synchronisation steps and failures", "why_tests_cant": "Tests call single methods on a fresh server; that no call is lost, doubled or unlimited, and that what is reported agrees with what goes on at each moment of an execution in which calls fail, no finite set of requests shows.", "anchors": ["core/api/src/jsonrpc/mod.rs:29-316", "core/api/src/jsonrpc/impl/node.rs:28-118", "core/api/src/jsonrpc/error.rs:11-95", "core/api/src/jsonrpc/web3_types.rs:648-690", "core/consensus/src/synchronization.rs:20-97", "core/consensus/src/synchronization.rs:150-205", "core/consensus/src/synchronization.rs:502-565", "core/api/README.md:230-2391"]}
{"id": "C111", "title": "Transactions that can be executed are offered for the next block", "statement": "Whatever was inserted, packaged, committed and timed out before, a package whose limit is not below the number of transactions in the pool lists every live transaction whose sender has in the pool a live transaction for every nonce from the nonce of the account on up to it.", "quantifier": "all sequences of insertions, packages, refreshes and blocks, all accounts, nonces, prices, capacities and time-outs", "why_tests_cant": "Whether a transaction becomes ready depends on the order in which the nonces of its sender arrive, on the blocks and on the time-outs in between; tests insert nonces in a few orders into a fresh pool.", "anchors": ["core/mempool/src/pool.rs:155-205", "core/mempool/src/pool.rs:238-305", "core/mempool/src/tx_wrapper.rs:99-171"]}
