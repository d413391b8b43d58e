# Formal model of axonweb3/axon: design

Everything here is about an executable Gallina model in `rocq/theories`, read off
the Rust sources in `/repo` (pinned commit). The Rust code is not built or run, so the only tie
between model and code is the citation in the comment above every definition.

## Conventions

* One model file per area (`XxxModel.v`, no proofs), one file of lemmas
  (`XxxProofs.v`) and one file of property theorems (`XxxProps.v`). In the
  property files each theorem is stated against a small separate
  specification, closed by `exact`, followed by `Print Assumptions`, and
  accompanied by `Example`s showing that its hypotheses are met by a concrete
  non-trivial case.
* Bytes are `N` values below 256, byte strings are `list N`. Machine integers are
  `N`; the width is written explicitly (`2^64`, `2^256`) where overflow, wrap or
  panic matters, and a Rust panic is an explicit result value, not a default.
* Maps are std++ `gmap`. Shared pointers (`Arc`) are heap locations (`N`) in a `gmap`.
* Hash functions, signature recovery, EVM execution, snappy compression, the
  rocksdb engine, clocks and random numbers are Section variables (universally quantified in
  the closed theorems) or oracle arguments; theorems hold for every choice, or
  state the needed hypothesis explicitly.
* When the faithful model violates a property, the theorem `..._refuted`
  exhibits a concrete witness and the positive part that does hold
  is proved as `..._partial`. Such properties have status `partial` in `MANIFEST.json`.

## Trusted base

* Coq 8.16.1's kernel and its VM (`vm_compute` is used for witnesses).
* The model's fidelity to the cited Rust lines (including behaviour of the external
  crates `rlp`, `ethereum-types`, `parking_lot`, `crossbeam` queues, rocksdb, `evm`), which is
  described in the comments of each model file.
* Axioms: the list printed by `Print Assumptions` under each theorem; the aim is "Closed
  under the global context" everywhere. The section "Axioms actually used" below is
  kept current.

## Plan per property

| id | what is modelled | how it is proved |
|----|------------------|------------------|
| C01 | RLP stream encoder, RLP reader, the three transaction codecs (`TxCodec`) | encode/decode inversion by induction on items, then per-field; hash as a Section variable |
| C02 | same encoder, signing form | injectivity of the encoder from the reader's round trip; types separated by first byte / item count |
| C03 | decoder with explicit panic outcome | case analysis: no panic for non-empty input; witness for empty input |
| C04 | decoder and encoder | decode-then-encode lemma on exactly-sized inputs; witness with trailing bytes |
| C05 | header, block, proof codecs | round trip from the generic RLP lemmas |
| C06 | proposal codec | round trip with the two unencoded fields restored from node constants; witness of loss |
| C07 | receipt and execution-result codecs | round trip for receipts; refutation for execution results |
| C08 | bloom filter construction | bit-level induction over logs; header bloom refuted |
| C09 | key encoders | big/little endian digit lemmas; lexicographic order |
| C10-C16, C19 | whole priority pool with pending queues, shared transaction states, system bucket (`Pool`) | invariants by induction over operation sequences; C14 for whole runs by an invariant on the places (sender, nonce) taken so far (`PoolProps3`: no place twice, the nonces given to the pool are those of the accounts) |
| C17, C18 | `ensure_order_txs`, `get_full_txs` over the pool | decision-procedure style proofs; refutations |
| C20, C55 | admission checks, nonce cache, system-call classification (`Mempool`) | iff-characterisation |
| C21-C27, C57, C58 | block execution: prepayment, refund, system contracts, fee split, after-block hook; EVM and ABI decoding as oracles (`Exec`) | case analysis of one transaction, induction over the transaction list, sums over account maps |
| C28, C56 | metadata store: epoch segments, per-epoch entries, global configuration (`Meta`) | invariant over histories, search correctness |
| C29, C30 | image cell and CKB header stores over a map | algebra of map updates |
| C31 | cached trie database with arbitrary eviction | refinement to a plain map |
| C32-C34 | block store with LRU caches (arbitrary eviction) over a map | refinement; refutations for stale caches and duplicate lookups |
| C35, C36 | WAL directories as maps of files, crash points as prefixes of file-system steps | invariants over histories |
| C59 | proposal rebuilt from the header | equality of the rebuilt proposal; witness for a wrong state root |
| C37 | voter weight check | arithmetic + sublist counting for quorum intersection |
| C38-C42 | commit state machine, synchronisation state machine, persistence order | induction over steps; crash points as prefixes |
| C43 | hardfork list and lookup | induction over pushes |
| C44 | flag byte framing, snappy as oracle | case analysis |
| C45 | RPC map | invariant over interleavings |
| C46, C47 | ban list, registry, session opening and closing, dialling, as one transition system with the transport's events | invariant over all event histories; refutations with concrete histories |
| C48 | address manager with swap-remove, eviction | refinement to a map from socket addresses to entries, by induction over operation sequences |
| C49 | gossip filter | list lemmas |
| C60 | endpoint text parsing, request id digits | string lemmas, digit induction |
| C61 | router and reactor dispatch, RPC payload framing | exact description of the panicking messages, delivery lemmas |
| C62 | dump and load of address book and ban list | any permutation of the dumped entries loads to the same look-ups |
| C50 | eth_getLogs: matching, ranges, limits (`ApiModel`) | the answer equals a filter over the enumerated logs of the chain; loop invariant "a prefix, all of it unless the limit was passed" |
| C51 | block filters, expiry, clients that go away | invariant over all event sequences: returned so far = hashes between creation and the filter's position |
| C52 | eth_feeHistory with `SpecFloat` for f64 | loop lemma, shape for every request; refutations by computation |
| C53 | not expressed: the tree is built by the external crate `static_merkle_tree`; `common/merkle` only forwards to it | - |
| C63 | log filters | as C51, with the set of blocks of interest as the invariant |
| C64 | subscription service: subscriptions, closing, ticks, block appends | as C51, per subscriber |
| C65 | modexp.rs whole, with saturating conversions and overflow | case analysis against EIP-198/EIP-2565 written on the zero-extended input |
| C66 | blake2_f.rs whole | refinement of the array program to the matrix form of RFC 7693, by induction on rounds |
| C67 | hash, recovery, curve and CKB-VM precompiles; primitives as arguments | equations against Ethereum's rules on the zero-extended input |
| C68 | GetHeader and GetCell over the HeaderCell store | invariant over all call histories of the two contracts |
| C69 | axon-tools verify_proof, its types and encoders, next to the node's verify_proof | exact acceptance condition by sorting and rank lemmas; agreement through ConsensusModel; refutations on a concrete chain |
| C70 | the metadata contract inside block execution (ExecModel, MetaModel) | case analysis of every path of a transaction, induction over the block |
| C71 | BackendModel: the read functions of the backend over ExecModel's state | a separate world (addresses to accounts with code bytes and slot functions); simulation, one change at a time, lifted to transactions |
| C72 | ProtoModel: prost's wire format and the four message families | a separate relation `wire` between fields and bytes; decoding loop by induction on its input, unknown fields skipped |
| C73 | P2pModel: the ping handler as a step function over events | trace predicates (`p_open`, `awaiting`) and an invariant tying them to the handler's table |
| C74 | P2pModel: the identify handler | the same, with the view of a session (opened when, introduced or not); C72 for the honest peer |
| C75 | P2pModel: the discovery handler, random choices and filter answers as inputs | invariant over sent and received messages of a connection; two-node theorem from the sender's invariant and the receiver's closing condition |
| C76 | SyncModel: the three pull handlers over StorageModel; ConsensusModel: the fetching side | served answers from C32-C34 lemmas; invariants of the transaction assembly; induction over the fetched blocks and over the announcements; witness for the last sentence |
| C77 | CryptoModel: OverlordCrypto over an abstract BLS record, when the key map and the authority list are replaced; metadata from MetaModel | the store's epochs only grow (C28 invariants), so the map stays right inside an epoch; induction over histories; additivity of BLS for aggregates; witnesses for synchronisation, restart and rogue keys |
| C78 | ConsensusModel: check_block, inner_check, get_proposal, commit | check_block = Ok iff an independent list of conditions; induction over histories for the exemption; the unread fields by the same equivalence |
| C79 | Web3Model: number_by_id, get_account, storage_at, account_proof, call_evm and the handlers as programs of questions; every question may be answered by a later view of the node | views only grow; block lookup by C32, account codec roundtrip, then each handler by evaluation; states are given as functions, independent of tries |
| C80 | Web3Model: find_tx, to_wtx, to_wreceipt, to_wblock, rich_txs, tx_at_index | C32 for the tables, C54 for the receipts, induction over the transactions of the block for the rich form |
| C81 | Web3Model: eth_getTransactionCount; PoolModel: pool_count and the height of the last flush | C19 and C15 for the pool (one live transaction per nonce), C79's reading of the state; counting a run of numbers |
| C82 | all handlers of Web3Model with their panics (indexing, unwrap, checked arithmetic, slices of the revert data) | a safety predicate on programs, closed under bind, for every handler; what decodes can be rendered (`C82_decoded_renderable`) |
| C83 | Web3Model: eth_estimateGas, call_evm | C79_estimate and arithmetic |
| C84 | Web3Model: eth_sendRawTransaction, TxModel: dec_utx, check_hash, from_unverified | inversion of the handler, C01 for the other direction; any hash function and recovery |
| C85 | HexModel: Hex, decode_256bits_key, serialize_uint, BlockId, Address checksum, readers of axon-tools | digits against a relational spec (`denotes`, `spells`); inversion of each reader; any 32-byte hash for the checksum, Keccak for the witnesses |
| C86 | HardforkModel: flags of the chain spec and the command line, the stored and the kept announcement, propose / check / commit / synchronise, axon_getHardforkInfo; the list is that of MetaModel | induction over all operation sequences (stops at any point included) on the register invariant and on the order of the list; the report against `in_force` |
| C87 | GenesisModel: init, execute_genesis, system_contract::init, save_block as a list of writes, what start reads; state and executor are those of ExecModel, metadata those of MetaModel | computed for an arbitrary spec; the accounts against `last_entry`; every prefix of the writes |
| C88 | VersionModel: parser, printer and order of semver versions, Version::new, check_version with its file, init and run up to the check | parser and order proved exact against a grammar and a precedence relation written from semver.org; induction over histories of starts with interruptions |
| C89 | VersionModel: the options, the height, the signal, the first half of commit, synchronisation as an arbitrary event | invariants over all event lists |
| C90 | TrieModel: cita_trie 5.0 function by function (nibbles, compact paths, nodes, get, insert, delete, degenerate, encode, commit, decode, recover), MPTTrie, TrieMerkle | refinement: every in-memory trie represents a tree in normal form, over any database that holds the stored nodes; normal forms are unique for their contents |
| C91 | the same | the node encoding of normal forms is injective under a hash that tells the stored nodes apart; positions are prefix-free keys |
| C92 | the same with get_proof and verify_proof | the nodes of a path in the proof database determine the look-up; an arbitrary proof database agrees with the trie wherever it answers |
| C93 | DialModel: the dialling tick, the four routines it calls, the dials of a multicast, on top of PeerModel's sessions, address book and bans | a round changes an entry only by marking it tried, at most once; the counter bounds the dials of a run by induction; pending dials are in the dialling or feeler set unless a refused session is still closing |
| C94 | WorldModel: the backend of the executor on the tries of TrieModel, with account codec, nested storage tries and codes | simulation: an invariant ties the trie of accounts, every storage trie and the codes to the maps of ExecModel; each operation keeps it and only extends the database; canonicity and binding of C90/C91 twice, for accounts and for storage |
| C95 | WorldModel: r_storage_at, r_proof; TrieModel: verify_proof | the invariant of C94 at a committed root and the proof lemmas of C92, for the trie of accounts and the storage trie |
| C96 | SigModel: verify_signature, call_ckb_vm in the place of MempoolModel's `sig_ok` | C55_admitted and the definition of the sender; unforgeability is a hypothesis about the verification function; the refutation builds a transaction for any public key and runs it through eth_sendRawTransaction |
| C97 | ConsensusModel (verify_block, commit_block of the synchronisation, restart), SyncProps' honest chains | decoding of proposals (C06) for what the proof covers; congruence of the checks in the uncovered fields; an invariant over all later events and restarts for the halt |
| C98 | CommitModel: transactions_root, digest_signed_transactions, encode_receipt, receipts_root, get_proof_by_index over TrieModel's TrieMerkle; blocks from BloomModel.block_new | C05, C01 and C91 composed: equal hashes give equal headers, hence equal roots and digests, hence equal lists; positions as RLP keys are prefix free, so that C92 gives proofs for one item |
| C99 | ReplayModel: admission in two steps, check of the transactions of a proposal, own proposals and commits over MempoolModel, PoolModel and ExecModel | invariant of the run: nothing in the pool, under admission or accepted at this height is in the database; pool facts from C13, C17, C18; the refutations are runs of a node with an interpreter for plain transfers |
| C100 | DbModel: the RocksDB adapter (opening, columns, insert, remove, batch, get, iterator), the memory adapter, the schemas and ImplStorage over bytes | spec of a history (`said`: the last word on a key) and induction over calls; refinement of StorageModel: columns are the images of the typed maps under the codecs, round trips from C01, C05, C07 |
| C101 | AbiModel: types, selectors and functions of the three system contracts, the payload of call_ckb_vm, decode_param of ethabi | independent ABI encoder (heads and tails); induction over types that an encoding is read wherever it stands; bound on memory by induction over types; calldata with shared offsets |
| C102 | CbmtModel: the payload, its checks and the gas of the precompile; node indices and MerkleProof::root of merkle-cbt over an abstract hash | spec of the complete binary tree by node values; backward induction over the queue (a right parent has right children unless the hash collides); paths and full levels by induction for completeness |
| C103 | GossipModel: a network of nodes with admission in two steps, the interval broadcaster with its groups by origin, gossip targets of NetModel and messages under way | invariants over runs: sources know what they send, every known transaction waits in the broadcaster or was sent to gossip targets that have it or will get it; counting with C49; the counterexample is built for every network by induction on the nodes without the transaction and the messages under way |
| C104 | LogModel: replacement in the pattern, names of archives, roll_file over a map of files, two rolling appenders | names are injective (decimal numerals have their value); induction over lines: archives in order ++ current file = all lines |
| C105 | JsonModel: JSON values, the struct and untagged readers that serde derives, Web3Filter, RawLoggerFilter (both), BlockId, subscription parameters, Web3CallRequest | a relational reading of the JSON (`selects`, `gives`) stated on membership only; inversion of the readers; permutation of members; composed with C50 for the answer of eth_getLogs |
| C106 | CkbDataModel: DataProvider, CellMeta, the two methods of the CKB RPC over the HeaderCell store of CellModel | histories `told` (C68) and `cell_told`; induction over all calls of all blocks |
| C107 | ProcModel: HARDFORK_INFO, the thread-local roots beside the slots in the state, exec, call, restarts, executions that synchronisation throws away; transactions as in ExecModel | refinement of ExecModel by the two-level model; induction over all histories against `chain`, a function of state and blocks |
| C108 | KeyModel: generate-keypair with files and failing writes, recover-keypair, loading of the key files, the identities that a starting node takes on; votes as in CryptoModel | induction over the rounds of the command against a spec of the file names; composition with the key map of CryptoModel |
| C109 | MetaCliModel: the molecule encoding with the checks of its readers, the schema of the metadata cell, reading of JSON and TOML trees, the commands get-data and parse-data with their files | round trips in both directions against a separate statement of the molecule format (`molecule`) by induction over offsets and slices; relational specification of inputs |
| C110 | ServerModel: the tables of methods with merging, the builder settings of both servers, serving of one call, error codes, chain identifier, SYNC_STATUS as an observer of the node of ConsensusModel | tables by computation over all configurations; the observer by an invariant over all executions (`tracks`), on top of C41 |
| C111 | the pool of PoolModel | invariant over all runs in which each place (sender, nonce) is taken once, the nonces given are those of the accounts and blocks are made of transactions of the pool (`steady`): every queue begins at the nonce of its account and what follows it without a gap is packaged; on top of the invariant for C14 |

Modules not modelled at all: parsing of the command line and of config files, logging/metrics, tentacle
protocol plumbing, the EVM interpreter, CKB-VM, curve arithmetic of the precompiles, rocksdb itself.

## Notes on the model files

* `Bytes`, `Rlp`: byte strings; the `rlp` 0.5.2 stream encoder and reader (including its
  leniency about trailing bytes). `TxModel`, `BlockModel`: the codecs of `protocol/src/codec`. `BloomModel`:
  `ethbloom`, receipts, storage keys. `Keccak`: Keccak-256, used in witnesses only.
* `PoolModel`: `core/mempool/src/pool.rs` and `tx_wrapper.rs`. Every public method is atomic. The
  history hypothesis `consistent` says a hash identifies one transaction and one kind (system or
  not); this is collision freeness of the transaction hash restricted to the history. The order used by
  `sort_unstable` is not transitive, so the sort is an arbitrary permutation, except in the `isort` examples
  (the insertion sort Rust 1.72 uses up to 20 elements).
* `MempoolModel`: `core/mempool/src/lib.rs` and the checks in `adapter/mod.rs`. Signature verification is an oracle.

* `CellModel`: image cells and CKB headers. A trie is its finite map of keys to values and its root is that map; molecule packing
  happens before the model; the ABI codec is an oracle.
* `ExecModel`: `core/executor`. The state trie is a map of accounts, the interpreter is an arbitrary function from state, size limit and
  transaction to an outcome with account changes; the storage slots holding the roots of the other tries are the model's fields.
  Receipts are in `BloomModel`. Precompiles, `call` and gas estimation are not modelled.
* `MetaModel`: the metadata store as a record with one field per kind of trie key; entries are values, not RLP bytes.
* `TrieDbModel`: the cached trie database; `draw` models the random eviction with an arbitrary generator. The second half splits reads
  and writes at lock boundaries for concurrent use.
* `StorageModel`: chain storage. Columns are maps from encoded keys to decoded values, values are opaque with the accessors of `iface`;
  LRU caches may drop any entry at any time. Iterators list a column in byte order from the prefix. `set_block` (three puts) and the
  batch writes are atomic here; the crash order of a commit is the subject of C40.
* `WalModel`: the consensus WAL directory is a map from millisecond names to contents; crashes are explicit history events. The load loop is a
  fuel recursion so that its non-termination can be stated. The transaction WAL names files by the abbreviated `Display` form of `H256` (first and
  last two bytes; external crate fixed-hash, trusted reading).
* `ConsensusModel`: `core/consensus/src/{engine,adapter,synchronization,status}.rs` and `get_status_agent`, over `StorageModel`, the codecs of
  `BlockModel` and the transaction WAL. Oracles: hash, signature aggregation, `overlord::extract_voters`, metadata, execution, mempool answers, peers.
  A call of `receive_remote_block` is split into tasks at its lock boundaries; a consensus commit is one step. Overlord itself is not modelled.

- **NetModel.v** (network crate): `snappy` is a record of three functions; the assumption used is only that decoding inverts
  encoding and that the announced length is the real one (`snappy_ok`, met by the toy format `stored_ok`).  Protobuf framing of
  `NetworkMessage` is in ProtoModel; the tentacle transport is not modelled.  The RPC map is modelled at the granularity of the
  map's own operations: `insert`, the two lookups of `take`, the removal, the guard's two steps; these interleave freely.
- **PeerModel.v** (peer store, registry, sessions): a multiaddr is its socket address, its peer id and a number for the rest, which
  is all the code reads of it. Random choices (`fetch_random`, eviction groups) are arguments of the operations, so theorems hold for
  every choice. The transport is an environment: `open_ok` states what tentacle guarantees about a new session (fresh id,
  authenticated peer id, one session per peer, at most `max_connections` sessions). The message handling of discovery and identify is in
  P2pModel. Not modelled: the score (never changed by the code), `public_addrs`, JSON files.

- `ApiModel.v`: the chain is a list of blocks plus a function giving the stored receipts of a block; storage errors and JSON are left
  out. Filter ids are drawn at random in the code; the theorems assume that an id is not drawn twice (`fresh`). A client that stops
  waiting for an answer is a flag on the request. Times are milliseconds, the 20 s and 3 s timers are events that may come at any time.
  `delivered` carries the one fact about jsonrpsee 0.20.3 (trusted, from its documentation): `SubscriptionSink::send` is an async
  function, so that its future does nothing when dropped. f64 arithmetic is `Coq.Floats.SpecFloat` with 53 bits and exponent limit 1024.
  The syncing subscription is in ServerModel (C110).
- `PrecompModel.v` (C65-C67), `ReadModel.v` (C68). Arguments: the hash functions, secp256k1 recovery, addition,
  multiplication and pairing of alt_bn128, ABI codecs, the CKB-VM (assumed to stay within its cycle limit). GMP's `pow_mod`
  is taken to be modular exponentiation. `get_data` does not build its padded vector; a vector of more than `isize::MAX` bytes
  is a panic, an allocation below that is taken to succeed. Not modelled: ckb_mbt_verify.rs (forwards to the crate
  merkle-cbt), rsa.rs and secp256r1.rs (not registered).

- `ToolsModel.v` (C69). Argument: the BLS functions of the blst crate (key and signature parsing, aggregation, verification) and
  keccak. Agreement with the node assumes that the node's vote encoding (overlord's, checked by a test in types.rs), its reading of the
  bitmap (`extract_voters` of overlord) and its aggregated verification are the same external functions; these are the hypotheses `linked`.
  verify_trie_proof and the CKB Merkle proof helper (precompile.rs) only call external crates and are left out.
- **ProtoModel.v** (prost 0.11.9, an external crate read from its published source): varints, keys, skipping of unknown fields with the
  recursion limit of 100, and the merge functions generated for the message types. `String` fields check UTF-8. A header map is a list;
  its iteration order is the list's order.
- **P2pModel.v** (ping, identify, discovery): a handler is a step function over the events tentacle delivers, and its outputs are the
  calls it makes on the context and the peer manager. Multiaddresses are PeerModel's; parsing and printing them and `is_reachable` are
  arguments. Times are nanoseconds and come with the events. Random choices, the order of hash maps and the answers of the discovery
  filter (a stable bloom filter, external) are part of the events. Sends and disconnects are recorded as requested; their failure is
  only logged by the code. `register`/`open_protocol` bookkeeping is PeerModel's.
- **SyncModel.v** (pull handlers of consensus/message.rs): the answers as functions of the store. `SyncProps` describes the agreed chain by
  its blocks, transactions, proofs and execution results with the conditions honest validators establish (links, matching transactions,
  quorum under the metadata at the parent's state, the proof of the parent in the header, roots as executed). The executor is assumed not
  to read the claimed previous state root (`exec_ignores_claimed_root`): executor/src does not mention `prev_state_root`, and the
  synchroniser does pass a stale one from the second block of a run on (synchronization.rs 214-218, 316-320).
* CryptoModel: the BLS library is a record of functions; the theorems on aggregates assume `bls_ok` (addition of keys is commutative and
  associative, the pairing equation is additive, a signature of a secret satisfies it for the public key, verification accepts when it holds
  and the key is not the point at infinity). `toy` is an instance, so the laws are consistent. The chain is the sequence of states of the metadata contract
  (`extends`: any successful operations of MetaProps). Locks are not modelled.

* Web3Model.v: the `eth_` handlers of web3.rs over the adapter. A handler is a program of questions (`ask`) to storage, tries, pool and
  executor; `exec v` answers the n-th question from the n-th view, so everything may change between two awaits. The EVM is a parameter
  (`evm root call`), as are Merkle proofs and signature recovery. Left out: the wait for inclusion at the end of eth_sendRawTransaction,
  metrics, constant fields of the block, the JSON text. The storage is StorageModel at the concrete types (`W`).
- C81-C84: the pool's view is the count and the height of its last flush, taken at once (the code takes two locks in turn). `in_order` (C82) lists what a
  running node must have: every block it can name has its state and transactions, nonces below 2^255, transactions that can be rendered, a pool that
  does not panic. The answer of the pool to a submission (`sn_admit`) is abstract here; C20 describes it.

Notes on C85. A text is the list of its bytes; the case functions are those of ASCII, so the address theorems speak about ASCII texts.
JSON quoting is serde's and is not modelled. The slices of `str` in axon-tools are modelled with the panic at a byte that is not the
start of a character. `U256::from_big_endian` panics beyond 32 bytes, `low_u64`/`low_u32` cut; both are of the ethereum-types crate.

Notes on C86. A node keeps the announcement twice, in the database and in NodeInfo; `lose_removal` is a stop between the two removals.
`in_force n m k` is the only specification: bit k of the hardfork info that the state after the latest block gives for block m. Sync and
commit differ only in that sync leaves the register alone, as in the code. `C86_adopted` asks that the announced number is not below an
adopted one; with one name there is never a second announcement that adds a flag.

Notes on C87. The state root is an opaque function of the state and the state is kept beside it on the disk, so `run` reads the state that
the root of the latest block names. The address of a public key is an oracle that may fail (the code panics then). `usable` is the
specification of the specs that init has to take: first epoch 0, an epoch length that is not 0 and whose double fits, valid keys.

Notes on C88 and C89. The crate semver is written down from its published source (1.0.20); the order of different build identifiers is a
parameter that is only assumed reflexive, because all compared versions carry the build "unknown". `atomic_write` is a renaming of a
complete file: its step list is the trusted part, not proved. In C89 a commit is reduced to its number and to whether it succeeds (C38 to
C40 model the rest), and `orderly` says that overlord hands over heights up to the next one.

Notes on C90 to C92. The crate cita_trie is not in /repo; TrieModel is written from its published source (5.0.0). Collision freedom is not
assumed of the hash in general, which would be false: the theorems assume `tells_apart`, that the hash differs on the different strings among
those that the history stores (or the proof offers), and the examples check this for Keccak on concrete histories. The hash is a
parameter with results of 32 bytes; TrieProps2 shows that Keccak.v's `keccak256` is one. Values are bounded by 2^32 bytes, keys by the depth
of the key set. Fuel is a number that the theorems give explicitly; it is the depth of recursion.

Notes on C93. Random choices (which addresses, which bootstrap nodes, which own address) and hash orders are parameters of the events. The
transport is any sequence of events: that it answers every dial is not assumed. `undisturbed` says which events touch the entry of an address:
a connection to it, a ban of a peer connected at it, and purging a full address book. `C93_once` asks that no session which the node refused is
still closing at a tick (`settled`) and that there are no multicasts.

Notes on C94 and C95. Both are theorems about any function with 32-byte results of which the hash of the empty trie is RLP_NULL
(`keccak256_null` for Keccak); that no two hashed strings collide is a hypothesis about the explicit list `hashed` of the strings a run hashes.
C94 is at the same time the justification of the simplification in ExecModel and BackendModel, which have maps in the place of tries: the map-level
operations are the specification there. The tries in which the system contracts keep metadata and cells are not part of WorldModel.

Notes on C96. secp256k1 verification and recovery, the image cells and the CKB-VM are arguments. `arrived` are the two ways into the pool: decoding of a
network message and from_unverified. The last check of the executor is not a second line of defence: execution does not verify signatures.

Notes on C97. `follows` is any history of a node without consensus commits (a node that is not a validator), with crashes at any storage call; the answers for the next
height are blocks on top of the chain's block. That no other block gets a quorum is C37.

Notes on C98. `built` is what check_order_transactions (C78) and the executor establish about a block; blocks that reach a node by synchronisation are not checked
against the transactions root (C97). Collisions are excluded for the byte strings that are hashed for the two blocks only. The reference vector of
core/executor/src/lib.rs 214-293 is reproduced (`C98_reference`).

Notes on C99. `named` says that no two transactions of the run have the same hash. `orderly` excludes two things that do break the claim and are then refuted: answers that are not what was
asked for, and a commit while an admission is between its checks and its insertion. A check and a commit are atomic. Blocks taken over by synchronisation are not part of the run: they
rest on the quorum that accepted them (C97).

Notes on C100. RocksDB is an ordered map per column whose calls either fail and change nothing or succeed; a write batch is atomic, as the library documents. `fits` says that values have the widths of
the Rust types and fewer than 2^64 bytes, and that a transaction is what its own encoding decodes to: C01 shows this for every transaction made by `from_unverified`. It is false for
transactions that came from a peer with trailing bytes, and then the claim is refuted. `C100_refines` carries what is proved of StorageModel (C12, C14, C15) over to the bytes.

Notes on C101. The decoder is that of crate ethabi 18 and the derived codecs of crate ethers, neither of which is in /repo; AbiModel is written from their behaviour: offsets are 32-bit, relative to the
enclosing tuple or to the end of an array's length, and reads past the end are errors; neither padding nor trailing bytes nor overlaps are checked. What the conversion to a narrower integer makes
of a word that does not fit is a parameter. The selectors are computed by the modelled Keccak and agree with those in the generated code, so the types of the model are the ones of the contracts.

Notes on C102. The hash of two nodes is a parameter; soundness holds unless it has a collision or a leaf is itself the hash of two values. Crate merkle-cbt is not in /repo and CbmtModel follows it as
known to the author: the queue of (index, value) pairs with the largest index first, siblings taken from the queue or else from the lemmas, a node without a sibling left out, the root accepted when
queue and lemmas are empty, and node indices of type u32 with a sibling computed through index + 1 (the release profile of /repo checks overflow in dependencies too). `C102_forged_refuted` rests on
the node that is left out and `C102_crash_refuted` on the addition, so both should be confirmed against the crate; the other results do not depend on these two points. The order in which leaves are paired with
indices is left open (any permutation).

Notes on C103. A transaction is its hash, each pair of connected nodes has one session, connections do not change during a run and nodes do not forget transactions they accepted. The answer of the pool's
checks is a free choice of each admission (`Finish`), whether a batch passes the transport a parameter (`fits`; `C103_carried` says what the transport refuses). `quiet` means that nothing is under way, `reliable` that no
message is lost and no admission refused. Pulling the transactions of a proposal (C17) is not part of this model: a validator that missed a transaction gets it when another proposes it.

Notes on C104. The appender of log4rs (append, then roll if longer than the limit) is external and modelled from its documentation; file operations succeed. Dates are the ten characters that chrono prints up to the year 9999.

Notes on C105. The text of JSON is parsed by serde_json and not modelled; of numbers only integers are told apart. The readers of H160, H256, U64, U256 and access lists (crates) are arguments of the theorems. The empty-list reading of "topics" follows the Ethereum JSON-RPC (an empty list restricts nothing). While modelling, C85's reader of block identifiers was corrected: serde_json refuses an object with a second member.

Notes on C106. Hashes in calls have 32 bytes (ABI types). The JSON forms and the packing of headers and outputs (CKB crates) are not modelled; the hash of a header and blake2b are arguments.

Notes on C107. `orderly` excludes histories in which a block is stored by a process that has thrown away the execution of an activation block (the finding); `C107_restart` has no such hypothesis and no rejected executions. The refinement justifies that ExecModel has one field for the slot of a system contract and its thread-local cell.

Notes on C108. secp256k1, BLS and the peer identifier are a record of functions; `lib_ok` states what is used of them (lengths, keys read back, unique signatures) and `ranges_ok` which numbers they take as secrets; a library with both is given (`toy_ok`, `toy_ranges`). Files are known by the text of their path. The random generator is an input: that keys are secret and differ is not expressed.

Notes on C109. The schema is in a crate that is not in /repo; the widths of all fields are those of the example file beside the tool, whose whole content the model reproduces and reads (`C109_file`). The order of the two weights, equal in that file, is assumed. JSON and TOML texts are read and written by arguments; `toml_ok` states what is used of TOML and a library with it is given (`toy_toml`).

Notes on C110. jsonrpsee is not in /repo; its default limits (10 MiB for requests and answers, 100 connections), its refusal of doubled names and its bounds on single calls are taken as they are in version 0.20.3. A panic inside a run of synchronisation ends the process and is not distinguished from a failure. Whether the update at the end of a run succeeds is an argument of each step. That currentBlock equals eth_blockNumber at every moment is not stated; both are the number of the block that the run stored last.

Notes on C111. A transaction replaced by fee, one sent again after its time-out and a block with transactions the pool has not seen are outside of the runs of `C111_offered_partial`; for the last two the claim is refuted, for the first nothing is claimed.

## Findings (model behaviour that contradicts a claim; each has a `_refuted` theorem)

* C03: empty input, signed `0x80` and interoperation signatures with empty `r` panic in the decoder.
* C04, C20: trailing bytes after a transaction are accepted and change its hash; the pool does not recheck hashes.
* C06: proposals do not encode base fee and chain id. C07: execution results never decode.
* C08: the header bloom is the bloom of the receipts' bloom bytes, not of the logs.
* C11: the pool length counter drifts upwards when system transactions share call data.
* C13: the gas limit given to `package` is ignored. C14: after a fee replacement the package may violate nonce order; so it may when a transaction that timed out is sent again, which until the next block of its sender is in the pool but in no package (`PoolProps3.v`).
* C17: a peer may answer a pull with other valid transactions and synchronisation succeeds.
* C18: `get_full_txs` returns pooled transactions first.
* C55: between a commit and the following flush admission uses a stale nonce and balance.
* C28: the start of epoch 0 is unchecked; appending after an epoch ending at 2^64-1 panics.
* C29: the image contract does not check that consumed cells are live; rolling back revives a cell consumed twice.
* C43: a hardfork announced for a block below the newest recorded one is dropped.
* C56: the consensus configuration is global, so past epochs report the newest one; before Andromeda the contract size limit is dropped.
* C23: the gas prepayment saturates at zero while unused gas is always paid back, so a sender without funds gains; the pool only checks the
  balance for EVM transactions it admits itself. Refunded gas is charged but missing from the reported fee.
* C24: the proposal counter credited is the one of the last transaction's sender (`adapter.origin()`), not the proposer's.
* C25: all-zero weights or a weight sum of 2^32 panic. C26: anyone may issue or burn anyone's balance; overflow panics.
* C57: native token and reverted system transactions do not consume the sender's nonce. C58: the fee 1 of a reverted system transaction
  is distributed but not paid. C43: the activation block itself is executed with the previous flags.
* C31: a trie cache size of 0 panics on the first write; a failed batch write leaves its values readable from the cache; a slow reader can put
  an overwritten value back (harmless for content-addressed nodes); `remove` does nothing.
* C32: block and transaction hashes share a column, so `get_block_by_hash` answers for transaction hashes. C33: saving another block at a cached
  height, or `remove_block`, leaves stale cache entries; `remove_block` keeps header and number. C34: repeated hashes are answered once.
* C35: `load_overlord_wal` loops forever when the newest file has fewer than 32 bytes, e.g. after a crash between creating and writing it; files are
  not synced before older ones are deleted; a clock set back makes the older state win.
* C36: WAL file names show only four bytes of the root, so two proposals can share a file; `load_by_number` returns the transactions of all proposals.
* C37: a validator list with a repeated address counts its weight once in the total and once per selected position in the vote.
* C38: `check_block` and `commit` never compare the number in the proposal with the height being decided; an old-height proposal rewinds the chain.
* C39: gas used and log bloom of a synchronised header are neither signed nor recomputed. C42: own proposals skip the time check.
* C40: a commit writes the proof before the block; synchronisation writes the proof of the parent. After a restart in these states the node cannot
  propose the next height.
* C59: the previous state root in a proposal is never checked; a wrong one makes the committed block's proof unverifiable and halts the chain.
- C44: a message that compresses but is longer than 8 MiB is sent and then refused by every receiver; the limit is not applied to
  uncompressed frames by `decompress` (only the frame codec limits them).
- C45: request ids come from a wrapping 64-bit counter; a reused id replaces a waiting call, which then ends without an answer.
- C49: gossip skips every third eligible session, so with one other peer a third of the messages reach nobody; a multicast to a
  list with a repeated peer is sent twice.
- C60: request ids accept a sign and leading zeros; the scheme is tested as a prefix of the text (`/gossipx/...` is gossip).
- C61: a message for a registered endpoint with a span header shorter than eight bytes, or an unparsable trace id, panics the
  handling task.
- C46: a banned peer is accepted again at once while the node is below its limits; a ban by another module (`PeerTag::Ban`) neither
  disconnects the peer (`ban_id` always returns `None`) nor works for peers that are offline; its `until` is used as a duration, so
  `u64::MAX` panics; a later shorter ban replaces a longer one; other ports of a banned host stay in the book and are dialled.
- C47: `always_allow` is true for every peer that is not banned, so the inbound and outbound limits only bind banned peers; forty
  ordinary inbound peers fill a default node. `try_dial_peers` subtracts the inbound count from the outbound quota: with twenty
  inbound peers the node dials nobody.
- C48: a socket address that comes back with another peer id leaves a stale id under the old peer; the next look-up of the old peer
  (every ten seconds for an unconnected validator) panics. An entry without peer id but a later connection time deletes the stored
  entry.
- C50: eth_getLogs with more than 10000 matching logs returns the first ones without an error; the fifth and later topic positions of a
  filter are ignored; logIndex counts within the transaction, so that logs of one block share it.
- C51: a poll without new blocks does not refresh a filter: polled every ten seconds on an idle chain it is gone after forty, and the
  next blocks are lost. The hub answers with `sender.send(..).unwrap()`: one client that went away ends the task, and every later filter
  request of everybody fails.
- C63: a log filter always starts at the next block, also when it asks for `earliest`; a poll after more than
  `log_filter_max_block_range` blocks removes the filter.
- C64: the messages of all subscriptions are futures that are dropped without being awaited, so that nothing is sent; the
  transactionIndex of a pushed log is a count of logs.
- C52: base fees come in pairs (2n instead of n + 1); genesis is never included and at height 0 the answer names block 1 as oldest;
  the last percentile is not checked; the gas ratio is a percentage; rewards are gas amounts in block order.
- C65: the gas computation of modexp.rs adds two `usize` values without a check. 98 bytes of input with an exponent length of
  2^64 make it overflow before any gas is checked; the panic hook then ends the process. A transaction or `eth_call` to
  address 5 can carry them (`C65_panic_refuted`, exact condition `C65_modexp_panics`).
- C67: where Ethereum's ecrecover answers an invalid signature with an empty output, the node's precompile fails and the caller
  loses the gas it gave; curve inputs shorter than 128 or 96 bytes are refused instead of being extended with zeros; pairing
  inputs with a remainder are accepted instead of refused.
- C67: the conversion of gas to cycles overflows beyond 2^64/6000 gas (not reachable with the limit of 30000000 on calls).
- C68: the cell precompile (0x0103) is implemented but not in the set built by `build_precompile_set`.
- C69: the light client counts signers (`count * 3 <= n * 2`) while the node weighs them: with unequal weights it accepts what no node
  accepts and refuses what nodes commit. It does not compare the proof's height with the block's. The state root, receipts root, bloom,
  gas used, base fee and chain id of the block are not covered by the proof, so an accepted block says nothing about them.
- C70: once a block number passes the end of the last epoch nobody can append another epoch (the sender check needs the epoch of the
  current block) and executing the block panics in the after-block hook: the chain must be extended before its last epoch ends.
- C71: accounts with zero nonce, zero balance and no code are never removed although the caller passes delete_empty = true, because the
  emptiness test compares the code hash with zero instead of the hash of no code (`C71_empty_kept`; Ethereum removes them, EIP-161).
- C76: `save_chain_data` stores the proof found in the header of the fetched block, which is the proof of its parent, while the status in
  memory, and with it the broadcast height, carries the proof of the block itself. Until its next commit such a node announces a height
  whose proof it refuses ("Future proof"); after a restart the status comes from the stored proof and is one behind (see also C40).
- C77: the key map is replaced only when consensus commits the last block of an epoch. A node that *synchronises* past the end of an epoch gives
  overlord the new authority list but keeps the old keys: votes of new validators are refused ("lose public key"), votes of removed ones still verify, until the next
  epoch ends under consensus or the node restarts (`C77_sync_refuted`). A restart *on* the last block of an epoch loads keys and authorities of
  that block's own epoch although the next height belongs to the next one (`C77_restart_refuted`; run/lib.rs 215 uses the current number, not the next).
- C77: aggregates are verified under the sum of the keys and the metadata contract checks no proof of possession, so a validator that registers
  `pub x` minus the sum of the others' keys signs for the whole list (`C77_rogue_key`, `C77_forged_refuted`).
- C77: `encode` of the consensus message types is not inverted by their `decode` (`C77_encode_refuted`); it is never used, the engine sends a `Vec<u8>`.
- C78: proposer, previous state root, gas limit, base fee, chain id, version and system script count of a proposal are compared with nothing
  (`C78_unchecked`, `C78_unchecked_refuted`; the previous state root is what halts the chain in C59).
- C79: a block hash that is not known is answered from the latest block (`C79_unknown_hash_refuted`), the hash of a transaction from its block
  (`C79_tx_hash_refuted`), a number that is not reached with balance and nonce 0 (`C79_future_refuted`).
- C79: eth_estimateGas runs requests for a hash or "earliest" on the latest block (`C79_estimate_refuted`, `C79_estimate_earliest_refuted`).
- C79: the proof of an absent account carries zero code and storage hashes (`C79_absent_proof_refuted`).
- C80: effectiveGasPrice and cumulativeGasUsed are the gas used by the transaction (`C80_price_refuted`, `C80_cumulative_refuted`), logIndex counts
  from 0 in every receipt (`C80_log_index_refuted`), maxFeePerGas is the constant 1337 (`C80_max_fee_refuted`).
- C81: with a gap in the waiting nonces the pending count is neither free nor next (`C81_gap_refuted`); a transaction accepted less than a refresh
  ago is not counted (`C81_fresh_refuted`; the submitting client is made to wait, others are not); calls of system contracts are never counted
  (`C81_system_refuted`).
- C82: four requests end the process: a position of 2^64 or more (`C82_position_refuted`), a call or estimate that reverts with 68 bytes or more that
  are not a message (`C82_revert_refuted`), an empty raw transaction (`C82_empty_refuted`), one with an empty r and a long s (`C82_signature_refuted`).
- C83: an estimate may exceed 30 million, which no transaction may (`C83_limit_refuted`).
- C85: `Hex::from_str` takes "0x0x12" for "0x12"; block identifiers accept a plus sign ("0x+5"); the Serialize of BlockId writes numbers
  and hashes without prefix, which its Deserialize refuses; an address can have a second accepted text "0x0X…" when the checksum of the
  prefixed digits puts the X in upper case; `Address::from_str` panics on texts of more than 64 characters behind the prefix; the number
  readers of axon-tools cut numbers that do not fit instead of refusing them, and panic on more than 64 digits and on some non-ASCII texts.
- C86: check_block compares an announcement with the own one but not with the block number, so a hardfork can be adopted after the block
  that it names, and blocks that were executed without it then count as under it (`C86_late_refuted`); a synchronised block does not clear
  the register, so the node proposes the decided hardfork again and the others refuse its blocks (`C86_sync_refuted`).
- C87: genesis encodes the consensus configuration while HARDFORK_INFO is still zero, so `max_contract_limit` of the chain spec is dropped
  even if Andromeda is on from block 0 (`C87_limit_refuted`); init creates the directory before it looks at the metadata, so a refused spec
  or a stop leaves a directory that init and run both refuse (`C87_refused_refuted`, `C87_interrupted_refuted`); a spec without validators
  is taken (`C87_no_validators_refuted`).
- C88: a record of any newer version is accepted and overwritten by the older one (`C88_downgrade_refuted`); a version file with a line
  break after the version makes init and run panic (`C88_newline_refuted`); the record is written before the command is tried, so a failed
  run in an empty place leaves a record (`C88_failed_refuted`).
- C89: the height is compared for equality when the block after it is committed, so a height that lies behind never stops the node
  (`C89_behind_refuted`), nor one passed by synchronisation (`C89_sync_refuted`), and a race of the two ends one block late
  (`C89_late_refuted`); both options together are ignored (`C89_both_refuted`); a number of blocks that overflows panics
  (`C89_overflow_refuted`).
- C90: with keys of which one starts another, a removal can leave a branch with one child, and the root then depends on the history
  (`C90_prefix_refuted`, a defect of cita_trie). Axon uses digests and RLP positions as keys, which do not start one another.
- C91: an empty item of a list counts as no item (`C91_empty_item_refuted`). Transaction hashes and encoded receipts are not empty.
- C92: absence is not provable. `verify_proof` treats a node that is missing from the proof as an absent key, so a proof of presence without
  its last node is accepted as a proof of absence (`C92_absence_refuted`); and the proof of absence in an empty trie, which is empty, is
  rejected (`C92_empty_refuted`).
- C93: a multicast to offline peers dials them without looking at or entering the set of dials in progress (gossip.rs 102-117), so the same
  address is dialled twice at once (`C93_cast_refuted`).
- C93: an address that answered within the last three days is dialled at every tick of ten seconds however often it fails, since
  `fetch_addrs_to_attempt` looks neither at the last attempt nor at the failures, and `is_connectable` starts to count failures a week after
  the last success (`C93_hammer_refuted`: thirty dials in five minutes).
- C93: identify/mod.rs 244 creates the future of `context.dial` and drops it (`let _ignore = …` without await), so that dial never happens.
- C95: an account that was only ever written by save_account (the accounts of the chain spec, and validators that received fees) has the storage root
  RLP_NULL, which is in the database only once some account was modified with an empty storage; until then eth_getStorageAt and eth_getProof fail
  for it with an invalid state root (`C95_fresh_refuted`), while the executor treats RLP_NULL as empty.
- C95: for an account with an empty storage the storage proofs are empty lists, which no verifier accepts (`C95_empty_refuted`).
- C96: a signature that is not 65 bytes long is an "interoperation" signature: its first part names an image cell and a public key, and the pool runs the program in
  this cell on the public key and the second part of the signature. The cell is chosen by whoever makes the transaction, the digest of the transaction is not
  among the arguments, and the exit code is ignored (adapter/mod.rs 311-318 drops the VMResp). The sender is the Keccak address of the named public
  key, which is that of an ordinary account if the key is. So whoever knows a public key (any account that ever sent a transaction) can send arbitrary transactions
  of its account once some cell with a program that runs to an end is in the image cell contract (`C96_forgery`, `C96_sender_refuted`), and a signature of
  this kind can be reused for any other transaction (`C96_reuse`). The program runs with 2^64-1 cycles, so that one that does not end blocks the check.
- C97: the proof of a block covers the proposal, which has neither the results of the execution nor the base fee and chain id; of these only the state root and the
  receipts root are recomputed. A peer that announces a height and answers with the right block but another `gas_used` or `log_bloom` has it accepted (`C97_relabelled`, for
  every block a node would accept). The stored block then has another hash than the chain's, the chain's next block does not name it as parent and is refused, nothing ever
  replaces a stored block, and a restart starts from it: a node that only synchronises stays at this height for good (`C97_one_answer`, `C97_off_chain_refuted`).
- C98: a receipt under the receipts root has the gas of the transaction alone, where its documentation (transaction.rs 478-491) and Ethereum have the cumulative gas of the
  block (`C98_cumulative_refuted`): Ethereum tools that rebuild the root from cumulative receipts get another one. The code address and the kind of success or failure that the
  node stores and serves are not under the hash (`C98_served_receipt_refuted`). `TrieMerkle::get_proof_by_index` before `root_hash` returns a proof without the inner nodes, which
  verify_trie_proof accepts as a proof of absence for an item that is there (`C98_unrooted_refuted`).
- C99: a proposer can have any committed transaction executed again (`C99_replay_refuted`). A proposal with its hash makes the other validators ask the proposer for it; the proposer sends any other
  valid transaction (C17: the answer is only counted); then `get_full_txs` finds the committed one in the database, and the executor never compares nonces (`C99_any_nonce`). The
  sender pays twice. In one block it also works with a second encoding of the transaction (`C99_reencoded_refuted`: a trailing byte changes the hash, C04), and with a pending payment and its
  replacement by a higher fee (`C99_same_nonce_refuted`: the pool still serves the replaced one). An admission that is overtaken by the commit of the same transaction puts it back into the
  pool (`C99_race_refuted`).
- C100: a transaction that came from a peer with a byte after its end is kept under the hash of the bytes received, but its stored bytes lack the extra one, so it is read back with another hash
  (`C100_padded_refuted`). A peer asked for the transactions of such a block therefore answers with a hash that the asking node rejects, and the block can never be synchronised
  (`C100_unsyncable_refuted`). The pool admits such transactions (`C20_hash_refuted`), so one of them in a block ends synchronisation of new nodes.
- C100: `insert_block` is four separate writes; when one fails the block is found by number and not by hash (`C100_torn_refuted`).
- C100: the iterators ignore the prefix: RocksDB's goes on to the end of the column (`C100_prefix_refuted`), the memory adapter's runs over the whole column (`C100_iteration_refuted`).
- C101: offsets may point to the same bytes, so an update of the image cells with n blocks of n cells of n type scripts of n bytes takes 97 n + 772 bytes of calldata and is read as n^4 bytes of arguments
  (`C101_amplified_refuted`): less than 100 kB for a terabyte. The image cell contract has no check of the sender, decodes before anything else and charges no gas for a call that succeeds; the shipped
  chain specifications allow transactions of 409,600,000 bytes. One such transaction in a block makes every node that executes it run out of memory. The degree is 4 for that contract and 2 for
  the others (`C101_bound`).
- C102: with more than one leaf the proof says too little: for every block and every value there is a payload with that value among the leaves that is accepted (`C102_forged_refuted`), because a node
  whose sibling is missing is dropped from the queue. A proof of a single leaf is sound (`C102_single_partial`).
- C102: inner nodes of the tree, and the root itself, are accepted as leaves (`C102_inner_refuted`).
- C102: two leaves, one of them with index 2^32 - 1, make the computation of the sibling overflow: 512 bytes of input to the precompile, reachable from any contract, end the process (`C102_crash_refuted`).
- C103: a transaction can miss any node of any network although nothing goes wrong (`C103_missed_refuted`): each hop leaves out every third session, starting at random, and nothing is ever sent twice. A node with a
  single peer keeps one in three transactions of its users to itself. Submitting the transaction again to the same node does not help (`C103_final`): a known transaction is answered Ok and not passed on. What is
  guaranteed is two thirds of the peers, rounded down (`C103_spread_partial`, `C103_mesh_partial`; exact for the four nodes of the test network, `ex_four`).
- C103: transactions are batched by number and not by size; a batch over 8 MiB (or 4 MiB after compression) is lost as a whole (`C103_crowded_refuted`, `C103_carried`), and a transaction that is itself too long for the
  transport is accepted but never leaves its node (`C103_unsendable`); max_tx_size of the shipped chain specifications is 409600000.
- C103: copies of a transaction that arrive at the same time are admitted and passed on more than once (`C103_twice_refuted`).
- C104: archives are named by the second: a second rotation within one second, or after the clock was set back, replaces an earlier archive and its lines are gone (`C104_same_second_refuted`).
- C104: a log directory whose path contains `{date}` or `{timestamp}` does not get the archives (`C104_directory_refuted`).
- C105: `topics: [[]]` selects nothing, other nodes take an empty list for any topic (`C105_empty_refuted`).
- C105: blockHash together with fromBlock/toBlock is accepted and the range ignored (`C105_both_refuted`).
- C105: the filter of a subscription may have unknown members, so a misspelt "topics" subscribes to everything (`C105_typo_refuted`).
- C105: the standard members "input" (calls) and "requireCanonical" (EIP-1898) and the tags "safe" and "finalized" are refused (`C105_input_refuted`, `C105_canonical_refuted`, `C105_tags_refuted`).
- C105: accessList, nonce, type and maxPriorityFeePerGas of a call are accepted but have no effect (`C105_ignored_refuted`).
- C106: a cell that was consumed is still served by ckb_getCellInfo and given to programs as live; a spent cell can still be named as the program of an interoperation signature (`C106_live_refuted`).
- C106: the hash under which a header is imported is never compared with the header, so a header can be served for a hash that is not its own (`C106_hash_refuted`).
- C106: the RPC gives the hash of the empty string for empty data, programs see zero as in CKB (`C106_empty_refuted`).
- C106: a block without an extension is given to programs as one with an empty extension (`C106_extension_refuted`).
- C107: synchronisation compares the roots of a block's header, which the proof does not cover, after the execution has already switched the hardfork flags of the process. A peer that sends the activation block of a hardfork with a wrong state root makes the node execute it once; from then on the node executes the right block with the new flags, gets another state than all others and rejects it, however often it is tried, until it is started again (`C107_rejected_refuted`).
- C108: generate-keypair replaces key files that exist without asking; the old keys are gone (`C108_overwrite_refuted`). A failure between the two writes leaves a new BLS key, printed nowhere, beside the old network key, and recover-keypair shows this pair as if it were one (`C108_mixed_refuted`). A configuration with the two entries exchanged starts a node under another name, since every BLS secret is a secp256k1 secret (`C108_swapped_refuted`, `C108_any_bls_key`). A validator whose BLS key is not the listed one starts without a word and all its votes are refused (`C108_mismatch_refuted`). With a custom key provider the node is another peer than the validator that it is, so that validators do not treat it as one and votes sent to it as leader do not arrive (`C108_custom_refuted`).
- C109: get-data takes a propose count of 2^63 or more, for which parse-data fails, TOML having no such numbers (`C109_big_count_refuted`). Both commands empty the output before they look at the input, so that a failing run leaves an empty file, even in place of its own input (`C109_wiped_refuted`); a public key that is no point ends get-data in a panic (`C109_bad_key`). The README gives the answer of axon_getCurrentMetadata to get-data, but the propose counts of that answer are in a list that the tool ignores, so all counts in the data are zero (`C109_counts_refuted`). parse-data neither checks nor shows the address in the data (`C109_address_refuted`). What get-data writes with --binary parse-data never takes (`C109_binary`).
- C110: eth_submitWork is documented, but registered with a space behind its name, so that no server knows it (`C110_submit_work_refuted`). The WebSocket server sets the limit of requests twice and that of answers never: answers longer than the configured size are sent, and with a larger size answers are refused that HTTP sends (`C110_ws_answers_refuted`). When the update at the end of a synchronisation fails, the error returns before the status is cleared: eth_syncing reports a synchronisation that is over until a peer is ahead again (`C110_stuck_refuted`). The highest block it reports is the end of the current batch of 50, not what peers announced (`C110_highest_refuted`), and the starting block is reset before the head is reached, against the README (`C110_restarted_refuted`). Subscribers to syncing are told only of ticks with a new block, so that the end of a synchronisation does not reach them while the chain stands still (`C110_end_refuted`).
- C111: a transaction sent again after its time-out, while later ones of its sender are still in the pool, is accepted but offered for no block (`C111_resent_refuted`). After a block with transactions that were not in the pool, as in synchronisation, the next transaction of the sender is not offered until the sender sends another one (`C111_block_refuted`).

Behaviour seen but not a separate theorem: packages order different senders by lowest price first;
a slot freed by time-out below the package tip is not packaged again until the tip moves;
identify calls `context.dial` for the observed address in a function that is not asynchronous and drops the result, so that nothing is
dialed if the call is a future; discovery stores the address of a session whose peer claims to reuse its port without checking that it
is reachable.

## Axioms actually used

Every theorem prints "Closed under the global context". `coqchk` lists the seven constants
`Coq.ssr.ssrunder.Under_rel.*` of the standard library (an opaque module of ssreflect loaded by std++ dependencies); no
theorem depends on them.
