{
 "claims": [
  {
   "property": "C01",
   "status": "proved",
   "theorems": [
    "C01_raw_roundtrip",
    "C01_raw_roundtrip_fields",
    "C01_signed_roundtrip",
    "C01_batch_roundtrip"
   ],
   "note": "raw, signed and batch codecs; hash function and key recovery universally quantified; encoded size below 2^64"
  },
  {
   "property": "C02",
   "status": "proved",
   "theorems": [
    "C02_signing_payload_binds",
    "C02_unprotected_legacy_separate",
    "C02_signature_hash_binds"
   ],
   "note": "payload injectivity; digests up to an explicit collision; typed transactions without chain id (outside the claim) sign like chain 0"
  },
  {
   "property": "C03",
   "status": "partial",
   "theorems": [
    "C03_decode_panics_refuted",
    "C03_no_panic_partial"
   ],
   "note": "the claim is false: empty input, signed 0x80 and an interoperation signature with empty r panic; the partial theorem characterises all panicking inputs exactly"
  },
  {
   "property": "C04",
   "status": "partial",
   "theorems": [
    "C04_canonical_refuted",
    "C04_hash_mismatch_refuted",
    "C04_canonical_partial",
    "C04_unique_partial"
   ],
   "note": "the claim is false: trailing bytes are accepted and change the hash; canonicity and uniqueness proved for strict RLP inputs"
  },
  {
   "property": "C05",
   "status": "proved",
   "theorems": [
    "C05_header_roundtrip",
    "C05_block_roundtrip",
    "C05_proof_roundtrip",
    "C05_batch_blocks_roundtrip",
    "C05_header_bytes_bind"
   ],
   "note": "encoded size below 2^64; header bytes also determine the header"
  },
  {
   "property": "C06",
   "status": "partial",
   "theorems": [
    "C06_proposal_roundtrip_refuted",
    "C06_proposal_hash_ambiguous_refuted",
    "C06_proposal_roundtrip_partial",
    "C06_proposal_other_fields_partial"
   ],
   "note": "the claim is false: base fee and chain id are not written; all other fields survive, and everything survives for the built-in base fee and the node chain id"
  },
  {
   "property": "C07",
   "status": "partial",
   "theorems": [
    "C07_receipt_roundtrip",
    "C07_log_roundtrip",
    "C07_exec_result_refuted"
   ],
   "note": "receipts and logs proved; no execution result is ever decoded back because the list is opened for 7 of 8 items"
  },
  {
   "property": "C08",
   "status": "partial",
   "theorems": [
    "C08_receipt_bloom",
    "C08_receipt_bloom_exact",
    "C08_header_bloom_refuted"
   ],
   "note": "receipt blooms proved exact for every hash function; the header bloom lacks log bits (witness with real Keccak-256)"
  },
  {
   "property": "C09",
   "status": "proved",
   "theorems": [
    "C09_number_key_order",
    "C09_number_key_roundtrip",
    "C09_number_key_injective",
    "C09_hash_key_roundtrip",
    "C09_hash_key_injective",
    "C09_hash_key_order",
    "C09_prefix_scan",
    "C09_cell_key_roundtrip",
    "C09_cell_key_injective"
   ],
   "note": ""
  },
  {
   "property": "C10",
   "status": "proved",
   "theorems": [
    "C10_capacity",
    "C10_full_rejects",
    "C10_accepts_below"
   ],
   "note": "over all operation histories whose hashes identify transactions; transactions pulled for proposals bypass the limit and are counted separately"
  },
  {
   "property": "C100",
   "status": "partial",
   "theorems": [
    "C100_open",
    "C100_columns",
    "C100_read_back",
    "C100_all_or_nothing",
    "C100_adapters",
    "C100_iterator",
    "C100_refines",
    "C100_iteration_refuted",
    "C100_prefix_refuted",
    "C100_padded_refuted",
    "C100_unsyncable_refuted",
    "C100_torn_refuted"
   ],
   "note": "proved for all histories of calls, restarts and failures, and every read over bytes is the read of the typed storage for values that survive their encoding. False: a transaction received with trailing bytes is read back under another hash and makes its block impossible to synchronise; a block is saved in four separate writes; the two iterators differ"
  },
  {
   "property": "C101",
   "status": "partial",
   "theorems": [
    "C101_selectors",
    "C101_call",
    "C101_vm",
    "C101_distinct",
    "C101_only",
    "C101_bound",
    "C101_amplified_refuted",
    "C101_linear_refuted"
   ],
   "note": "Proved for all functions and arguments: what a correct ABI encoder makes is read as that call, distinct calls have distinct calldata, unknown selectors do nothing, and memory is bounded by a power of the size. Refuted: the bound is not linear; shared offsets give the fourth power for the image cell contract."
  },
  {
   "property": "C102",
   "status": "partial",
   "theorems": [
    "C102_some",
    "C102_single_partial",
    "C102_complete",
    "C102_input",
    "C102_exec",
    "C102_inner_refuted",
    "C102_forged_refuted",
    "C102_panic_refuted",
    "C102_crash_refuted"
   ],
   "note": "Proved: a proof of a single leaf is accepted only for a transaction of the block at its position (or a collision), every transaction can be proved, accepted proofs fix both roots, gas and encoding. Refuted: inner nodes are accepted as leaves; with several leaves a forged one is accepted; index 2^32-1 ends the process."
  },
  {
   "property": "C103",
   "status": "partial",
   "theorems": [
    "C103_given",
    "C103_once",
    "C103_batch",
    "C103_spread_partial",
    "C103_mesh_partial",
    "C103_only",
    "C103_unsendable",
    "C103_final",
    "C103_carried",
    "C103_frame",
    "C103_missed_refuted",
    "C103_twice_refuted",
    "C103_crowded_refuted"
   ],
   "note": "Proved: every accepted transaction goes through the broadcaster once (without concurrent copies), batches are bounded, at rest two thirds of the peers of a node that has it have it too, nothing is invented. Refuted: in every network any node can miss it although nothing goes wrong, submitting again does not help, concurrent copies are sent twice, large batches are lost."
  },
  {
   "property": "C104",
   "status": "partial",
   "theorems": [
    "C104_kept",
    "C104_others",
    "C104_bounded",
    "C104_same_second_refuted",
    "C104_directory_refuted"
   ],
   "note": "Proved: with rotations in different seconds archives and current file hold all lines in order, the limit is kept, nothing else is touched. Refuted: a second rotation in the same second replaces the archive of the first; a directory name with the pattern in it."
  },
  {
   "property": "C105",
   "status": "partial",
   "theorems": [
    "C105_bound",
    "C105_subscribe",
    "C105_subscribe_named",
    "C105_call_made",
    "C105_matches_partial",
    "C105_blocks",
    "C105_answer_partial",
    "C105_same",
    "C105_known",
    "C105_known_filter",
    "C105_call",
    "C105_order_call",
    "C105_order",
    "C105_array",
    "C105_block_id",
    "C105_empty_refuted",
    "C105_both_refuted",
    "C105_typo_refuted",
    "C105_input_refuted",
    "C105_canonical_refuted",
    "C105_tags_refuted",
    "C105_ignored_refuted"
   ],
   "note": "proved: selection of logs (no empty list among the positions; at most four positions for the answer), blocks, calls, order of members, sameness of the three kinds of filters, refusal of unknown members in eth_getLogs, eth_newFilter and calls; false: an empty list of alternatives selects nothing, blockHash overrides a range, subscriptions ignore unknown members, some standard members and tags are refused, four members of a call have no effect; not modelled: the JSON text"
  },
  {
   "property": "C106",
   "status": "partial",
   "theorems": [
    "C106_header",
    "C106_fields",
    "C106_meta",
    "C106_cell_partial",
    "C106_live_refuted",
    "C106_hash_refuted",
    "C106_empty_refuted",
    "C106_extension_refuted"
   ],
   "note": "proved: headers and cells are the imported ones, for all histories, the same for clients and programs; false: consumed cells are served as live, a header may be served for a hash that is not its own, the hash of empty data and missing extensions differ from CKB"
  },
  {
   "property": "C107",
   "status": "partial",
   "theorems": [
    "C107_refines",
    "C107_threads",
    "C107_commit",
    "C107_chain",
    "C107_agree",
    "C107_restart",
    "C107_query",
    "C107_rejected_refuted"
   ],
   "note": "Holds for every history in which no block is stored after the execution of an activation block was thrown away in the same process. False otherwise: a rejected execution of an activation block leaves the new flags behind and the node cannot store that block until it is restarted (C107_rejected_refuted)."
  },
  {
   "property": "C108",
   "status": "partial",
   "theorems": [
    "C108_kept",
    "C108_failed",
    "C108_recover",
    "C108_identity",
    "C108_starts",
    "C108_votes",
    "C108_run",
    "C108_refused",
    "C108_any_bls_key",
    "C108_overwrite_refuted",
    "C108_mixed_refuted",
    "C108_swapped_refuted",
    "C108_mismatch_refuted",
    "C108_custom_refuted"
   ],
   "note": "Printed pairs are the files, are recovered and are what the node acts as, for all directories, failures and validator lists. False: keys already on the disk are overwritten, a failure mixes pairs, exchanged or unlisted keys are not noticed, and a key provider separates the peer from the validator."
  },
  {
   "property": "C109",
   "status": "partial",
   "theorems": [
    "C109_input",
    "C109_data",
    "C109_roundtrip",
    "C109_commands",
    "C109_again",
    "C109_specification",
    "C109_shown",
    "C109_kept",
    "C109_unreadable",
    "C109_bad_key",
    "C109_binary",
    "C109_big_count_refuted",
    "C109_wiped_refuted",
    "C109_counts_refuted",
    "C109_address_refuted"
   ],
   "note": "Reading, encoding, decoding and the round trips are proved for all inputs. False for counts of 2^63 and more, which parse-data cannot show; failed runs empty the output; addresses in the data and the counts in the answer of a node are ignored."
  },
  {
   "property": "C11",
   "status": "partial",
   "theorems": [
    "C11_length_exact_refuted",
    "C11_length_at_least_partial",
    "C11_length_exact_partial"
   ],
   "note": "the claim is false: system transactions with equal data share a bucket and flushing one leaves the counter too high; the counter is always at least the size and exact without system transactions"
  },
  {
   "property": "C110",
   "status": "partial",
   "theorems": [
    "C110_start",
    "C110_start_fails",
    "C110_documented",
    "C110_same",
    "C110_names",
    "C110_requests",
    "C110_answers",
    "C110_codes",
    "C110_chain_id",
    "C110_sha3",
    "C110_told",
    "C110_subscribed",
    "C110_ids",
    "C110_progress",
    "C110_idle",
    "C110_submit_work_refuted",
    "C110_ws_answers_refuted",
    "C110_stuck_refuted",
    "C110_highest_refuted",
    "C110_restarted_refuted",
    "C110_end_refuted"
   ],
   "note": "Servers, limits, codes and identifiers as stated for all configurations and calls; the reported progress agrees with the run at every point of every execution, and a node outside a run reports none as long as updates succeed. False for eth_submitWork, for the size of answers over WebSocket, after a failed update, and for the documented meaning of highestBlock and startingBlock."
  },
  {
   "property": "C111",
   "status": "partial",
   "theorems": [
    "C111_offered_partial",
    "C111_resent_refuted",
    "C111_block_refuted"
   ],
   "note": "false when a transaction that timed out is sent again and after blocks with transactions that were not in the pool; proved for all runs without these and without replacement by fee"
  },
  {
   "property": "C12",
   "status": "proved",
   "theorems": [
    "C12_accepted_is_live",
    "C12_never_lost",
    "C12_timeout_is_age",
    "C12_system_kept"
   ],
   "note": "every departure has one of four named causes; method-level atomicity assumed"
  },
  {
   "property": "C13",
   "status": "partial",
   "theorems": [
    "C13_package_sound",
    "C13_package_complete",
    "C13_gas_limit_refuted"
   ],
   "note": "distinctness, liveness and the count limit proved; the gas limit is ignored by the code"
  },
  {
   "property": "C14",
   "status": "partial",
   "theorems": [
    "C14_nonce_order_refuted",
    "C14_resent_order_refuted",
    "C14_resent_stuck_refuted",
    "C14_sort_keeps_order_partial",
    "C14_package_order_partial",
    "C14_orderly_partial"
   ],
   "note": "the claim is false after a replacement and when a transaction that timed out is sent again; proved for all runs in which every account uses each nonce once"
  },
  {
   "property": "C15",
   "status": "proved",
   "theorems": [
    "C15_one_live",
    "C15_strictly_higher",
    "C15_tie_loses",
    "C15_winner_exists",
    "C15_loser_never_packaged"
   ],
   "note": ""
  },
  {
   "property": "C16",
   "status": "proved",
   "theorems": [
    "C16_committed_leave",
    "C16_superseded_leave"
   ],
   "note": ""
  },
  {
   "property": "C17",
   "status": "partial",
   "theorems": [
    "C17_ensure_refuted",
    "C17_ensure_partial",
    "C17_known_kept_partial",
    "C17_duplicates_refused"
   ],
   "note": "the claim is false: the answer of the peer is not compared with the hashes asked for; proved when the answer covers them"
  },
  {
   "property": "C18",
   "status": "partial",
   "theorems": [
    "C18_order_refuted",
    "C18_permutation_partial",
    "C18_error_iff",
    "C18_in_order_partial"
   ],
   "note": "the claim is false: pooled transactions come first; always a permutation of the requested ones, in order when no pooled hash follows a stored one"
  },
  {
   "property": "C19",
   "status": "proved",
   "theorems": [
    "C19_account_limit",
    "C19_count_meaning"
   ],
   "note": "the limit is 65 pending transactions per account"
  },
  {
   "property": "C20",
   "status": "partial",
   "theorems": [
    "C20_static_checks",
    "C20_hash_refuted",
    "C20_rpc_hash_partial"
   ],
   "note": "all rules except the hash are an equivalence; the hash is not checked for transactions from the network, it is for eth_sendRawTransaction"
  },
  {
   "property": "C21",
   "status": "proved",
   "theorems": [
    "C21_accounting"
   ],
   "note": "the EVM interpreter is an arbitrary function"
  },
  {
   "property": "C22",
   "status": "proved",
   "theorems": [
    "C22_nonce",
    "C22_total"
   ],
   "note": "a sender at nonce 2^256-1 makes the node panic, this is the only exception"
  },
  {
   "property": "C23",
   "status": "partial",
   "theorems": [
    "C23_failed_partial",
    "C23_success_partial",
    "C23_conserves_partial",
    "C23_mint_refuted",
    "C23_refund_refuted"
   ],
   "note": "exact when the sender can afford the whole gas limit and the interpreter reports no refund; otherwise the saturating prepayment creates balance, and refunded gas is taken but not reported"
  },
  {
   "property": "C24",
   "status": "partial",
   "theorems": [
    "C24_last_sender_partial",
    "C24_empty_block_partial",
    "C24_refuted"
   ],
   "note": "the claim is false: the last sender of the block is credited instead of the proposer; proved for empty blocks, and the exact behaviour for all blocks"
  },
  {
   "property": "C25",
   "status": "proved",
   "theorems": [
    "C25_fee_split",
    "C25_zero_weight_refuted"
   ],
   "note": "for blocks whose total fee fits 256 bits; validators whose weights sum to zero or to 2^32 or more make the node panic"
  },
  {
   "property": "C26",
   "status": "partial",
   "theorems": [
    "C26_issue",
    "C26_burn",
    "C26_malformed",
    "C26_any_caller_refuted",
    "C26_overflow_refuted"
   ],
   "note": "amounts are exact; callers are not authorised at all and overflow panics"
  },
  {
   "property": "C27",
   "status": "proved",
   "theorems": [
    "C27_system_ignores_evm",
    "C27_others_run_evm",
    "C27_effects",
    "C27_own_abi"
   ],
   "note": ""
  },
  {
   "property": "C28",
   "status": "partial",
   "theorems": [
    "C28_lookup",
    "C28_total",
    "C28_genesis",
    "C28_contiguous",
    "C28_append",
    "C28_append_refused",
    "C28_segment_codec",
    "C28_genesis_start_refuted",
    "C28_append_panics_refuted"
   ],
   "note": "proved for every history; the start of epoch 0 is not checked, and an append after an epoch ending at 2^64-1 panics"
  },
  {
   "property": "C29",
   "status": "partial",
   "theorems": [
    "C29_update",
    "C29_rollback_partial",
    "C29_failure_no_effect",
    "C29_rollback_fails_iff",
    "C29_reachable",
    "C29_rollback_refuted"
   ],
   "note": "rollback restores the store for blocks whose inputs are live and outputs fresh; the contract does not check this and the claim is false otherwise"
  },
  {
   "property": "C30",
   "status": "proved",
   "theorems": [
    "C30_update",
    "C30_rollback",
    "C30_update_rollback"
   ],
   "note": "the ABI codec of headers is an oracle assumed invertible and non-empty"
  },
  {
   "property": "C31",
   "status": "proved",
   "theorems": [
    "C31_read_last_write",
    "C31_contains",
    "C31_total",
    "C31_concurrent",
    "C31_write_completes",
    "C31_write_persists",
    "C31_remove_no_effect",
    "C31_zero_size_refuted",
    "C31_failed_batch_refuted",
    "C31_overwrite_race_refuted"
   ],
   "note": "sequential use: any values; concurrent use: when the key determines the value, as for trie nodes; removal is a no-op; the refuted theorems give the limits (cache size 0, failed batch write, overwriting race)"
  },
  {
   "property": "C32",
   "status": "partial",
   "theorems": [
    "C32_cold_reads",
    "C32_latest",
    "C32_block_roundtrip",
    "C32_tx_roundtrip",
    "C32_receipt_roundtrip",
    "C32_code_roundtrip",
    "C32_unknown",
    "C32_tx_hash_names_a_block_refuted"
   ],
   "note": "read your writes holds for all histories without overwriting, and for all histories after a restart; a transaction hash also names a block"
  },
  {
   "property": "C33",
   "status": "partial",
   "theorems": [
    "C33_warm_is_cold",
    "C33_overwrite_refuted",
    "C33_remove_refuted",
    "C33_recommit_refuted"
   ],
   "note": "caches agree with the database as long as no write replaces a known answer; overwriting or removing a cached block serves stale data"
  },
  {
   "property": "C34",
   "status": "partial",
   "theorems": [
    "C34_exact",
    "C34_positional",
    "C34_repeated_refuted"
   ],
   "note": "exact answer for every list; positional for lists without repetition, a repeated hash gets nothing the second time"
  },
  {
   "property": "C35",
   "status": "partial",
   "theorems": [
    "C35_load_partial",
    "C35_nothing_saved",
    "C35_short_file_hangs",
    "C35_crash_hangs_refuted",
    "C35_clock_refuted",
    "C35_power_loss_refuted"
   ],
   "note": "process crashes with a monotone clock: the newest complete state is loaded unless a newer file holds under 32 bytes; then (and after a crash between file creation and write) loading never returns; power loss and a clock set back lose the state"
  },
  {
   "property": "C36",
   "status": "partial",
   "theorems": [
    "C36_heights",
    "C36_remove_exact",
    "C36_remove_by_number",
    "C36_load_partial",
    "C36_by_number_complete",
    "C36_gone",
    "C36_name_collision_refuted",
    "C36_by_number_refuted"
   ],
   "note": "removal is exact; loading by root is exact when the abbreviated file names differ; loading by number mixes all proposals of the height"
  },
  {
   "property": "C37",
   "status": "partial",
   "theorems": [
    "C37_quorum",
    "C37_quorum_suffices",
    "C37_intersect",
    "C37_honest",
    "C37_two_proofs",
    "C37_repeated_address_refuted"
   ],
   "note": "proved for validator lists without repeated addresses, given that overlord::extract_voters selects positions of the list; a repeated address counts once in the total but as often as selected in the vote"
  },
  {
   "property": "C38",
   "status": "partial",
   "theorems": [
    "C38_refused",
    "C38_repeat_harmless",
    "C38_only_next",
    "C38_monotone_partial",
    "C38_unbroken_partial",
    "C38_genesis_starts",
    "C38_rewind_refuted"
   ],
   "note": "single commits: exact. Executions: unbroken when committed proposals carry the height they are decided at; no check enforces that, so an old-height proposal rewinds the node"
  },
  {
   "property": "C39",
   "status": "partial",
   "theorems": [
    "C39_verified",
    "C39_executed",
    "C39_linked_partial",
    "C39_checked_extends",
    "C39_forged_header_refuted"
   ],
   "note": "whole executions of consensus and synchronisation keep the stored chain hash-linked (assuming committed proposals name the last block, which C39_checked_extends derives for checked ones); bloom and gas used of a synchronised header are unchecked"
  },
  {
   "property": "C40",
   "status": "partial",
   "theorems": [
    "C40_consensus_crash_partial",
    "C40_sync_crash_partial",
    "C40_mismatch_cannot_propose",
    "C40_after_sync",
    "C40_consensus_refuted",
    "C40_sync_refuted"
   ],
   "note": "every crash point is described exactly; the proof and the block do not match in the middle of a commit and after every synchronised block"
  },
  {
   "property": "C41",
   "status": "proved",
   "theorems": [
    "C41_one_run",
    "C41_run_bounds",
    "C41_progress",
    "C41_commit_blocked"
   ],
   "note": "all interleavings of announcements, synchronisation steps, proposals, checks and commits"
  },
  {
   "property": "C42",
   "status": "partial",
   "theorems": [
    "C42_validate",
    "C42_checked",
    "C42_own_refuted"
   ],
   "note": "holds for proposals of others; own proposals are exempt and may be earlier than their parent"
  },
  {
   "property": "C43",
   "status": "partial",
   "theorems": [
    "C43_monotone",
    "C43_permanent",
    "C43_not_before",
    "C43_exact_partial",
    "C43_dropped_refuted",
    "C43_flags_of_previous_block",
    "C43_activation_block_refuted"
   ],
   "note": "monotone, permanent and never early for all histories; exact activation only when announcements come in block order, a late announcement of an earlier block is lost; a block is executed with the flags of its parent, so the activation block still uses the old contract size limit"
  },
  {
   "property": "C44",
   "status": "partial",
   "theorems": [
    "C44_exact",
    "C44_round_trip",
    "C44_never_altered",
    "C44_bound",
    "C44_delivered",
    "C44_large_refuted",
    "C44_unbounded_refuted"
   ],
   "note": "round trip holds up to the 8 MiB limit; larger messages are sent but refused by the receiver, and the limit does not apply to uncompressed frames"
  },
  {
   "property": "C45",
   "status": "proved",
   "theorems": [
    "C45_same_key",
    "C45_once",
    "C45_final",
    "C45_completed",
    "C45_not_cut_off",
    "C45_answered",
    "C45_wrap_refuted"
   ],
   "note": "all interleavings; at most one delivery and only to the right key always; after 2^64 calls the reused id cuts off a waiting call (refutation of the unconditional no-loss statement)"
  },
  {
   "property": "C46",
   "status": "partial",
   "theorems": [
    "C46_ban_exact",
    "C46_lasting",
    "C46_protocol_error",
    "C46_refused",
    "C46_book",
    "C46_accept_refuted",
    "C46_disconnect_refuted",
    "C46_offline_refuted",
    "C46_shorten_refuted",
    "C46_overflow_refuted",
    "C46_port_refuted"
   ],
   "note": "the ban list is exact and lasting, misbehaving peers are disconnected, banned addresses stay out of the book and are refused at the limits; below the limits banned peers are accepted, and module bans do not disconnect"
  },
  {
   "property": "C47",
   "status": "partial",
   "theorems": [
    "C47_total",
    "C47_mirror",
    "C47_open_partial",
    "C47_config",
    "C47_run_ok",
    "C47_limit_refuted",
    "C47_quota_refuted"
   ],
   "note": "total limit and registry consistency proved; the per-direction limits bind only banned peers, so the claimed limits are refuted"
  },
  {
   "property": "C48",
   "status": "partial",
   "theorems": [
    "C48_refines",
    "C48_fetch",
    "C48_bounded",
    "C48_by_peer_partial",
    "C48_by_peer_refuted",
    "C48_no_peer_refuted"
   ],
   "note": "the book refines a map for every operation sequence and selections are sound and complete; look-up by peer id is proved only when each socket address keeps its peer id and panics otherwise"
  },
  {
   "property": "C49",
   "status": "partial",
   "theorems": [
    "C49_gossip",
    "C49_gossip_count",
    "C49_gossip_reaches",
    "C49_multicast",
    "C49_nobody_refuted",
    "C49_twice_refuted"
   ],
   "note": "targets are connected peers other than the origin; gossip may reach nobody although peers are connected and a multicast to a repeated id is sent twice"
  },
  {
   "property": "C50",
   "status": "partial",
   "theorems": [
    "C50_range",
    "C50_exact",
    "C50_by_hash",
    "C50_entries",
    "C50_truncated_refuted",
    "C50_topics_refuted",
    "C50_log_index_refuted"
   ],
   "note": "exact up to 10000 matching logs and four topic positions; beyond that the answer is silently cut, a fifth position is ignored, and logIndex is per transaction"
  },
  {
   "property": "C51",
   "status": "partial",
   "theorems": [
    "C51_once",
    "C51_answered",
    "C51_alive",
    "C51_kept",
    "C51_idle_refuted",
    "C51_gone_refuted"
   ],
   "note": "order and no duplicates for every schedule; a filter polled on an idle chain expires, and a client that goes away ends all filters"
  },
  {
   "property": "C52",
   "status": "partial",
   "theorems": [
    "C52_shape_partial",
    "C52_other",
    "C52_percentiles_partial",
    "C52_rejects",
    "C52_base_fee_refuted",
    "C52_genesis_refuted",
    "C52_percentile_refuted",
    "C52_ratio_refuted",
    "C52_reward_refuted"
   ],
   "note": "ratios, reward rows and oldest block proved for every request; base fees come in pairs, genesis is skipped, the last percentile is not checked"
  },
  {
   "property": "C53",
   "status": "not_applicable",
   "theorems": [],
   "note": "the tree and its proofs are computed by the external crate static_merkle_tree, which is not part of the repository; common/merkle only forwards to it and nothing but a benchmark uses it"
  },
  {
   "property": "C54",
   "status": "proved",
   "theorems": [
    "C54_receipts_aligned",
    "C54_no_crash"
   ],
   "note": ""
  },
  {
   "property": "C55",
   "status": "partial",
   "theorems": [
    "C55_admitted",
    "C55_accepts",
    "C55_batch",
    "C55_flush_coherent",
    "C55_stale_cache_refuted"
   ],
   "note": "equivalence for a nonce cache that agrees with the latest state, which flushing establishes; between a commit and the flush the cache may be stale"
  },
  {
   "property": "C56",
   "status": "partial",
   "theorems": [
    "C56_reads_back_partial",
    "C56_config_refuted",
    "C56_config_current"
   ],
   "note": "all fields except the consensus configuration, which is global"
  },
  {
   "property": "C57",
   "status": "partial",
   "theorems": [
    "C57_other_contracts_partial",
    "C57_reverted_refuted",
    "C57_token_refuted"
   ],
   "note": "holds for EVM transactions (C22) and successful calls of the other contracts; native token and reverted system transactions leave the nonce"
  },
  {
   "property": "C58",
   "status": "partial",
   "theorems": [
    "C58_supply_partial",
    "C58_refuted"
   ],
   "note": "bounded when every EVM sender can afford its gas limit; each reverted system transaction creates one unit"
  },
  {
   "property": "C59",
   "status": "partial",
   "theorems": [
    "C59_extendable_partial",
    "C59_own_proposals",
    "C59_halt_refuted"
   ],
   "note": "holds when the proposal carries the state root of its parent; no check looks at that field"
  },
  {
   "property": "C60",
   "status": "partial",
   "theorems": [
    "C60_no_panic",
    "C60_round_trip",
    "C60_lenient_refuted",
    "C60_prefix_refuted"
   ],
   "note": "total parser and round trip proved; different texts are accepted for the same id"
  },
  {
   "property": "C61",
   "status": "partial",
   "theorems": [
    "C61_panics_exactly",
    "C61_plain",
    "C61_call_arrives",
    "C61_response_arrives",
    "C61_panic_refuted"
   ],
   "note": "delivery proved; exactly the messages with a trace id but an undecodable header crash the handling task"
  },
  {
   "property": "C62",
   "status": "proved",
   "theorems": [
    "C62_book",
    "C62_bans"
   ],
   "note": "for every order in which the hash maps are dumped; JSON not modelled"
  },
  {
   "property": "C63",
   "status": "partial",
   "theorems": [
    "C63_once",
    "C63_kept",
    "C63_refused",
    "C63_history_refuted",
    "C63_gap_refuted"
   ],
   "note": "each log once and in order for every schedule; filters never look back before their creation and a late poll removes the filter"
  },
  {
   "property": "C64",
   "status": "partial",
   "theorems": [
    "C64_total",
    "C64_heads",
    "C64_logs_partial",
    "C64_tick",
    "C64_index_refuted",
    "C64_silent_refuted"
   ],
   "note": "messages handed to the sinks proved; the transaction index of logs is wrong, and the futures that would send the messages are dropped"
  },
  {
   "property": "C65",
   "status": "partial",
   "theorems": [
    "C65_modexp_partial",
    "C65_no_panic",
    "C65_work",
    "C65_modexp_panics",
    "C65_panic_refuted"
   ],
   "note": "result, price and work bound for every input outside the overflow condition, which is exact; inside it (an exponent length of at least 2^61-32) every call panics"
  },
  {
   "property": "C66",
   "status": "proved",
   "theorems": [
    "C66_blake2f"
   ],
   "note": ""
  },
  {
   "property": "C67",
   "status": "partial",
   "theorems": [
    "C67_hashes",
    "C67_ecrecover_partial",
    "C67_ec_add_partial",
    "C67_ec_mul_partial",
    "C67_pairing_partial",
    "C67_vm",
    "C67_addresses",
    "C67_ec_short",
    "C67_ecrecover_refuted",
    "C67_ec_short_refuted",
    "C67_pairing_refuted",
    "C67_vm_overflow_refuted"
   ],
   "note": "agreement with Ethereum outside the differences shown: invalid signatures, short curve inputs, unaligned pairing inputs"
  },
  {
   "property": "C68",
   "status": "partial",
   "theorems": [
    "C68_get_header",
    "C68_get_cell",
    "C68_registered",
    "C68_get_cell_refuted"
   ],
   "note": "the header precompile as stated; the cell precompile would work but is not registered"
  },
  {
   "property": "C69",
   "status": "partial",
   "theorems": [
    "C69_same_bytes",
    "C69_accepts",
    "C69_total",
    "C69_order",
    "C69_binds",
    "C69_node_accepts",
    "C69_agrees_partial",
    "C69_weights_refuted",
    "C69_height_refuted",
    "C69_unsigned_refuted"
   ],
   "note": "exact acceptance condition, binding and order independence proved; agreement with the node holds for equal weights and a proof naming the height, and fails otherwise: the tool counts heads and does not compare heights"
  },
  {
   "property": "C70",
   "status": "proved",
   "theorems": [
    "C70_only_validators",
    "C70_refused",
    "C70_validator_call",
    "C70_block",
    "C70_after_last_epoch"
   ],
   "note": ""
  },
  {
   "property": "C71",
   "status": "proved",
   "theorems": [
    "C71_apply",
    "C71_transaction",
    "C71_block_codes",
    "C71_no_accounts",
    "C71_size_limit",
    "C71_block_hash",
    "C71_empty_kept"
   ],
   "note": "Up to a collision of the hash or a preimage of the zero hash, which the conclusion names explicitly."
  },
  {
   "property": "C72",
   "status": "proved",
   "theorems": [
    "C72_ping",
    "C72_discovery",
    "C72_identify",
    "C72_network",
    "C72_headers",
    "C72_header_once",
    "C72_identify_order",
    "C72_bounded",
    "C72_wire_ping",
    "C72_wire_discovery",
    "C72_wire_identify",
    "C72_wire_network"
   ],
   "note": ""
  },
  {
   "property": "C73",
   "status": "proved",
   "theorems": [
    "C73_tick",
    "C73_check",
    "C73_message",
    "C73_only_silent",
    "C73_no_panic"
   ],
   "note": ""
  },
  {
   "property": "C74",
   "status": "proved",
   "theorems": [
    "C74_bad_data",
    "C74_refused",
    "C74_accepted",
    "C74_timeout",
    "C74_introduction",
    "C74_outbound",
    "C74_learns_little",
    "C74_honest",
    "C74_no_panic"
   ],
   "note": ""
  },
  {
   "property": "C75",
   "status": "proved",
   "theorems": [
    "C75_polite",
    "C75_close",
    "C75_close_only_received",
    "C75_answer",
    "C75_answered",
    "C75_learn",
    "C75_learn_all",
    "C75_spread",
    "C75_honest",
    "C75_no_panic"
   ],
   "note": ""
  },
  {
   "property": "C76",
   "status": "partial",
   "theorems": [
    "C76_served",
    "C76_refused",
    "C76_unknown",
    "C76_step",
    "C76_committed",
    "C76_reading",
    "C76_catch_up",
    "C76_synced",
    "C76_all",
    "C76_announced_refuted"
   ],
   "note": "catching up is proved in full; the last sentence is false: synchronisation stores the proof of the block before, so a node that has just caught up refuses the proof of the height it announces (it does serve everything below)"
  },
  {
   "property": "C77",
   "status": "partial",
   "theorems": [
    "C77_vote",
    "C77_commit",
    "C77_commit_epoch_end",
    "C77_boot",
    "C77_sync",
    "C77_sync_authorities",
    "C77_history",
    "C77_aggregate",
    "C77_proof",
    "C77_rogue_key",
    "C77_any_key_accepted",
    "C77_authority_list",
    "C77_transport",
    "C77_encode_refuted",
    "C77_sync_refuted",
    "C77_restart_refuted",
    "C77_forged_refuted"
   ],
   "note": "proved for histories in which no synchronisation passes the end of an epoch and no restart happens on one; both exceptions are refuted, and so is the sentence about who signed an aggregate (keys need no proof of possession)"
  },
  {
   "property": "C78",
   "status": "partial",
   "theorems": [
    "C78_checked",
    "C78_agree",
    "C78_logged",
    "C78_recovered",
    "C78_own",
    "C78_exempt_cleared",
    "C78_unchecked",
    "C78_unchecked_refuted"
   ],
   "note": "everything but the last sentence, which is false: proposer, previous state root, gas limit, base fee, chain id and script count are not compared with anything"
  },
  {
   "property": "C79",
   "status": "partial",
   "theorems": [
    "C79_balance",
    "C79_nonce",
    "C79_code",
    "C79_storage",
    "C79_block_number",
    "C79_call",
    "C79_estimate",
    "C79_proof",
    "C79_unknown_hash_refuted",
    "C79_tx_hash_refuted",
    "C79_future_refuted",
    "C79_estimate_refuted",
    "C79_estimate_earliest_refuted",
    "C79_absent_proof_refuted"
   ],
   "note": "proved whenever the parameter names a block, except that eth_estimateGas ignores a hash and \"earliest\"; the last sentence is false: an unknown hash is answered from the latest block, a transaction hash from its block, a future number with zeroes"
  },
  {
   "property": "C80",
   "status": "partial",
   "theorems": [
    "C80_transaction",
    "C80_by_index",
    "C80_block",
    "C80_count",
    "C80_receipt",
    "C80_pending",
    "C80_unknown",
    "C80_price_refuted",
    "C80_cumulative_refuted",
    "C80_log_index_refuted",
    "C80_max_fee_refuted"
   ],
   "note": "everything but the last sentence, which is false: effectiveGasPrice and cumulativeGasUsed repeat gasUsed, logIndex restarts in every receipt; and maxFeePerGas of a transaction is the constant 1337"
  },
  {
   "property": "C81",
   "status": "partial",
   "theorems": [
    "C81_sum_partial",
    "C81_next_partial",
    "C81_gap_refuted",
    "C81_fresh_refuted",
    "C81_system_refuted"
   ],
   "note": "proved when the waiting nonces follow the nonce of the account without a gap and the queue of fresh transactions is drained; false with a gap, right after a submission (by another client), and for calls of system contracts"
  },
  {
   "property": "C82",
   "status": "partial",
   "theorems": [
    "C82_no_crash_partial",
    "C82_decoded_renderable",
    "C82_position_refuted",
    "C82_revert_refuted",
    "C82_empty_refuted",
    "C82_signature_refuted"
   ],
   "note": "proved for all requests except positions of 64 bits and more, raw transactions that are empty or carry an empty r, and calls that revert with 68 or more bytes that are not a message; each of these ends the node"
  },
  {
   "property": "C83",
   "status": "partial",
   "theorems": [
    "C83_estimate_partial",
    "C83_limit_refuted"
   ],
   "note": "first sentence proved; the second for runs of 21000 to 24 million gas, and false above: the estimate may exceed the limit of a transaction"
  },
  {
   "property": "C84",
   "status": "proved",
   "theorems": [
    "C84_accepted",
    "C84_accepts"
   ],
   "note": "\"the bytes are the encoding\" up to a collision of the digest, which is stated"
  },
  {
   "property": "C85",
   "status": "partial",
   "theorems": [
    "C85_bytes",
    "C85_bytes_only",
    "C85_bytes_accepts",
    "C85_key",
    "C85_number",
    "C85_block",
    "C85_block_number",
    "C85_block_object",
    "C85_address",
    "C85_address_only",
    "C85_address_case",
    "C85_address_checksum",
    "C85_client_number",
    "C85_prefix_refuted",
    "C85_sign_refuted",
    "C85_block_text_refuted",
    "C85_address_refuted",
    "C85_address_panic_refuted",
    "C85_client_cut_refuted",
    "C85_client_panic_refuted"
   ],
   "note": "proved: reading back, exactness of the accepted texts, address case; false: a doubled prefix and a plus sign are taken, a serialised BlockId is not read back, an address has a second text, long addresses and client numbers panic, client numbers that do not fit are cut"
  },
  {
   "property": "C86",
   "status": "partial",
   "theorems": [
    "C86_consent",
    "C86_propose",
    "C86_adopted",
    "C86_only",
    "C86_not_again",
    "C86_command",
    "C86_command_running",
    "C86_report",
    "C86_late_refuted",
    "C86_sync_refuted"
   ],
   "note": "proved: consent, what is proposed and who agrees, adoption when the number is not below an adopted one, nothing else puts a hardfork in force, the command, the report; false: a node agrees to its announcement after the announced block has passed, and the passed blocks then count as under the hardfork; a node that synchronised the adopting block proposes the hardfork again"
  },
  {
   "property": "C87",
   "status": "partial",
   "theorems": [
    "C87_init",
    "C87_state",
    "C87_metadata",
    "C87_run",
    "C87_once",
    "C87_run_needs",
    "C87_interrupted",
    "C87_refused",
    "C87_restart",
    "C87_limit",
    "C87_limit_refuted",
    "C87_interrupted_refuted",
    "C87_refused_refuted",
    "C87_no_validators_refuted"
   ],
   "note": "proved: accounts, block, metadata, hardforks and what run works with; which specs are taken; an existing directory is left alone; false: the contract size limit of the spec is dropped, an interrupted or refused init leaves a directory that neither init nor run accepts, a spec without validators is taken"
  },
  {
   "property": "C88",
   "status": "partial",
   "theorems": [
    "C88_gate",
    "C88_command",
    "C88_written",
    "C88_unique",
    "C88_crash",
    "C88_history",
    "C88_no_panic",
    "C88_again",
    "C88_downgrade_refuted",
    "C88_newline_refuted",
    "C88_failed_refuted"
   ],
   "note": "proved: the exact gate, reading back, histories with interruptions; false: a newer record is accepted and overwritten, a record with a line break panics, a failed command leaves its record"
  },
  {
   "property": "C89",
   "status": "partial",
   "theorems": [
    "C89_consensus_partial",
    "C89_never_early",
    "C89_final",
    "C89_behind",
    "C89_behind_refuted",
    "C89_sync_refuted",
    "C89_late_refuted",
    "C89_both_refuted",
    "C89_overflow_refuted"
   ],
   "note": "proved when all blocks come by consensus and the height is not behind; never early in general; false: heights behind or passed by synchronisation are not noticed, both options together are ignored"
  },
  {
   "property": "C90",
   "status": "proved",
   "theorems": [
    "C90_map",
    "C90_remove",
    "C90_history",
    "C90_reopen",
    "C90_state_trie",
    "C90_prefix_refuted"
   ],
   "note": "proved for the key sets in use; for keys of which one starts another the root depends on the history"
  },
  {
   "property": "C91",
   "status": "proved",
   "theorems": [
    "C91_binding",
    "C91_list_root",
    "C91_list_binding",
    "C91_empty_item_refuted"
   ],
   "note": "proved for non-empty items, which transaction hashes and receipts are"
  },
  {
   "property": "C92",
   "status": "partial",
   "theorems": [
    "C92_complete_partial",
    "C92_sound",
    "C92_empty_refuted",
    "C92_absence_refuted"
   ],
   "note": "no proof yields a wrong value; absence is not provable, and the proof of an empty trie is rejected"
  },
  {
   "property": "C93",
   "status": "partial",
   "theorems": [
    "C93_silent",
    "C93_lapsed",
    "C93_offline",
    "C93_once",
    "C93_cast_refuted",
    "C93_hammer_refuted"
   ],
   "note": "proved for addresses not reached for three days and for runs without multicasts; false: multicasts dial an address that is being dialled, an address reached lately is dialled at every tick however often it fails"
  },
  {
   "property": "C94",
   "status": "proved",
   "theorems": [
    "C94_refines",
    "C94_reopen",
    "C94_history",
    "C94_binding"
   ],
   "note": ""
  },
  {
   "property": "C95",
   "status": "partial",
   "theorems": [
    "C95_storage_partial",
    "C95_proof_partial",
    "C95_absent",
    "C95_sound",
    "C95_fresh_refuted",
    "C95_empty_refuted"
   ],
   "note": "proved for accounts with storage, or once an empty storage trie is in the database; false: before that both queries fail for an account without storage, and its storage proofs are not accepted"
  },
  {
   "property": "C96",
   "status": "partial",
   "theorems": [
    "C96_no_panic",
    "C96_address",
    "C96_signed_partial",
    "C96_authentic_partial",
    "C96_program",
    "C96_forgery",
    "C96_reuse",
    "C96_sender_refuted"
   ],
   "note": "proved for 65-byte signatures; false: with an interoperation signature anybody who knows the public key of an account can send its transactions"
  },
  {
   "property": "C97",
   "status": "partial",
   "theorems": [
    "C97_bound_partial",
    "C97_relabelled",
    "C97_halted",
    "C97_one_answer",
    "C97_off_chain_refuted"
   ],
   "note": "proved: accepted answers agree in everything that the proof covers; false: gas used and bloom are free, and one answer with other values halts a synchronising node for good"
  },
  {
   "property": "C98",
   "status": "partial",
   "theorems": [
    "C98_transactions",
    "C98_signed",
    "C98_receipt",
    "C98_receipts",
    "C98_block",
    "C98_proof",
    "C98_proof_sound",
    "C98_cumulative_refuted",
    "C98_unrooted_refuted",
    "C98_served_receipt_refuted"
   ],
   "note": "The hash of a block fixes header, transactions, signatures and the outcome of each transaction, and positions can be proved against the roots (for all lists). Refuted: receipts are not Ethereum's (gas is not cumulative), code address and kind of failure are not committed to, and a proof taken before root_hash shows an item absent."
  },
  {
   "property": "C99",
   "status": "partial",
   "theorems": [
    "C99_once_partial",
    "C99_named_partial",
    "C99_admission",
    "C99_any_nonce",
    "C99_replay_refuted",
    "C99_reencoded_refuted",
    "C99_same_nonce_refuted",
    "C99_race_refuted"
   ],
   "note": "proved for runs in which peers answer what they were asked for and no admission overlaps a commit: no hash is executed twice. False in general: a proposer can replay committed transactions, execute one signed content under two encodings, or both a transaction and its replacement"
  }
 ]
}