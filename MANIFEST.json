{
 "claims": [
  {
   "property": "C01",
   "status": "partial",
   "theorems": [
    "arith_exact",
    "sar_exact_partial",
    "sar_exact_refuted"
   ],
   "note": "Every arithmetic, comparison, bitwise and shift opcode is proved exact for all words except arithmetic right shift, whose result for value 0 and shift >= 256 is refuted (the code returns 2^256-1)."
  },
  {
   "property": "C02",
   "status": "proved",
   "theorems": [
    "stack_safe",
    "stack_errors_exact"
   ],
   "note": "Invariant over all executions of all codes, for quota below 2^32."
  },
  {
   "property": "C03",
   "status": "partial",
   "theorems": [
    "memory_paid_before_use_partial",
    "panic_only_in_call",
    "memory_paid_before_use_refuted",
    "call2_panics_refuted",
    "call_priced_without_data_refuted"
   ],
   "note": "Proved for every instruction except CALL2. Refuted for CALL2 (no memory size function: reads unpaid memory, or panics when the range straddles the end) and CALL is priced before its data is in memory."
  },
  {
   "property": "C04",
   "status": "proved",
   "theorems": [
    "jump_check_exact",
    "code_bitmap_exact",
    "execution_on_instruction_boundaries"
   ],
   "note": "Bitmap analysis exact for all codes; execution only ever at instruction boundaries."
  },
  {
   "property": "C05",
   "status": "proved",
   "theorems": [
    "execution_terminates"
   ],
   "note": "Explicit bound 3q/2+1 instructions for quota q < 2^32."
  },
  {
   "property": "C06",
   "status": "proved",
   "theorems": [
    "quota_never_overspent",
    "memory_charge_telescopes",
    "memory_price_overflow_refuted"
   ],
   "note": "Proved for quota below 2^32 (the ledger grants at most 10^6 per block). Above that the memory price overflows (refuted)."
  },
  {
   "property": "C07",
   "status": "proved",
   "theorems": [
    "balances_never_negative",
    "send_pays_exactly",
    "transfer_accepted_iff"
   ],
   "note": "Amounts handed to the machine are assumed non-negative (checked by the block verifier)."
  },
  {
   "property": "C08",
   "status": "proved",
   "theorems": [
    "token_supply_step",
    "token_supply_history",
    "only_minters_issue"
   ],
   "note": "Built-in methods are arbitrary; what they burn is visible in the statement."
  },
  {
   "property": "C09",
   "status": "partial",
   "theorems": [
    "failed_call_refunds_partial",
    "refund_never_stuck",
    "failed_creation_refunds_amount_partial",
    "depth_cut_call_not_refunded_refuted",
    "failed_creation_keeps_fee_refuted"
   ],
   "note": "Proved for failed calls and creations; refuted for calls cut off by the depth limit (amount kept, fee lost) and for the creation fee."
  },
  {
   "property": "C10",
   "status": "partial",
   "theorems": [
    "received_at_most_once_partial",
    "received_only_by_addressee_partial",
    "on_road_exact_partial",
    "unreceived_can_be_received_partial",
    "received_twice_refuted"
   ],
   "note": "Proved for every history in which each snapshot that confirms a receive also confirms its send (what producers generate). The code does not check that of received snapshots, and without it the claim fails (received_twice_refuted). Hash collisions are excluded by hypothesis."
  },
  {
   "property": "C11",
   "status": "proved",
   "theorems": [
    "account_chain_linked",
    "account_heights_exact",
    "confirmed_blocks_stay"
   ],
   "note": "Every history of insertions, snapshots, deletions and snapshot rollbacks, with arbitrary snapshot contents."
  },
  {
   "property": "C12",
   "status": "partial",
   "theorems": [
    "storage_reads_exact",
    "long_keys_rejected",
    "reset_restores_committed",
    "write_set_exact",
    "balance_reads_exact",
    "iteration_forward_partial",
    "iteration_backward_partial",
    "iteration_seek_partial",
    "delete_is_invisible",
    "iteration_empty_key_refuted",
    "iteration_zero_prefix_refuted",
    "iteration_turn_loses_entries_refuted"
   ],
   "note": "Reads, resets, the write set and balances hold in full. Iteration is exact in each direction and from any key, with three exceptions that are proved as refutations: the empty key is skipped, a prefix made of a committed key and zero bytes matches that key, and changing direction in the middle loses entries."
  },
  {
   "property": "C13",
   "status": "partial",
   "theorems": [
    "quota_tables_rising",
    "quota_lookup_exact",
    "quota_step_function",
    "congestion_ratio_exact",
    "quota_monotone",
    "congestion_never_helps",
    "block_quota_exact",
    "block_release_exact",
    "one_pow_per_snapshot",
    "block_quota_capped",
    "block_quota_monotone",
    "pow_difficulty_exact",
    "pow_not_needed",
    "stake_amount_exact",
    "snapshot_quota_exact",
    "testnet_stake_refuted"
   ],
   "note": "Proved for the tables of the main network and the PoW table of the test network. The stake table of the test network repeats entries, and there the lookup and the reported stake are wrong (testnet_stake_refuted)."
  },
  {
   "property": "C14",
   "status": "partial",
   "theorems": [
    "data_cost_exact",
    "block_cost_exact",
    "multiple_cost_exact",
    "use_quota_exact",
    "quota_used_exact",
    "recorded_use_exact",
    "request_cost_exact_partial",
    "request_cost_overflow_refuted",
    "refund_wraps_refuted"
   ],
   "note": "Exact or an error everywhere except the request price, which returns zero and no error when adding the base price overflows, and the refund path of UseQuotaWithFlag."
  },
  {
   "property": "C15",
   "status": "proved",
   "theorems": [
    "supply_is_circulating",
    "supply_history",
    "supply_bounds",
    "holdings_below_supply",
    "only_owner_changes"
   ],
   "note": "The fee for issuing a token is destroyed without lowering the recorded supply of VITE, so for VITE the recorded supply is what circulates plus these fees; the theorem says so."
  },
  {
   "property": "C16",
   "status": "proved",
   "theorems": [
    "stake_credit_exact",
    "stake_funds_exact",
    "stake_call_exact",
    "stake_call_does",
    "stake_at_least_min",
    "stake_list_exact"
   ],
   "note": ""
  },
  {
   "property": "C17",
   "status": "partial",
   "theorems": [
    "withdraw_only_when_due_partial",
    "stake_of_others_untouched_partial",
    "lock_never_shortened_partial",
    "lock_shortened_refuted",
    "stale_id_takes_stake_refuted"
   ],
   "note": "Proved when the genesis indexes do not exceed the contract's height; otherwise an old id can withdraw another account's stake (stale_id_takes_stake_refuted). The lock-up itself can be shortened by staking again with the older call (lock_shortened_refuted); apart from that it is never shortened."
  },
  {
   "property": "C18",
   "status": "proved",
   "theorems": [
    "day_rewards_within_budget",
    "day_reward_monotone",
    "rewards_issued_within_budget",
    "rewards_issued_within_chain"
   ],
   "note": "For every distribution of votes and blocks the day's rewards over all producers are at most reward_per_block times the blocks produced, nobody's is negative, and more blocks never mean less. Lifted to histories: everything ever issued is at most the reward of the blocks of the settled days, and (composed with the production statistics of StatsModel) of blocks that are on the node's chain. The history theorems assume requests are received in the order of their confirming snapshots and that the calculation does not panic; see C50 for what happens otherwise."
  },
  {
   "property": "C19",
   "status": "partial",
   "theorems": [
    "match_conserves",
    "locked_is_backed",
    "exchange_solvent",
    "settlement_is_covered",
    "clear_expired_twice_refuted",
    "operator_fee_forgotten_refuted"
   ],
   "note": "Proved for every history since the fee upgrade in which a request to clear expired orders names no order twice: per match, for the locked funds of every account, and for the contract's balance. Naming an expired order twice (possible before upgrade 11) makes the contract insolvent; before the fee upgrade a settlement could block for ever. Order ids are unique while fewer than 2^24 orders are placed per second of the exchange's clock."
  },
  {
   "property": "C20",
   "status": "partial",
   "theorems": [
    "orders_stay_within",
    "trades_at_limit_or_better",
    "amount_is_price_times_quantity",
    "seller_price_partial",
    "post_only_never_takes",
    "fill_or_kill_partial",
    "fill_or_kill_refuted",
    "seller_below_limit_refuted",
    "market_buy_underpays_refuted"
   ],
   "note": "Quantity and amount limits, price limits and post-only hold for every history. A fill-or-kill order needing more than 100 trades is filled in part; rounding per fill can leave a seller paid less than the limit once the buyer's locked amount is used up; before upgrade 12 market buy orders underpaid."
  },
  {
   "property": "C21",
   "status": "partial",
   "theorems": [
    "election_fills_seats",
    "elected_distinct",
    "elected_within_rank",
    "single_seat_refuted"
   ],
   "note": "Proved for groups whose rank limit is at least the number of seats and that have at least two seats or fewer than two producers with a success rate; a group with one seat panics otherwise (single_seat_refuted)."
  },
  {
   "property": "C22",
   "status": "proved",
   "theorems": [
    "election_same",
    "nodes_elect_same"
   ],
   "note": "nodes_elect_same also covers the success rates each node computes from its own chain, caches and rollbacks; the random seed derived from a block hash is a parameter."
  },
  {
   "property": "C23",
   "status": "proved",
   "theorems": [
    "rounds_tile",
    "rounds_adjacent",
    "slots_inside_round",
    "slots_never_overlap",
    "slots_cover_round",
    "producer_exact",
    "one_producer_per_slot",
    "filled_slot_has_producer"
   ],
   "note": ""
  },
  {
   "property": "C24",
   "status": "partial",
   "theorems": [
    "round_statistics_exact",
    "hour_statistics_exact",
    "day_statistics_exact",
    "days_statistics_exact",
    "success_rates_exact",
    "statistics_forget_history",
    "produced_at_most_expected",
    "hours_of_odd_rounds_refuted",
    "headers_by_producer_refuted",
    "rate_overflow_refuted"
   ],
   "note": "Proved over every history of blocks, rollbacks, cache evictions and queries when an hour is a whole number of rounds (as on every configured network); hours_of_odd_rounds_refuted shows it false otherwise. Success rates are exact while 48 rounds have at most 4294 slots; above that the 32-bit product overflows (rate_overflow_refuted). The lookup of headers by producer always returns nothing (headers_by_producer_refuted)."
  },
  {
   "property": "C25",
   "status": "partial",
   "theorems": [
    "seed_check_exact",
    "honest_reveal_passes",
    "revealed_seed_ignored",
    "revealed_seed_must_match_refuted"
   ],
   "note": "The property is false: the check exists and is exact, but its verdict is dropped, so no revealed seed is ever rejected. Proved instead: what the check decides, that honest producers meet it, and that verification ignores the seed for all blocks and chains."
  },
  {
   "property": "C26",
   "status": "proved",
   "theorems": [
    "never_refused_as_missing",
    "batch_adds_never_panic",
    "batch_respects_dependencies",
    "account_block_after_what_it_names",
    "snapshot_block_after_what_it_names",
    "batch_inserts_all_accepted",
    "batch_execution_terminates",
    "batch_error_means_failure",
    "batch_error_source"
   ],
   "note": "Premise: no account block names a snapshot block's hash as its send or predecessor."
  },
  {
   "property": "C27",
   "status": "proved",
   "theorems": [
    "tree_branches_are_chains",
    "tree_main_extends_ledger",
    "tree_attached",
    "tree_no_panic",
    "tree_chains_kept",
    "tree_add_effect",
    "tree_fork_effect",
    "tree_switch",
    "tree_switch_empty",
    "tree_prune",
    "tree_advance",
    "tree_rollback",
    "tree_fork_point",
    "tree_find_branch",
    "tree_main_listed_refuted",
    "tree_exists_refuted",
    "tree_add_height_refuted"
   ],
   "note": "All histories of the operations the pool performs, over honest blocks (hashes tell blocks apart and commit to the height). Findings: the main branch can drop out of the branch list; a held block can be reported unknown; AddHead does not check the height."
  },
  {
   "property": "C28",
   "status": "proved",
   "theorems": [
    "address_text_round_trip",
    "accepted_address_text",
    "address_text_means_one_address",
    "address_checksum_typos_rejected",
    "token_text_round_trip",
    "accepted_token_text",
    "token_checksum_typos_rejected",
    "raw_text_round_trip",
    "accepted_raw_text",
    "json_round_trip",
    "map_key_round_trip_refuted"
   ],
   "note": "For every hash function with digests of the requested size. Digits in either case are accepted. JSON map keys do not survive (refuted)."
  },
  {
   "property": "C29",
   "status": "partial",
   "theorems": [
    "snapshot_round_trip",
    "snapshot_bytes_order_free",
    "snapshot_accepted",
    "snapshot_content_malformed",
    "meta_round_trip",
    "meta_legacy",
    "meta_malformed_refuted",
    "hash_height_round_trip",
    "logs_round_trip"
   ],
   "note": "Everything is proved except that malformed contract metadata is rejected: a record that is too short panics and one that is too long is accepted."
  },
  {
   "property": "C30",
   "status": "partial",
   "theorems": [
    "account_block_round_trip",
    "account_block_encoding_unique",
    "account_block_accepted",
    "account_block_malformed_refuted",
    "account_block_bad_hash_refuted"
   ],
   "note": "The round trip holds for every well-formed block; what the strict reader accepts is well formed. Deserialize drops the error of a malformed block, and both readers turn a hash of the wrong length into zero."
  },
  {
   "property": "C31",
   "status": "partial",
   "theorems": [
    "hash_commits_transfer",
    "hash_commits_user_blocks",
    "hash_commits_contract_receives",
    "sends_of_a_block_differ",
    "snapshot_hash_commits",
    "snapshot_hash_order_free",
    "log_hash_commits_partial",
    "hash_commits_refuted",
    "hash_ignores_quota_refuted",
    "sends_of_a_block_differ_refuted",
    "snapshot_time_and_version_refuted",
    "log_hash_commits_refuted"
   ],
   "note": "Proved for the blocks nodes build (user blocks, contract sends, contract receives whose log hash does not begin with eight zero bytes) and for snapshot blocks; false for arbitrary pairs because the optional parts are not delimited, and quota, difficulty and key are not hashed."
  },
  {
   "property": "C32",
   "status": "proved",
   "theorems": [
    "table_accepted",
    "active_exactly_from_its_height",
    "never_deactivated",
    "earlier_versions_active",
    "current_is_greatest",
    "active_points_exact",
    "points_are_shown",
    "upgrade_points_exact",
    "upgrade_points_activate",
    "order_free",
    "custom_order_free",
    "install_same",
    "latest_is_greatest",
    "snapshot_version_defined",
    "quota_table_chosen",
    "contract_set_chosen",
    "rules_change_at_points",
    "method_callable_since",
    "method_never_lost",
    "mainnet_heights",
    "latest_network",
    "add_next_point",
    "upgrade_points_activate_refuted",
    "custom_order_free_refuted",
    "added_point_order_refuted",
    "added_point_replaces_refuted"
   ],
   "note": "For every configuration a node starts with. The refuted theorems concern what lies outside: a configuration naming a version twice (accepted, and then order dependent), and points added at run time through the virtual API, which are not checked."
  },
  {
   "property": "C33",
   "status": "partial",
   "theorems": [
    "abi_round_trip_partial",
    "abi_pack_injective",
    "abi_unpack_safe_partial",
    "abi_unpack_typed_partial",
    "abi_slice_bounded",
    "abi_string_inside",
    "abi_pack_leaves_arguments",
    "method_call_round_trip_partial",
    "other_method_rejected",
    "event_round_trip",
    "event_unpack_safe",
    "numbered_types",
    "named_types",
    "list_types",
    "string_list_round_trip_refuted",
    "negative_round_trip_refuted",
    "pack_changes_argument_refuted",
    "number_range_unchecked_refuted",
    "long_fixed_bytes_refuted",
    "huge_array_refuted",
    "address_length_unchecked_refuted",
    "padding_ignored_refuted",
    "call_without_arguments_refuted",
    "method_id_collision_refuted",
    "missing_topic_refuted",
    "nameless_type_refuted",
    "type_suffix_ignored_refuted"
   ],
   "note": "The round trip is proved for every list of arguments without strings inside lists, fixed byte strings above 32 bytes and negative numbers of a width without a Go type; for each of these a counterexample is proved. Safety of unpacking is proved for every byte string and every type except fixed byte strings above 32 bytes and arrays of 2^57 items or more, where it fails. Filling Go structures by reflection is not modelled."
  },
  {
   "property": "C34",
   "status": "partial",
   "theorems": [
    "instruction_effects_partial",
    "sar_exact_refuted",
    "memory_paid_before_use_refuted"
   ],
   "note": "All instructions, except SAR of 0 by >= 256 and CALL2 with data outside memory, which are refuted."
  },
  {
   "property": "C35",
   "status": "proved",
   "theorems": [
    "offchain_read_only"
   ],
   "note": ""
  },
  {
   "property": "C36",
   "status": "proved",
   "theorems": [
    "storage_writes_bounded"
   ],
   "note": ""
  },
  {
   "property": "C37",
   "status": "proved",
   "theorems": [
    "call_depth_bounded",
    "requests_one_level_deeper",
    "depth_limit_stops"
   ],
   "note": ""
  },
  {
   "property": "C38",
   "status": "partial",
   "theorems": [
    "index_is_of_present_blocks_partial",
    "delete_undoes_insert_partial"
   ],
   "note": "Proved for every history in which each snapshot that confirms a receive also confirms its send (what producers generate). The code does not check that of received snapshots, and without it the claim fails (received_twice_refuted). Hash collisions are excluded by hypothesis."
  },
  {
   "property": "C39",
   "status": "partial",
   "theorems": [
    "delete_exactly_dependents_partial",
    "snapshot_exactly_partial"
   ],
   "note": "Proved for every history in which each snapshot that confirms a receive also confirms its send (what producers generate). The code does not check that of received snapshots, and without it the claim fails (received_twice_refuted). Hash collisions are excluded by hypothesis."
  },
  {
   "property": "C40",
   "status": "partial",
   "theorems": [
    "quota_window_exact_partial",
    "global_quota_exact_partial",
    "quota_window_no_panic",
    "quota_window_restart",
    "quota_window_fits",
    "rolled_back_window_refuted",
    "rollback_to_genesis_refuted"
   ],
   "note": "Proved for every history whose rollbacks leave at least 75 snapshots in memory or empty the memory without reaching genesis. For the other rollbacks the code is wrong: it reads one snapshot twice, or keeps a stale total; both are proved as refutations."
  },
  {
   "property": "C41",
   "status": "partial",
   "theorems": [
    "flush_invisible",
    "restart_shows_flushed",
    "reads_confirmed_and_pending",
    "flush_makes_confirmed_durable",
    "interrupted_flush_old_or_new",
    "direct_write_undone_refuted",
    "log_failure_panics_refuted",
    "failed_commit_window_refuted"
   ],
   "note": "Proved for histories in which a batch written directly, or confirmed out of order, touches no key of an unconfirmed batch written before it. Outside that the claim fails (direct_write_undone_refuted), as it does for a moment when a disk write fails (failed_commit_window_refuted). A failed write of the redo log makes the next flush panic (log_failure_panics_refuted)."
  },
  {
   "property": "C42",
   "status": "partial",
   "theorems": [
    "flush_atomic",
    "flush_only_started",
    "flush_never_lost",
    "flush_decided",
    "flush_undecided",
    "recovery_possible",
    "batch_dump_load",
    "redo_same_as_commit",
    "redo_after_commit",
    "redo_log_complete",
    "redo_log_cut",
    "power_loss_refuted"
   ],
   "note": "Proved for stops of the process. A power failure is different: leveldb is written without sync before the redo log is truncated, and then the claim fails (power_loss_refuted). Redo logs of one database are below 4 GiB."
  },
  {
   "property": "C43",
   "status": "partial",
   "theorems": [
    "only_owner_changes",
    "new_token_as_requested",
    "symbol_index_unique",
    "reserved_symbols",
    "failed_call_changes_nothing",
    "owner_list_partial",
    "owner_list_genesis_refuted"
   ],
   "note": "Everything holds in full except the owner's list: tokens created by the genesis block are never entered in it (owner_list_genesis_refuted); it is exact when it is exact at the start."
  },
  {
   "property": "C44",
   "status": "proved",
   "theorems": [
    "every_stake_withdrawable"
   ],
   "note": ""
  },
  {
   "property": "C45",
   "status": "partial",
   "theorems": [
    "block_before_sound",
    "block_before_complete",
    "block_before_subsecond_refuted"
   ],
   "note": "Every answer is right for all times; the search is proved to end when times are whole seconds, as block timestamps and schedule times are, and loops forever for some times with a fraction of a second (block_before_subsecond_refuted)."
  },
  {
   "property": "C46",
   "status": "partial",
   "theorems": [
    "round_settled",
    "accepted_stays_valid",
    "contract_producer_exact",
    "contract_level_zero_refuted",
    "contract_round_75s_refuted"
   ],
   "note": "Proved for the snapshot group, and for contract groups with check level 1 at the time of the newest block; a contract group with another check level never accepts anyone (contract_level_zero_refuted) and a round starting 75 s after genesis elects nobody (contract_round_75s_refuted)."
  },
  {
   "property": "C47",
   "status": "proved",
   "theorems": [
    "deposits_backed",
    "revoke_returns_deposit",
    "only_revoking_lowers_deposit",
    "register_records_deposit"
   ],
   "note": ""
  },
  {
   "property": "C48",
   "status": "proved",
   "theorems": [
    "producing_address_unique",
    "producing_address_stays",
    "votes_registered",
    "vote_counts"
   ],
   "note": ""
  },
  {
   "property": "C49",
   "status": "partial",
   "theorems": [
    "withdraw_list_exact",
    "withdraw_list_refuted"
   ],
   "note": "Exact over every history in which a request is judged by the same side of the Earth upgrade at its confirming and at the newest snapshot; a revocation confirmed before the upgrade and received after it leaves a stale entry."
  },
  {
   "property": "C50",
   "status": "partial",
   "theorems": [
    "withdraw_exact",
    "days_paid_once",
    "rewards_issued_within_budget",
    "days_paid_twice_refuted",
    "panic_pays_again_refuted",
    "registration_day_refuted"
   ],
   "note": "Exact amounts and days for every withdrawal; no day is paid twice when requests are received in the order they were confirmed. Without that order (only requests of one account are ordered, and the owner and the withdraw address may both ask) days are paid again and the budget is exceeded; a recovered panic resets the reward time to zero; asking at once after registering also pays the day of the registration."
  },
  {
   "property": "C51",
   "status": "partial",
   "theorems": [
    "votes_exact",
    "votes_count_once",
    "top_seats",
    "bad_producer_stays_refuted"
   ],
   "note": "Everything but the last clause is proved; a producer that misses every block keeps its seat while two elected newcomers have no success rate yet (bad_producer_stays_refuted)."
  },
  {
   "property": "C52",
   "status": "partial",
   "theorems": [
    "price_time_priority_partial"
   ],
   "note": "Every order type except market buy orders, which are bounded by an amount."
  },
  {
   "property": "C53",
   "status": "proved",
   "theorems": [
    "cancel_returns_held",
    "cancel_only_by_owner"
   ],
   "note": ""
  },
  {
   "property": "C54",
   "status": "partial",
   "theorems": [
    "random_seed_exact",
    "reveals_distinct",
    "random_seed_stable",
    "random_seed_unknown",
    "seed_confirmed_exact",
    "limit_block_stable",
    "limit_block_later",
    "contract_seed_is_request_hash",
    "contract_seed_depends_on_reveals_refuted"
   ],
   "note": "Everything but the last clause is proved. The number given to a contract is made of the first eight bytes of the request's hash for every chain: the random seed is placed in the last eight of 32 bytes and the first eight are read."
  },
  {
   "property": "C55",
   "status": "proved",
   "theorems": [
    "snapshot_accepted_exactly",
    "first_snapshot_is_genesis",
    "conflicting_snapshot_fails"
   ],
   "note": "The network checks before the ledger is consulted (hash, signature, clock) are outside this theorem; the revealed seed plays no part, see C25."
  },
  {
   "property": "C56",
   "status": "partial",
   "theorems": [
    "state_steps_succeed",
    "state_is_the_chain",
    "state_of_same_chains",
    "state_block_taken_back",
    "state_snapshots_taken_back",
    "state_redo_kept",
    "state_restarted",
    "contract_list_complete",
    "old_rollback_restores_storage_refuted",
    "contract_list_exact_refuted",
    "shared_log_kept_refuted"
   ],
   "note": "Proved for all histories whose blocks are distinct in hash, created contracts, log hashes and sends, and whose snapshot rollbacks either find the redo log (always kept for 1200 snapshots, state_redo_kept) or meet a condition on the smallest storage key. Without that condition an old rollback leaves storage unrestored, rolled back contracts stay in the contract list, and blocks sharing a log hash share its fate (refuted theorems). Keys are identifiers in this model; the database underneath is C41/C42."
  },
  {
   "property": "C57",
   "status": "proved",
   "theorems": [
    "snapshot_state",
    "snapshot_state_stays",
    "value_found",
    "balance_found",
    "stored_value",
    "stored_balance",
    "store_exists"
   ],
   "note": "Storage values and balances; value_found and balance_found say that the searches among the byte keys of the database find the newest entry; stored_value and stored_balance put both together for a store holding the byte form of the entries, which exists by store_exists."
  },
  {
   "property": "C58",
   "status": "partial",
   "theorems": [
    "stored_iteration",
    "snapshot_iteration_forward",
    "snapshot_iteration_backward",
    "snapshot_iteration_seek",
    "snapshot_iteration_turns",
    "snapshot_iteration_back_from_end_refuted"
   ],
   "note": "Proved for every store, prefix, height and sequence of steps, as long as no step back follows a report of the end; after such a report the iterator cannot step back, which is the refuted part. Deleted keys are listed with an empty value."
  },
  {
   "property": "C59",
   "status": "partial",
   "theorems": [
    "steps_succeed",
    "written_at_end",
    "read_exact",
    "block_read_back",
    "block_written_read",
    "chunk_written",
    "cut_back_refuted",
    "evicted_refuted",
    "hole_refuted"
   ],
   "note": "Proved for every history in which, while a flush is under way, fewer files than the cache holds are in use beyond its first and the log is not cut back into an earlier file, and which never cuts back beyond the file before the oldest one in memory. Outside these limits the claim is false: a deeper cut panics, an evicted file makes the commit fail, and a rollback into an earlier file during a commit loses bytes. Serialisation and compression of the blocks are not modelled."
  },
  {
   "property": "C60",
   "status": "partial",
   "theorems": [
    "pieces_irrelevant",
    "parse_exact",
    "range_exact",
    "tail_exact",
    "chunk_exact",
    "chunked_unique",
    "empty_block_refuted"
   ],
   "note": "Proved for every log the file manager can reach and all blocks shorter than 2^32-1 bytes. A block with an empty body is lost by the parser; the compressed form of a block is never empty, so this is a limit of the parser only."
  },
  {
   "property": "C61",
   "status": "partial",
   "theorems": [
    "crash_keeps_flushed",
    "commit_survives",
    "recovery_refuted"
   ],
   "note": "Proved for crashes at every point of a commit that created at most one new file; once it created two, recovery panics, which is the refuted part. File writes are taken to reach the disk in order, with the one in progress cut anywhere."
  },
  {
   "property": "C62",
   "status": "partial",
   "theorems": [
    "info_exact",
    "stored_exact",
    "rebuild_same",
    "hidden_send_refuted",
    "unclosed_snapshot_refuted"
   ],
   "note": "info_exact holds unless a send to the account is inside an unconfirmed receive block of a contract; such sends are missing until confirmed, and received before that they make the query fail. stored_exact has no such limit. Both assume snapshot blocks that confirm no receive block before its send, without which the summary goes wrong for good. The form in which entries are stored is not modelled."
  },
  {
   "property": "C63",
   "status": "partial",
   "theorems": [
    "front_exact",
    "front_account",
    "waiting_one",
    "turn_never_panics",
    "turn_chain",
    "other_group_refuted"
   ],
   "note": "Assumes that every contract that is called belongs to the delegate group. Creation accepts other groups, and other_group_refuted shows that a contract of another group makes the pool of a node miss updates, depending on the order of a Go map. Concurrent access inside the pool and database errors are not modelled."
  },
  {
   "property": "C64",
   "status": "partial",
   "theorems": [
    "fronts_sound",
    "fronts_after_restart",
    "fronts_after_send",
    "forgotten_caller_refuted"
   ],
   "note": "Not every waiting caller is listed at every moment: forgotten_caller_refuted shows a caller that waits at one contract dropped because another contract has served it."
  },
  {
   "property": "C65",
   "status": "proved",
   "theorems": [
    "hash_exact",
    "location_exact",
    "latest_exact",
    "snapshot_exact",
    "confirm_exact"
   ],
   "note": "Database errors are not modelled and a flush is one step (Flush and Blk model its parts). Sends that create contracts occur only as blocks of their own, as contracts cannot create contracts."
  },
  {
   "property": "C66",
   "status": "proved",
   "theorems": [
    "received_exact",
    "road_exact",
    "load_exact"
   ],
   "note": "As for C65; page numbers and sizes are taken without overflow of int."
  },
  {
   "property": "C67",
   "status": "partial",
   "theorems": [
    "forgotten_account_refuted"
   ],
   "note": "False of the code: the id of an account is written with its first block only; when this block is deleted before it is confirmed and replaced, nothing writes the id again and it is gone after the next flush."
  },
  {
   "property": "C68",
   "status": "partial",
   "theorems": [
    "vx_total_exact",
    "dividend_to_holders",
    "dividend_proportional",
    "dividend_never_fails"
   ],
   "note": "Changes of VX that the code clamps at zero (SafeSubBigInt) and events are not modelled; the storage iterator is taken to see the records as they were when the job began; the day of the genesis is left out."
  },
  {
   "property": "C69",
   "status": "partial",
   "theorems": [
    "fees_conserved",
    "dividend_complete",
    "first_day_refuted"
   ],
   "note": "False when the exchange starts on day 0, the day of the genesis: 99 percent of the fees of that day are not carried over. Proved for all other histories."
  },
  {
   "property": "C70",
   "status": "proved",
   "theorems": [
    "balances_exact",
    "list_exact",
    "never_early",
    "job_runs",
    "lock_exact",
    "vx_conserved"
   ],
   "note": "Stake ids are taken to be distinct (they are block hashes). What orders lock of an account is left out; settlements occur as amounts coming in and going out. Both kinds of held back amounts share these theorems."
  },
  {
   "property": "C71",
   "status": "partial",
   "theorems": [
    "balances_exact",
    "list_exact",
    "never_early",
    "job_runs",
    "stake_exact",
    "cancel_exact"
   ],
   "note": "Stakes made before the Earth upgrade and stakes for VIP are not modelled; the answers of the quota contract are taken to come once per request and in order, which is how that contract sends them."
  },
  {
   "property": "C72",
   "status": "partial",
   "theorems": [
    "messages_arrive",
    "pieces_do_not_matter",
    "cut_message",
    "any_bytes",
    "big_message_refuted",
    "big_message_panics_refuted",
    "reserved_memory_refuted"
   ],
   "note": "Proved for messages below 16 MB. Larger ones are not refused by the writer: the head runs over and the other side reads a wrong message, or the writer panics. The memory reserved for a compressed message is not bounded by the size limit (reserved_memory_refuted). Compression is a parameter that can be undone."
  },
  {
   "property": "C73",
   "status": "partial",
   "theorems": [
    "endpoint_round_trip",
    "endpoint_unique",
    "endpoint_trailing_refuted",
    "endpoint_accepted_refuted",
    "endpoint_loopback_refuted"
   ],
   "note": "The round trip holds for every proper address. The last clause is false: bytes after an address change its port, and addresses of a wrong length are accepted. The name localhost comes back as 127.0.0.1."
  },
  {
   "property": "C74",
   "status": "proved",
   "theorems": [
    "distance_exact",
    "distance_laws",
    "random_at_distance"
   ],
   "note": ""
  },
  {
   "property": "C75",
   "status": "partial",
   "theorems": [
    "nonce_accepted",
    "nonce_rule",
    "work_needed",
    "work_needed_partial",
    "higher_is_harder_partial",
    "target_monotone",
    "lower_difficulty",
    "difficulty_limits",
    "found_accepted",
    "found_if_tried",
    "range_searched",
    "higher_is_harder_refuted"
   ],
   "note": "The work is proved up to the part (difficulty+2)/2^61, that is one part in 2^28 for difficulties up to 2^32, and the target is proved to grow at each step up to 2^29. For very high ones the rounding makes different difficulties equal (higher_is_harder_refuted) and from 2^64 on no nonce is accepted (difficulty_limits). The hash is a parameter."
  }
 ]
}