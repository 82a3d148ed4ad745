# Formal model of vitelabs/go-vite in Rocq (Coq 8.16.1)

The code in /repo is modelled as executable Gallina functions, area by area.
Each area has these files under `rocq/theories/`:

* `<Area>Model.v`  definitions only, each with a comment citing file and lines in /repo;
* `<Area>Spec.v`   in some areas, the specification the theorems are stated against;
* `<Area>Proofs.v` lemmas;
* `<Area>Props.v`  the property theorems (stated against a small independent
  specification), the non-vacuity examples and `Print Assumptions`.

`<…>_refuted` marks a property that is false of the faithful model (a finding);
`<…>_partial` marks a theorem weaker than the English property.

## Conventions

* machine integers: `Z` with the wrap-around (`mod 2^64`, `mod 2^256`) written out where the code can wrap;
* `big.Int`: `Z`; byte slices: `list Z` with the byte-range predicate stated;
* Go errors: `option`/`sum` results; panics are an explicit outcome;
* hash functions, signatures, the clock and the database engine are parameters of
  the theorems (Section variables, discharged into explicit premises), never axioms.

## Plan per property

| id | modelled | proof |
|----|----------|-------|
| C01 | every op* function of vm/instructions.go on words | case analysis + Z arithmetic; SAR corner case expected to be refuted |
| C02 | interpreter loop, jump table with stack bounds | invariant over steps, induction on run |
| C03 | memory size functions vs. accesses of each instruction | per-opcode proof; CALL2 expected to be refuted |
| C04 | codeBitmap, jump validity | induction over code against an inductive instruction-start spec |
| C05 | interpreter with quota costs | lexicographic measure |
| C06 | quota accounting and memoryGasCost | invariant, telescoping sum |
| C07 | VM send/receive on an account ledger | invariant over transaction histories |
| C08 | same | invariant on sums |
| C09 | receiveCall/doRefund/revert | direct |
| C10, C11 | verifier rules on a chain state | invariant over accepted blocks |
| C12 | vm_db overlay and merged iterator | refinement to a map |
| C13, C14 | quota tables, searches, price arithmetic | direct, binary search correctness |
| C15 | token contract | invariant over calls |
| C16, C17 | stake contract | invariant over calls |
| C18 | reward formula, reward withdrawals, node-side day details | arithmetic on sums, invariant over histories, composition with the statistics model |
| C19, C20, C52, C53 | big.Float arithmetic at 120 bits, matcher, order placement, fund and trade contract with the messages between them | exact rounding error bounds and monotonicity; invariant over the match loop, lifted to every history |
| C21, C22, C51 | CalVotes, FilterVotes, ShuffleVotes with any sorting routine and any generator, composed with the statistics model | permutation reasoning, uniqueness of sorted lists, induction along the common chain |
| C23 | time index and plan generation | arithmetic |
| C24 | round statistics, hour/day points, success rates, their caches | exactness over every history of growth, rollback and queries |
| C25 | verifySelf, VerifyReferred, VerifySnapshotProducer, GetLastUnpublishedSeedSnapshotHeader, generateSnapshot (SeedModel) | the unused check is shown exact by induction over the window of 601 blocks; the property itself is refuted (its verdict is dropped), for all blocks and chains |
| C54 | GetRandomSeed, GetSeed, GetSeedConfirmedSnapshotBlock, the limit block of a receive (SeedModel) | loops against a window of the chain; last clause refuted |
| C26 | insertion batches: placement in levels and buckets, the parallel executor (BatchModel) | level invariant; executor as a transition system over all interleavings; proved |
| C27 | `ledger/pool/tree` whole (branches, roots and children, fork, switch, prune, ledger moves); Go maps by association lists, map iteration orders as arguments, the stale-time test as a list of stale branches | ranked well-formedness invariant kept by every operation (`TreeProofs*`), chains read back with GetKnot; refuted: main branch always listed, Exists complete, AddHead checks heights |
| C55 | VerifyReferred, verifySelf, verifyAccounts of the snapshot verifier (SeedModel) | exact characterisation of acceptance by cases and induction on the content |
| C56 | `ledger/chain/state`: write.go, delete.go, redo.go, the getters of state_db.go; stores as association lists over typed keys, Go map orders as an argument | invariant relating stores, pending cache, history index and redo logs to the list of live blocks, kept by every operation (`StateProofs*`); refuted: rollback without redo log, exact contract list, shared log hash |
| C57 | GetSnapshotValue, GetSnapshotBalanceList over the history index of the same model, and over the sorted byte keys of the database | same invariant: the history entries are exactly the changes of confirmed segments; order of the byte keys |
| C58 | the snapshot storage iterator (iteration.go) over the cursor of the sorted byte store of the VmDb area | each step is shown to land on the next key that has a version at the height; refinement to a list with a position |
| C59 | `ledger/chain/file_manager` and the writes, reads and rollbacks of `ledger/chain/block` (BlkModel): files on disk, cached files with their flush pointers, pending flush; file and cache sizes as parameters | invariant tying disk, cache and pending flush to the log of bytes (`BlkProofs*`), kept by every step; refuted: cut beyond the cache, eviction during a commit, rollback into an earlier file during a commit |
| C60 | the block parser and the range, tail and chunk reads of the same model | the parser consumes bytes one by one, so pieces do not matter; induction over blocks; refuted: empty block body |
| C61 | crash and restart as steps: memory lost, or a commit stopped after k operations and j bytes of the next, then redone | same invariant with the disk states in the middle of a commit; refuted: commit that created two files |
| C62 | the plugin that keeps the summary of pending receipts (`ledger/chain/plugins/onroad_info.go`, plugins.go), with the part of the chain's insert and delete functions that drives it (RoadModel); map orders as a parameter | signed sums over entries: cancelling pairs keeps them, a closed part of the chain sums to its pending sends; invariant over every step; refuted: sends inside unconfirmed receive blocks, snapshot blocks that are not closed |
| C63, C64 | the pool of requests waiting at contracts (`ledger/onroad/pool/{storage,contract_pool,types}.go`) and the events that keep it (`ledger/onroad/{chain_events,utils}.go`, TurnModel); map orders as a parameter, the index a start reads as its specification | the database holds just the unreceived requests, with a known or completable position; effect of one event as a list of single acts with different keys; the first entries of a caller contain the head of the queue; refuted: contracts of other groups, forgotten callers |
| C65, C66, C67 | the index of the chain (`ledger/chain/index/*.go`) over the store with unconfirmed batches, its caches (bigcache, LRUs) losing anything at any time, rollback with and without redo logs, flush, restart (IdxModel) | the view of the store, the batches of each block and the disk are related to the blocks of the chain by an invariant over every key; effects of insert, snapshot, delete and rollback as sets of changed keys; queries read off the invariant; refuted: ids of accounts |
| C68, C69 | the fees of the exchange and their dividends (`fund_settle.go`, `fund_dividend.go`, `fund_storage.go` of vm/contracts/dex): VX records by day of users and in sum, pools by day with their links, dividend job with its 120 bit floats, burning of VITE, marks of the mining job (DivModel) | amounts at the end of a day are read off the list of operations (DivSpec); invariant: records agree with them on all days after the last job, the chain of undivided days is a prefix of the records; conservation over rolling, job and burning; shares proportional to the VX held up to rounding; refuted: first day 0 |
| C70, C71 | what the exchange holds back for seven days (`fund_storage.go`, `fund_finish_pendings.go`, `fund_stake.go`, `fund_settle.go` of vm/contracts/dex): accounts, lists by day of unlocked VX and cancelled stakes, their jobs, stakes with the answers of the quota contract (PendModel) | amounts are read off the accepted operations with their days (PendSpec); invariant: the list of a user is the grouping by day of the requests not yet due, the account agrees with it; a stake's owner has an account |
| C72, C73, C74 | the framing of a peer connection (`net/codec.go`), packed addresses and node distances (`net/vnode/{endpoint,node}.go`, NetModel); compression as a parameter, the stream in pieces of any size | reading depends on the bytes only; write then read is the identity by induction over the messages; bit by bit for heads and ids; refuted: messages from 16 MB on, memory reserved, trailing bytes and wrong lengths of addresses |
| C75 | targets, the check and the search of nonces (`pow/pow.go`) and the rule of the verifier (PowModel), with the rounded floats of DexFloat at 64 bits; the hash as a parameter | each rounding is monotone and near; the four steps are composed by cross multiplication; the byte comparison is that of the numbers; refuted: high difficulties share a target |
| C28 | text and JSON forms of addresses, token ids, group ids and hashes (TextModel) | round trips, accepted texts characterised, checksum typos; refuted: JSON map keys |
| C29 | snapshot blocks, contract metadata, hash-heights and log lists as written to disk (WireModel, with the protobuf wire format) | round trips for all values, order-independence of the bytes, everything accepted is well formed; refuted: short metadata panics, long metadata accepted |
| C30 | account blocks with nested sends (WireModel) | round trip by nested induction, accepted blocks are well formed; refuted: Deserialize drops errors, a bad hash becomes zero |
| C31 | hash pre-images of account blocks, contract sends, snapshot blocks, log lists (WireModel) | injectivity up to hash collisions per kind of block; refuted for every hash function: data hash/fee/log hash not delimited; quota and difficulty outside the hash; seconds; logs undelimited |
| C32 | common/upgrade in full, QuotaTableByHeight, the built-in method sets (UpgradeModel) | shape of an accepted table (sorted list of versions 1..n with growing heights) from the check, then every query against the configured list; rules chains against the greatest version in force |
| C33 | type names, packing, unpacking, method calls, events (vm/abi), with Go values as an inductive type and the bytes behind a slice as a parameter | induction over argument lists with an "occurs at offset" relation; panics are an explicit outcome |
| C34 | every opcode | per-opcode comparison with an independent big-step specification |
| C35 | the off-chain instruction table | invariant over the run |
| C36 | gasSStore counting | invariant over the run |
| C37 | call depth bookkeeping of vm and state db | invariant over histories |
| C38, C39 | chain index insert and delete, computeDependencies, snapshot insert and rollback | exactness invariant of the index over histories |
| C40 | quota window of the chain cache | refinement to the chain over histories |
| C41, C42 | flusher, redo logs, recovery | invariant over writes, flushes and crash points |
| C43 | token contract | invariant over calls |
| C44 | stake contract | invariant over calls, liveness by direct execution |
| C45 | GetSnapshotHeaderBeforeTime | loop invariant of the bracketing and bisection |
| C46 | elections, producer checks | invariant over grown chains |
| C47, C48, C49, C50 | governance contract: registrations, votes, withdraw lists, reward times | invariants over histories of calls with arbitrary revert points |

## Trusted base

* **The kernel of Coq 8.16.1** (with its virtual machine: `vm_compute` is used for the concrete witnesses and examples), and `coqchk`, which re-checks every file.
* **No axioms.** `Print Assumptions` stands after the theorems in each `<Area>Props.v`. For each of the theorems named in `MANIFEST.json` it prints "Closed under the global context": no axiom of the standard library is used by any of them. Hash functions, sorting routines, map orders and the like are Section variables and appear as quantified premises in the statements.
* `coqchk -o` runs over all loaded libraries and lists seven entries that no theorem here depends on: `Coq.ssr.ssrunder.Under_rel.Over_rel`, `over_rel`, `over_rel_done`, `Under_rel`, `Under_rel_from_rel`, `Under_relE`, `under_rel_done`. They are the parameters of an opaque module of the standard library that is loaded with its tactics (`lia` and others).
* Only the standard library is imported. There are no plugins, functors, module types, `Admitted` or disabled checks.
* **The reading of the code.** That the definitions say what the Go code does is not checked by the kernel. Every definition cites the lines it models, and what is simplified is said there. The seeded edits in `seeded/LOG.jsonl` show which wrong versions of the definitions the theorems notice.
* **What is taken as given in many areas**: Go's runtime, `math/big`, the sorted stores of leveldb (sorted lists with a cursor), the protocol buffer wire format (from its public specification), cryptography (signatures are not modelled; equal hashes mean equal contents where a statement says so), and database calls that do not fail (except in Flush, where they do).

## What is modelled

| code | area |
|------|------|
| `vm/{interpreter,instructions,jump_table,gas_table,memory,memory_table,stack,stack_table,destination,contract}.go` | VmWord, VmJump, Vm |
| `vm/vm.go` (send, receive, refund, create) | Ledger |
| `vm/quota`, `vm/util/quota.go` | Quota |
| `vm/abi` | Abi |
| `vm/contracts/contracts_{asset,quota,governance}.go` with `vm/contracts/abi` | Asset, Stake, Gov |
| `vm/contracts/dex`: matcher, orders, fund settlement, dividends, fees, held back amounts; the parts of `contracts_dex_{fund,trade}.go` that call them | Dex, Div, Pend |
| `vm_db`, `common/db/merged_iterator.go` | VmDb |
| `ledger/verifier` (account and snapshot rules) | Chain, Seed |
| `ledger/chain/{insert,delete,unconfirmed}.go`, `ledger/chain/cache` | Chain, QuotaWin |
| `ledger/chain/index` | Chain, Idx |
| `ledger/chain/{db,flusher}`, `common/db/xleveldb/batch.go` | Flush |
| `ledger/chain/{file_manager,block}` | Blk |
| `ledger/chain/state` | State, Hist |
| `ledger/chain/plugins/onroad_info.go` | Road |
| `ledger/onroad` (pool and chain events) | Turn |
| `ledger/consensus` (time index, elections, statistics, success rates) | Sched, Elect, Stats |
| `ledger/pool/{tree,batch}` | Tree, Batch |
| `common/types` (text and JSON forms) | Text |
| `interfaces/core` (block formats and hashes), `common/vitepb` | Wire |
| `common/upgrade` | Upgrade |
| `net/codec.go`, `net/vnode/endpoint.go` (packed form), `net/vnode/node.go` (distances) | Net |
| `pow/pow.go`, `verifyNonce` in `ledger/verifier/account_verifier.go` | Pow |

## What is not modelled

* `net` (except the above), `rpc`, `rpcapi`, `client`, `cmd`, `node`, `producer`, `wallet`, `crypto`, `monitor`, `log15`, `conf`, `tools`, `version`, `smart-contract`, `contracts-vite`.
* `ledger/pipeline`, `ledger/generator`, `ledger/test_tools`; of `ledger/pool` everything but the tree and the batches; of `ledger/onroad` the workers; of `ledger/chain/plugins` the other plugins; `ledger/chain/{genesis,sync_cache}`.
* Of the exchange: VX mining (`fund_mine.go`), invitations, VIP and old version stakes, API keys (agents), administration, events, `fund_verifier.go`.
* Signatures, proof of work, the clock beyond what a statement names, and Go's memory model. Concurrency is modelled in Batch (all interleavings) and Flush (writes between the parts of a flush); elsewhere calls follow each other as the locks make them.

## Findings

Each line is a theorem ending in `_refuted` about the faithful model: a concrete case in which the code does not do what the property says.

| theorem | what happens | code |
|---------|--------------|------|
| `sar_exact_refuted` | 0 shifted arithmetically right by 256 or more gives 2^256-1 | `vm/instructions.go` opSAR |
| `memory_paid_before_use_refuted`, `call2_panics_refuted` | CALL2 reads memory nobody paid for, and panics if the range straddles the end of memory | `vm/jump_table.go`, CALL2 has no memory size function |
| `call_priced_without_data_refuted` | CALL is priced before its data is in memory | `vm/gas_table.go` |
| `memory_price_overflow_refuted` | the memory price overflows for quota above 2^32 (never granted) | `vm/gas_table.go` memoryGasCost |
| `depth_cut_call_not_refunded_refuted`, `failed_creation_keeps_fee_refuted` | calls cut off by the depth limit and fees of failed creations are not refunded | `vm/vm.go` |
| `received_twice_refuted` | a snapshot block that confirms a receive but not its send lets the send be received twice after a deletion | `ledger/verifier/snapshot_verifier.go` |
| `iteration_empty_key_refuted`, `iteration_zero_prefix_refuted`, `iteration_turn_loses_entries_refuted` | storage iteration skips the empty key, lists keys without the prefix, loses entries when turned round | `vm_db/storage_iterator.go`, `common/db/merged_iterator.go` |
| `testnet_stake_refuted` | the test network's stake table repeats entries | `vm/quota/params.go` |
| `request_cost_overflow_refuted`, `refund_wraps_refuted` | overflow makes a request free; a refund wraps | `vm/util/quota.go` |
| `rolled_back_window_refuted`, `rollback_to_genesis_refuted` | the quota window is wrong after some rollbacks | `ledger/chain/cache/quota_list.go` |
| `direct_write_undone_refuted`, `failed_commit_window_refuted`, `log_failure_panics_refuted`, `power_loss_refuted` | a direct write is undone by a flush; failing disks hide data or make the next flush panic; power loss splits the databases | `ledger/chain/flusher/flusher.go`, `ledger/chain/db` |
| `owner_list_genesis_refuted` | tokens of the genesis block are not in their owner's list | `vm/contracts/contracts_asset.go` |
| `lock_shortened_refuted`, `stale_id_takes_stake_refuted` | a year-long lock can be shortened; an old id can withdraw another account's stake | `vm/contracts/contracts_quota.go` |
| `block_before_subsecond_refuted` | the search for the block before a time loops for ever for fractions of a second | `ledger/chain` GetSnapshotHeaderBeforeTime |
| `contract_level_zero_refuted`, `contract_round_75s_refuted` | contract groups that accept or elect nobody | `ledger/consensus` |
| `hours_of_odd_rounds_refuted`, `rate_overflow_refuted`, `headers_by_producer_refuted` | hours drift, rates overflow, a query by producer is always empty | `ledger/consensus/cdb`, `ledger/chain` |
| `days_paid_twice_refuted`, `panic_pays_again_refuted`, `registration_day_refuted`, `withdraw_list_refuted` | rewards of days paid twice; a recovered panic pays all days again; withdraw lists keep a stale entry | `vm/contracts/contracts_governance.go`, `vm/util/consensus_reader.go` |
| `single_seat_refuted`, `bad_producer_stays_refuted` | an election panics; a producer that misses every block keeps its seat | `ledger/consensus/core/vote_algo.go` |
| `fill_or_kill_refuted`, `seller_below_limit_refuted`, `clear_expired_twice_refuted`, `operator_fee_forgotten_refuted`, `market_buy_underpays_refuted` | fill-or-kill filled in part after 100 trades; rounding below the limit price; an expired order cleared twice | `vm/contracts/dex/matcher.go`, `trade_helper.go` |
| `first_day_refuted` | fees of day 0 are not carried over | `vm/contracts/dex/fund_storage.go:1155` |
| `map_key_round_trip_refuted` | addresses and token ids do not survive as JSON map keys | `common/types` UnmarshalText |
| `account_block_malformed_refuted`, `account_block_bad_hash_refuted`, `meta_malformed_refuted` | malformed blocks and metadata are accepted or panic | `interfaces/core` |
| `hash_commits_refuted`, `hash_ignores_quota_refuted`, `sends_of_a_block_differ_refuted`, `snapshot_time_and_version_refuted`, `log_hash_commits_refuted` | different blocks with one hash pre-image | `interfaces/core` |
| `custom_order_free_refuted`, `upgrade_points_activate_refuted`, `added_point_order_refuted`, `added_point_replaces_refuted` | a configuration naming a version twice depends on a map order; added points are unchecked | `common/upgrade` |
| `revealed_seed_must_match_refuted`, `contract_seed_depends_on_reveals_refuted` | a revealed seed is never verified; the random number of contracts is made of the request's hash | `ledger/verifier`, `ledger/chain` |
| the thirteen of `AbiProps.v` | lists of strings, negative and oversized numbers, long fixed bytes, huge arrays, padding, collisions, panics on types and topics | `vm/abi` |
| `tree_main_listed_refuted`, `tree_exists_refuted`, `tree_add_height_refuted` | the main branch drops out of the list; a held block is unknown; heights are unchecked | `ledger/pool/tree` |
| `old_rollback_restores_storage_refuted`, `contract_list_exact_refuted`, `shared_log_kept_refuted` | old rollbacks leave storage; the contract list keeps deleted contracts; a shared log is deleted | `ledger/chain/state/delete.go` |
| `snapshot_iteration_back_from_end_refuted` | the iterator cannot step back from the end | `ledger/chain/state/iteration.go:180-183` |
| `cut_back_refuted`, `recovery_refuted`, `hole_refuted`, `evicted_refuted`, `empty_block_refuted` | the block files: panics and lost bytes after large rollbacks, crashes and writes during a flush | `ledger/chain/file_manager` |
| `hidden_send_refuted`, `unclosed_snapshot_refuted` | pending sends missing from or stuck in the summary | `ledger/chain/plugins/onroad_info.go` |
| `other_group_refuted`, `forgotten_caller_refuted` | the pool misses updates; a waiting caller is dropped | `ledger/onroad/chain_events.go:56-59`, `ledger/onroad/pool/storage.go:73-91` |
| `big_message_refuted`, `big_message_panics_refuted`, `reserved_memory_refuted` | messages from 16 MB on garble the stream or make the writer panic; eight bytes make a node reserve 4 GB | `net/codec.go` |
| `endpoint_trailing_refuted`, `endpoint_accepted_refuted`, `endpoint_loopback_refuted` | trailing bytes change the port; wrong lengths are accepted; localhost is replaced | `net/vnode/endpoint.go` |
| `higher_is_harder_refuted` | difficulties 10^19 and 1.5*10^19 have the same target; from 2^64 on no nonce is accepted | `pow/pow.go` DifficultyToTarget |
| `forgotten_account_refuted` | the id of an account is lost after its first block was replaced | `ledger/chain/index/insert.go:67-70` |

Smaller observations without a theorem (none reachable from outside as far as the model shows): the test at `contracts_dex_fund.go:878-881` is inverted and would refuse the refund of a failed mining stake; the error of ScheduleCancelStake is dropped at 788 and 995 (`cancel_exact` shows it cannot occur); GetOnRoadTotalNumByAddr always answers 0 (`contract_pool.go:398-407`).
