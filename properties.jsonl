{"id": "C01", "title": "Contract arithmetic is exact modulo 2^256", "statement": "Every arithmetic, comparison, bitwise, shift and modular instruction of the contract machine applied to 256-bit operands returns the mathematically defined result: unsigned ones the integer result mod 2^256 (division and modulo by zero give 0), signed ones the truncated two's complement result, comparisons 0 or 1, shifts by 256 or more the saturated value; the result is always again a 256-bit word.", "quantifier": "all pairs/triples of 256-bit words and all such opcodes", "why_tests_cant": "2^512 operand pairs per opcode; the corner cases (negative zero, minimum signed value, oversized shifts) are exactly the ones a sample misses.", "anchors": ["vm/instructions.go:opAdd..opSAR", "common/helper/math_big.go:U256,S256,Exp"]}
{"id": "C02", "title": "A running contract never under- or overflows the operand stack", "statement": "Executing any byte string as contract code on any input never pops from an empty operand stack and never leaves more than 1024 items on it; code that would do so is stopped with a stack error instead.", "quantifier": "all byte strings as code, all inputs, all stores, every number of steps", "why_tests_cant": "needs to hold after every prefix of every execution of every program.", "anchors": ["vm/interpreter.go:runLoop", "vm/stack_table.go", "vm/jump_table.go"]}
{"id": "C03", "title": "A running contract only touches memory it has paid for", "statement": "Every memory read or write performed by an instruction lies inside the memory that was expanded (and charged) for that instruction before it ran.", "quantifier": "all code, inputs and reachable machine states", "why_tests_cant": "offsets and sizes are attacker-chosen 256-bit words.", "anchors": ["vm/memory_table.go", "vm/memory.go", "vm/interpreter.go:runLoop", "vm/instructions.go"]}
{"id": "C04", "title": "Jumps land only on real jump destinations", "statement": "A jump is accepted exactly when its target is the position of a JUMPDEST byte that starts an instruction, i.e. is not inside the immediate data of a PUSH, for every contract code.", "quantifier": "all byte strings as code and all 256-bit jump targets", "why_tests_cant": "every code layout, including truncated PUSH data at the end.", "anchors": ["vm/destination.go", "vm/instructions.go:opJump,opJumpi"]}
{"id": "C05", "title": "Contract execution always terminates", "statement": "Running any code with any finite quota stops after finitely many instructions, with a bound computable from the quota.", "quantifier": "all code, inputs, stores and quotas", "why_tests_cant": "non-termination cannot be observed by a test, and some instructions are free of charge or refund quota.", "anchors": ["vm/interpreter.go:runLoop", "vm/gas_table.go"]}
{"id": "C06", "title": "Execution never spends more quota than it was given", "statement": "The quota left after any execution is between zero and the quota supplied plus nothing; memory charges add up to exactly the price of the final memory size no matter how memory grew.", "quantifier": "all code, inputs, quotas and histories of memory growth", "why_tests_cant": "quota accounting is uint64 arithmetic with wraparound, refunds and attacker-chosen sizes.", "anchors": ["vm/gas_table.go:memoryGasCost", "vm/util/quota.go", "vm/interpreter.go"]}
{"id": "C07", "title": "Balances never go negative and a send is rejected when funds are missing", "statement": "A transaction that sends an amount plus fee is accepted only if the sender owns at least that much of the respective tokens, and afterwards no account balance is below zero.", "quantifier": "all ledgers, all sequences of send/receive/refund/reward transactions", "why_tests_cant": "must hold after every history of transactions.", "anchors": ["vm/vm.go:canTransfer,sendCall,sendCreate,doSendBlockList", "vm/util/db_helper.go:AddBalance,SubBalance"]}
{"id": "C08", "title": "Tokens are conserved across the asynchronous ledger", "statement": "For every token, the sum of all account balances plus all amounts of sent-but-not-yet-received transactions changes only by issuance, burning and the fixed creation fee; a transfer, a failed call, a revert, a refund or a call-depth abort neither creates nor destroys tokens.", "quantifier": "all histories of user sends, contract calls, nested contract sends, failures and refunds, all tokens", "why_tests_cant": "requires summing over unbounded histories and all failure points.", "anchors": ["vm/vm.go:sendCall,receiveCall,doRefund,sendRefund,receiveRefund", "vm/util/db_helper.go"]}
{"id": "C09", "title": "A failed contract call has no effect other than returning the money", "statement": "If executing a received call fails, the contract's storage, code, logs and outgoing transactions are exactly as before, and the caller gets back exactly the sent amount (and fee) in one refund transaction.", "quantifier": "all contracts, callers, amounts, tokens and failure points in the execution", "why_tests_cant": "the failure may happen after any number of partial effects.", "anchors": ["vm/vm.go:receiveCall,doRefund,revert"]}
{"id": "C10", "title": "Every sent transaction is received at most once", "statement": "No matter in which order blocks are submitted, the verifier accepts at most one receive transaction for every send transaction, only on the account it was addressed to, and only after the send exists.", "quantifier": "all sequences of submitted account blocks", "why_tests_cant": "double spends come from unusual submission orders.", "anchors": ["ledger/verifier/account_verifier.go:verifyDependency,verifyProducerLegality"]}
{"id": "C11", "title": "Account chains are hash-linked without gaps", "statement": "Every accepted account block has height one more than, and previous-hash equal to, the last accepted block of that account, so any accepted history of an account is one contiguous chain starting at height 1.", "quantifier": "all sequences of submitted blocks", "why_tests_cant": "universally quantified over submission histories.", "anchors": ["ledger/verifier/account_verifier.go:verifyDependency"]}
{"id": "C12", "title": "Contract storage reads see exactly the latest write", "statement": "During one execution a read returns the last value written in this execution, or else the committed value; deleting is the same as writing the empty value; resetting the execution restores the committed view; iteration lists exactly the visible non-empty keys with the prefix, in order, each once.", "quantifier": "all committed stores and all sequences of reads, writes, deletes, resets and iterations", "why_tests_cant": "unbounded operation sequences and merges of two sorted views.", "anchors": ["vm_db/unsaved.go", "vm_db/storage.go", "vm_db/storage_iterator.go", "common/db/merged_iterator.go"]}
{"id": "C13", "title": "Quota from stake and PoW is monotone, bounded and correctly inverted", "statement": "More stake or more proof of work never yields less quota, quota never exceeds the cap, the table lookup returns the true step function for every input, and the difficulty reported as required for a quota is enough and minimal.", "quantifier": "all stake amounts, difficulties and network congestion values", "why_tests_cant": "binary search over tables with off-by-one boundaries for every big integer input.", "anchors": ["vm/quota/quota.go", "vm/quota/params.go"]}
{"id": "C14", "title": "Quota price arithmetic cannot wrap around", "statement": "Computing the price of a block from its data length, the contract's quota multiplier and the base price either returns the exact mathematical product/sum or an overflow error; it never silently wraps.", "quantifier": "all uint64 inputs", "why_tests_cant": "wraparound needs inputs near 2^64.", "anchors": ["vm/util/quota.go:MultipleCost,BlockGasCost,RequestQuotaCost,UseQuota"]}
{"id": "C15", "title": "Token supply bookkeeping", "statement": "For every history of issue, re-issue, burn, transfer-ownership and disable-reissue calls, a token's recorded total supply equals the amount ever issued minus burned, never exceeds the max supply of a reissuable token, never changes for a non-reissuable token except by burning, and only the current owner can re-issue.", "quantifier": "all histories of token contract calls by all callers", "why_tests_cant": "unbounded histories and adversarial callers.", "anchors": ["vm/contracts/contracts_asset.go", "vm/contracts/abi/abi_asset.go"]}
{"id": "C16", "title": "Stake accounting is exact", "statement": "At any time the quota stake credited to a beneficiary is exactly the sum of the live stake records naming it, the contract's locked funds equal the sum of all records, and cancelling returns precisely what is removed from the records.", "quantifier": "all histories of stake / cancel calls (old and new method) from all callers at all heights", "why_tests_cant": "unbounded histories; amounts split and merged over records.", "anchors": ["vm/contracts/contracts_quota.go", "vm/contracts/abi/abi_quota.go"]}
{"id": "C17", "title": "Nobody can withdraw a stake early or that is not theirs", "statement": "A cancel-stake call succeeds only for the staker of the record, after its lock-up height, for at most the staked amount, and leaves either nothing or at least the minimum stake.", "quantifier": "all histories and callers", "why_tests_cant": "adversarial callers over all states.", "anchors": ["vm/contracts/contracts_quota.go"]}
{"id": "C18", "title": "Block-producer rewards never exceed the budget", "statement": "For every distribution of votes and produced blocks, the rewards computed for one day over all producers sum to no more than the network's reward budget for the blocks planned that day, and each producer's share is non-negative and monotone in the blocks it produced.", "quantifier": "all vote and production statistics", "why_tests_cant": "integer division rounding over arbitrary data.", "anchors": ["vm/contracts/contracts_governance.go:calcRewardByDayDetail"]}
{"id": "C19", "title": "Order matching conserves funds", "statement": "Matching a new order against any order book moves funds only between maker, taker and fees: for each token what one side loses equals what the other sides and the fee accounts gain, and each order's locked funds are fully accounted as executed, fee or refund.", "quantifier": "all order books, orders, prices, quantities and fee rates", "why_tests_cant": "rounding of decimal prices and long match chains.", "anchors": ["vm/contracts/dex/matcher.go", "vm/contracts/dex/calculator.go"]}
{"id": "C20", "title": "An order never executes beyond its limits", "statement": "No order is ever filled for more than its quantity, no buy order spends more than the amount locked for it, no trade happens at a price worse than the limit of either side, fill-or-kill orders execute completely or not at all, and post-only orders never take.", "quantifier": "all order books and incoming orders", "why_tests_cant": "same.", "anchors": ["vm/contracts/dex/matcher.go"]}
{"id": "C21", "title": "Producer election yields the right number of distinct eligible producers", "statement": "For every vote distribution, seed and success statistics, the elected producers of a round are distinct registered candidates, exactly min(seats, candidates) of them, and every one ranks within the eligible range.", "quantifier": "all vote lists, seeds, hashes and success rates", "why_tests_cant": "pseudo-random selection over arbitrary inputs.", "anchors": ["ledger/consensus/core/vote_algo.go"]}
{"id": "C22", "title": "The election result does not depend on input order or node-local state", "statement": "Two nodes with the same votes, seed and statistics elect the same producers in the same order even if they enumerate the votes differently.", "quantifier": "all permutations of the vote list", "why_tests_cant": "n! enumeration orders.", "anchors": ["ledger/consensus/core/vote_algo.go", "ledger/consensus/core/consensus.go"]}
{"id": "C23", "title": "Exactly one producer per time slot", "statement": "The block schedule of consecutive rounds tiles time: any instant after genesis belongs to exactly one round and, when seats are filled, to exactly one producer's slot, slots never overlap, and converting time to round and back is consistent.", "quantifier": "all times, rounds, group parameters and producer lists", "why_tests_cant": "all instants and parameter combinations.", "anchors": ["ledger/consensus/core/time_index.go", "ledger/consensus/core/group.go"]}
{"id": "C24", "title": "Production statistics aggregate exactly", "statement": "Hour and day production statistics equal the sum of the per-round statistics they cover, independently of the order or grouping in which rounds are merged.", "quantifier": "all round statistics and groupings", "why_tests_cant": "all histories and merge orders.", "anchors": ["ledger/consensus/cdb/point.go", "ledger/consensus/consensus_point_array.go"]}
{"id": "C25", "title": "A revealed seed must match the commitment", "statement": "A snapshot block that reveals a random seed different from the one its producer committed to earlier is rejected by verification.", "quantifier": "all snapshot blocks and chains", "why_tests_cant": "adversarial producers.", "anchors": ["ledger/verifier/snapshot_verifier.go", "ledger/consensus/consensus_impl.go", "ledger/consensus/consensus_snapshot.go"]}
{"id": "C26", "title": "Batch insertion respects dependencies under every interleaving", "statement": "However blocks are added to an insertion batch and however the parallel workers interleave, a block is inserted only after every block in the batch that it depends on (its predecessor, its send block, the snapshot before it) was inserted.", "quantifier": "all add sequences and all worker interleavings", "why_tests_cant": "schedules.", "anchors": ["ledger/pool/batch/batch_impl.go", "ledger/pool/batch/batch_executor_impl.go"]}
{"id": "C27", "title": "The candidate-chain tree always presents contiguous linked branches", "statement": "After any sequence of adding blocks, forking, switching the main branch and advancing or rolling back the root, every branch of the pending-block tree is one contiguous hash-linked chain attached to its parent, and the main branch is reachable from the ledger head.", "quantifier": "all operation sequences", "why_tests_cant": "histories of forks and switches.", "anchors": ["ledger/pool/tree/tree_impl.go", "ledger/pool/tree/branch.go", "ledger/pool/tree/branch_base.go"]}
{"id": "C28", "title": "Addresses, token ids and hashes survive text round trips and typos are rejected", "statement": "Formatting and then parsing any user or contract address, token id or hash returns the same value; a string accepted by the parser has the correct checksum; no string parses both as user and contract address.", "quantifier": "all values and all candidate strings", "why_tests_cant": "2^160 values, all strings.", "anchors": ["common/types/address.go", "common/types/tokentypeid.go", "common/types/hash.go"]}
{"id": "C29", "title": "Snapshot content and contract metadata survive storage", "statement": "Decoding an encoded snapshot content or contract metadata record returns the same record; shorter legacy records decode to the documented defaults; malformed ones are rejected.", "quantifier": "all contents and byte strings", "why_tests_cant": "all inputs.", "anchors": ["interfaces/core/snapshot_block.go", "interfaces/core/contract_meta.go"]}
{"id": "C30", "title": "Account blocks survive the wire", "statement": "Encoding and decoding a well-formed account block, including its nested sends, reproduces every field; decoding a malformed block reports an error.", "quantifier": "all account blocks and byte-level messages", "why_tests_cant": "all inputs, nested to any depth.", "anchors": ["interfaces/core/account_block.go:Proto,DeProto,Serialize,Deserialize"]}
{"id": "C31", "title": "A block hash commits to every semantic field", "statement": "Two account (or snapshot) blocks with different semantic content have different hash pre-images, so equal hashes imply equal content unless the hash function collides.", "quantifier": "all pairs of blocks", "why_tests_cant": "pairs of adversarially chosen blocks.", "anchors": ["interfaces/core/account_block.go:hashSource", "interfaces/core/snapshot_block.go:ComputeHash"]}
{"id": "C32", "title": "Protocol upgrades activate once and never deactivate", "statement": "With any valid upgrade configuration, a feature is active at a height exactly when that height has reached its activation height; once active it stays active at all greater heights, and later versions are never active before earlier ones.", "quantifier": "all upgrade configurations and heights", "why_tests_cant": "all configurations and heights.", "anchors": ["common/upgrade"]}
{"id": "C33", "title": "Big contract ABI values survive encoding", "statement": "Unpacking packed ABI arguments returns the same values for every supported static, dynamic, array and slice type; unpacking arbitrary bytes never reads out of range.", "quantifier": "all types, values and byte strings", "why_tests_cant": "all inputs.", "anchors": ["vm/abi"]}
{"id": "C34", "title": "Contract instructions have exactly their documented effect", "statement": "Every instruction that a contract executes changes operand stack, memory, storage, logs, outgoing requests and the program counter exactly as its documentation says, with reads beyond the end of call data, code or memory giving zero bytes, and changes nothing else.", "quantifier": "all codes, inputs, states reachable at any point of an execution", "why_tests_cant": "every instruction in every machine state, including offsets near 2^64 and 2^256.", "anchors": ["vm/instructions.go", "vm/memory.go", "vm/memory_table.go", "vm/interpreter.go", "common/helper/common.go:GetDataBig"]}
{"id": "C35", "title": "Reading a contract off-chain changes nothing", "statement": "A contract executed for an off-chain query never produces a storage write, a log or an outgoing request, whatever its code.", "quantifier": "all codes, inputs and quota", "why_tests_cant": "all programs.", "anchors": ["vm/jump_table.go:newOffchainInstructionSet", "vm/instructions.go:opOffchain*", "vm/vm.go:OffChainReader"]}
{"id": "C36", "title": "One execution changes a bounded number of storage slots", "statement": "Since the Earth upgrade a single contract execution ends with at most 100 storage locations different from what they were before.", "quantifier": "all codes and executions", "why_tests_cant": "all programs.", "anchors": ["vm/gas_table.go:gasSStore"]}
{"id": "C37", "title": "Chains of contract calls are finite", "statement": "A request sent by a contract while it handles a request is one level deeper than that request. No request in transit is ever deeper than 512 levels, and a call received at level 512 runs no code and sends nothing further.", "quantifier": "all histories of transactions and all contract behaviours", "why_tests_cant": "needs an invariant over unbounded histories of mutually calling contracts.", "anchors": ["vm/vm.go:receiveCall,checkDepth", "vm/params.go:callDepth", "ledger/chain/state/write.go:Write"]}
{"id": "C38", "title": "Rolling back restores the indexes exactly", "statement": "After any sequence of insertions, snapshots, deletions of unconfirmed blocks and deletions of snapshots, looking a block up by hash or by height, asking whether a transaction has been received and listing the transactions waiting for an account all answer exactly according to the blocks that are then on the chain, as if the removed blocks had never existed.", "quantifier": "all histories of insertions, snapshots and rollbacks", "why_tests_cant": "an incomplete undo shows only in particular combinations of insertion, confirmation and rollback.", "anchors": ["ledger/chain/index/insert.go", "ledger/chain/index/delete.go", "ledger/chain/delete.go"]}
{"id": "C39", "title": "Deleting a block deletes exactly what depends on it", "statement": "Deleting an unconfirmed account block removes that block and exactly the unconfirmed blocks that directly or indirectly build on it, by following it on its account chain or by receiving what it sent, and no others.", "quantifier": "all reachable chains and every unconfirmed block", "why_tests_cant": "dependencies form graphs of arbitrary shape and depth across accounts.", "anchors": ["ledger/chain/delete.go:DeleteAccountBlocks", "ledger/chain/unconfirmed.go:computeDependencies"]}
{"id": "C40", "title": "The record of recent quota use matches the chain", "statement": "After any sequence of insertions, deletions of unconfirmed blocks, snapshots, rollbacks and restarts, the quota use reported for an account over the last 75 snapshots, and the use reported for the whole network, are exactly the sums over the blocks then on the chain. Recording a snapshot never stops the node.", "quantifier": "all histories of insertions, deletions, snapshots, rollbacks and restarts, all accounts", "why_tests_cant": "the record is kept by increments and a moving window, so an error appears only after particular lengths of chain and rollback.", "anchors": ["ledger/chain/cache/quota_list.go", "ledger/chain/cache/account_block.go", "ledger/chain/cache/snapshot_block.go", "ledger/chain/delete.go"]}
{"id": "C41", "title": "Flushing never changes what is read", "statement": "Reading a key of a ledger database returns the value of the last write to it, whatever flushes to disk have happened, are under way, were cancelled or were followed by a restart. After a flush a restart shows exactly what snapshots had confirmed when the flush began; unconfirmed blocks are still readable before the restart and gone after it.", "quantifier": "all histories of block insertions, snapshots, rollbacks, direct writes, flushes and restarts, all keys", "why_tests_cant": "reads are merged from memory, a batch being flushed and disk; an error needs a particular order of writes to one key around a flush.", "anchors": ["ledger/chain/db/store.go", "ledger/chain/db/write.go", "ledger/chain/db/flush.go", "ledger/chain/db/rollback.go", "ledger/chain/db/unconfirmed_batch.go"]}
{"id": "C42", "title": "A crash never leaves databases at different flushes", "statement": "The index, state and block databases are flushed together. Wherever the process stops, in the middle of writing the redo log, of writing any of the databases, or of a recovery, after recovery every database contains the same flushes, each of them completely. A flush whose redo log was complete is never lost, and one whose log was incomplete leaves no trace.", "quantifier": "all histories of flushes, all crash points including during recovery, any number of databases and contents", "why_tests_cant": "crash points inside a write cannot be enumerated by tests.", "anchors": ["ledger/chain/flusher/flusher.go", "common/db/xleveldb/batch.go:Dump,Load", "ledger/chain/block/flush.go", "ledger/chain/file_manager/file_manager.go:Flush"]}
{"id": "C43", "title": "A token keeps its identity and its owner is in control", "statement": "After a token is issued its name, symbol, decimals and index never change, no other token ever has the same symbol and index, nobody can issue a token called VITE, VCP or VX, and only the current owner can hand it over or make it final. The list of tokens shown for an owner contains exactly the tokens of that owner, each once. A refused call changes nothing.", "quantifier": "all histories of token contract calls by all callers", "why_tests_cant": "unbounded histories and adversarial callers.", "anchors": ["vm/contracts/contracts_asset.go", "vm/contracts/abi/abi_asset.go:GetTokenMapByOwner", "ledger/chain/genesis/account_block.go:newGenesisAssetContractBlocks"]}
{"id": "C44", "title": "Every stake can be got back", "statement": "Once the lock-up of a stake has ended its owner can withdraw all of it with one call, whatever other calls by anyone have happened before, and the contract has the money to pay. This holds for ordinary stakes, delegated stakes and stakes with an id, also when they share a beneficiary.", "quantifier": "all histories of stake and cancel calls by all callers from a genesis in which record indexes do not exceed the contract's height; every stake; every height after its lock-up", "why_tests_cant": "which record a call finds depends on all earlier calls of the account; stuck money shows only in particular mixtures of old and new calls.", "anchors": ["vm/contracts/contracts_quota.go:getStakeInfo,MethodCancelStake,MethodCancelDelegateStake,MethodCancelStakeV3"]}
{"id": "C45", "title": "Looking up the newest snapshot block before a time finds it", "statement": "Asking a chain for the newest snapshot block before a given time returns exactly that block when there is one and reports that there is none otherwise; the search always ends.", "quantifier": "all chains with rising block times and all times", "why_tests_cant": "the lookup guesses a height from the average block distance and then brackets and bisects; which path runs depends on the whole history of block times.", "anchors": ["ledger/chain/snapshot_block.go:GetSnapshotHeaderBeforeTime,binarySearchBeforeTime"]}
{"id": "C46", "title": "The producers of a round are settled before it starts", "statement": "Who may produce in a slot is decided by blocks old enough that blocks added later never change it, so a block accepted at some time stays valid against every later chain that contains it; for a contract group the same holds for the producers of contract blocks.", "quantifier": "all chains grown by accepted blocks, all extensions of them, all slots", "why_tests_cant": "later blocks are unboundedly many, and an election depending on one of them would show only on particular schedules.", "anchors": ["ledger/consensus/consensus_snapshot.go:ElectionIndex,VerifyProducer", "ledger/consensus/consensus_contract.go", "ledger/consensus/core/group.go"]}
{"id": "C47", "title": "A block producer's deposit is safe", "statement": "At every moment the governance contract's VITE beyond the sum of the registered deposits is what it was at genesis, so each deposit is covered if the genesis configuration covered them. From the end of its lock on, the owner of a registration gets exactly the deposit back, and nothing but the owner's own revocation after the lock lowers a deposit. A registration records who paid, how much, and locks it for exactly the configured number of snapshot blocks.", "quantifier": "all sequences of governance requests from all callers, refused ones included", "why_tests_cant": "an accounting invariant over unbounded histories of registering, revoking, re-registering and updating", "anchors": ["vm/contracts/contracts_governance.go:MethodRegister.DoReceive", "vm/contracts/contracts_governance.go:MethodRevoke.DoReceive", "vm/vm.go:receiveCall"]}
{"id": "C48", "title": "A producing address belongs to one name for ever", "statement": "No two registrations ever share a block producing address, current or past; an address once used by a name stays with that name through every update, revocation and re-registration. Votes are only for registered names, are accepted only for active ones, and the newest vote of an account is the one that counts.", "quantifier": "all sequences of governance requests", "why_tests_cant": "depends on every earlier registration and update", "anchors": ["vm/contracts/contracts_governance.go:MethodRegister.DoReceive", "vm/contracts/contracts_governance.go:MethodUpdateBlockProducingAddress.DoReceive", "vm/contracts/contracts_governance.go:MethodVote.DoReceive"]}
{"id": "C49", "title": "The producers of a reward withdraw address are listed exactly", "statement": "The query for a withdraw address lists exactly the registrations whose rewards that address may withdraw without owning them, each once, although the list is kept as one comma separated text that is edited by prefix, suffix and substring search.", "quantifier": "all sequences of governance requests, all names allowed (including names that are prefixes or suffixes of other names)", "why_tests_cant": "text surgery on a stored list; a name that is part of another, or the order of edits, can leave or remove a wrong entry", "anchors": ["vm/contracts/contracts_governance.go:saveWithdrawRewardAddress", "vm/contracts/contracts_governance.go:deleteWithdrawRewardAddress", "vm/contracts/abi/abi_gonvernance.go:GetRegistrationListByRewardWithdrawAddr"]}
{"id": "C50", "title": "Rewards are paid once per day and only to those entitled", "statement": "A withdrawal issues exactly the rewards of the whole days since the last one that ended at least an hour before the request was confirmed and before the producer was revoked; only the owner or the withdraw address can ask for it; no day is paid twice to a producer, and all rewards ever issued are at most the reward per block times the blocks produced.", "quantifier": "all sequences of registrations, revocations, withdrawals and their confirmation times", "why_tests_cant": "the recorded reward time moves with every request; paying twice needs a particular order of requests", "anchors": ["vm/contracts/contracts_governance.go:MethodWithdrawReward.DoReceive", "vm/contracts/contracts_governance.go:calcReward", "vm/util/consensus_reader.go:GetIndexByStartTime"]}
{"id": "C51", "title": "Votes decide the seats", "statement": "A candidate's votes are exactly the balances of the accounts voting for it and no balance counts twice. When enough candidates stand behind the seats, all but the random seats (at most a third) go to the most voted candidates, except that up to two of them that produced less than 80% of their blocks give way to well-producing candidates; a producer that misses its blocks does give way when a well-producing candidate stands behind it.", "quantifier": "all vote tables, balances, success statistics, seeds and group parameters", "why_tests_cant": "selection over arbitrary inputs; the exception involves the interplay of three orderings", "anchors": ["ledger/consensus/core/vote_algo.go:FilterVotes,filterBySuccessRate,filterRandV2", "ledger/consensus/core/state_reader.go:CalVotes"]}
{"id": "C52", "title": "Orders trade by price and time", "statement": "When an incoming order trades with a resting order, every resting order on that side with a better price, or the same price and an earlier placement, is out of the book afterwards: nobody with priority is passed over.", "quantifier": "all histories of deposits, placements, matches, cancellations and settlements, all incoming orders", "why_tests_cant": "the order of the book is the byte order of the order ids and long match chains stop for several reasons.", "anchors": ["vm/contracts/dex/matcher.go", "vm/contracts/dex/leveldb_book.go", "vm/contracts/dex/utils.go ComposeOrderId"]}
{"id": "C53", "title": "Cancelling returns what the order holds", "statement": "The owner of a resting order or its agent can cancel it at any time; it leaves the book, exactly what it had locked and not used is released to the owner, and no other order or account changes. Nobody else can cancel it.", "quantifier": "all reachable states of the exchange, all resting orders and callers", "why_tests_cant": "depends on every earlier partial fill and its rounding.", "anchors": ["vm/contracts/contracts_dex_trade.go", "vm/contracts/dex/matcher.go CancelOrderById"]}
{"id": "C54", "title": "Contract randomness comes from seeds revealed by distinct recent producers", "statement": "The random seed at a block is the sum of the newest seeds revealed by the last distinct producers among the recent blocks; it is the same on every node that has the block and never changes afterwards. A contract that waits for seeds is bound to the first block by which enough were revealed after the request, and the number it is given depends on them.", "quantifier": "all chains, blocks and requests", "why_tests_cant": "every pattern of producers, missed and zero seeds and chain growth; the value is compared between nodes, not with a known answer.", "anchors": ["ledger/chain/snapshot_block.go", "ledger/generator/generator.go", "ledger/generator/utils.go"]}
{"id": "C55", "title": "A snapshot block is accepted exactly when it is the next block of the right producer", "statement": "A snapshot block after the first is accepted exactly when it names the newest block as its predecessor, is one higher and later in time, confirms only account blocks that are present with that hash, and the election gives its producer the slot of its time; the first block is accepted only as the genesis block. A block that confirms another account block than the one present is refused for good.", "quantifier": "all chains, account states, elections and offered blocks", "why_tests_cant": "the verdict depends on the whole chain and account state; an accepted wrong block would be rare", "anchors": ["ledger/verifier/snapshot_verifier.go:VerifyReferred,verifySelf,verifyAccounts,verifyTimestamp", "ledger/consensus/consensus_snapshot.go:VerifyProducer"]}
{"id": "C56", "title": "The newest state is what the blocks of the chain made it", "statement": "After any history of account blocks, snapshot blocks, rollbacks of account blocks, rollbacks of snapshot blocks and restarts, every read of the newest state (storage, balances, balance lists, code, contract settings, logs, call depth) returns what executing the blocks still on the chain in order left behind. So writing a block and taking it back changes nothing, and two histories that end with the same blocks end with the same state. All contracts created on the chain are listed for their group.", "quantifier": "all histories of writes, snapshots, rollbacks and restarts of any length, all accounts, keys, tokens and hashes", "why_tests_cant": "the state is kept in several indexes, a pending cache and undo logs that are maintained incrementally; a missed update shows only after a particular sequence of writes, confirmations and rollbacks", "anchors": ["ledger/chain/state/write.go:Write", "ledger/chain/state/delete.go:RollbackSnapshotBlocks,RollbackAccountBlocks", "ledger/chain/state/redo.go", "ledger/chain/state/state_db.go:GetStorageValue,GetBalance,GetCode,GetContractMeta,GetContractList,GetVmLogList,GetCallDepth"]}
{"id": "C57", "title": "The state at a snapshot stays readable and never changes", "statement": "Reading storage or a balance as of a snapshot block returns exactly what the account blocks confirmed up to it left behind, no matter how many blocks were added, confirmed, rolled back above it or how often the node restarted since; with or without the read cache.", "quantifier": "all histories of writes, snapshots, rollbacks and restarts, all snapshot heights still on the chain, all accounts, keys and tokens", "why_tests_cant": "elections and verification read old state on a growing chain; a history entry lost or left over by a rollback shows only for particular heights", "anchors": ["ledger/chain/state/state_db.go:GetSnapshotValue,GetSnapshotBalanceList", "ledger/chain/state/write.go:InsertSnapshotBlock,writeHistoryKey", "ledger/chain/state/delete.go:rollbackByRedo,recoverLatestIndexToSnapshot"]}
{"id": "C58", "title": "Walking the storage of a contract at a snapshot lists exactly its keys", "statement": "Iterating over the storage of an account as of a snapshot block, with a key prefix, yields each key written by then that has the prefix exactly once, in ascending key order, with the value it had at that block, and nothing of other accounts or later blocks. Walking backwards from the last entry yields the same list in reverse, seeking starts it at the first key not below the one asked for, and steps in either direction can be mixed.", "quantifier": "all stores of history entries, accounts, prefixes, snapshot heights and sequences of iterator steps", "why_tests_cant": "the iterator jumps among versions of keys stored next to each other; a wrong jump shows only for particular neighbouring keys, heights and changes of direction", "anchors": ["ledger/chain/state/iteration.go:NewSnapshotStorageIterator,snapshotStorageIterator"]}
{"id": "C59", "title": "A block written to the block files is read back from its location", "statement": "Blocks are appended to a log held in files of fixed size. Every write goes to the end of the log, however many files it spans; a block read from the location handed out for it is the block written, after any further writes, rollbacks to later locations, flushes and restarts; writes, rollbacks, flushes and restarts do not fail.", "quantifier": "all file sizes, cache sizes, blocks and sequences of writes, rollbacks, flushes (committed or cancelled) and restarts", "why_tests_cant": "what a read sees depends on which files are cached, how much of each was flushed and where blocks straddle files, over whole histories", "anchors": ["ledger/chain/file_manager/file_manager.go:Write,Read,DeleteTo", "ledger/chain/file_manager/fd_manager.go", "ledger/chain/file_manager/fd.go", "ledger/chain/block/block_db.go:Write,Read,Rollback"]}
{"id": "C60", "title": "Reading a range of the block files yields the blocks in it", "statement": "Reading the log between two locations, or from a location to the end, yields exactly the blocks written there, in order, grouped into chunks that each end with their snapshot block; reading a chunk from the location of its first block yields that chunk and the location after it. The result does not depend on how the bytes are cut up between files and reads.", "quantifier": "all logs, ranges, blocks and ways of cutting the bytes", "why_tests_cant": "the parser is a state machine fed by pieces whose boundaries depend on file sizes and buffers", "anchors": ["ledger/chain/block/block_db.go:ReadRange,PrepareRollback,ReadChunk,ReadUnit", "ledger/chain/block/block_parser.go", "ledger/chain/file_manager/file_manager.go:ReadRange"]}
{"id": "C61", "title": "Flushed blocks survive a crash", "statement": "After a crash at any moment and a restart the log is exactly what the last completed flush wrote; after a crash in the middle of a commit, at any point and inside any write, redoing the commit from its redo log restores exactly the log the flush was to write.", "quantifier": "all histories, crash points within a commit, and partial writes", "why_tests_cant": "a crash can fall between any two file operations and inside one; recovery has to work from every such disk state", "anchors": ["ledger/chain/block/flush.go", "ledger/chain/file_manager/file_manager.go:Flush", "ledger/chain/file_manager/fd_manager.go"]}
{"id": "C62", "title": "The summary of pending receipts is exact", "statement": "For every account, the summary of what it has still to receive gives, for each token, exactly the number and the total amount of the sends on the chain that are addressed to it and not yet received, and the total number of them, at every moment, through new blocks, snapshot blocks and rollbacks of either; rebuilding the data from the chain gives the same summary.", "quantifier": "all histories of account blocks, snapshot blocks, deletions and rollbacks, all accounts and tokens, all orders in which Go maps are walked", "why_tests_cant": "the summary is kept up by increments and decrements at confirmation and rollback; one missed or doubled step spoils it for good, only for certain histories", "anchors": ["ledger/chain/plugins/onroad_info.go", "ledger/chain/plugins/plugins.go:RebuildData,DeleteSnapshotBlocks", "ledger/chain/onroad.go:GetAccountOnRoadInfo"]}
{"id": "C63", "title": "A contract receives each caller's requests in order", "statement": "Asked whether a request is the next one a contract has to receive from a caller, a node says yes exactly when it is the caller's oldest request to the contract that the chain has not received; it does so after every history of blocks, rollbacks, restarts and earlier questions, and keeping track of this never makes the node panic.", "quantifier": "all histories of blocks, rollbacks of any closed set of blocks, restarts and queries, all contracts, callers and requests, all orders in which Go maps are walked", "why_tests_cant": "a wrong answer makes the node refuse valid blocks or accept blocks out of order; it depends on how sends, sends inside receive blocks, receives, rollbacks and lazily completed positions interleave", "anchors": ["ledger/onroad/pool/contract_pool.go:IsFrontOnRoadOfCaller,InsertAccountBlocks,DeleteAccountBlocks,lazyUpdateFrontTx", "ledger/onroad/pool/storage.go", "ledger/onroad/pool/types.go:LedgerBlockToOnRoad,minTx", "ledger/onroad/chain_events.go", "ledger/onroad/utils.go:ExcludePairTrades"]}
{"id": "C64", "title": "The list of requests to receive next is right", "statement": "The list a producer gets of the requests a contract can receive next has no request twice and only requests that are the oldest waiting one of their caller; after a start every caller with a waiting request is in it, and so is an account right after it sends a request.", "quantifier": "all histories as before, all contracts, all callers", "why_tests_cant": "a caller left out is never served, a request listed too early makes an invalid block; both show only for certain mixes of callers and contracts", "anchors": ["ledger/onroad/pool/contract_pool.go:GetFrontOnRoadBlocksByAddr,loadOnRoad", "ledger/onroad/pool/storage.go:GetAllFirstOnroadTx,deleteOnRoadTx"]}
{"id": "C65", "title": "Block and snapshot lookups are exact", "statement": "Looking a block up by hash, or by account and height, finds the block of the chain with that hash (or position) and its place in the files once it is confirmed, and nothing else; so does looking up a snapshot block. The latest block of an account is its highest block, and the confirming height of a block is that of the snapshot block that confirmed it, or 0. This holds after every history of inserts, snapshots, deletions, rollbacks, flushes, restarts and cache evictions.", "quantifier": "all histories of account blocks, snapshot blocks, deletions, rollbacks with and without redo logs, flushes, restarts from the flushed data and evictions of any cache entries, all hashes, accounts and heights", "why_tests_cant": "a stale or missing index entry shows only for certain interleavings of insert, rollback, flush, crash and eviction", "anchors": ["ledger/chain/index/insert.go", "ledger/chain/index/delete.go", "ledger/chain/index/account_block.go", "ledger/chain/index/snapshot_block.go", "ledger/chain/index/cache.go", "ledger/chain/index/index_db.go"]}
{"id": "C66", "title": "Received marks and lists of waiting sends are exact", "statement": "The receive block the index reports for a send is the one on the chain, and the pages of an account's list of sends waiting to be received, put together, are exactly the sends to it the chain has not received, each once; the contract pools load the same sends with the account and height of their blocks.", "quantifier": "all histories as before, all accounts, page numbers and page sizes, all sends", "why_tests_cant": "a send listed after it was received invites a double receive, a missing one is never served; which one happens depends on the mix of rollback, flush, restart and eviction", "anchors": ["ledger/chain/index/onroad.go", "ledger/chain/index/insert.go", "ledger/chain/index/delete.go", "ledger/chain/index/account_block.go", "ledger/chain/onroad.go:GetOnRoadBlocksByAddr,LoadOnRoadRange"]}
{"id": "C67", "title": "Every account with a confirmed block has an account id", "statement": "An account with a confirmed block has an id and is listed among the accounts of the chain, after every history of inserts, deletions, flushes and restarts.", "quantifier": "all histories as before, all accounts", "why_tests_cant": "whether the entry reaches the disk depends on which block created it and whether that block was deleted before it was confirmed", "anchors": ["ledger/chain/index/account.go", "ledger/chain/index/insert.go"]}
{"id": "C68", "title": "Dividends of exchange fees go to those who held VX at the end of the day", "statement": "The total by which the fees of a day are divided is exactly the sum of what all users with ten VX or more held at the end of that day, however often they changed their holdings then, before or since; each dividend of that day goes to one of these users, none is paid twice, each but the last gets its share of the total to within one unit of the token, and the methods that keep the records never fail.", "quantifier": "all histories of day changes, deposits and withdrawals of VX, fees, dividend and mining jobs and the Earth upgrade, all users and days", "why_tests_cant": "the records keep only changes, drop old entries and are edited while the job runs; a total that drifts from its parts shows only in certain orders of changes, days and jobs", "anchors": ["vm/contracts/dex/fund_settle.go:DoSettleVxFunds", "vm/contracts/dex/fund_storage.go:MatchVxFundsByPeriod", "vm/contracts/dex/fund_dividend.go:DoFeesDividend"]}
{"id": "C69", "title": "Exchange fees are paid out, burned or kept, never lost or paid twice", "statement": "Of each token, the fees the exchange took in are always the dividends paid, the VITE burned and what waits in the pools of the days; after the job of a day on whose end somebody held ten VX no fee due up to that day is left undivided.", "quantifier": "all histories as before, all tokens", "why_tests_cant": "one percent of each pool is divided and the rest rolls to the next day; jobs may run days late and records are deleted by whichever of two jobs comes last", "anchors": ["vm/contracts/dex/fund_settle.go:SettleFeesWithTokenId,splitDividendPool", "vm/contracts/dex/fund_dividend.go:DoFeesDividend,DivideByProportion,tryBurnVite", "vm/contracts/dex/fund_storage.go:RollAndGentNewDexFeesByPeriod,GetNotFinishDividendDexFeesByPeriodMap,MarkDexFeesFinishDividend,MarkDexFeesFinishMine"]}
{"id": "C70", "title": "Unlocked VX come back after seven days, exactly", "statement": "VX locked for dividends and unlocked again are held back until the job of the seventh day after the request has run, never shorter, and then are available; what is available, locked and held back is at every moment exactly what the user's accepted requests made it, together what the user got less what the user gave; a request to lock or unlock is accepted exactly when the amount is there and nothing or ten VX stay locked; the job that releases never fails for any user's doing, so no user can block it for the others.", "quantifier": "all histories of days, deposits, withdrawals, mined VX, locks, unlocks and jobs, refused ones included, all users and amounts", "why_tests_cant": "the amounts are kept twice, in a list by day and in the account; a difference between the two would show weeks later as a job that fails for everybody", "anchors": ["vm/contracts/dex/fund_storage.go:LockVxForDividend,ScheduleVxUnlockForDividend,FinishVxUnlockForDividend,AddVxUnlock,UpdateVxUnlocks,LockMinedVx", "vm/contracts/dex/fund_finish_pendings.go:DoFinishVxUnlock", "vm/contracts/contracts_dex_fund.go:MethodDexFundLockVxForDividend,MethodDexFundTriggerPeriodJob", "vm/contracts/dex/fund_settle.go:OnVxMined"]}
{"id": "C71", "title": "Cancelled mining stakes come back after seven days, exactly", "statement": "VITE staked for mining and cancelled is held back until the job of the seventh day after the cancellation has run and then is available; a confirmed stake can be cancelled once, its amount is entered for its owner and never lost, although the error of that step is not looked at; the list of waiting amounts has each day once, with what was cancelled on it.", "quantifier": "all histories as before with stakes, their confirmations and cancellations, all users, stakes and amounts", "why_tests_cant": "the error is dropped in one place and fatal in another; whether it can occur depends on the whole history of the account", "anchors": ["vm/contracts/dex/fund_stake.go:HandleStakeAction,stakeRequest,OnCancelMiningStakeSuccessV2", "vm/contracts/contracts_dex_fund.go:MethodDexFundDelegateStakeCallbackV2,MethodDexFundCancelDelegateStakeCallbackV2", "vm/contracts/dex/fund_storage.go:ScheduleCancelStake,FinishCancelStake,AddCancelStake,UpdateCancelStakes", "vm/contracts/dex/fund_finish_pendings.go:DoFinishCancelMiningStake"]}
{"id": "C72", "title": "Messages between peers arrive as they were sent", "statement": "Messages written to a connection one after the other are read on the other side as just these messages in this order, whether they are compressed or not and however the network cuts the stream into pieces; a stream that ends inside a message gives no message; whatever bytes a peer sends, what is read is taken from the front of the stream and is bounded by the size limit.", "quantifier": "all sequences of messages, sizes, compression limits, compressions that can be undone, cuts of the stream, and all byte strings a peer may send", "why_tests_cant": "one wrong bit in a head shifts everything that follows; the sizes of all fields depend on the values, and the pieces on the network", "anchors": ["net/codec.go:ReadMsg,WriteMsg,storeMeta,retrieveMeta,putId,PutVarint,Varint", "net/peer.go:readLoop,writeLoop"]}
{"id": "C73", "title": "Network addresses survive their packed form", "statement": "A network address (IPv4, IPv6 or a name, with a port) packed for other nodes is unpacked by them to the same address, different addresses have different packed forms, the packed form is at most 66 bytes long, and what is not the packed form of an address is refused.", "quantifier": "all addresses and all byte strings", "why_tests_cant": "one byte holds the length, the kind and the presence of the port; each combination must be told apart by the reader", "anchors": ["net/vnode/endpoint.go:Serialize,Deserialize,Length"]}
{"id": "C74", "title": "The distance between nodes is one, and lookups hit the distance asked for", "statement": "The distance of two node ids is 256 less the number of leading bits they share; it is zero for equal ids only, symmetric, and never more than the larger of the distances to a third; a random id made for a distance has that distance from the given id whatever the random bytes are.", "quantifier": "all ids, distances and random bytes", "why_tests_cant": "the code works on bytes and shifts; the random id is wrong only for some of 2^256 values and some of 256 distances", "anchors": ["net/vnode/node.go:Distance,commonBits,commonNBits,RandFromDistance"]}
{"id": "C75", "title": "A proof of work is worth its difficulty", "statement": "A nonce is accepted for a block just when the hash of the nonce, the account and the block before reaches the target of the difficulty; of all hashes one in difficulty+1 is accepted, so that a higher difficulty always needs more work; what is accepted for a difficulty is accepted for every lower one; a nonce found by the node is accepted by the verifier, and the search of a range misses none.", "quantifier": "all difficulties, nonces, accounts, blocks, hash functions and ranges", "why_tests_cant": "the target is computed with rounded floats in four steps, and its error depends on the difficulty", "anchors": ["pow/pow.go:CheckPowNonce,GetPowNonce,MapPowNonce,DifficultyToTarget,QuickGreater", "ledger/verifier/account_verifier.go:verifyNonce"]}
