{"id": "C01", "title": "State tree behaves as a key-value map", "statement": "After any history of change sets applied to a memiavl tree, Get(k) returns the value of the last write to k, or nil if the last operation on k was a delete or k was never written; no operation on one key changes what another key reads.", "quantifier": "every sequence of set/delete operations over arbitrary byte-string keys and values, and every queried key", "why_tests_cant": "the tree rotates and re-keys inner nodes in ways that depend on the whole history; tests sample a few histories", "anchors": ["helios-chain/memiavl/tree.go: Tree.set, Tree.remove, Tree.Get, Tree.ApplyChangeSet", "helios-chain/memiavl/node.go: setRecursive, removeRecursive", "helios-chain/memiavl/mem_node.go: MemNode.Get, reBalance, rotateLeft, rotateRight"]}
{"id": "C02", "title": "State tree stays height balanced", "statement": "After any history the two subtrees of every inner node differ in height by at most one, the stored height and size fields are exact, every inner key is the smallest key of the right subtree, and therefore the depth is at most logarithmic (2^(height/2) <= number of keys), so the uint8 height never overflows.", "quantifier": "every sequence of set/delete operations", "why_tests_cant": "imbalance after deletions only appears for particular shapes; no finite test set covers all shapes", "anchors": ["helios-chain/memiavl/mem_node.go: reBalance, rotateLeft, rotateRight, updateHeightSize", "helios-chain/memiavl/node.go: setRecursive, removeRecursive"]}
{"id": "C03", "title": "Positional lookups agree with key order", "statement": "GetByIndex(i) returns the i-th smallest key with its value (nil if i is out of range) and GetWithIndex(k) returns the number of stored keys smaller than k together with the value of k; the two are inverse on stored keys.", "quantifier": "every reachable tree, every index and every key", "why_tests_cant": "the index arithmetic relies on cached sizes over arbitrary shapes", "anchors": ["helios-chain/memiavl/mem_node.go: MemNode.Get, MemNode.GetByIndex", "helios-chain/memiavl/tree.go: GetWithIndex, GetByIndex"]}
{"id": "C04", "title": "Range iteration is exact and ordered", "statement": "Iterating [start,end) ascending yields exactly the stored pairs whose key is in the range, each once, in increasing key order; descending yields the same list reversed; nil bounds are unbounded.", "quantifier": "every reachable tree, every start and end (including nil, equal and inverted bounds), both directions", "why_tests_cant": "the stack-based traversal prunes subtrees; pruning mistakes only show for special bounds", "anchors": ["helios-chain/memiavl/iterator.go: Iterator.Next, NewIterator"]}
{"id": "C05", "title": "A copied tree is isolated from later writes", "statement": "If a tree is copied when it has no uncommitted changes, then no later set or delete on the original, over any number of versions, changes anything the copy returns, although nodes are shared and modified in place.", "quantifier": "every tree, every later sequence of writes and commits on the original, every query on the copy", "why_tests_cant": "isolation depends on pointer aliasing and on the version at which each shared node was last written; tests use few interleavings", "anchors": ["helios-chain/memiavl/tree.go: Tree.Copy, Tree.set, Tree.remove, Tree.SaveVersion", "helios-chain/memiavl/mem_node.go: MemNode.Mutate"]}
{"id": "C06", "title": "Snapshot files reproduce the tree", "statement": "Writing a tree to snapshot files and opening them gives a tree with the same keys, values, node versions, heights, sizes and hashes at every node, and the same answers to Get, GetByIndex and iteration.", "quantifier": "every reachable tree with fewer than 2^32 leaves", "why_tests_cant": "the on-disk format stores no child pointers: children are recomputed from post-order positions by modular arithmetic, correct only if it is correct for every shape", "anchors": ["helios-chain/memiavl/snapshot.go: writeRecursive, writeLeaf, writeBranch, OpenSnapshot", "helios-chain/memiavl/persisted_node.go: Left, Right, Get, GetByIndex, getStartLeaf, getEndLeaf, getLeftBranch"]}
{"id": "C07", "title": "State-sync export and import are inverse", "statement": "Importing the node stream exported from a tree (either from memory or from snapshot files) writes the same snapshot files as writing the tree directly, hence restores the same root hash.", "quantifier": "every reachable tree", "why_tests_cant": "the importer rebuilds structure from a flat post-order stream with a stack; all shapes matter", "anchors": ["helios-chain/memiavl/export.go: Exporter", "helios-chain/memiavl/tree.go: Tree.Export, ScanPostOrder", "helios-chain/memiavl/snapshot.go: Snapshot.export", "helios-chain/memiavl/import.go: importer.Add, doImport"]}
{"id": "C08", "title": "Replaying the write-ahead log reproduces the application hash", "statement": "Loading a snapshot of version v and replaying the logged change sets of versions v+1..w gives exactly the tree (including node versions, so the same root hash) that the live node had at version w.", "quantifier": "every history of commits and every snapshot point v <= w", "why_tests_cant": "in-place mutation, node versions and upgrades must agree between the live and replay paths for every history", "anchors": ["helios-chain/memiavl/multitree.go: CatchupWAL, applyWALEntry, SaveVersion", "helios-chain/memiavl/db.go: Commit, reloadMultiTree", "helios-chain/memiavl/tree.go: ApplyChangeSet, SaveVersion"]}
{"id": "C09", "title": "Version numbers and log positions correspond one to one", "statement": "walVersion and walIndex are inverse for every version not below the initial version, consecutive versions map to consecutive log positions starting at 1, and nextVersion starts at the initial version.", "quantifier": "every initial version and every version in range of int64/uint32", "why_tests_cant": "off-by-one at the initial version only shows for chains not started at 1", "anchors": ["helios-chain/memiavl/multitree.go: walIndex, walVersion, nextVersion"]}
{"id": "C10", "title": "Crash recovery yields a committed version", "statement": "After a crash at any point during commits, log writes and snapshot rewrites, reopening the database yields exactly the state of some committed version, not older than the last durable log entry or installed snapshot, and never a mixture of two versions.", "quantifier": "every interleaving of commits, background snapshot steps and crash points", "why_tests_cant": "crash points are unbounded in number; tests kill the process at a few", "anchors": ["helios-chain/memiavl/db.go: Load, Commit, RewriteSnapshot, updateCurrentSymlink, removeTmpDirs", "helios-chain/memiavl/multitree.go: CatchupWAL"]}
{"id": "C11", "title": "Rollback to a target version", "statement": "Loading for overwriting at target version t leaves a database whose reopened state is exactly version t and in which no later version survives.", "quantifier": "every database and every retained target version", "why_tests_cant": "depends on which snapshots and log entries exist", "anchors": ["helios-chain/memiavl/db.go: Load (LoadForOverwriting), seekSnapshot, traverseSnapshots"]}
{"id": "C12", "title": "A corrupted log tail is cut to the longest valid prefix", "statement": "After opening a log whose last segment has a corrupted tail, the segment contains exactly the longest prefix of well-formed entries.", "quantifier": "every segment content", "why_tests_cant": "the set of corrupted files is unbounded; the failing case needs a coincidence of lengths", "anchors": ["helios-chain/memiavl/wal.go: truncateCorruptedTail, loadNextBinaryEntry"]}
{"id": "C13", "title": "The pending log describes exactly the applied changes", "statement": "Whatever mixture of single-store and multi-store change-set calls is made before a commit, the entry written to the log, when replayed, has the same effect on every store as the calls had on the live trees.", "quantifier": "every sequence of ApplyChangeSet/ApplyChangeSets calls between two commits", "why_tests_cant": "merging by store name reorders entries; equality must hold for every order of calls", "anchors": ["helios-chain/memiavl/db.go: ApplyChangeSets, applyChangeSet"]}
{"id": "C14", "title": "Snapshot pruning never breaks the retained versions", "statement": "After pruning, the current snapshot and the configured number of older ones still exist, and the log still contains every entry needed to catch up from the oldest retained snapshot.", "quantifier": "every set of snapshots, current version, keep-recent setting and log", "why_tests_cant": "depends on arbitrary directory contents", "anchors": ["helios-chain/memiavl/db.go: pruneSnapshots, firstSnapshotVersion"]}
{"id": "C15", "title": "Root hash binds the contents and membership proofs verify", "statement": "The existence proof produced for a stored key recomputes the root hash, and two trees with the same root hash hold the same keys and values unless a SHA-256 collision is exhibited.", "quantifier": "every reachable tree and every stored key; every pair of trees", "why_tests_cant": "quantifies over all pairs of trees", "anchors": ["helios-chain/memiavl/node.go: writeHashBytes, HashNode", "helios-chain/memiavl/proof.go: createExistenceProof, convertLeafOp, convertInnerOps, pathToLeaf"]}
{"id": "C16", "title": "Delta-encoded chunks decode to the same items", "statement": "Decoding the delta encoding of any list of byte strings (sorted or not, with duplicates and empty strings) returns the same list and then end of file.", "quantifier": "every finite list of byte strings", "why_tests_cant": "all shared-prefix patterns and varint lengths must round-trip", "anchors": ["helios-chain/versiondb/extsort/delta_encoding.go: DeltaEncoder.Write, DeltaDecoder.Read, diffOffset"]}
{"id": "C17", "title": "External sort outputs a sorted permutation", "statement": "Whatever items are fed and however they are split into chunks and however the chunk goroutines finish, the merged stream is a permutation of the input, sorted by the given order.", "quantifier": "every input list, chunk size limit, goroutine completion order and total preorder", "why_tests_cant": "chunk boundaries and goroutine order are unbounded", "anchors": ["helios-chain/versiondb/extsort/sort.go: Feed, sortChunkAndRotate, Finalize", "helios-chain/versiondb/extsort/merge.go: MultiWayMerge.Next"]}
{"id": "C18", "title": "Reverting to an EVM snapshot restores the observable state", "statement": "After Snapshot, any sequence of state changes (including nested snapshots and reverts) and RevertToSnapshot, every observable (balances, nonces, code, storage, existence, self-destruct flags, logs, refund counter, access list) is exactly what it was at the snapshot.", "quantifier": "every initial state, every sequence of operations, every nesting", "why_tests_cant": "all interleavings of journal entries", "anchors": ["helios-chain/x/evm/statedb/journal.go", "helios-chain/x/evm/statedb/statedb.go: Snapshot, RevertToSnapshot", "helios-chain/x/evm/statedb/state_object.go"]}
{"id": "C19", "title": "A fully reverted transaction commits nothing", "statement": "If every change made since the beginning of a transaction is reverted, committing writes nothing to the keeper; in general commit writes only accounts that were changed.", "quantifier": "every sequence of operations", "why_tests_cant": "needs the dirty counters to be exact for every history", "anchors": ["helios-chain/x/evm/statedb/statedb.go: Commit, commitWithCtx", "helios-chain/x/evm/statedb/journal.go: append, Revert, sortedDirties"]}
{"id": "C20", "title": "Access-list warmth", "statement": "An address or slot is warm exactly if it was added by PrepareAccessList or an Add call that has not been reverted; adding twice is idempotent.", "quantifier": "every sequence of add/snapshot/revert operations", "why_tests_cant": "nested reverts over slot indexes", "anchors": ["helios-chain/x/evm/statedb/access_list.go", "helios-chain/x/evm/statedb/statedb.go: PrepareAccessList, AddAddressToAccessList, AddSlotToAccessList"]}
{"id": "C21", "title": "Cap on stateful precompile calls per transaction", "statement": "A transaction can perform at most MaxPrecompileCalls calls to stateful precompiles; every further call fails.", "quantifier": "every number of calls, including failed ones, within one transaction", "why_tests_cant": "needs more than 255 calls to overflow the counter", "anchors": ["helios-chain/x/evm/statedb/statedb.go: AddPrecompileFn"]}
{"id": "C22", "title": "Base fee update follows EIP-1559 bounds", "statement": "Between consecutive blocks the base fee is unchanged when the parent used exactly the target, increases by max(fee*delta/target/denominator, 1) when above and decreases by fee*delta/target/denominator, but not below the minimum gas price, when below; it is never negative and it is monotone in the gas used.", "quantifier": "every parameter set accepted by validation, every parent gas and block gas limit", "why_tests_cant": "integer division and boundary behaviour over all inputs", "anchors": ["helios-chain/x/feemarket/keeper/eip1559.go: CalculateBaseFee", "helios-chain/x/feemarket/keeper/abci.go: BeginBlock"]}
{"id": "C23", "title": "Fee-market gas accounting cannot be inflated", "statement": "The block gas figure stored for the next base fee is max(multiplier*wanted, used) rounded down, hence at least the gas used and at most max(wanted, used).", "quantifier": "every gas wanted and used", "why_tests_cant": "rounding and int64 boundary behaviour over all inputs", "anchors": ["helios-chain/x/feemarket/keeper/abci.go: EndBlock"]}
{"id": "C24", "title": "Accepted fee-market parameters never stop the chain", "statement": "For every parameter set accepted by Params.Validate, computing the base fee at the beginning of any block does not panic.", "quantifier": "every accepted parameter set and every block", "why_tests_cant": "the offending parameter value is accepted by validation and only fails one block later", "anchors": ["helios-chain/x/feemarket/types/params.go: Params.Validate", "helios-chain/x/feemarket/keeper/eip1559.go: CalculateBaseFee"]}
{"id": "C25", "title": "Epoch clock", "statement": "For every identifier, the current epoch's start time is StartTime + (CurrentEpoch-1)*Duration once counting started, the counter never decreases and grows by at most one per block, an epoch ends only at a block time strictly after its end, and the identifiers do not influence each other.", "quantifier": "every set of epochs and every non-decreasing sequence of block times", "why_tests_cant": "unbounded schedules of block times, including long halts", "anchors": ["helios-chain/x/epochs/keeper/abci.go: BeginBlocker", "helios-chain/x/epochs/types/epoch_info.go"]}
{"id": "C26", "title": "Epoch hooks receive the right epoch number", "statement": "For every epoch that ends, the end hook is called exactly once with the number of the epoch that is ending, then the start hook once with the number of the epoch that starts.", "quantifier": "every schedule of block times", "why_tests_cant": "must hold for every tick of every schedule", "anchors": ["helios-chain/x/epochs/keeper/abci.go: BeginBlocker", "helios-chain/x/epochs/keeper/hooks.go"]}
{"id": "C27", "title": "Vesting schedules release monotonically", "statement": "The amount read from a schedule is zero at or before its start, the total at or after its end, never decreases with time, never exceeds the total, and between events is the sum of the periods that have fully elapsed.", "quantifier": "every schedule of non-negative periods and every pair of times", "why_tests_cant": "all period layouts, including zero-length and empty ones", "anchors": ["helios-chain/x/vesting/types/schedule.go: ReadSchedule, ReadPastPeriodCount"]}
{"id": "C28", "title": "Merged grants vest as the sum", "statement": "For the merge of two schedules, the amount read at any time is the sum of the amounts read from the two schedules.", "quantifier": "every two schedules with arbitrary start times, every time", "why_tests_cant": "all interleavings of events including ties", "anchors": ["helios-chain/x/vesting/types/schedule.go: DisjunctPeriods", "helios-chain/x/vesting/types/clawback_vesting_account.go: AddGrant"]}
{"id": "C29", "title": "Combined lockup and vesting is the minimum", "statement": "For the conjunction of two schedules, the amount read at any time is the denomination-wise minimum of the amounts read from the two schedules.", "quantifier": "every two schedules, every time", "why_tests_cant": "all interleavings of events, multiple denominations", "anchors": ["helios-chain/x/vesting/types/schedule.go: ConjunctPeriods", "helios-chain/x/vesting/types/clawback_vesting_account.go: ComputeClawback"]}
{"id": "C30", "title": "Clawback conserves coins and keeps what is vested", "statement": "After a clawback at time t the clawed-back amount plus the remaining original vesting equals the previous original vesting, nothing is unvested any more, and what was vested at t remains, subject to the same lockup.", "quantifier": "every valid vesting account and clawback time", "why_tests_cant": "all schedules and times", "anchors": ["helios-chain/x/vesting/types/clawback_vesting_account.go: ComputeClawback, LockedCoins"]}
{"id": "C31", "title": "Outgoing bridge transfers conserve value", "statement": "Queuing a transfer debits the sender by exactly amount plus fee; refunding a cancelled transfer credits the sender by exactly amount plus fee; executing a batch pays exactly the collected fees to the executing orchestrator; coins are otherwise neither created nor destroyed on the chain.", "quantifier": "every history of send, cancel, batch, timeout and execution", "why_tests_cant": "interaction of many operations in arbitrary order", "anchors": ["helios-chain/x/hyperion/keeper/pool.go: AddToOutgoingPool, RemoveFromOutgoingPoolAndRefund", "helios-chain/x/hyperion/keeper/batch.go: OutgoingTxBatchExecuted, CancelOutgoingTXBatch"]}
{"id": "C32", "title": "A pending transfer is in exactly one place", "statement": "At every moment each stored pending transfer is either in the unbatched fee index exactly once or in exactly one batch, never both; a transfer can be cancelled only while unbatched.", "quantifier": "every history of send, cancel, batch building, batch cancellation and execution", "why_tests_cant": "double inclusion needs particular histories", "anchors": ["helios-chain/x/hyperion/keeper/pool.go", "helios-chain/x/hyperion/keeper/batch.go"]}
{"id": "C33", "title": "Batches take the best-paying transfers first", "statement": "A newly built batch contains min(limit, available) transfers of the requested token, and no transfer left in the pool has a higher fee than one taken.", "quantifier": "every pool content and limit", "why_tests_cant": "all fee distributions", "anchors": ["helios-chain/x/hyperion/keeper/batch.go: BuildOutgoingTXBatch, pickUnbatchedTX", "helios-chain/x/hyperion/keeper/pool.go: IterateOnSpecificalTokenContractOutgoingPoolByFee", "helios-chain/x/hyperion/types/key.go: GetFeeSecondIndexKey"]}
{"id": "C34", "title": "Transfer and batch identifiers are never reused", "statement": "Every identifier handed out for a transfer or batch is new, larger than all earlier ones.", "quantifier": "every history", "why_tests_cant": "uniqueness over unbounded histories", "anchors": ["helios-chain/x/hyperion/keeper/pool.go: AutoIncrementID"]}
{"id": "C35", "title": "An external event is accepted only with two thirds of the power", "statement": "An attestation becomes observed only when distinct validators holding at least 66% of the total voting power have voted for that same claim.", "quantifier": "every validator set, power distribution and vote sequence", "why_tests_cant": "all vote orders and power distributions", "anchors": ["helios-chain/x/hyperion/keeper/attestation.go: Attest, TryAttestation, GetRequiredPower"]}
{"id": "C36", "title": "Each external event nonce is executed at most once", "statement": "For one bridge and one event nonce, at most one claim is ever executed.", "quantifier": "every sequence of votes and blocks", "why_tests_cant": "needs conflicting claims voted in a particular interleaving", "anchors": ["helios-chain/x/hyperion/keeper/attestation.go: TryAttestation, Attest", "helios-chain/x/hyperion/abci.go: attestationTally"]}
{"id": "C37", "title": "Different claims have different vote buckets", "statement": "Two claims that differ in any field that matters for execution are never counted as votes for the same attestation (up to hash collisions).", "quantifier": "every pair of claims", "why_tests_cant": "quantifies over all pairs of claims; separators inside fields", "anchors": ["helios-chain/x/hyperion/types/msgs.go: ClaimHash"]}
{"id": "C38", "title": "Store keys are unambiguous and sort numerically", "statement": "Different (bridge, id, token, fee) tuples give different store keys, and byte order of keys is numeric order of the identifiers and fees, so iteration visits them in numeric order.", "quantifier": "every pair of tuples", "why_tests_cant": "quantifies over all pairs", "anchors": ["helios-chain/x/hyperion/types/key.go"]}
{"id": "C39", "title": "Prefix scans return exactly the keys with the prefix", "statement": "Scanning the range computed for a prefix visits every stored key that begins with the prefix and no other.", "quantifier": "every prefix and every key", "why_tests_cant": "boundary bytes 0xff", "anchors": ["helios-chain/x/hyperion/keeper/keeper.go: PrefixRange"]}
{"id": "C40", "title": "Validator set normalisation", "statement": "The normalised bridge powers of a validator set never sum to more than 2^32-1, keep the order of voting powers, and lose less than one unit per validator; the normalised difference of two sets is symmetric and zero for equal sets.", "quantifier": "every validator set", "why_tests_cant": "rounding over all power distributions", "anchors": ["helios-chain/x/hyperion/keeper/keeper.go: GetCurrentValset", "helios-chain/x/hyperion/types/types.go: PowerDiff, Sort"]}
{"id": "C41", "title": "Bridge state survives genesis export and import", "statement": "Exporting the bridge state and initialising a chain from it gives a chain that behaves the same.", "quantifier": "every reachable bridge state", "why_tests_cant": "quantifies over all states", "anchors": ["helios-chain/x/hyperion/keeper/genesis.go: InitGenesis, ExportGenesis"]}
{"id": "C42", "title": "Confirmations carry a valid signature", "statement": "A batch or validator-set confirmation is stored only if its signature was made by the Ethereum key registered for that orchestrator over the checkpoint of that batch on that bridge.", "quantifier": "every confirmation message", "why_tests_cant": "adversarial signatures are unbounded", "anchors": ["helios-chain/x/hyperion/types/ethereum_signer.go: ValidateEthereumSignature", "helios-chain/x/hyperion/keeper/msg_server_hyperion.go: ConfirmBatch, ValsetConfirm", "helios-chain/x/hyperion/types/batch.go: GetCheckpoint", "helios-chain/x/hyperion/types/types.go: GetCheckpoint"]}
{"id": "C43", "title": "A new batch must pay more than the one it replaces", "statement": "A batch for a token can be created while an older batch for the same token is pending only if the transfers now available pay more than the pending batch.", "quantifier": "every pool and batch state", "why_tests_cant": "quantifies over all pools", "anchors": ["helios-chain/x/hyperion/keeper/batch.go: BuildOutgoingTXBatch", "helios-chain/x/hyperion/types/types.go: GetFees"]}
{"id": "C44", "title": "Skipped event nonces are tracked per bridge", "statement": "After an event is observed out of order, the nonces skipped are listed for that bridge and only that bridge, removed when they are executed, and clearing one bridge leaves the others alone.", "quantifier": "every set of bridges and nonces", "why_tests_cant": "key-prefix mistakes only show with several bridges", "anchors": ["helios-chain/x/hyperion/keeper/keeper.go: skipped nonces and CleanAllNonceObserved"]}
{"id": "C45", "title": "Scheduled-task deposits are escrowed and returned", "statement": "Creating a scheduled task moves exactly the deposit from the owner to the task's own account, cancelling returns the account's whole balance to the owner, and no sequence of create/update/cancel changes the sum of balances.", "quantifier": "every history of create, update and cancel by arbitrary senders", "why_tests_cant": "interactions over unbounded histories", "anchors": ["helios-chain/x/chronos/keeper/msg_server.go", "helios-chain/x/chronos/keeper/keeper.go: CronInTransfer, CronOutTransfer, RemoveCron"]}
{"id": "C46", "title": "Only the owner can change or cancel a task", "statement": "A task is changed or removed by a message only if the sender is the owner recorded at creation; otherwise nothing changes.", "quantifier": "every history and sender", "why_tests_cant": "adversarial senders and histories", "anchors": ["helios-chain/x/chronos/keeper/msg_server.go: UpdateCron, CancelCron"]}
{"id": "C47", "title": "Task queue consistency", "statement": "A task flagged as queued is in the priority queue exactly once under its own gas price, and a removed task is not in the queue.", "quantifier": "every history of creation, update, queueing, execution and cancellation", "why_tests_cant": "needs an update while queued", "anchors": ["helios-chain/x/chronos/keeper/keeper.go: AppendToCronQueue, RemoveFromCronQueue, RemoveCron", "helios-chain/x/chronos/keeper/msg_server.go: UpdateCron"]}
{"id": "C48", "title": "RPC cache freshness", "statement": "A cached RPC answer is returned only for the same method and parameters and only before its time to live expires; otherwise the answer is freshly computed; errors are never cached.", "quantifier": "every sequence of calls at non-decreasing times and every eviction behaviour", "why_tests_cant": "time and eviction interleavings are unbounded", "anchors": ["helios-chain/rpc/cache/cache.go"]}
{"id": "C49", "title": "Event bus delivery", "statement": "Every published event is offered to every subscriber of its topic subscribed at that moment and to no other subscriber; after unsubscribe nothing is delivered; when the source closes every remaining subscriber channel is closed exactly once.", "quantifier": "every interleaving of subscribe, unsubscribe, publish and close", "why_tests_cant": "goroutine schedules are unbounded", "anchors": ["helios-chain/rpc/ethereum/pubsub/pubsub.go"]}
{"id": "C50", "title": "Cut chunk files are reported", "statement": "If a sorted chunk file ends in the middle of an item, reading it reports an error; it never ends quietly as though the chunk were complete.", "quantifier": "every list of items and every cut position that is not an item boundary", "why_tests_cant": "the cut can fall at any byte of any file", "anchors": ["helios-chain/versiondb/extsort/sort.go", "helios-chain/versiondb/extsort/delta_encoding.go:DeltaDecoder.Read"]}
{"id": "C51", "title": "Only the funder or governance touches a grant", "statement": "A message changes an existing clawback vesting account only if it is: a grant signed by its recorded funder (original grant grows, funder unchanged); a funder change signed by its funder with no clawback vote open; a clawback by its funder with no clawback vote open, or by governance unless the account opted out; or a conversion once everything is vested and unlocked. No message lowers a balance other than the granting funder's own or, by its unvested coins, the clawed-back account's.", "quantifier": "every state whose accounts are consistent, every message and block time", "why_tests_cant": "all senders, schedules and flag combinations", "anchors": ["helios-chain/x/vesting/keeper/msg_server.go: CreateClawbackVestingAccount, FundVestingAccount, Clawback, UpdateVestingFunder, ConvertVestingAccount"]}
{"id": "C52", "title": "Vesting accounts stay consistent", "statement": "After any history of vesting messages, governance events and transfers, both schedules of every clawback vesting account add up to its original grant, vested plus unvested coins equal the grant, locked plus unlocked vested coins equal the vested coins, unvested coins are never spendable, and no query or message panics.", "quantifier": "every history from a consistent state, every account, time and denomination", "why_tests_cant": "histories and schedules are unbounded", "anchors": ["helios-chain/x/vesting/types/clawback_vesting_account.go", "helios-chain/x/vesting/keeper/msg_server.go"]}
{"id": "C53", "title": "A clawback vote blocks the funder", "statement": "While a governance proposal to claw back an account is being voted on, the funder can neither claw the account back nor hand over the funder role.", "quantifier": "every history of proposals, deposits, endings, messages and transfers", "why_tests_cant": "all interleavings of several proposals", "anchors": ["helios-chain/x/vesting/keeper/hooks.go", "helios-chain/x/vesting/keeper/gov.go", "helios-chain/x/vesting/keeper/msg_server.go: Clawback, UpdateVestingFunder"]}
{"id": "C54", "title": "The next transaction reads what this one left", "statement": "After a transaction's state is committed, the next transaction sees for every account exactly the nonce, balance, code and storage that the transaction ended with, and no account that self-destructed; finishing the EVM run is enough for the commit to go through.", "quantifier": "every chain state and every sequence of state operations with nested snapshots and reverts", "why_tests_cant": "all combinations of creation, self-destruction, storage writes and reverts of one account", "anchors": ["helios-chain/x/evm/statedb/statedb.go: commitWithCtx", "helios-chain/x/evm/statedb/state_object.go", "helios-chain/x/evm/keeper/statedb.go: SetAccount, DeleteAccount, SetState, SetCode"]}
{"id": "C55", "title": "EVM transactions keep the coin supply in step with balances", "statement": "The bank's total supply changes by exactly the sum of the balance changes of the transaction; a transaction that only moves coins, also through precompiles, mints and burns nothing.", "quantifier": "every chain state and every sequence of state operations and precompile calls", "why_tests_cant": "balances live both in the bank and in the EVM's cache; every order of writes matters", "anchors": ["helios-chain/x/evm/keeper/statedb.go: SetBalance", "helios-chain/x/evm/statedb/statedb.go: commitWithCtx", "helios-chain/precompiles/common/precompile.go: SetBalanceChangeEntries", "helios-chain/precompiles/chronos"]}
{"id": "C56", "title": "A fee quote is what the next batch pays", "statement": "The total fee reported for the next batch of a token equals the sum of the fees of the batch that a request would build from the same state, and the identifiers reported are those of its transfers.", "quantifier": "every pool content", "why_tests_cant": "the quote and the batch are computed by separate code; all fee distributions and pool sizes", "anchors": ["helios-chain/x/hyperion/keeper/pool.go: createBatchFees, createBatchFeesOrderedByFee, GetBatchFeesByTokenType", "helios-chain/x/hyperion/keeper/batch.go: pickUnbatchedTX"]}
{"id": "C57", "title": "A scheduled run costs the gas it uses", "statement": "A run of a scheduled task takes from the task's own account exactly the gas used times the block's gas price, never more than the task's own price and limit allow; nobody else pays; a task with enough money runs; the fees recorded on a task are the fees it was charged.", "quantifier": "every reachable state, task, call outcome and block", "why_tests_cant": "The charge depends on the order of deduction, refund and record updates over arbitrary call outcomes.", "anchors": ["helios-chain/x/chronos/keeper/keeper.go: executeCronEvm, executeCron, RefundGas, DeductFeesActivesCrons"]}
{"id": "C58", "title": "Best-paying tasks run first", "statement": "When more tasks wait than may run in a block, those with the highest gas price run.", "quantifier": "every content of the waiting queue and every limit", "why_tests_cant": "Ordering must hold for every set of prices and arrival times.", "anchors": ["helios-chain/x/chronos/keeper/keeper.go: GetBatchFees, GetCronQueue", "helios-chain/x/chronos/types/keys.go: GetFeeSecondIndexKey"]}
{"id": "C59", "title": "A scheduled task never stops the chain", "statement": "Processing scheduled tasks at the end of a block returns normally, whatever tasks exist and however their calls end.", "quantifier": "every reachable state, every block, every call outcome", "why_tests_cant": "A panic at the end of a block halts the chain and needs a particular state to appear.", "anchors": ["helios-chain/x/chronos/keeper/keeper.go: executeCron, executeCronEvm, PushReadyCronsToQueue, GetBatchFees, DeductFeesActivesCrons", "helios-chain/x/chronos/module.go: EndBlock"]}
{"id": "C60", "title": "Task numbers and results are never reused", "statement": "A new task has a number no task ever had; results are numbered consecutively and a stored result is never changed.", "quantifier": "every history", "why_tests_cant": "Reuse can appear only after long histories of creation and cancellation.", "anchors": ["helios-chain/x/chronos/keeper/keeper.go: StoreGetNextCronID, StoreSetNonce, StoreCronTransactionResult"]}
{"id": "C61", "title": "Listing the tasks of an owner is exact", "statement": "The tasks listed for an owner are exactly the live and cancelled tasks that owner created.", "quantifier": "every history and owner", "why_tests_cant": "The index must stay in step with creation and cancellation in every order.", "anchors": ["helios-chain/x/chronos/keeper/grpc_query_cron.go", "helios-chain/x/chronos/keeper/keeper.go: AddCron"]}
{"id": "C62", "title": "Scheduled tasks survive genesis export and import", "statement": "Exporting the scheduled tasks and starting a chain from them gives a chain where every task is as before and tasks can be created, queued and run as before.", "quantifier": "every reachable state", "why_tests_cant": "What is lost shows only in later behaviour.", "anchors": ["helios-chain/x/chronos/genesis.go: InitGenesis, ExportGenesis"]}
{"id": "C63", "title": "An accepted deposit covers a run", "statement": "A task is accepted only if its deposit pays for at least one run at its own gas price and limit.", "quantifier": "every creation message and state", "why_tests_cant": "Fails only at particular magnitudes of price and limit.", "anchors": ["helios-chain/x/chronos/keeper/msg_server.go: CreateCron"]}
{"id": "C64", "title": "Log queries return exactly the wanted logs", "statement": "For any chain and any address and topic criteria, eth_getLogs over a range inside the chain returns exactly the logs matching the criteria, in order, and no block's bloom filter hides one; a range that is too wide or has too many results is an error, and the same block queried by number and by hash gives the same logs.", "quantifier": "all chains, criteria (with wildcards), ranges and limits", "why_tests_cant": "Bloom filters, positions and limits interact over arbitrary chains; a missed log shows only for particular bit patterns and ranges.", "anchors": ["helios-chain/rpc/namespaces/ethereum/eth/filters/filters.go: Logs, blockLogs, cronBlockLogs", "helios-chain/rpc/namespaces/ethereum/eth/filters/utils.go: FilterLogs, bloomFilter", "helios-chain/rpc/backend/utils.go: GetLogsFromBlockResults", "helios-chain/x/evm/keeper/state_transition.go: ApplyTransaction"]}
{"id": "C65", "title": "An Ethereum transaction costs exactly what its receipt says", "statement": "The sender of a completed Ethereum message pays the effective price times the gas reported, never more than price times limit; a failed transaction costs the whole limit and a rejected one nothing; the refund and the developer's share come out of the fee, money is only moved, nobody's balance goes below zero, and the refund never fails.", "quantifier": "all chains of blocks of transactions with any number of messages, any EVM outcome, any fee parameters", "why_tests_cant": "The fee is taken in the ante handler, refunded in the state transition and shared by a hook; that the three agree for every price, gas and failure is not a matter of cases.", "anchors": ["helios-chain/app/ante/evm/mono.go: AnteHandle", "helios-chain/x/evm/keeper/state_transition.go: ApplyTransaction, ApplyMessageWithConfig", "helios-chain/x/evm/keeper/gas.go: RefundGas, GasToRefund", "helios-chain/x/revenue/v1/keeper/evm_hooks.go: PostTxProcessing"]}
{"id": "C66", "title": "A signed Ethereum transaction executes at most once", "statement": "Along any chain the accepted messages of an account carry exactly its next nonces in order, so no signed message is ever executed twice, whoever submits it and however messages are bundled.", "quantifier": "all chains, senders, bundles and submission orders", "why_tests_cant": "Replays need particular bundles of messages and outcomes over several blocks.", "anchors": ["helios-chain/app/ante/evm/10_increment_sequence.go: IncrementNonce", "helios-chain/app/ante/evm/mono.go: AnteHandle", "helios-chain/x/evm/keeper/state_transition.go: ApplyMessageWithConfig"]}
{"id": "C67", "title": "Transactions and logs of a block are numbered without gaps and the bloom filter is theirs", "statement": "In every block the completed Ethereum transactions are numbered 0, 1, 2, ... and so are their logs; every log names the block and the transaction that wrote it; the announced number of a transaction is the one it gets and nobody else's; the block's bloom filter is the union of those of its logs; the chain's transaction count grows by the number of completed transactions.", "quantifier": "all blocks with rejected, failed and completed transactions in any order", "why_tests_cant": "The counters live in a transient store that is rolled back with failing transactions; only particular sequences of failures expose a slip.", "anchors": ["helios-chain/x/evm/keeper/state_transition.go: ApplyTransaction", "helios-chain/x/evm/keeper/config.go: TxConfig", "helios-chain/app/ante/evm/12_emit_event.go: EmitTxHashEvent", "helios-chain/x/evm/keeper/keeper.go: UpdateTransactionCountForBlock", "helios-chain/x/evm/keeper/abci.go: EndBlock"]}
{"id": "C68", "title": "The transaction index agrees with the chain", "statement": "Every executed Ethereum message is found by its hash and by block and number, with the place, number, gas and verdict the chain gave it; what is not there is not found; numbers in a block have no gaps; indexing a block again changes nothing; the last and first indexed blocks are the extremes.", "quantifier": "all chains, hashes, blocks and numbers, and repeated indexing", "why_tests_cant": "The indexer recomputes numbers from results with several kinds of failure; only particular blocks make the two disagree.", "anchors": ["helios-chain/indexer/kv_indexer.go: IndexBlock, GetByTxHash, GetByBlockAndIndex, LoadLastBlock", "helios-chain/rpc/types/events.go: ParseTxResult", "helios-chain/rpc/types/utils.go: TxSucessOrExpectedFailure"]}
{"id": "C69", "title": "The stored validator set follows the voting power", "statement": "After every block the latest stored validator set of a bridge is the current one, or differs from it by at most five percent of the total and nobody began to unbond; sets are numbered upwards, are never overwritten, and stay stored until they are pruned.", "quantifier": "every history of registrations, power changes, unbondings and parameter changes", "why_tests_cant": "power drifts over arbitrary histories; parameters change meanwhile", "anchors": ["helios-chain/x/hyperion/abci.go: createValsets, pruneValsets", "helios-chain/x/hyperion/keeper/keeper.go: SetValsetRequest, StoreValset, GetLatestValset"]}
{"id": "C70", "title": "Missing validator-set confirmations are punished once, in time, and only for the guilty", "statement": "Every validator set is judged exactly once, only after its confirmation window has passed and before it is pruned; a validator is slashed for it if and only if it was bonded (or recently unbonding) when the set was made and no confirmation by it is stored.", "quantifier": "every history of sets, confirmations, registrations, parameters and bridges", "why_tests_cant": "interleavings of several bridges, windows and key registrations are unbounded", "anchors": ["helios-chain/x/hyperion/abci.go: valsetSlashing, pruneValsets, EndBlocker", "helios-chain/x/hyperion/keeper/keeper.go: GetUnslashedValsets, GetValsetConfirms, GetOrchestratorValidator"]}
{"id": "C71", "title": "Historical reads give the state of that height", "statement": "A read at a height from the store of historical states answers with the contents after exactly the blocks up to that height, whatever was written later; a read without a height answers with the contents after the last block; writing the last blocks again after a crash, or repeating an interrupted snapshot import, changes nothing.", "quantifier": "all histories of blocks, store names, keys and heights", "why_tests_cant": "The answer depends on the order of entries with timestamps in one shared key space; only particular names, heights and repetitions separate a wrong order from a right one.", "anchors": ["helios-chain/versiondb/tsrocksdb/store.go: PutAtVersion, GetAtVersion, Import, FeedChangeSet, GetLatestVersion", "helios-chain/versiondb/tsrocksdb/comparator.go: compare, compareTS", "helios-chain/versiondb/store.go: Get, Has"]}
{"id": "C72", "title": "Historical iterators list exactly the state of that height in order", "statement": "An iterator over a range at a height, forwards or backwards, gives exactly the pairs of that store that are in the range at that height, once each and in order.", "quantifier": "all histories, ranges, heights and both directions", "why_tests_cant": "Bounds, deletions, newer and older versions and neighbouring stores interact at the ends of a range; tests see few combinations.", "anchors": ["helios-chain/versiondb/tsrocksdb/iterator.go: newRocksDBIterator, Valid, Next, trySkipZeroVersion", "helios-chain/versiondb/tsrocksdb/store.go: IteratorAtVersion, iterateWithPrefix, cpIncr"]}
{"id": "C73", "title": "Repairing wrongly stored entries restores the history", "statement": "After the repair of entries that were stored with their timestamp inside the key, reads at every height answer as if they had been stored right; the repair changes nothing else, and running it again changes nothing.", "quantifier": "all histories and every subset of wrongly stored entries", "why_tests_cant": "The repair reads what it writes; which entries one run repairs depends on which versions of a key are damaged.", "anchors": ["helios-chain/versiondb/tsrocksdb/store.go: FixData, fixDataStore, loadWrongData", "helios-chain/versiondb/client/fixdata.go: FixDataCmd"]}
{"id": "C74", "title": "Change set files are read back as written, also when cut", "statement": "Reading a change set file gives the versions, keys, values and deletions that were written, in order; of a file that was cut anywhere the complete change sets are delivered, nothing else, with the offset of their end, and cutting the file there and appending continues it; a cut is reported.", "quantifier": "all change sets, callbacks and cut points", "why_tests_cant": "A crash can cut a file after any byte; tests cut at few places.", "anchors": ["helios-chain/versiondb/client/changeset.go: WriteChangeSet, ReadChangeSet, readKVPair, IterateChangeSets, IterateVersions, SortFilesByFirstVerson, uvarintSize"]}
{"id": "C75", "title": "Database files built from change sets equal feeding the change sets", "statement": "Converting the change sets of a store to database files gives, for every target file size, chunk size and order in which the sorter's goroutines finish, exactly the entries that feeding the change sets one by one would have written; no file is empty and the files do not overlap; duplicates are refused.", "quantifier": "all change sets, file sizes, chunk sizes and schedules of the sorter", "why_tests_cant": "Order, chunking and file splitting depend on sizes that tests do not reach.", "anchors": ["helios-chain/versiondb/client/convert_to_sst.go: convertSingleStore, encodeSorterItem, decodeSorterItem, compareSorterItem", "helios-chain/versiondb/extsort/sorter.go: Feed, Finalize"]}
{"id": "C76", "title": "A restore from a snapshot gives the state of the snapshot", "statement": "After restoring the store of historical states from a state snapshot of a height, reads at that height give the contents of the snapshot, and a restore that could not read the whole snapshot is not taken for complete.", "quantifier": "all histories of the trees, store names, heights and stream errors", "why_tests_cant": "The stream mixes leaves and inner nodes of trees of every shape; a test with one key per store sees nothing.", "anchors": ["helios-chain/versiondb/client/restore.go: RestoreVersionDBCmd, readSnapshotEntries", "helios-chain/versiondb/tsrocksdb/store.go: Import"]}
{"id": "C77", "title": "Transfers through a coin's ERC-20 face move exactly the amount", "statement": "A transfer or transferFrom through the ERC-20 face of a coin succeeds exactly if the amount is positive, the bank lets it through and (for somebody else's coins) the allowance covers it; it then moves that amount and changes no other balance, allowance or supply. Nobody's balance ever falls without their own call or an allowance that covers the difference. Deposit and withdraw of the wrapped coin change no balance.", "quantifier": "all states, callers, tokens, amounts, vesting locks and runs of calls", "why_tests_cant": "balances, grants and vesting of many accounts and denominations interact; tests fix a few", "anchors": ["helios-chain/precompiles/erc20/tx.go: Transfer, TransferFrom, transfer", "helios-chain/precompiles/erc20/query.go: BalanceOf, TotalSupply", "helios-chain/precompiles/werc20/tx.go: Deposit, Withdraw"]}
{"id": "C78", "title": "Allowances through a coin's ERC-20 face are exact and never overspent", "statement": "approve, increaseAllowance and decreaseAllowance set, add to and subtract from exactly one allowance and leave all others alone; over any run of calls, what a spender took from an owner plus what is left is at most the initial allowance plus everything the owner granted; an owner can change an allowance at any time and an approval lasts a year.", "quantifier": "all runs of calls by anybody to any tokens at any times", "why_tests_cant": "one stored grant serves all tokens of a pair of accounts; histories of approvals, expiries and spending are unbounded", "anchors": ["helios-chain/precompiles/erc20/approve.go: Approve, IncreaseAllowance, DecreaseAllowance, updateAuthorization, removeSpendLimitOrDeleteAuthorization", "helios-chain/precompiles/erc20/query.go: Allowance, GetAuthzExpirationAndAllowance", "helios-chain/precompiles/erc20/types.go: updateOrAddCoin"]}
{"id": "C79", "title": "The registry of coins and contracts is one-to-one", "statement": "A coin is registered with at most one contract and a contract with at most one coin, after any history of registering contracts, first packets of a foreign coin, creating coins, linking bridged coins, switching pairs and removing vanished contracts; the list of pairs and the lookups in both directions agree; a registered pair is never redirected and only a foreign contract's pair can be removed; a contract that has the chain's own code always serves the coin registered for it.", "quantifier": "all genesis states, histories of operations, denominations and addresses", "why_tests_cant": "three stored indexes, a text form of addresses and five different entry points must stay consistent over unbounded histories", "anchors": ["helios-chain/x/erc20/keeper/token_pairs.go: SetToken, DeleteTokenPair, GetTokenPairID, GetCoinAddress, GetTokenDenom", "helios-chain/x/erc20/keeper/proposals.go: registerERC20, CreateCoinMetadata, toggleConversion", "helios-chain/x/erc20/keeper/dynamic_precompiles.go: RegisterERC20Extension", "helios-chain/x/erc20/keeper/precompiles.go: GetERC20PrecompileInstance", "helios-chain/precompiles/erc20creator/erc20creator.go: Run", "helios-chain/x/hyperion/keeper/tokens.go: CreateOrLinkTokenToChain", "helios-chain/x/erc20/types/genesis.go: Validate"]}
{"id": "C80", "title": "A restart from the exported genesis keeps every coin and contract working", "statement": "Exporting the state of the token registry and starting a chain from it gives the same pairs, lookups and switches; the exported genesis passes the validation; contracts with the chain's own code still have it.", "quantifier": "all reachable registries", "why_tests_cant": "an export is compared with all later queries, for registries of any size", "anchors": ["helios-chain/x/erc20/genesis.go: InitGenesis, ExportGenesis", "helios-chain/x/erc20/keeper/params.go: GetParams, SetParams", "helios-chain/x/erc20/types/genesis.go: Validate"]}
{"id": "C81", "title": "Conversions between tokens and coins happen exactly for the amount", "statement": "When a conversion of tokens of a registered foreign contract into coins succeeds, the module holds exactly that many more tokens, the receiver exactly that many more coins and exactly that many coins were created, whatever the contract does when called; likewise for coins into tokens. It succeeds only while module and pair are switched on, for receivers that may receive. A conversion never panics.", "quantifier": "all contracts (any program, also one that calls back into the chain), states, accounts and amounts", "why_tests_cant": "the contract is somebody else's program; tests use a handful of malicious examples", "anchors": ["helios-chain/x/erc20/keeper/msg_server.go: ConvertERC20, convertERC20IntoCoinsForNativeToken, ConvertCoinNativeERC20", "helios-chain/x/erc20/keeper/mint.go: MintingEnabled", "helios-chain/x/erc20/keeper/evm.go: BalanceOf, monitorApprovalEvent"]}
{"id": "C82", "title": "The coin of a token is fully backed, and transfers to other chains come back whole", "statement": "For an ordinary token the coins that exist never exceed the tokens that the module holds, through any history of conversions, transfers to other chains, refunds, returns, payments and switches, so everybody can always turn coins back into tokens; a transfer to another chain uses coins first and converts only what is missing; a refund restores the sender's coins and tokens in sum and touches nobody else; coins that return arrive as tokens.", "quantifier": "all histories of messages and packets by any accounts", "why_tests_cant": "the guarantee is about arbitrary interleavings of messages, packets, failures and governance switches", "anchors": ["helios-chain/x/ibc/transfer/keeper/msg_server.go: Transfer", "helios-chain/x/erc20/keeper/ibc_callbacks.go: OnRecvPacket, OnAcknowledgementPacket, OnTimeoutPacket, ConvertCoinToERC20FromPacket", "helios-chain/x/erc20/ibc_middleware.go: OnRecvPacket, OnAcknowledgementPacket, OnTimeoutPacket", "helios-chain/x/erc20/keeper/msg_server.go: ConvertERC20, ConvertCoinNativeERC20"]}
{"id": "C83", "title": "Only the admin of a user-made coin can make more of it", "statement": "For a coin created through the token factory, a mint succeeds exactly when the sender is the account recorded as its admin, the amount is positive and the account may receive coins; it adds exactly the amount to the sender and to the supply. A holder can destroy only what they can spend. The admin changes only by a message of the admin and is never lost, also not over a restart. After any history the supply is the accepted mints minus the accepted burns, and equals the sum of all balances.", "quantifier": "all histories of factory messages, transfers, activity of other modules and restarts; all accounts, names and amounts; all address formats with several spellings of an account", "why_tests_cant": "Tests try a few messages in a few orders; that nothing else on the chain can change the supply or the admin is a statement about all histories.", "anchors": ["helios-chain/x/tokenfactory/keeper/msg_server.go Mint, Burn, ChangeAdmin", "helios-chain/x/tokenfactory/keeper/bankactions.go mintTo, burnFrom", "helios-chain/x/tokenfactory/keeper/admins.go", "helios-chain/x/tokenfactory/types/denoms.go NewTokenFactoryDenomMintCoinsRestriction"]}
{"id": "C84", "title": "Names of user-made coins belong to their creators and are never taken twice", "statement": "The name of a user-made coin is made from the account of its creator and an own name and reads back as exactly these; two coins share a name only if both agree. Creation succeeds exactly when the name is free and the fee can be paid, and changes nothing else. A name once taken is never given out again, its decimals once set never change, the list of a creator is exact, and a restart from the exported genesis keeps admins, fee, names, symbols, decimals and lists.", "quantifier": "all creators, own names, spellings of addresses, histories and restarts", "why_tests_cant": "Uniqueness and parsing back are claims about all strings, and permanence is a claim about all later histories.", "anchors": ["helios-chain/x/tokenfactory/types/denoms.go GetTokenDenom, DeconstructDenom", "helios-chain/x/tokenfactory/types/keys.go", "helios-chain/x/tokenfactory/keeper/createdenom.go", "helios-chain/x/tokenfactory/keeper/creators.go", "helios-chain/x/tokenfactory/keeper/genesis.go"]}
{"id": "C85", "title": "Only the author of a contract decides who is paid for its calls", "statement": "A contract is entered for fee sharing exactly when its creator creates it by a transaction, or when an account proves by a chain of nonces that it made it; that account is its author. Nothing but messages of the author changes or removes the entry, whatever else happens on the chain. The author's list and the list of a paid account show exactly their contracts, and a restart from the exported genesis keeps entries, parameters and lists.", "quantifier": "all histories of messages, contract creations, parameter changes and restarts; all address formats and all accounts, also longer than 20 bytes", "why_tests_cant": "That no other message, hook or restart can move the income of a contract is a claim about all histories; list exactness depends on byte prefixes of arbitrary accounts.", "anchors": ["helios-chain/x/revenue/v1/keeper/msg_server.go RegisterRevenue, UpdateRevenue, CancelRevenue", "helios-chain/x/revenue/v1/keeper/evm_hooks.go PostContractCreation", "helios-chain/x/revenue/v1/keeper/revenues.go", "helios-chain/x/revenue/v1/keeper/grpc_query.go", "helios-chain/x/revenue/v1/genesis.go"]}
{"id": "C86", "title": "Authors are paid exactly their share of the fees of their contracts", "statement": "After a successful transaction to an entered contract that is not a precompile, while sharing is on and gas has a price, exactly the share of gas used times price, rounded down, moves from the fee collector to the account to be paid; otherwise nothing moves. The payment never makes a transaction fail and never takes what has to be refunded, and over any sequence of transactions authors get what is due and never more than the share of all fees.", "quantifier": "all states after any history, all transactions, gas amounts, prices and shares between 0 and 1", "why_tests_cant": "Rounding, refunds and the order of hooks interact; a test checks a few amounts only.", "anchors": ["helios-chain/x/revenue/v1/keeper/evm_hooks.go PostTxProcessing", "helios-chain/x/evm/keeper/state_transition.go ApplyTransaction", "helios-chain/x/evm/keeper/gas.go RefundGas"]}
{"id": "C87", "title": "Asking another chain for data costs the quoted fee, which comes back if nobody answers", "statement": "A contract that asks for data of another chain makes the sender of the transaction pay exactly the fee it names (half the gas times the price, and as much for the callback); the bridge module holds the fees of all pending requests. Each registered orchestrator of a bonded validator may answer a request once. At the end of a block the requests whose time is over are refunded in full; an open request whose voters hold 33 percent of the power is answered and its voters share the fee equally; other requests, balances and figures stay as they are.", "quantifier": "all requests, claims, validator powers, key registrations and block ends, in every order; all histories from an empty bridge", "why_tests_cant": "tests ask one question and answer it; the failures need several open requests at once, separate orchestrator keys, or fees that do not divide", "anchors": ["helios-chain/precompiles/hyperion/methods.go: RequestData", "helios-chain/x/hyperion/keeper/external_data.go: BuildOutgoingExternalDataTX, OutgoingExternalDataTxExecuted, RefundExternalData, rewardVotersOfExternalDataTx", "helios-chain/x/hyperion/keeper/msg_server_hyperion.go: ExternalDataClaim", "helios-chain/x/hyperion/abci.go: executeExternalDataTxs"]}
{"id": "C88", "title": "The answer delivered to a callback is the one given most often, and all nodes agree on it", "statement": "When a request is answered, the callback receives the bytes of the answer that most of the claims gave, the same on every node, whatever order the program visits its maps in; no other callback receives anything; an answer that is not hexadecimal text becomes an error for the callback.", "quantifier": "all lists of claims, all orders in which a Go map may be visited, all requests pending in the same block", "why_tests_cant": "a test sees one order of the map per run; a tie shows up only when two nodes disagree", "anchors": ["helios-chain/x/hyperion/abci.go: selectBestClaimFromListOfClaims, executeExternalDataTxs", "helios-chain/x/hyperion/keeper/external_data.go: OutgoingExternalDataTxExecuted", "helios-chain/x/chronos/keeper/keeper.go: StoreCronCallBackData"]}
{"id": "C89", "title": "A contract can jump only to marked instructions, never into data", "statement": "For every code and every 256-bit target the jump check gives an answer without a crash, and allows the jump exactly when the target is inside the code, is a JUMPDEST byte, and is the start of an instruction and not part of the constant of a PUSH. The code analysis never writes outside its bit vector, including when a PUSH is cut off by the end of the code.", "quantifier": "all codes shorter than 2^64 bytes, all 256-bit targets", "why_tests_cant": "the analysis works in steps of 8 and 16 bits with carries into the next byte; tests try a few layouts, and the failing one would let hidden code run", "anchors": ["helios-chain/x/evm/core/vm/analysis.go: codeBitmap, set2..set16, codeSegment", "helios-chain/x/evm/core/vm/contract.go: validJumpdest, isCode"]}
{"id": "C90", "title": "The memory a contract uses is paid for, and its stack is bounded", "statement": "In every state that the run of any contract goes through, its memory is a whole number w of 32-byte words with w < 2^32, the price 3w + w*w/512 of that memory plus the gas still left is at most the gas the run started with, and the stack has at most 1024 entries.", "quantifier": "all byte codes, inputs, worlds, amounts of gas below 2^64, all reachable states, with calls and creations nested in any way", "why_tests_cant": "the price is charged in steps by 140 instructions with different operands; one operand whose size is not counted lets a contract fill the memory of every validator for free, and only that operand shows it", "anchors": ["helios-chain/x/evm/core/vm/gas_table.go: memoryGasCost", "helios-chain/x/evm/core/vm/memory.go: Resize", "helios-chain/x/evm/core/vm/memory_table.go", "helios-chain/x/evm/core/vm/interpreter.go: Run", "helios-chain/x/evm/core/vm/jump_table.go"]}
{"id": "C91", "title": "Every contract call ends, and gives back at most the gas it got", "statement": "A call or a creation with g units of gas ends after at most g nested steps, whatever the code does (loops, calls to itself, chains of creations); the gas it gives back is at most g. A caller always keeps one 64th of the gas left after the costs of the call.", "quantifier": "all byte codes, inputs, values, worlds and amounts of gas below 2^64", "why_tests_cant": "termination is a statement about all programs; a single instruction or call path that costs nothing would halt the chain", "anchors": ["helios-chain/x/evm/core/vm/interpreter.go: Run", "helios-chain/x/evm/core/vm/gas.go: callGas", "helios-chain/x/evm/core/vm/evm.go: Call, CallCode, DelegateCall, StaticCall, create", "helios-chain/x/evm/core/vm/gas_table.go", "helios-chain/x/evm/core/vm/operations_acl.go"]}
{"id": "C92", "title": "No contract can crash the interpreter", "statement": "For every code, input, value and amount of gas a transaction has an outcome: no index out of range, no slice bound, no memory access outside, no negative refund, no overflow of the refund counter, no \"impossible\" case of the access list. The returned data is bytes.", "quantifier": "all byte codes, inputs, values, worlds at the start of a transaction, amounts of gas with 200*gas < 2^63; built-in contracts that leave contract storage, code and the refund counter alone", "why_tests_cant": "a panic in the interpreter during block execution stops every validator; the operands that cause it are chosen by an attacker, not by a test", "anchors": ["helios-chain/x/evm/core/vm/instructions.go", "helios-chain/x/evm/core/vm/interpreter.go: Run", "helios-chain/x/evm/core/vm/memory.go", "helios-chain/x/evm/core/vm/common.go: getData, calcMemSize64", "helios-chain/x/evm/core/vm/operations_acl.go: makeGasSStoreFunc", "helios-chain/x/evm/statedb/statedb.go: SubRefund, AddSlotToAccessList"]}
{"id": "C93", "title": "A failed call undoes everything it did", "statement": "When a call of any kind (CALL, CALLCODE, DELEGATECALL, STATICCALL) ends with an error, the world is exactly as before the call; the gas given to it is used up unless the callee reverted or the call was refused at the start (forbidden, nested deeper than 1024, not enough money). A failed creation leaves only the raised nonce of the creator and the address in the access list. The caller sees 0, and its memory is not written unless the callee reverted.", "quantifier": "all calls in all worlds, at all depths, whatever the callee does", "why_tests_cant": "errors can strike at any instruction of any nested call; tests fail calls at a few places", "anchors": ["helios-chain/x/evm/core/vm/evm.go: Call, CallCode, DelegateCall, StaticCall, create", "helios-chain/x/evm/core/vm/instructions.go: opCall, opCallCode, opDelegateCall, opStaticCall, opCreate, opCreate2"]}
{"id": "C94", "title": "A read-only call changes nothing", "statement": "A STATICCALL, and everything called within it, leaves all balances, nonces, codes, storage, records and the refund counter as they were.", "quantifier": "all contracts called, inputs, amounts of gas and worlds during a transaction", "why_tests_cant": "every instruction that writes must check the flag, and the flag must survive all nestings of calls; a test shows only the paths it takes", "anchors": ["helios-chain/x/evm/core/vm/evm.go: StaticCall, Call", "helios-chain/x/evm/core/vm/interpreter.go: Run", "helios-chain/x/evm/core/vm/instructions.go: opSstore, makeLog, opSelfdestruct, opCreate, opCall", "helios-chain/x/evm/core/vm/contracts.go: RunPrecompiledContract"]}
{"id": "C95", "title": "Running contracts neither makes nor loses money, and others' accounts are safe", "statement": "As long as the built-in contracts do not make money themselves, the accounts together have after any transaction at most what they had before, and nobody has less than nothing; if no contract was destroyed the total is exactly the same. An account without code, of somebody who did not send the transaction, can only gain: its balance does not drop, its nonce, code and storage stay. A call to an account without code moves exactly the value.", "quantifier": "all transactions (calls and creations) in all worlds, with any contracts", "why_tests_cant": "the sum over all accounts after arbitrary nested calls, creations and self-destructions is not something a test can enumerate", "anchors": ["helios-chain/x/evm/core/vm/evm.go: Call, create", "helios-chain/x/evm/core/vm/instructions.go: opSelfdestruct", "helios-chain/x/evm/statedb/statedb.go: AddBalance, SubBalance, Suicide", "helios-chain/x/evm/keeper/state_transition.go: ApplyMessageWithConfig"]}
{"id": "C96", "title": "Deployed code is never replaced and nonces never go back", "statement": "After any transaction every account that had code has the same code, and every account has at least the nonce it had. A creation that succeeds puts exactly the returned bytes at the new address; they are at most 24576, do not start with 0xEF, and nobody had used the address before.", "quantifier": "all transactions in all worlds, with any contracts, including creations that collide, re-enter or destroy", "why_tests_cant": "replacing the code of a contract that holds funds needs a particular sequence of creations and self-destructions, found by an attacker and not by a test", "anchors": ["helios-chain/x/evm/core/vm/evm.go: create, Create, Create2", "helios-chain/x/evm/core/vm/instructions.go: opCreate, opCreate2, opSelfdestruct", "helios-chain/x/evm/statedb/statedb.go: CreateAccount, SetCode, SetNonce"]}
{"id": "C97", "title": "The arithmetic of contracts is that of 256-bit words", "statement": "ADD, MUL, SUB, DIV, SDIV, MOD, SMOD, ADDMOD, MULMOD, EXP, SIGNEXTEND, LT, GT, SLT, SGT, EQ, ISZERO, AND, OR, XOR, NOT, BYTE, SHL, SHR and SAR replace their operands by the value the specification of the virtual machine gives on integers (modulo 2^256, two's complement where signed, 0 for a division by 0), at the specified price; the program counter moves by one; memory, return data and world stay as they are. With less gas than the price the run ends out of gas with nothing changed.", "quantifier": "all 256-bit operands, all machine states with at most 1024 stack entries, all amounts of gas", "why_tests_cant": "2^512 pairs of operands for each instruction; wrong results sit at sign changes, -2^255 / -1, shifts by 256 and more, and carries", "anchors": ["helios-chain/x/evm/core/vm/instructions.go: opAdd .. opSAR", "helios-chain/x/evm/core/vm/jump_table.go", "helios-chain/x/evm/core/vm/gas_table.go: gasExpEIP158"]}
{"id": "C98", "title": "Contract code moves data as specified", "statement": "PUSH puts the number in the code behind it (zeros beyond the end) on the stack; DUP, SWAP and POP do what they say; MSTORE, MSTORE8, CALLDATACOPY, CODECOPY and RETURNDATACOPY change exactly the named bytes of memory and MLOAD, CALLDATALOAD, KECCAK256, RETURN and REVERT use exactly the named bytes (zeros beyond the end of memory, input and code; reading return data beyond its end is an error); JUMP and JUMPI go to a JUMPDEST instruction or end the run; the instructions about the call and the block push the specified value. Each costs its price plus exactly the price of the memory it adds; with less gas, and with operands beyond 2^37, the run ends with an error and the world as it was.", "quantifier": "all operands (offsets and lengths up to 2^256), all memories, inputs and codes, all amounts of gas below 2^64", "why_tests_cant": "off-by-one errors at the ends of memory, input and code show only for particular pairs of offset and length", "anchors": ["helios-chain/x/evm/core/vm/instructions.go", "helios-chain/x/evm/core/vm/memory.go", "helios-chain/x/evm/core/vm/common.go: getData, calcMemSize64", "helios-chain/x/evm/core/vm/memory_table.go", "helios-chain/x/evm/core/vm/gas_table.go", "helios-chain/x/evm/core/vm/stack.go: swap, dup", "helios-chain/x/evm/core/vm/contract.go: validJumpdest"]}
{"id": "C99", "title": "Contracts read and write their own storage at the specified price", "statement": "SSTORE changes exactly one slot of the running contract, at the price of EIP-2200 with EIP-2929 and EIP-3529, and moves the refund counter by exactly the amount they give for the original, the current and the new value; SLOAD pushes the slot; both count the first use of a slot in a transaction. BALANCE, SELFBALANCE, EXTCODESIZE, EXTCODEHASH and EXTCODECOPY read the account named by the low 160 bits; LOG appends one event with the topics and the memory area named and changes nothing else. A read-only frame cannot go on past SSTORE.", "quantifier": "all slots, values, access lists and refund counters, all amounts of gas below 2^64", "why_tests_cant": "the price of SSTORE has nine cases in the triple of values, and each must fit the refunds of every other", "anchors": ["helios-chain/x/evm/core/vm/operations_acl.go: makeGasSStoreFunc, gasSLoadEIP2929, gasExtCodeCopyEIP2929, gasEip2929AccountCheck", "helios-chain/x/evm/core/vm/instructions.go: opSload, opSstore, opBalance, opExtCodeSize, opExtCodeCopy, opExtCodeHash, makeLog", "helios-chain/x/evm/core/vm/gas_table.go: makeGasLog"]}
{"id": "C100", "title": "Calls and creations pass on exactly what was asked for", "statement": "CALL, CALLCODE, DELEGATECALL and STATICCALL cost the price of the access, of a payment and of an account that begins to exist, plus memory, plus the gas they send: what was asked for, at most all but a 64th of what is left, and 2300 more for the callee with a payment. The callee runs with exactly the named bytes of memory as input, with the storage, sender, amount and read-only flag the kind of call prescribes. Afterwards the caller has a flag, the gas not used, the answer as return data and as much of it as fits in the named memory (none after a failure other than a revert); a failed callee leaves the world as it was. Calls that are not permitted, too deep or not covered by the balance fail at once with their gas back. CREATE and CREATE2 send all but a 64th of the gas, count in the nonce of the creator even when they fail, and put the returned bytes in place as code for 200 gas a byte unless they are longer than 24576 bytes or begin with 0xEF.", "quantifier": "all operands, kinds of call, callees, memories and amounts of gas below 2^64", "why_tests_cant": "the callee is arbitrary code; the caller must be right for everything it can do", "anchors": ["helios-chain/x/evm/core/vm/instructions.go: opCall, opCallCode, opDelegateCall, opStaticCall, opCreate, opCreate2", "helios-chain/x/evm/core/vm/gas.go: callGas", "helios-chain/x/evm/core/vm/gas_table.go: gasCall, gasCallCode, gasDelegateCall, gasStaticCall, gasCreate2", "helios-chain/x/evm/core/vm/operations_acl.go: makeCallVariantGasCallEIP2929", "helios-chain/x/evm/core/vm/evm.go: Call, CallCode, DelegateCall, StaticCall, create"]}
{"id": "C101", "title": "A whole Ethereum message is charged for what it used and undone when it fails", "statement": "Sending a message costs 21000 gas, or 53000 for a new contract, plus 16 for each data byte that is not zero and 4 for each that is, 2400 for each account and 1900 for each slot in its access list. A message with less gas is refused; any other always has a result: it spends at least that price and at most its gas limit, and is charged what it spent less the refund counter, at most a fifth. It starts with exactly the sender, the callee, the built-in contracts and its access list warm. A message that fails changes no balance, code, storage, existence or record; it is charged its whole gas limit unless the contract reverted or the message was refused before it ran, when it pays just the price of sending. After a creation, however it ended, the nonce of the sender is the one after that of the message, and a contract that was made is at the address given by the sender and that nonce. No message makes money or replaces code.", "quantifier": "all messages with so little gas that the refund counter cannot overflow, all worlds in which a transaction can start, all built-in contracts that keep to their limits", "why_tests_cant": "the charge depends on every path through arbitrary contract code; the nonce is taken over from the interpreter by hand", "anchors": ["helios-chain/x/evm/keeper/state_transition.go: ApplyMessageWithConfig, GetEthIntrinsicGas", "helios-chain/x/evm/keeper/gas.go: GasToRefund", "helios-chain/x/evm/statedb/statedb.go: PrepareAccessList", "helios-chain/x/evm/core/vm/evm.go: Call, Create"]}
{"id": "C102", "title": "An estimated gas limit is enough, the sender can pay for it, and it is the least one if more gas never hurts", "statement": "When eth_estimateGas answers with a gas limit, the same message run on the same state with that limit succeeds. The limit is at most the cap of the node or the limit given in the request, and the sender has the funds to buy that gas at the price named after paying the value sent. If a message that succeeds with some gas also succeeds with more, no smaller limit would have been enough. An estimate always ends. A message that reverts at the highest limit is answered with the reason for reverting, one that fails otherwise with an error, never with a number.", "quantifier": "all messages, states, caps, limits and sender balances", "why_tests_cant": "the search interacts with every possible dependence of a contract on its gas; no finite set of contracts covers it", "anchors": ["helios-chain/x/evm/keeper/grpc_query.go: EstimateGas, EstimateGasInternal", "helios-chain/x/evm/types/utils.go: BinSearch", "helios-chain/x/evm/keeper/state_transition.go: ApplyMessageWithConfig"]}
{"id": "C103", "title": "The fee history tells what the blocks were and what they paid", "statement": "eth_feeHistory answers about exactly the blocks asked for, as many as there are, with the base fee of each, the share of gas it used, and for each percentile asked for the least tip up to which that share of the gas of the block was used, zero for a block without messages. One more base fee is given, that of the block that comes after. What others asked before makes no difference. The cache keeps no more blocks than configured. Wrong arguments are answered with an error.", "quantifier": "all sequences of blocks and queries, all numbers of blocks, last blocks and percentiles", "why_tests_cant": "the answer depends on what was cached by earlier queries with other arguments, and on overflow of 64-bit arguments", "anchors": ["helios-chain/rpc/backend/chain_info.go: FeeHistory", "helios-chain/rpc/backend/utils.go: processBlock", "helios-chain/rpc/types/block.go: BlockNumber.Int64", "helios-chain/rpc/types/utils.go: EthHeaderFromTendermint"]}
{"id": "C104", "title": "A contract moves a user's stake only as far as the user allowed", "statement": "When a contract calls the built-in staking contract in a user's transaction, delegating, undelegating or cancelling succeeds only with an approval of that user to that contract for that message which has not ended, covers the validator and the token, and is at least the amount; the approval goes down by exactly the amount (or disappears) and no other approval changes. Over any history without further approvals the total used stays within the approval. Approve, revoke, raise and lower do exactly what they say, for the signer's own approvals only. A signer calling directly acts for itself only and needs no approval.", "quantifier": "all users, contracts, amounts, tokens, validators, times and histories of calls to the staking contract by anybody", "why_tests_cant": "The bound is about unlimited sequences of calls by arbitrary contracts in arbitrary transactions, and about everything a call must leave alone; tests run a handful of calls with two accounts.", "anchors": ["helios-chain/precompiles/staking/tx.go: Delegate, Undelegate, CancelUnbondingDelegation, CreateValidator, EditValidator, Unjail", "helios-chain/precompiles/staking/approve.go: Approve, Revoke, IncreaseAllowance, DecreaseAllowance, UpdateStakingAuthorization", "helios-chain/precompiles/staking/types.go: NewMsgCreateValidator, NewMsgEditValidator", "helios-chain/precompiles/authorization/types.go: CheckApprovalArgs, CheckAuthzAndAllowanceForGranter"]}
{"id": "C105", "title": "Built-in contracts act only for the account that signed or called", "statement": "A state-changing method of a built-in contract (rewards, votes, proposals, bridge, scheduled calls, logos, token creation, transfers to other chains, staking) is carried out in the name of the transaction's signer or of the contract that calls it, never of anybody else; reached by anything but a plain CALL it is refused. Contracts need the signer's approval for what they do in the signer's name.", "quantifier": "all methods, signers, calling contracts, named accounts, approvals in force, and histories of calls", "why_tests_cant": "Which account pays or votes depends on every combination of signer, caller and named account across some thirty methods; the tests fix one combination per method.", "anchors": ["helios-chain/precompiles/distribution/tx.go", "helios-chain/precompiles/gov/tx.go", "helios-chain/precompiles/hyperion/methods.go", "helios-chain/precompiles/chronos/methods.go", "helios-chain/precompiles/ics20/tx.go: Transfer", "helios-chain/precompiles/common/precompile.go: RunSetup", "helios-chain/x/evm/core/vm/evm.go: Call, CallCode, DelegateCall, StaticCall"]}
{"id": "C106", "title": "Native coins moved by built-in contracts are neither undone nor doubled by the EVM", "statement": "Built-in contracts move native coins in the bank while the EVM keeps its own copy of balances and writes it back at the end. After any transaction every account holds exactly what it held before, plus what the EVM credited, less what it debited, plus what the built-in contracts moved; the total supply changes by exactly the sum of these; and a contract asking for a balance in between sees the same amount.", "quantifier": "every chain state, every sequence of EVM state operations with calls of built-in contracts in it, every amount and every account", "why_tests_cant": "two ledgers are merged at commit time and whether they agree depends on which accounts were loaded or dirtied before and after each call, in every order; tests try a few orders", "anchors": ["helios-chain/precompiles/common/precompile.go:RunSetup,AddJournalEntries,SetBalanceChangeEntries", "helios-chain/x/evm/statedb/statedb.go:commitWithCtx,getStateObject,AddBalance,SubBalance", "helios-chain/precompiles/erc20/tx.go:transfer", "helios-chain/precompiles/werc20/tx.go:Deposit", "helios-chain/precompiles/staking/tx.go:Delegate,Undelegate"]}
{"id": "C107", "title": "Wrapped messages cannot smuggle in what may not be delegated", "statement": "A transaction that passes the entry checks either takes the Ethereum route and consists of Ethereum messages only, or contains no Ethereum message; and no message that is executed or granted on somebody else's authority, at any depth of nesting of execution messages, is an Ethereum message or the creation of a vesting account. Whatever is carried can be decoded, nesting is bounded, and every other transaction without such content passes these checks.", "quantifier": "every list of messages, every nesting of execution messages in one another and beside one another, every grant, readable or not, and every list of extension options", "why_tests_cant": "Messages nest in one another without bound on shape; tests try a few fixed nestings, while an attacker picks the one arrangement that the walk over the tree does not look into.", "anchors": ["helios-chain/app/ante/ante.go:NewAnteHandler", "helios-chain/app/ante/cosmos/authz.go:checkDisabledMsgs", "helios-chain/app/ante/cosmos/reject_msgs.go:AnteHandle", "helios-chain/app/ante/handler_options.go"]}
{"id": "C108", "title": "A Cosmos transaction pays at least the base fee and never more than it offered", "statement": "A Cosmos transaction that passes the entry checks offers only the native coin, has an offer that covers the minimum gas price, is charged at least the base fee for its gas limit, at most its offer, and less than one unit more than base fee and tip; exactly that amount goes from the fee payer to the fee collector. Higher bids never get a lower priority. Signatures cost 21000 gas for each single Ethereum signature, at any depth of multi-signatures, and no other keys pass.", "quantifier": "every fee offer, gas limit, base fee, minimum gas price, dynamic fee option and balance, and every nesting of multi-signature keys and signature data", "why_tests_cant": "The amounts come from divisions and roundings of unbounded decimals, so being a unit off shows only for particular combinations of price, gas and offer; multi-signature data is chosen by the sender and nests arbitrarily.", "anchors": ["helios-chain/app/ante/evm/fee_checker.go:feeChecker", "helios-chain/app/ante/cosmos/min_price.go:AnteHandle", "helios-chain/app/ante/sigverify.go:SigVerificationGasConsumer", "helios-chain/app/ante/sigverify.go:ConsumeMultisignatureVerificationGas"]}
{"id": "C109", "title": "A typed-data signature authorises exactly one transaction", "statement": "When a wallet signs a Cosmos transaction as typed data, the signed bytes determine the transaction: two sign documents that are accepted with the same signed bytes have the same chain id, account number, sequence, fee, gas limit, memo and messages, down to the last field. What the typed data cannot express (a timeout, extensions, further entries in the payload or in the fee, nulls, arrays of arrays) is refused instead of being left out of the signature.", "quantifier": "every pair of sign documents, with any number of messages of any shape and nesting, any names and any contents", "why_tests_cant": "The types are generated from the data itself, so an attacker chooses both; a test compares a few documents, while a second document with the same bytes may differ from the first anywhere.", "anchors": ["helios-chain/eip712/encoding.go:GetEIP712BytesForMsg", "helios-chain/eip712/encoding.go:decodeProtobufSignDoc", "helios-chain/eip712/types.go:createEIP712Types", "helios-chain/eip712/types.go:recursivelyAddTypesToRoot", "helios-chain/eip712/message.go:FlattenPayloadMessages", "helios-chain/eip712/eip712.go:WrapTxToTypedData", "helios-chain/crypto/ethsecp256k1/ethsecp256k1.go:VerifySignature"]}
{"id": "C110", "title": "A contract sends a user's tokens to another chain only as far as the user allowed", "statement": "When a contract calls the built-in cross-chain transfer contract in a user's transaction, the transfer succeeds only with an approval of that user to that contract which has not ended, names the port and channel, allows the receiver and the memo, and covers the amount of that token. That one limit then goes down by exactly the amount, and every other limit, receiver list, end and approval stays as it was. Over any history without a new approval or a raise of that limit, what was sent together with what is left stays within the limit. Approve, revoke, raise and lower do exactly what they say, for the signer's own approvals only. A refused call changes nothing. A signer calling directly sends its own tokens only and needs no approval.", "quantifier": "all users, contracts, ports, channels, tokens, amounts, receivers, memos, times, amounts of gas and histories of calls by anybody", "why_tests_cant": "The bound is about unlimited sequences of calls by arbitrary contracts with arbitrary gas, and about every limit a call must leave alone; tests run a handful of calls on one channel with ample gas.", "anchors": ["helios-chain/precompiles/ics20/tx.go: Transfer", "helios-chain/precompiles/ics20/approve_common.go: Approve, Revoke, IncreaseAllowance, DecreaseAllowance, AcceptGrant, UpdateGrant", "helios-chain/precompiles/ics20/types.go: NewTransferAuthorization, NewMsgTransfer, checkAllocationExists, CheckAndAcceptAuthorizationIfNeeded, UpdateGrantIfNeeded", "helios-chain/precompiles/ics20/ics20.go: Run", "helios-chain/precompiles/common/precompile.go: RunSetup, HandleGasError, AddJournalEntries"]}
{"id": "C111", "title": "Which assets can be staked, and with which weight, follows governance", "statement": "The list of assets that count for staking is changed only by governance. An asset is listed once, keeps the contract, chain, decimals and symbol it was listed with, and is never struck off: removing it archives it at weight one, adding it again brings it back with the new weight, and an active asset cannot be added twice. A vote on a weight changes it by one below ten and by 5, 15 or 30 percent, rounded down, from ten on, never to less than one; assets that are not named stay as they were. A vote about several assets is all or nothing. The voting power of what is already staked follows the weights.", "quantifier": "every list at genesis, every sequence of governance messages and passed proposal texts with any assets, names, magnitudes and directions, every answer of the token contracts and of the staking module, all weights below 2^48 for the arithmetic in floating point", "why_tests_cant": "The weight is computed with float64 multiplication and truncation and the share told to the staking module is a two-decimal text: whether all weights are right, and whether power and weight drift apart over any number of votes, cannot be sampled.", "anchors": ["helios-chain/x/erc20/keeper/whitelist.go:AddAssetToConsensusWhitelist", "helios-chain/x/erc20/keeper/whitelist.go:RemoveAssetFromConsensusWhitelist", "helios-chain/x/erc20/keeper/whitelist.go:ArchiveAssetInConsensusWhitelist", "helios-chain/x/erc20/keeper/whitelist.go:UnarchiveAssetInConsensusWhitelist", "helios-chain/x/erc20/keeper/whitelist.go:UpdateAssetNativeSharesWeight", "helios-chain/x/erc20/keeper/whitelist.go:GetAllStakingAssets", "helios-chain/x/erc20/keeper/msg_server.go:UpdateAssetConsensus", "helios-chain/x/erc20/keeper/msg_server.go:getAdjustmentFactors", "helios-chain/x/erc20/proposal_handler.go:HandleUpdateAssetConsensusProposal", "helios-chain/x/erc20/types/proposal.go:ValidateBasic", "helios-chain/precompiles/staking/tx.go:Delegate"]}
{"id": "C112", "title": "An Ethereum transaction sent to the node is the one that is broadcast", "statement": "Raw bytes given to eth_sendRawTransaction are accepted exactly when they are the one byte form of an Ethereum transaction (legacy, access list or dynamic fee) with gas between 1 and 2^63-1, a tip not above the fee cap, a maximum fee, value and chain id below 2^256, and a chain id that can be told (and that is tied to one chain, unless the node allows others). The message then broadcast holds that transaction: taken out again and written down it gives the same bytes, the answer and the hash inside the message are the hash of those bytes, and the gas limit, maximum fee, fee at a base fee and total cost the chain charges are those the transaction names. Different bytes never become the same message. Any message that passes the stateless checks stands for such a transaction, and its hash names that transaction.", "quantifier": "all byte strings, all transactions of the three kinds with data and access lists of any length, all messages, all base fees, any hash function", "why_tests_cant": "The byte form is recursive and unbounded; a field that is lost, swapped, cut or padded changes what was signed or who is paid, for some values only; and a hash check only helps if every field reaches the hash. Tests fix a handful of transactions.", "anchors": ["helios-chain/x/evm/types/msg.go:FromEthereumTx,AsTransaction,ValidateBasic,BuildTx", "helios-chain/x/evm/types/tx_data.go:NewTxDataFromTx,fee,cost", "helios-chain/x/evm/types/legacy_tx.go:NewLegacyTx,AsEthereumData,Validate", "helios-chain/x/evm/types/access_list_tx.go:newAccessListTx,AsEthereumData,Validate", "helios-chain/x/evm/types/dynamic_fee_tx.go:NewDynamicFeeTx,AsEthereumData,Validate", "helios-chain/x/evm/types/access_list.go:NewAccessList,ToEthAccessList", "helios-chain/utils/eth/eth.go:DeriveChainID,RawSignatureValues", "helios-chain/types/int.go:SafeNewIntFromBigInt", "helios-chain/rpc/backend/call_tx.go:SendRawTransaction"]}
{"id": "C113", "title": "The JSON-RPC limits hold in every window and refuse nobody who is below them", "statement": "A node with a limit of N requests per window never serves a client more than N requests in any window of that length, wherever the window begins, and never more than the limit set for a method in calls of that method; a client that is below its limits and has computing time left is served whatever other clients do; each refusal is given exactly when its limit is reached; tidying up old records changes no answer. No more than the allowed number of requests is served at once, and the computing time used by a client in a window exceeds the limit by at most one request.", "quantifier": "all limits and windows, all lists of limits per method, all sequences of requests, completions and clean-ups of any number of clients with a clock that does not go back", "why_tests_cant": "A sliding window is right or wrong depending on where requests fall relative to its edges and on what was forgotten before; the connection and time limits depend on how requests overlap. Tests try a few bursts.", "anchors": ["helios-chain/server/middleware/rate_limiter.go:Allow,Cleanup,Reset", "helios-chain/server/middleware/method_rate_limiter.go:Allow,SetMethodLimit,Reset", "helios-chain/server/middleware/connection_limiter.go:AllowConnection,RemoveConnection", "helios-chain/server/middleware/compute_time_tracker.go:PredictComputeTime,AddComputeTime,UpdateMethodAverage", "helios-chain/server/middleware/middleware.go:CombinedMiddleware,GetClientIP", "helios-chain/server/json_rpc.go:StartJSONRPC", "helios-chain/server/routes/rpc_routes.go"]}
{"id": "C114", "title": "Coins that are not vested are not staked, and a clawback finds them", "statement": "A clawback vesting account can delegate, or found a validator with, any amount up to its balance less what is not vested yet, and no more; vested coins can be staked whether they are still locked or not. Whatever grants, transfers, delegations, returns of stake and slashes follow, the account goes on holding every coin that is not vested, so a clawback by the funder or by governance always finds what it takes back.", "quantifier": "all vesting schedules and merged grants, all histories of messages, transfers, delegations, returns and slashes with a clock that does not go back, all coins, all amounts and times", "why_tests_cant": "Whether coins are missing at a clawback depends on how grants, delegations, returns and transfers came in the months before; tests try single delegations.", "anchors": ["helios-chain/x/staking/keeper/msg_server.go:Delegate,CreateValidator,validateDelegationAmountNotUnvested", "helios-chain/x/vesting/types/clawback_vesting_account.go:GetVestingCoins,LockedCoins,TrackDelegation", "helios-chain/x/vesting/keeper/msg_server.go:FundVestingAccount,Clawback,transferClawback", "helios-chain/precompiles/staking/tx.go:Delegate"]}
{"id": "C115", "title": "A filter gives its owner every wanted item once, in order", "statement": "After eth_newFilter, eth_newBlockFilter or eth_newPendingTransactionFilter, the answers of eth_getFilterChanges for that filter contain every new log that matches, every new block, or every new transaction exactly once and in order, and nothing else, whoever else creates, polls or uninstalls filters meanwhile. The filter stays until its owner uninstalls it or leaves it unused for the time limit, after which it is dropped. There are never more filters than the configured limit.", "quantifier": "all histories of calls by any clients, reports of the node and rounds of the timeout loop, all criteria, all times", "why_tests_cant": "Whether an item is lost, given twice or given to the wrong filter depends on the interleaving of polls, reports and removals of other clients' filters; tests use one filter at a time.", "anchors": ["helios-chain/rpc/namespaces/ethereum/eth/filters/api.go:NewFilter,NewBlockFilter,NewPendingTransactionFilter,GetFilterChanges,UninstallFilter,timeoutLoop", "helios-chain/rpc/namespaces/ethereum/eth/filters/filter_system.go:subscribe,SubscribeLogs,eventLoop", "helios-chain/rpc/namespaces/ethereum/eth/filters/utils.go:FilterLogs", "helios-chain/x/evm/types/utils.go:DecodeTxResponse"]}
{"id": "C116", "title": "Whoever signs what the chain never asked for can be punished, and nobody else", "statement": "If a bridge validator signs a validator set or batch that the chain never asked to be signed, anyone can submit that signature as evidence, and the validator whose key made it loses the configured fraction of its stake, once. A validator that only signs what the chain asked for can never be punished by evidence, however much later and whatever the evidence claims to be. Nothing else changes.", "quantifier": "all histories of batches, validator sets, key registrations, stake changes and evidence messages, all bridges, all signatures and claimed subjects", "why_tests_cant": "Safety depends on the whole history of requests and on an adversary who picks the subject, the bridge number and the moment of the evidence.", "anchors": ["helios-chain/x/hyperion/keeper/evidence.go:CheckBadSignatureEvidence,checkBadSignatureEvidenceInternal,SetPastEthSignatureCheckpoint,GetPastEthSignatureCheckpoint", "helios-chain/x/hyperion/keeper/msg_server_helios.go:SubmitBadSignatureEvidence,UnSetOrchestratorAddresses", "helios-chain/x/hyperion/types/codec.go:RegisterInterfaces", "helios-chain/x/hyperion/types/batch.go:GetCheckpoint", "helios-chain/x/hyperion/types/types.go:GetCheckpoint", "helios-chain/x/hyperion/keeper/keeper.go:SetValsetRequest,GetValidatorByEthAddress", "helios-chain/x/hyperion/keeper/batch.go:BuildOutgoingTXBatch", "helios-chain/x/hyperion/keeper/genesis.go:InitGenesis,ExportGenesis"]}
{"id": "C117", "title": "Every bridge transfer of an address is found in its history, once and in order", "statement": "Every finished bridge transfer is recorded for its sender and its receiver, once each, in the order in which they finished, and numbered without gaps; any range of numbers can be read back exactly. Paging through the transfers of an address, with any page size, shows every waiting, batched, incoming and finished transfer exactly once, and no page is longer than asked for.", "quantifier": "all histories of finished transfers at any heights, all addresses, ranges, offsets and page sizes, all lists of transfers under way", "why_tests_cant": "Gaps and repetitions depend on how four lists of any lengths fall on page boundaries, and on the whole history of recorded transfers.", "anchors": ["helios-chain/x/hyperion/keeper/archive_tx.go:StoreFinalizedTx,StoreLastFinalizedTxIndex,FindLastFinalizedTxIndex,FindFinalizedTxs,FindFinalizedTxsByIndexToIndex,FindLastFinalizedTxs", "helios-chain/x/hyperion/keeper/grpc_query_helios.go:QueryGetTransactionsByPageAndSize,formatQueryTransferTxs", "helios-chain/testnet/testnet.go:TESTNET_BLOCK_NUMBER_UPDATE_0"]}
{"id": "C118", "title": "A logo is what its hash says, stays on chain, and is served as it was uploaded", "statement": "Uploading the base64 text of a PNG image of 200 by 200 pixels within the size limit succeeds and returns the hash of the text; anything else is refused and changes nothing. From then on, whatever anybody does, that hash and every token naming it are served exactly the uploaded bytes. Every stored logo is a valid image within the limit and is stored under its own hash. One image has one hash and one creation height. A restart from an export keeps all of them.", "quantifier": "all texts and images, all size limits, all histories of uploads, token creations and parameter changes, all genesis states", "why_tests_cant": "The guarantees range over every text a lenient base64 reader accepts and every later history; the size arithmetic fails only at particular limits.", "anchors": ["helios-chain/x/logos/keeper/keeper.go:SetLogo,GetLogo,ValidateBase64Logo,StoreLogo", "helios-chain/x/logos/keeper/msg_server.go:StoreLogo,UpdateParams", "helios-chain/x/logos/keeper/genesis.go:InitGenesis,ExportGenesis", "helios-chain/x/logos/types/params.go:ValidateBasic", "helios-chain/precompiles/logos/methods.go:UploadLogo", "helios-chain/precompiles/erc20creator/erc20creator.go:Run", "helios-chain/precompiles/hyperion/methods.go:AddCounterpartyChainParams", "helios-chain/server/cdn.go:StartCDNServer,getTokenLogo"]}
{"id": "C119", "title": "The first deposit of a token from another chain makes a coin for it and credits the deposit", "statement": "When a confirmed deposit brings a token the chain has not seen, a coin is made for it with the symbol and the decimals of the token, and the receiver is credited the amount; later deposits of it credit exactly the amount. Symbol and decimals never change afterwards and no other token or balance is touched. A deposit with no metadata still arrives. A symbol belongs to one token. The supply of the coin is what was deposited.", "quantifier": "all tokens, symbols, decimals, deposit data, amounts and receivers, and all histories of deposits", "why_tests_cant": "Symbols and metadata are chosen freely on the other chain; which of them the bank accepts, and what happens to the money otherwise, has to be known for every one.", "anchors": ["helios-chain/x/hyperion/keeper/tokens.go:sanitizeSymbol,CreateOrLinkTokenToChain,ValidateTokenMetaData,parseClaimData", "helios-chain/x/hyperion/keeper/attestation_handler.go:Handle", "helios-chain/x/hyperion/keeper/attestation.go:processAttestation", "helios-chain/x/hyperion/types/ethereum.go:NewHyperionDenom"]}
{"id": "C120", "title": "The report about the coin is always given and its numbers fit together", "statement": "Whatever the supply, the height and the rates, the query for information about the coin answers. It reports the current supply, the rewards of a year and of a block, the rewards since genesis and the genesis supply; genesis supply and rewards are together the supply, the genesis supply never changes, and the rewards are those that were minted.", "quantifier": "all supplies, heights, inflation rates and thresholds, and all states of the mint module", "why_tests_cant": "The arithmetic takes a different path in each phase of the supply; most paths are reached only after years of minting.", "anchors": ["helios-chain/x/chaininfo/keeper/grpc_query.go:CoinInfo,calculateRewardsSinceGenesis"]}
{"id": "C121", "title": "A validator decides alone who acts for it on a bridge and with which key it signs", "statement": "A validator registers on a bridge once, naming an account that acts for it and a key on the other chain. This is accepted only for validators, only for accounts that act for nobody and, where there is a whitelist, are on it. No other account's message changes a validator's key, its fee or who acts for it. A key belongs to one validator, and the chain knows to whom for as long as it is used. Ending the registration ends all of it, and the validator can register anew; a validator with a fee can change it.", "quantifier": "all histories of registrations, fee changes and removals by all accounts", "why_tests_cant": "The conflicts arise between several validators' messages in particular orders, and stale entries show only much later.", "anchors": ["helios-chain/x/hyperion/keeper/msg_server_helios.go:SetOrchestratorAddresses,SetOrchestratorAddressesWithFee,UpdateOrchestratorAddressesFee,DeleteOrchestratorAddressesFee,UnSetOrchestratorAddresses", "helios-chain/x/hyperion/keeper/keeper.go:SetOrchestratorValidator,SetEthAddressForValidator,SetFeeForValidator,DeleteEthAddressForValidator"]}
{"id": "C122", "title": "What scheduled tasks did is found again by number, hash, block and task", "statement": "Every transaction of a scheduled task is found under its number and under its hash, and a number or hash that was not used finds nothing. Asking for a block gives that block's transactions in order of execution. Asking for a task gives that task's transactions and receipts, each once, oldest first, and no other task's. The list of all has every transaction once. An ended task is found in the archive, and a running one is not.", "quantifier": "all histories of executions and of ended tasks above height 34800, with numbers and hashes used once", "why_tests_cant": "Keys of several kinds share one store and are made of decimal texts put one after the other; collisions need particular pairs of numbers that tests with few tasks do not reach.", "anchors": ["helios-chain/x/chronos/keeper/archive_tx.go:StoreCronTransactionResult,StoreSetTransactionNonceByHash,StoreSetTransactionHashInBlock,StoreArchiveCron,GetCronTransactionResultByNonce,GetCronTransactionResultByHash,GetCronTransactionResultsByBlockNumber,GetArchivedCron", "helios-chain/x/chronos/keeper/grpc_query_cron.go:QueryGetCronTransactionsByPageAndSize,QueryGetCronTransactionReceiptsByPageAndSize,QueryGetAllCronTransactionsByPageAndSize", "helios-chain/x/chronos/types/keys.go"]}
{"id": "C123", "title": "Only a bridge's founder and the authority decide which accounts may act on it", "statement": "A bridge may have a list of accounts that may act for validators; without a list every account may. Only the authority and the account that set up the bridge can set the list, add to it or take from it, and doing so changes no other bridge's list. After an account is set or added, however its address is written, it may act; after it is removed it may not, and nothing changes for the others. A bridge can be opened to all again.", "quantifier": "all histories of messages by all accounts, all sets of bridges and all spellings of addresses", "why_tests_cant": "It depends on the spelling of addresses, on the numbers of chains and bridges, and on the order of messages.", "anchors": ["helios-chain/x/hyperion/keeper/msg_server_testnet.go:SetWhitelistedAddresses,AddOneWhitelistedAddress,RemoveOneWhitelistedAddress", "helios-chain/x/hyperion/keeper/keeper.go:GetHyperionParamsFromChainId,SetWhitelistedAddresses,GetWhitelistedAddresses", "helios-chain/x/hyperion/types/whitelisted_addresses.go:ContainsAddress"]}
{"id": "C124", "title": "A bridge belongs to its founder, and only they and the authority change it", "statement": "There is at most one bridge to a chain, and it has the chain's number. Only the authority creates bridges, and only with a validator as founder. Renaming a bridge, pausing it, handing it to another founder or deleting it is done only for the authority and its founder, has exactly that effect, and touches no other bridge. Whatever others send, a bridge stays as it is. A message that has no effect is reported as failed, and none makes the chain panic. A bridge is always run by a validator.", "quantifier": "all histories of such messages by all accounts", "why_tests_cant": "Who may do what depends on all earlier messages, in any order, over any number of bridges.", "anchors": ["helios-chain/x/hyperion/keeper/msg_server_testnet.go:ChangeInitializer,UpdateChainName,DeleteChain,PauseChain,UnpauseChain", "helios-chain/x/hyperion/keeper/msg_server_helios.go:AddCounterpartyChainParams", "helios-chain/x/hyperion/keeper/keeper.go:SetCounterpartyChainParams,GetHyperionParamsFromChainId"]}
{"id": "C125", "title": "Issuing a bridged token gives it to the receiver, destroying it takes it from the sender", "statement": "The authority and a bridge's founder can issue a token that comes from the bridge's chain: the receiver and the supply then have that much more and nobody else's balance changes. They can destroy tokens of their own: they and the supply then have that much less and nobody else's balance changes. If the receiver cannot take the tokens, or the sender does not have them, the message fails and nothing changes. The supply is always what all accounts have together.", "quantifier": "all histories of such messages, all balances, amounts and accounts", "why_tests_cant": "The errors that are passed over show only for blocked receivers and for senders with too little, and depend on what the module holds at the time.", "anchors": ["helios-chain/x/hyperion/keeper/tokens.go:MintToken,BurnToken", "helios-chain/x/hyperion/keeper/msg_server_testnet.go:MintToken,BurnToken"]}
{"id": "C126", "title": "A bridge's list of nodes keeps the ones in use", "statement": "A bridge keeps a list of nodes of the other chain. Each use of a node adds one to its reputation and notes the height; a node not yet known is added with reputation one; the other nodes stay as they are. No node is listed twice. The list does not grow without bound, and what is dropped are the nodes whose last use is longest ago. The founder can take a node off the list, which changes nothing for the others.", "quantifier": "all histories of uses and removals, all nodes and heights, and all ways to order nodes of equal height", "why_tests_cant": "The dropping starts only with more than a hundred nodes, and the order depends on all earlier uses.", "anchors": ["helios-chain/x/hyperion/keeper/keeper.go:UpdateRpcUsed", "helios-chain/x/hyperion/types/params.go:RemoveRpcFromSlice", "helios-chain/x/hyperion/keeper/msg_server_testnet.go:AddRpc,RemoveRpc"]}
