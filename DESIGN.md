# Formal model of helios-network/helios-core

All repository paths are relative to `/repo/helios-chain`.  The model lives in `rocq/theories/<Module>/`:

* model files – Gallina functions transcribing the Go functions; each definition cites file and lines and says what it
  simplifies.  They are total and computable.
* `*Spec.v` – small specification vocabulary that does not use the functions of the model that maintain the state.
* proof files – lemmas.
* `Props*.v` – the property theorems (`C<nn>_...`), `Example`s that meet their hypotheses with concrete, non-trivial values,
  and `Print Assumptions` after every theorem.

A theorem ending in `_refuted` shows, with a concrete history checked by computation, that the code (as modelled) does
*not* meet the English claim.  A theorem ending in `_partial` proves the part of the claim that holds; the `note` in
`MANIFEST.json` says what is missing, and where it is missing because it is false, the refutation stands beside it.
A property is `proved` in the manifest when its statement (in `properties.jsonl`) holds for the domain the statement names;
it is `partial` when the claim fails outside conditions the user could not know, or part of it is not modelled.

## Plan per property

*inv* = invariant by induction over histories, *ref* = refinement to an abstract specification, *law* = algebraic law or
round trip.

| Id | Modelled | Proof |
|----|----------|-------|
| C01 | `Memiavl/Model.v`: set, remove, get, ApplyChangeSet over byte-string keys, node cache | ref to a function `key -> option value` |
| C02 | the same tree with stored height/size fields, rotations | inv (search order + AVL + exact fields), logarithmic bound |
| C03 | `Get` index, `GetByIndex` with uint32 arithmetic | ref to the sorted list of pairs |
| C04 | iterator as a stack machine | ref to a filter of the sorted list |
| C05 | `Memiavl/HeapModel.v`: nodes at addresses, `Mutate` clones or writes in place by `cowVersion`, cached hashes | ref: every tree behaves as its own value tree |
| C06, C07 | `Memiavl/SnapshotModel.v`: byte layout of nodes/leaves/kvs/metadata, offset arithmetic; export stream and importer stack | law |
| C08–C11, C13, C14 | `Memiavl/DbModel.v`: multi-store, commit, background rewrite in five disk steps, pruning, restart, rollback, crash with lost log entries | inv over schedules against a timeline of committed states |
| C12 | `Wal/Model.v`: segment bytes, `truncateCorruptedTail`, reopening | law |
| C15 | `Memiavl/HashModel.v`, `ProofModel.v` | law; binding as "equal contents or an explicit collision" |
| C16, C17, C50 | `Extsort/Model.v`: varints, delta encoding, chunks, goroutine completion order, heap merge | law / ref: sorted permutation |
| C18–C21, C54, C55 | `Statedb/Model.v`: journalled state, access list, precompile calls with branched store, commit | ref to a machine that copies the state at each snapshot |
| C22–C24 | `Feemarket/Model.v`: 18-decimal arithmetic, EndBlock, Validate | law |
| C25, C26 | `Epochs/Model.v`: BeginBlocker over any time sequence, hook trace | inv |
| C27–C30, C51–C53 | `Vesting/Model.v`, `Keeper.v`: schedules over coins, messages, governance hooks | law, inv |
| C31–C34, C43, C56 | `Hyperion/Pool.v`: transfers, fee index, batches, balances, fifteen kinds of step | inv |
| C35, C36, C44 | `Hyperion/Attest.v`: claims, votes, tally, pruning, administrator resets | inv |
| C37 | `Hyperion/Claims.v`: stateless validation, hashed texts | law |
| C38, C39 | `Hyperion/Keys.v`: byte layouts of 33 record kinds, every scan | law |
| C40, C42, C69, C70 | `Hyperion/Valset.v`: current set, power difference, storing, judging, pruning, keys, confirmations, signed words | law, inv over micro steps |
| C41 | `Hyperion/Genesis{Pool,Sets,Votes}.v`: export, import | law (restart = identity on what survives) |
| C45–C47, C57–C63 | `Chronos/Model.v`: messages, queue, block execution, results, genesis | inv |
| C48 | `Rpc/Cache.v`: JSON keys, clock, LRU, single-flight calls step by step | inv over schedules |
| C49 | `Rpc/Pubsub.v`: one event = one critical section | inv over schedules |
| C64, C67, C68 | `Evmtx/{Model,Index,Logs}.v`: block execution, bloom, events, indexer writes and lookups, log queries | inv / ref |
| C65, C66 | `Evmtx/Model.v`: ante handler, message server, ApplyTransaction with an arbitrary EVM outcome | inv |
| C71–C73 | `Versiondb/Model.v`: comparator, timestamped entries, Get, iterators, import, FixData | ref to the contents after a prefix of the blocks |
| C74, C75 | `Versiondb/{Changeset,Sst}.v`: change set bytes, readers, sorter items, file splitting | law; with C17 |
| C76 | `Versiondb/Restore.v`: snapshot stream of exported trees (C07) into Import | characterised; the claim is refuted |
| C77 | `Erc20/Model.v`: precompile transfer, transferFrom, deposit, withdraw over a model of bank and authz | proved exact with success conditions; zero transfers refuted |
| C78 | `Erc20/Model.v`: approve, increase, decrease, allowance, grants with expiry and receivers | proved exact; trace theorem by induction over calls; five exceptions refuted |
| C79 | `Erc20/Registry.v`: the three indexes, all operations that touch them, genesis | invariant over runs, exact effect of each operation; five exceptions refuted |
| C80 | `Erc20/Registry.v`: import, export | round trip proved for the pairs; the enabled precompiles refuted |
| C81 | `Erc20/Convert.v`: both conversions with an arbitrary contract as Section variable | proved exact; panic and empty success refuted |
| C82 | `Erc20/Convert.v`: transfer, refund and return packets around an ordinary token | invariant over runs, exact effects; five exceptions refuted |
| C83 | Tokenfactory: state = module store (real byte keys) + bank balances, supply, metadata; all messages, transfers, foreign mints and restarts as operations | invariant over all histories; exact when/what of mint, burn, hand-over; supply = net of accepted messages |
| C84 | same; `split`/`join`, `token_denom`, `deconstruct`, key building, `pscan` listing, genesis | parsing back and injectivity by induction on texts; store invariant (one list entry per coin); import of the exported list by induction |
| C85 | Revenue: module store with real byte keys, all messages, the creation hook, parameters, restarts | invariant (every key belongs to one contract; indexes follow the entries) shown local to one contract; exact when/what per message; induction over histories |
| C86 | same; `PostTxProcessing` with the bank transfer from the fee collector | closed form of the hook on reachable states; floor division bounds; induction over transaction sequences |
| C87 | `Extdata/Model.v`: the precompile RequestData, claims, the end of a block; `Extdata/PropsAsk.v` | state machine; the loop over requests is split into decisions (independent of the state) and their effects; invariant over histories |
| C88 | `Extdata/Model.v` best, result; the order of a Go map is a parameter; `Extdata/PropsAnswer.v` | counting lemma for the frequency map; plurality; witnesses by computation |
| C89 | `Evm/Analysis.v` models codeBitmap with its byte and bit writes, codeSegment, validJumpdest; `AnalysisSpec.v` defines instructions inductively from position 0 | invariant of the scanning loop: bits below the scan position are set exactly on data bytes; `C89_jump`, `C89_analysis`, `C89_disjoint`, `C89_next` |
| C90 | `Evm/Table.v` (jump table), `Evm/Memory.v` (sizes, prices, access), `Evm/Interp.v` (one step) | invariant `mem_ok` and the potential gas + paid price; `C90_memory_is_paid` |
| C91 | `Evm/Interp.v`: step, nested calls with fuel | every step lowers the gas, so fuel above gas is never used up, and more fuel gives the same result; `C91_call_ends`, `C91_create_ends`, `C91_caller_keeps_a_64th` |
| C92 | `Evm/Interp.v` with Panic wherever the Go code could panic | `mach_ok` invariant (memory, bytes, refund covers emptied slots, refund + 200 gas bounded); `C92_call_never_crashes`, `C92_create_never_crashes`, `C92_frames_stay_healthy` |
| C93 | `Evm/Interp.v`: evm_call and its four relatives | case analysis over refusals and `settle`, for any callee; `C93_failed_*`, `C93_depth_limit`, `C93_caller_sees_failure` |
| C94 | `Evm/Effects.v`: the tree of effects of a run; `Evm/Ledger.v`: looks_same | induction over effects with the read-only flag; `C94_static_*_partial`; refuted with stateful built-in contracts |
| C95 | `Evm/Effects.v`, `Evm/Ledger.v`: total, no_gain, spared | induction over effects; `C95_no_money_made`, `C95_no_money_lost`, `C95_bystanders_are_spared`, `C95_plain_payment` |
| C96 | `Evm/Effects.v`, `Evm/Ledger.v`: fair | induction over effects; `C96_code_is_for_ever`, `C96_creation` |
| C97 | the arithmetic and comparison instructions against integer functions (Evm/WordSpec.v) | one lemma per word operation, lifted to `step` |
| C98 | stack, memory, copy, jump and environment instructions at `step` level; byte-level specification in Evm/DataSpec.v | exact next state for every operand; `affordable` says when there is enough gas |
| C99 | SLOAD, SSTORE, account reads, LOG at `step` level | prices and refunds against the tables of the EIPs |
| C100 | call and create instructions at `step` level; the callee is an arbitrary function | frames, gas, memory and worlds against Evm/CallSpec.v |
| C101 | `apply_message` around the interpreter: intrinsic gas, access list, nonce take-over, refund | C91-C96 applied to the prepared world, and an account of each field |
| C102 | EstimateGasInternal and BinSearch over any trial function, and over `apply_message` | induction on the search with wrapped sums; witnesses for the two refutations |
| C103 | FeeHistory with its process-wide cache over any sequence of blocks and queries; processBlock with its walk over sorted tips | invariant of the cache; the walk computes the quantile, which is unique |
| C104 | Precompiles/Staking.v: grants with limits, validators and end, the message server as a section variable, a record of what reached it | exact effect of each call; invariant limit + used over all histories; witnesses for what a swallowed failure, self-approval and the field mix-ups do |
| C105 | Precompiles/Authority.v: one table of methods with the account each acts for | case analysis, induction over histories; witnesses for contracts acting without approval |
| C106 | Statedb/MoneySpec.v, MoneyProofs.v, PropsMoney.v: one ledger of native coins against which EVM objects, the cache and the chain's store are compared after every operation | invariant over all operations and calls of built-in contracts, commit merged by induction on the dirty accounts; four refutations by computation |
| C107 | routing, message tree, checkDisabledMsgs as nested recursion with its level counter | nested induction on messages: the check succeeds exactly for harmless lists of bounded weight; depth follows from weight |
| C108 | MinGasPriceDecorator, feeChecker, fee deduction over integers scaled by 10^18; signature gas over nested keys | bounds on quotient and ceiling; nested induction on keys against an inductive count of signatures |
| C109 | Eip712/: payload, generated types and go-ethereum's encoder, function by function | induction over JSON values: the type text can be read back, so equal hashes give equal types, then equal fields; invariants of the generated types |
| C110 | Ics20/: grants as lists of allocations with sorted coins, accept / raise / lower / remove on them, the transfer module as a section variable, where the gas runs out as part of a call, a record of what was sent | exact change of every limit by each call; invariant used + left over all histories; witnesses for gas running out between sending and writing off, self-approval, own tokens, the top limit |
| C111 | `Assets/`: whitelist as a sorted map, float64 as exact rationals rounded to 53 bits (checked against the standard library's IEEE 754 specification), the calls to the staking module as a log | rounding error analysis for the weight arithmetic; locality of each decision; induction on lists of decisions; refutations by computation and by induction on the number of votes |
| C112 | RLP (go-ethereum, strict reader), the three transaction kinds, hexadecimal text, FromEthereumTx / AsTransaction, Validate, ValidateBasic, BuildTx, SendRawTransaction; hash function and EIP-55 letter case arbitrary | bijection of byte form and transactions by induction; field by field round trip; exact acceptance condition; refutations by computation |
| C113 | RateLimiter, MethodRateLimiter, ConnectionLimiter, ComputeTimeTracker, GetClientIP and the order json_rpc.go applies them, as a machine over arrivals, completions and resets; the moving average is arbitrary | invariant: the stored times that are still in the window are those of the counted requests in the log; bound by the newest request in the window; refutations by families of runs |
| C114 | validateDelegationAmountNotUnvested, Delegate, CreateValidator on top of the vesting keeper of C51 - C53; bank and staking of the SDK as movements of coins | invariant: balance at least what is not vested, kept by every event (a merged grant makes at most its amount unvested); exact condition of a delegation; refutations by computation |
| C115 | api.go and filter_system.go as one state: map of filters, index of installed subscriptions, topics, listening goroutines; timers as times | invariant relating map, index, topics and listeners; answers plus waiting items equal what was reported since creation (induction on histories); exact condition for the end of a filter; refutations by computation |
| C116 | evidence.go on top of the bridge state of Valset.v: archive of checkpoints, decoding by registered types, x/staking's Slash at the current height | invariant: the archive holds exactly the hashes of what was asked during the history; every set or batch in the store was asked for; every indexed address was registered; refutations for all hashes and signatures |
| C117 | archive_tx.go as two stores of numbered transfers and a list of recent ones; the paging query as three loops over lists and a range read | invariant: the entry of an address is its numbered history; each loop extends a page of a concatenation; refutations for all offsets |
| C118 | x/logos keeper, messages and genesis, base64 decoding as in Go's StdEncoding, server/cdn.go by hash and by token | base64 decoder proved against RFC 4648 encoding and a relation for lenient texts; invariant over all histories; refutations for all images |
| C119 | x/hyperion/keeper/tokens.go (symbols, metadata, new pair), deposit part of attestation_handler.go, bank metadata validation | exact characterisation of accepted symbols against an inductive specification; lasting names by induction over deposits; refutations for all contracts and amounts |
| C120 | x/chaininfo/keeper/grpc_query.go, with the arithmetic of math.LegacyDec (half to even, 315 bits, no value) | rounding against a specification of nearest numbers; exact answers; panics for all supplies above the threshold |
| C121 | x/hyperion/keeper/msg_server_helios.go (orchestrator registration, removal, fees) and the stores behind it | exact effects on all entries; frame conditions for other senders; induction over histories; refutations for all validators, accounts and keys |
| C122 | x/chronos/keeper/archive_tx.go, listings of grpc_query_cron.go (heights above 34800) | one sorted store; invariant over histories that ties every kind of key to the history; exactness of every reading; refutations with concrete histories, receipts for all histories |
| C123 | x/hyperion/keeper/msg_server_testnet.go (whitelist messages), types/whitelisted_addresses.go | exact acceptance and effect per message for all sets of bridges; induction over histories; refutations for all addresses with two spellings |
| C124 | x/hyperion/keeper/msg_server_testnet.go (founder, name, pause, deletion of a bridge), msg_server_helios.go AddCounterpartyChainParams | list of bridges with first-match lookups by chain and by number; invariant; exact acceptance and effect; induction over histories |
| C125 | x/hyperion/keeper/tokens.go MintToken, BurnToken and their messages | one token over a bank whose failed operations change nothing; exact effect in every case; conservation by induction over histories |
| C126 | x/hyperion/keeper/keeper.go UpdateRpcUsed, types/params.go RemoveRpcFromSlice | any sort by height as a parameter with its two laws; invariant over histories; exact effect per node; refutation for every full list |

## What is not modelled, and simplifications

Each definition says its own simplifications; the main ones, by module:

* **Memiavl**: mmap, file-system errors other than crashes (fsync ordering inside one write), the background goroutine is a
  sequence of atomic steps interleaved arbitrarily with the caller; the node cache is switched off in the database model
  (C01 shows that it does not matter); channel plumbing of export/import is left out.  Hashing is a Section variable.
* **Wal**: one segment with its backup file; the tidwall/wal library's index of segments is not modelled.
* **Extsort**: `sort.Slice` and snappy enter as hypotheses of the theorems (sorts; decompress after compress is identity).
* **Statedb**: words, addresses and hashes are numbers; the EVM interpreter is any sequence of StateDB calls.
* **Feemarket/Epochs/Vesting**: integers unbounded except where the property is about machine arithmetic.
* **Hyperion**: addresses, validators, signatures are numbers in `Valset.v` and byte strings in `Keys.v`/`Claims.v`.
  Voting power, staking and slashing facts are inputs of each block.  Float comparisons are replaced by exact integer ones
  (justified where they occur).  `OrchestratorHyperionData` and `ConfirmMultipleBatches` are not modelled.
  `sdk.AccAddressFromBech32` applied to an operator address is a Section variable, because the repository uses a fork of the SDK.
  Genesis: default tokens and the batch block index are left out; coins and metadata are kept by x/bank.
* **Chronos**: what an EVM call of a task does is one of: pay, cancel a task, update a task (any sequence); receipts bodies are opaque.
  The `EndBlock` body in `module.go` is commented out in the repository and therefore absent.
* **Evmtx**: contract behaviour is an arbitrary function `run` (gas, logs, refund, transfers, failure); the signature check and
  mempool-only checks are not modelled; London rules; 18 decimals; the current event format only.
* **Versiondb**: RocksDB is the list of its live entries in comparator order, with Get, iterators, batches and SST writers as
  documented; compression and the CLI's concurrency between stores are outside.
* **Erc20**: x/bank and x/authz belong to the SDK; what the precompile calls of them is modelled as documented (balances, send
  switch, blocked receivers, vesting locks; grants with limits, receivers and expiry).  Gas, ABI packing and denomination syntax
  are outside; a failing call changes nothing (C15 for the state database).  In the registry the SHA-256 identifier of a pair is
  the hashed text itself, and the checksummed text of an address is any function that gives a text of that address.
  Conversions: one pair and one channel; the contract is a Section variable, an ordinary token a map of balances.
* **Rpc**: HTTP, JSON decoding and the Tendermint client are outside.
* **Evm/Analysis** models x/evm/core/vm/analysis.go and validJumpdest (contract.go); the cache of analysed code (Contract.jumpdests) is left out, it stores the same value.
* **Evm/Words, World, Memory, Table, Interp** model the forked interpreter x/evm/core/vm (interpreter.go, instructions.go, jump_table.go, gas_table.go, operations_acl.go, gas.go, memory.go, memory_table.go, stack.go, common.go, contract.go, evm.go, eips.go as far as London enables them). The state database is a value (C18 relates journal and value), keccak is an arbitrary function, precompiles and the permission hooks are arbitrary functions with the promises that each theorem states. Left out: tracers, the abort flag, object pools, hard forks other than London, extra EIPs switched on by parameters. Numbers are unbounded with the wrap-around of uint64 and 256-bit words written out.
* **Evm/Message.v** ApplyMessageWithConfig of x/evm/keeper/state_transition.go with intrinsic gas (go-ethereum core.IntrinsicGas), PrepareAccessList and GasToRefund, around the modelled interpreter; London rules. Not modelled: tracing, the commit of the state (C54), the minimum gas share (C65).
* **Evm/Estimate.v** the gas estimate of x/evm/keeper/grpc_query.go over `apply_message` of C101. Not modelled: overrides of state, the trip through JSON of the arguments.
* **Rpc/Fees.v** eth_feeHistory. Floating point division and products are abstract functions; the missing lock of the cache (Go may abort the process when two queries write it at once) is not modelled: queries run one after the other.
* **Built-in contracts: staking approvals and authority** (`Precompiles/`): `precompiles/staking` (calls and approvals), `precompiles/authorization`, and for the other built-in contracts whose authority a call uses. The SDK's authz keeper and staking message server are outside; the first is modelled from its documented behaviour, the second is a section variable. Gas, ABI decoding and events are not modelled here.
* **C106 (money moved by built-in contracts)** reuses the state database model of C18-C21. Effects of built-in contracts are functions on the bank's store; reverts and self-destructs are excluded from the exactness theorem (C18 and C20 cover them).
* **Ante** (`app/ante`): routing by extension option, rejected and delegated messages, minimum gas price, dynamic fee check and deduction, gas of signatures.  Not modelled: the sdk's own decorators (memo, timeout, signature verification itself), LegacyDec's bit limit, the check that fee granters allow the fee.
* **Eip712** (`eip712/*.go`, and the encoder of go-ethereum's apitypes, which the repository copies in `app/ante/typeddata/typed_data.go`): from the amino JSON payload, as a tree, to the signed bytes. keccak, the title-casing function, the reading of numbers from texts, chain number and signers are Section variables. Not modelled: JSON text and gjson paths (keys are plain names), the rounding of JSON numbers to float64 (numbers are whole and already rounded), amino and protobuf decoding, the older encoding (`encoding_legacy.go`), ECDSA.
* **Ics20** models the cross-chain transfer contract's approvals (approve, revoke, increase, decrease, allowance query) and its transfer with the approval check before and the write-off after. Not modelled: the transfer module itself, name and denomination syntax, the memo rule (all section variables), the balance changes reported to the EVM, the events.
* **Assets** models x/erc20/keeper/whitelist.go, the three consensus-asset messages and proposal handlers and their stateless checks. The staking keeper's UpdateAssetWeight is in a fork outside /repo: its calls are recorded and it may refuse any of them. TrimSpace is modelled for ASCII white space. Failed or panicking governance actions leave no trace (cached context of the SDK).
* **Ethmsg** (C112): x/evm/types msg.go, tx_data.go, legacy_tx.go, access_list_tx.go, dynamic_fee_tx.go, access_list.go, utils/eth/eth.go and SendRawTransaction up to the broadcast. go-ethereum's transaction, RLP and hexadecimal functions are outside /repo and modelled from v1.10.27. Not modelled: the protobuf bytes of the message, the signature check (C65, C66), the change of decimals of the fee coin.
* **Limits** (C113): server/middleware and its use in server/json_rpc.go and server/routes/rpc_routes.go. A request reads the clock once; the locks make each call atomic (MethodRateLimiter.Allow writes its map under a read lock: that data race is not modelled). Not modelled: metrics, logging, the body checks before the limits, JSON batches.
* **Vesting, Stake** (C114): x/staking/keeper/msg_server.go. The SDK's staking module is outside /repo: a delegation takes the coins from the whole balance and is tracked by the account, unbonded coins come back, slashes burn staked coins. Validators, shares and the time an unbonding takes are not modelled.
* **Rpc, Filters** (C115): a request to unsubscribe and the reaction of goroutines to closed channels happen in one step with the call; which goroutine is ready for a report is an input of every report; ids are fresh by hypothesis (128 random bits); the websocket to the node is external. The subscriptions over websockets (rpc/websockets.go) are not modelled.
* **Hyperion, Evidence** (C116): keccak and the recovery of an address from a signature are variables; the exact condition assumes that two different requests do not have the same hash. UnpackAny, Validator.ConsensusPower and Slash of the SDK are external and modelled from their documented behaviour. Loading an exported state is reduced to the loss of the archive of checkpoints (C41 has the rest).
* **Hyperion, History** (C117): the lists of waiting, batched and incoming transfers are given, after filtering and sorting; addresses are numbers, and the two readings of an address text in the query are two numbers. Numbers of transfers do not overflow 64 bits.
* **Logos** (C118): SHA-256 and the PNG decoder are variables; lasting claims assume that different texts have different hashes. Hash texts are numbers, so keys that are not SHA-256 texts (possible in a genesis only) are ordered as numbers. Generated placeholder logos are a variable; HTTP headers, the memory use of the PNG decoder and gas are not modelled.
* **New tokens** (C119): the SDK fork is not in the repository, so the validation of bank metadata and of coin names follows the public v0.50 behaviour. The checksummed text of an address is a variable of 42 usual characters. One bridge, and only tokens that come from the other chain; the ERC-20 pair that is made with the coin is assumed to succeed, and bridge addresses of tokens set by governance are not modelled.
* **Coin information** (C120): thresholds and rates come from the forked SDK and are variables. LegacyDec follows the public cosmossdk.io/math; its zero value is modelled as a value without a number, and computing with it panics. The date and constant texts of the answer are left out, as is the conversion of the panic into an error by the server.
* **Registrations on a bridge** (C121): one bridge; an account and the validator with the same bytes are one number, so the reading of addresses is not modelled. Whether the sender is a validator and the account is on the whitelist is part of the message. Of an orchestrator's data only the two fees are kept. Registrations from a genesis are not modelled here.
* **Records of scheduled tasks** (C122): the store behind `ArchiveStore` is in the forked SDK, which is not in the repository; it is taken to be an ordered map like the others. Pages are not modelled: a list is all pages together. Of a transaction its number, task, hash and block are kept. The conversion of a record for the answer, which can fail, is not modelled. Readings below height 34800 use other keys (fixed width) and are covered by the older model.
* **Whitelist of a bridge** (C123): reading and writing addresses as text are parameters with one law (an address is read back from its usual spelling). The set of bridges is given with each message, so bridges may come and go. The comparison of the sender with the authority is by account, in the code it is by text.
* **Bridges and their founders** (C124): five fields of a bridge; accounts instead of their texts. Tokens, counters and validator sets set up with a bridge are not modelled here, nor what deletion does to transfers (Pool.v has that). Parameters set as a whole by the authority (`UpdateParams`) and those of a genesis can break the invariant and are outside the histories; so are the other administrative messages of msg_server_testnet.go.
* **Tokens issued by hand** (C125): one token; the bank is the SDK's, not in the repository, and is taken to move, mint and burn as documented. Whether the sender is entitled and the token known and foreign is part of the message (C123 and C124 have the test of the sender).
* **Nodes of a bridge** (C126): one bridge; sorting is a parameter that permutes and orders by height, so the order of equal heights, which Go leaves open, does not matter. Reputation is an integer without bound. Who may add and remove by message is in C123 and C124.
`Extdata` (questions to other chains): addresses and denominations are numbers; requests are a list (the order of the store cannot be seen); the second index by block, which is never read, RPC lists, events and gas are left out; counters do not wrap; making the callback job is reduced to its number and its deposit; deleting while iterating is taken to visit every entry.
Revenue: bech32 and `crypto.CreateAddress` are parameters; contracts are 20 bytes (hex texts are read by HexToAddress wherever used); protobuf of an entry, gas for address derivation, paging and events are left out; whether accounts exist, have code or may receive is an input of every operation.
Tokenfactory: bech32 is a parameter (any format of letters and digits in which the text of an account reads back; several texts per account allowed); the bank is a function of balances with vesting as an input; distribution's fee-pool bookkeeping, events and gas are left out; other modules are assumed not to mint coins of the form factory/account/name.

Not modelled at all: the CLI, protobuf generated code, gRPC query plumbing, consensus.

## Trusted base

* The Coq 8.16.1 kernel (`coqc`; also re-checked with `coqchk`).
* The correspondence between the Go text and the model files, made visible by the citations.
* `Print Assumptions` answers "Closed under the global context" for **every** property theorem: none uses an axiom.
  Oracles (hash functions, bank, EVM, sorting) are Section variables and thus universally quantified arguments of the theorems.
* The standard library (`List`, `ZArith`) loads the module `Coq.ssr.ssrunder`, whose module type declares seven abstract
  constants (`Under_rel.{Under_rel, Under_rel_from_rel, Under_relE, under_rel_done, Over_rel, over_rel, over_rel_done}`).
  `coqchk` lists them for any development that loads the standard library.  No theorem here depends on them.
* No functors, module types, native compilation, plugins or relaxed kernel checks.

## Wrong programs

`seeded/LOG.jsonl` records every deliberate bug put into a scratch copy of the model, the claim it breaks and the theorems that
then failed to build.  `theorems_failed` names the first theorem or lemma to stop compiling in a file.  Such a failure can come from
a broken proof script whose statement is still true of the edited program, and what follows it in that file is not tried.
Edits that survived led to stronger theorems (field `theorems_tightened`).
