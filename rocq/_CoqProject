-Q theories Verif
theories/Lib/Base.v
theories/Feemarket/Model.v
theories/Feemarket/Spec.v
theories/Feemarket/Proofs.v
theories/Feemarket/Props.v
theories/Epochs/Model.v
theories/Epochs/Spec.v
theories/Epochs/Proofs.v
theories/Epochs/Props.v
theories/Lib/Bytes.v
theories/Memiavl/Model.v
theories/Memiavl/Spec.v
theories/Memiavl/TreeProofs.v
theories/Memiavl/Proofs.v
theories/Memiavl/Props.v
theories/Lib/Codec.v
theories/Lib/Coins.v
theories/Memiavl/HashModel.v
theories/Memiavl/SnapshotModel.v
theories/Memiavl/SnapshotSpec.v
theories/Memiavl/SnapshotProofs.v
theories/Memiavl/PropsSnapshot.v
theories/Memiavl/ProofModel.v
theories/Memiavl/ProofSpec.v
theories/Memiavl/ProofProofs.v
theories/Memiavl/PropsProof.v
theories/Memiavl/HeapModel.v
theories/Memiavl/HeapSpec.v
theories/Memiavl/HeapProofs.v
theories/Memiavl/PropsHeap.v
theories/Memiavl/DbModel.v
theories/Memiavl/DbSpec.v
theories/Memiavl/DbApplyProofs.v
theories/Memiavl/DbProofs.v
theories/Memiavl/DbInv.v
theories/Memiavl/PropsDb.v
theories/Memiavl/PropsDbCases.v
theories/Wal/Model.v
theories/Wal/Spec.v
theories/Wal/Proofs.v
theories/Wal/Props.v
theories/Extsort/Model.v
theories/Extsort/Spec.v
theories/Extsort/Proofs.v
theories/Extsort/Props.v
theories/Vesting/Model.v
theories/Vesting/Spec.v
theories/Vesting/Proofs.v
theories/Vesting/AccProofs.v
theories/Vesting/Props.v
theories/Vesting/Keeper.v
theories/Vesting/KeeperProofs.v
theories/Vesting/PropsKeeper.v
theories/Lib/Amap.v
theories/Lib/Kv.v
theories/Lib/Dec.v
theories/Lib/Zmap.v
theories/Statedb/Model.v
theories/Statedb/Spec.v
theories/Statedb/Proofs.v
theories/Statedb/RevertProofs.v
theories/Statedb/SimProofs.v
theories/Statedb/CommitProofs.v
theories/Statedb/HistoryProofs.v
theories/Statedb/Props.v
theories/Hyperion/Keys.v
theories/Hyperion/KeySpec.v
theories/Hyperion/KeyProofs.v
theories/Hyperion/PropsKeys.v
theories/Hyperion/Claims.v
theories/Hyperion/ClaimSpec.v
theories/Hyperion/ClaimProofs.v
theories/Hyperion/PropsClaims.v
theories/Hyperion/Attest.v
theories/Hyperion/AttestSpec.v
theories/Hyperion/AttestProofs.v
theories/Hyperion/PropsAttest.v
theories/Hyperion/Pool.v
theories/Hyperion/PoolSpec.v
theories/Hyperion/PoolProofs.v
theories/Hyperion/PropsPool.v
theories/Chronos/Model.v
theories/Chronos/Spec.v
theories/Chronos/Proofs.v
theories/Chronos/QueueProofs.v
theories/Chronos/RunProofs.v
theories/Chronos/Props.v
theories/Rpc/Cache.v
theories/Rpc/CacheSpec.v
theories/Rpc/CacheProofs.v
theories/Rpc/CacheProofs2.v
theories/Rpc/PropsCache.v
theories/Rpc/Pubsub.v
theories/Rpc/PubsubSpec.v
theories/Rpc/PubsubProofs.v
theories/Rpc/PropsPubsub.v
theories/Evmtx/Model.v
theories/Evmtx/Spec.v
theories/Evmtx/Proofs.v
theories/Evmtx/Proofs2.v
theories/Evmtx/Props.v
theories/Evmtx/Index.v
theories/Evmtx/Logs.v
theories/Evmtx/IndexSpec.v
theories/Evmtx/IndexProofs.v
theories/Evmtx/PropsIndex.v
theories/Evmtx/PropsLogs.v
theories/Hyperion/Valset.v
theories/Hyperion/ValsetSpec.v
theories/Hyperion/ValsetProofs.v
theories/Hyperion/ValsetRuns.v
theories/Hyperion/ValsetHistory.v
theories/Hyperion/PropsValset.v
theories/Hyperion/GenesisPool.v
theories/Hyperion/GenesisSets.v
theories/Hyperion/GenesisVotes.v
theories/Hyperion/GenesisPoolProofs.v
theories/Hyperion/GenesisSetsProofs.v
theories/Hyperion/GenesisVotesProofs.v
theories/Hyperion/PropsGenesisPool.v
theories/Hyperion/PropsGenesisSets.v
theories/Hyperion/PropsGenesisVotes.v
theories/Versiondb/Model.v
theories/Versiondb/Spec.v
theories/Versiondb/Proofs.v
theories/Versiondb/History.v
theories/Versiondb/Iterate.v
theories/Versiondb/Fix.v
theories/Versiondb/PropsReads.v
theories/Versiondb/PropsIterate.v
theories/Versiondb/PropsFix.v
theories/Versiondb/Changeset.v
theories/Versiondb/ChangesetSpec.v
theories/Versiondb/ChangesetProofs.v
theories/Versiondb/PropsChangeset.v
theories/Versiondb/Sst.v
theories/Versiondb/PropsSst.v
theories/Versiondb/Restore.v
theories/Versiondb/PropsRestore.v
theories/Erc20/Model.v
theories/Erc20/Spec.v
theories/Erc20/Proofs.v
theories/Erc20/PropsToken.v
theories/Erc20/PropsAllowance.v
theories/Erc20/Registry.v
theories/Erc20/RegistrySpec.v
theories/Erc20/RegistryProofs.v
theories/Erc20/PropsRegistry.v
theories/Erc20/Convert.v
theories/Erc20/ConvertSpec.v
theories/Erc20/ConvertProofs.v
theories/Erc20/PropsConvert.v
theories/Erc20/PropsBacking.v
theories/Tokenfactory/Model.v
theories/Tokenfactory/Spec.v
theories/Tokenfactory/Proofs.v
theories/Tokenfactory/HistoryProofs.v
theories/Tokenfactory/PropsControl.v
theories/Tokenfactory/PropsNames.v
theories/Revenue/Model.v
theories/Revenue/Spec.v
theories/Revenue/Proofs.v
theories/Revenue/HistoryProofs.v
theories/Revenue/PropsRegistry.v
theories/Revenue/PropsPay.v
theories/Extdata/Model.v
theories/Extdata/Spec.v
theories/Extdata/Proofs.v
theories/Extdata/HistoryProofs.v
theories/Extdata/Example.v
theories/Extdata/PropsAsk.v
theories/Extdata/PropsAnswer.v
theories/Evm/Analysis.v
theories/Evm/AnalysisSpec.v
theories/Evm/AnalysisProofs.v
theories/Evm/PropsJump.v
theories/Evm/Words.v
theories/Evm/World.v
theories/Evm/Memory.v
theories/Evm/Table.v
theories/Evm/Interp.v
theories/Evm/MemoryProofs.v
theories/Evm/TableProofs.v
theories/Evm/StepProofs.v
theories/Evm/Effects.v
theories/Evm/WorldProofs.v
theories/Evm/SafeProofs.v
theories/Evm/Ledger.v
theories/Evm/LedgerProofs.v
theories/Evm/EffectsProofs.v
theories/Evm/RunSpec.v
theories/Evm/RunProofs.v
theories/Evm/Example.v
theories/Evm/PropsRun.v
theories/Evm/PropsCalls.v
theories/Evm/PropsMoney.v
theories/Evm/WordSpec.v
theories/Evm/WordProofs.v
theories/Evm/PropsWords.v
theories/Evm/DataSpec.v
theories/Evm/DataProofs.v
theories/Evm/PropsData.v
theories/Evm/PropsStorage.v
theories/Evm/CallSpec.v
theories/Evm/CallProofs.v
theories/Evm/PropsPassing.v
theories/Evm/Message.v
theories/Evm/PropsMessage.v
theories/Evm/Estimate.v
theories/Evm/PropsEstimate.v
theories/Rpc/Fees.v
theories/Rpc/FeesSpec.v
theories/Rpc/FeesProofs.v
theories/Rpc/PropsFees.v
theories/Precompiles/Staking.v
theories/Precompiles/StakingSpec.v
theories/Precompiles/StakingProofs.v
theories/Precompiles/PropsStaking.v
theories/Precompiles/Authority.v
theories/Precompiles/PropsAuthority.v
theories/Statedb/MoneySpec.v
theories/Statedb/MoneyProofs.v
theories/Statedb/PropsMoney.v
theories/Ante/Model.v
theories/Ante/Spec.v
theories/Ante/Proofs.v
theories/Ante/Props.v
theories/Eip712/Model.v
theories/Eip712/Spec.v
theories/Eip712/Proofs.v
theories/Eip712/Inject.v
theories/Eip712/Gen.v
theories/Eip712/Payload.v
theories/Eip712/Props.v
theories/Ics20/Model.v
theories/Ics20/Spec.v
theories/Ics20/Proofs.v
theories/Ics20/Props.v
theories/Assets/Model.v
theories/Assets/Spec.v
theories/Assets/Proofs.v
theories/Assets/Props.v
theories/Ethmsg/Rlp.v
theories/Ethmsg/Model.v
theories/Ethmsg/Spec.v
theories/Ethmsg/Proofs.v
theories/Ethmsg/Props.v
theories/Limits/Model.v
theories/Limits/Spec.v
theories/Limits/Proofs.v
theories/Limits/Props.v
theories/Vesting/Stake.v
theories/Vesting/StakeSpec.v
theories/Vesting/StakeProofs.v
theories/Vesting/PropsStake.v
theories/Rpc/Filters.v
theories/Rpc/FiltersSpec.v
theories/Rpc/FiltersProofs.v
theories/Rpc/FiltersRun.v
theories/Rpc/FiltersOld.v
theories/Rpc/PropsFilters.v
theories/Hyperion/Evidence.v
theories/Hyperion/EvidenceSpec.v
theories/Hyperion/EvidenceProofs.v
theories/Hyperion/PropsEvidence.v
theories/Hyperion/History.v
theories/Hyperion/HistorySpec.v
theories/Hyperion/HistoryProofs.v
theories/Hyperion/PropsHistory.v
theories/Logos/Model.v
theories/Logos/Spec.v
theories/Logos/Proofs.v
theories/Logos/Props.v
theories/Hyperion/NewToken.v
theories/Hyperion/NewTokenSpec.v
theories/Hyperion/NewTokenProofs.v
theories/Hyperion/PropsNewToken.v
theories/Chaininfo/Model.v
theories/Chaininfo/Spec.v
theories/Chaininfo/Proofs.v
theories/Chaininfo/Props.v
theories/Hyperion/Delegate.v
theories/Hyperion/DelegateSpec.v
theories/Hyperion/PropsDelegate.v
theories/Chronos/Archive.v
theories/Chronos/ArchiveSpec.v
theories/Chronos/ArchiveProofs.v
theories/Chronos/PropsArchive.v
theories/Hyperion/Whitelist.v
theories/Hyperion/WhitelistSpec.v
theories/Hyperion/PropsWhitelist.v
theories/Hyperion/Registry.v
theories/Hyperion/RegistrySpec.v
theories/Hyperion/PropsRegistry.v
theories/Hyperion/Issue.v
theories/Hyperion/IssueSpec.v
theories/Hyperion/PropsIssue.v
theories/Hyperion/Nodes.v
theories/Hyperion/NodesSpec.v
theories/Hyperion/PropsNodes.v
