-Q theories Verif
theories/Base.v
theories/CodecModel.v
theories/CodecProofs.v
theories/TxModel.v
theories/ValidationModel.v
theories/ValidationSpec.v
theories/ValidationProofs.v
theories/CodecSpec.v
theories/MsgModel.v
theories/MsgProofs.v
theories/TxSpec.v
theories/TxProofs.v
theories/WireProofs.v
theories/CodecMore.v
theories/P_Codec.v
theories/ValidationCorollaries.v
theories/TxExamples.v
theories/CollideSpec.v
theories/CollideProofs.v
theories/P_Tx.v
theories/P_Validation.v
theories/CacheModel.v
theories/LockingShardModel.v
theories/LockingShardSpec.v
theories/LockingShardProofs.v
theories/CacheProofs.v
theories/P_Cache.v
theories/LockingShardCorollaries.v
theories/LockingShardExamples.v
theories/P_LockingShard.v
theories/TwoPhaseModel.v
theories/TwoPhaseSpec.v
theories/TwoPhaseNode.v
theories/TwoPhaseProofs.v
theories/TwoPhaseCorollaries.v
theories/TwoPhaseRanges.v
theories/TwoPhaseRecovery.v
theories/TwoPhaseExamples.v
theories/TwoPhaseFinal.v
theories/P_TwoPhase.v
theories/ParsecShardModel.v
theories/ParsecShardSpec.v
theories/ParsecShardProofs.v
theories/ParsecShardSteps.v
theories/ParsecShardRuns.v
theories/ParsecShardFinal.v
theories/ParsecShardExamples.v
theories/P_ParsecShard.v
theories/FailoverModel.v
theories/FailoverSpec.v
theories/FailoverProofs.v
theories/FailoverExamples.v
theories/P_Failover.v
theories/BrokerModel.v
theories/BrokerSpec.v
theories/BrokerShard.v
theories/BrokerInv.v
theories/BrokerStage.v
theories/BrokerHandle.v
theories/BrokerNet.v
theories/BrokerExec.v
theories/BrokerRecover.v
theories/BrokerProofs.v
theories/BrokerFinal.v
theories/BrokerExamples.v
theories/P_Broker.v
theories/AtomizerModel.v
theories/AtomizerShardModel.v
theories/AtomizerSystemModel.v
theories/AtomizerSpec.v
theories/AtomizerProofs.v
theories/AtomizerSmProofs.v
theories/AtomizerShardSpec.v
theories/AtomizerShardProofs.v
theories/AtomizerCalls.v
theories/AtomizerSystemProofs.v
theories/AtomizerExamples.v
theories/P_Atomizer.v
theories/AtomizerSnapshotModel.v
theories/AtomizerSnapshotSpec.v
theories/AtomizerSnapshotProofs.v
theories/AtomizerSnapshotExamples.v
theories/P_AtomizerSnapshot.v
theories/ArchiverModel.v
theories/ArchiverSpec.v
theories/ArchiverProofs.v
theories/ArchiverExamples.v
theories/P_Archiver.v
theories/WatchtowerModel.v
theories/WatchtowerSpec.v
theories/WatchtowerProofs.v
theories/WatchtowerExamples.v
theories/P_Watchtower.v
theories/WalletModel.v
theories/WalletSpec.v
theories/WalletProofs.v
theories/WalletExamples.v
theories/P_Wallet.v
theories/TicketModel.v
theories/TicketSpec.v
theories/TicketProofs.v
theories/TicketExamples.v
theories/P_Ticket.v
theories/QueueModel.v
theories/QueueSpec.v
theories/QueueProofs.v
theories/P_Queue.v
theories/HexModel.v
theories/HexSpec.v
theories/HexProofs.v
theories/P_Hex.v
theories/LogStoreModel.v
theories/LogStoreSpec.v
theories/LogStoreProofs.v
theories/P_LogStore.v
theories/RpcModel.v
theories/RpcSpec.v
theories/RpcProofs.v
theories/P_Rpc.v
theories/RlpModel.v
theories/RlpSpec.v
theories/RlpProofs.v
theories/EvmMathModel.v
theories/EvmMathSpec.v
theories/EvmMathProofs.v
theories/EvmTxModel.v
theories/EvmTxSpec.v
theories/EvmTxProofs.v
theories/EvmTxExamples.v
theories/P_Rlp.v
theories/P_EvmMath.v
theories/P_EvmTx.v
theories/EvmHostModel.v
theories/EvmHostSpec.v
theories/EvmHostProofs.v
theories/EvmHostSteps.v
theories/EvmHostRuns.v
theories/EvmHostFinal.v
theories/EvmHostMore.v
theories/EvmHostHistory.v
theories/EvmHostReceipt.v
theories/EvmHostLogs.v
theories/EvmHostExamples.v
theories/P_EvmHost.v
theories/ClientModel.v
theories/ClientSpec.v
theories/ClientProofs.v
theories/ClientExamples.v
theories/PaySpec.v
theories/PayProofs.v
theories/PayExamples.v
theories/P_Client.v
theories/P_Pay.v
theories/SentinelModel.v
theories/SentinelSpec.v
theories/SentinelProofs.v
theories/SentinelExamples.v
theories/P_Sentinel.v
theories/SupplySpec.v
theories/SupplyProofs.v
theories/SupplySystemProofs.v
theories/SupplyExamples.v
theories/P_Supply.v
theories/SocketModel.v
theories/SocketSpec.v
theories/SocketProofs.v
theories/DispatchModel.v
theories/DispatchSpec.v
theories/DispatchProofs.v
theories/DispatchExamples.v
theories/PeerModel.v
theories/PeerSpec.v
theories/PeerProofs.v
theories/PeerExamples.v
theories/P_Network.v
theories/AgentModel.v
theories/AgentSpec.v
theories/AgentProofs.v
theories/AgentServer.v
theories/AgentLocks.v
theories/AgentLife.v
theories/AgentServe.v
theories/AgentReason.v
theories/AgentFacts.v
theories/AgentExamples.v
theories/P_Agent.v
theories/ConfigModel.v
theories/ConfigSpec.v
theories/ConfigText.v
theories/ConfigProofs.v
theories/ConfigOptions.v
theories/ConfigCheck.v
theories/ConfigTotal.v
theories/ConfigExamples.v
theories/P_Config.v
theories/SeedModel.v
theories/SeedSpec.v
theories/SeedProofs.v
theories/SeedExamples.v
theories/P_Seed.v
theories/ServerModel.v
theories/ServerSpec.v
theories/ServerProofs.v
theories/ServerRaft.v
theories/ServerExamples.v
theories/P_Server.v
theories/RaftFilesModel.v
theories/RaftFilesSpec.v
theories/RaftFilesProofs.v
theories/RaftFilesExamples.v
theories/P_RaftFiles.v
theories/CoordBatchModel.v
theories/CoordBatchSpec.v
theories/CoordBatchProofs.v
theories/CoordBatchExamples.v
theories/P_CoordBatch.v
theories/EvmLogModel.v
theories/EvmLogSpec.v
theories/EvmLogProofs.v
theories/EvmLogQuery.v
theories/EvmBloomProofs.v
theories/EvmLogExamples.v
theories/P_EvmLog.v
theories/ApiModel.v
theories/ApiSpec.v
theories/ApiProofs.v
theories/ApiExamples.v
theories/P_Api.v
theories/LuaModel.v
theories/LuaSpec.v
theories/LuaProofs.v
theories/LuaExamples.v
theories/P_Lua.v
theories/PoolModel.v
theories/PoolSpec.v
theories/PoolProofs.v
theories/PoolExamples.v
theories/P_Pool.v
theories/AddressModel.v
theories/AddressSpec.v
theories/AddressCode.v
theories/AddressBits.v
theories/AddressProofs.v
theories/AddressExamples.v
theories/P_Address.v
theories/CliModel.v
theories/CliSpec.v
theories/CliProofs.v
theories/CliExamples.v
theories/P_Cli.v
theories/ParsecCfgModel.v
theories/ParsecCfgSpec.v
theories/ParsecCfgProofs.v
theories/ParsecCfgRound.v
theories/ParsecCfgExamples.v
theories/P_ParsecCfg.v
theories/RowModel.v
theories/RowSpec.v
theories/RowProofs.v
theories/RowGet.v
theories/RowMint.v
theories/RowExamples.v
theories/P_Row.v
theories/HttpModel.v
theories/HttpSpec.v
theories/HttpProofs.v
theories/HttpEnd.v
theories/HttpExamples.v
theories/P_Http.v
theories/LuaPayModel.v
theories/LuaPaySpec.v
theories/LuaPayProofs.v
theories/LuaPayRuns.v
theories/LuaPayExamples.v
theories/P_LuaPay.v
theories/LuaShardSpec.v
theories/LuaShardProofs.v
theories/LuaShardPay.v
theories/LuaShardExamples.v
theories/P_LuaShard.v
theories/RandModel.v
theories/RandSpec.v
theories/RandProofs.v
theories/ShaModel.v
theories/RandExamples.v
theories/P_Rand.v
theories/ShaSpec.v
theories/ShaProofs.v
theories/ShaCollision.v
theories/P_Sha.v
theories/SipModel.v
theories/SipSpec.v
theories/SipProofs.v
theories/P_Sip.v
