-Q theories Verif
theories/Base.v
theories/BaseProofs.v
theories/AmountModel.v
theories/DeltaModel.v
theories/DeltaSpec.v
theories/DeltaProofs.v
theories/DeltaProperties.v
theories/DeltaDbModel.v
theories/LayerProofs.v
theories/LayeredModel.v
theories/LayeredSpec.v
theories/LayeredProofs.v
theories/TokensModel.v
theories/TokensSpec.v
theories/TokensProofs.v
theories/TokensProperties.v
theories/OrdersModel.v
theories/OrdersSpec.v
theories/OrdersProofs.v
theories/OrdersProperties.v
theories/PosModel.v
theories/PosSpec.v
theories/PosProofs.v
theories/PosProperties.v
theories/UintModel.v
theories/UintSpec.v
theories/UintProofs.v
theories/UintShiftProofs.v
theories/UintProperties.v
theories/TextModel.v
theories/TextSpec.v
theories/TextProofs.v
theories/TextProperties.v
theories/PrimModel.v
theories/PrimSpec.v
theories/PrimProofs.v
theories/PrimProperties.v
theories/ChainModel.v
theories/UtxoModel.v
theories/UtxoSpec.v
theories/UtxoProofs.v
theories/UtxoProperties.v
theories/ConstraintsModel.v
theories/ConstraintsSpec.v
theories/ConstraintsProofs.v
theories/ConstraintsProperties.v
theories/RewardModel.v
theories/RewardSpec.v
theories/RewardProofs.v
theories/RewardProperties.v
theories/ScheduleModel.v
theories/ScheduleSpec.v
theories/ScheduleProofs.v
theories/ScheduleProperties.v
theories/StatusModel.v
theories/StatusSpec.v
theories/StatusProofs.v
theories/StatusProperties.v
theories/BlockTreeModel.v
theories/BlockTreeSpec.v
theories/BlockTreeProofs.v
theories/BlockTreeMoreProofs.v
theories/BranchProofs.v
theories/BlockTreeProperties.v
theories/AmountExtraModel.v
theories/AmountProperties.v
theories/ChainstateModel.v
theories/ChainstateSpec.v
theories/ChainstateProofs.v
theories/ChainstateApiProofs.v
theories/ChainstateRunProofs.v
theories/ChainstateCallProofs.v
theories/ChainstateReachProofs.v
theories/ChainstateProperties.v
theories/OrphanModel.v
theories/OrphanSpec.v
theories/OrphanProofs.v
theories/OrphanProperties.v
theories/ConsensusModel.v
theories/ConsensusSpec.v
theories/ConsensusProofs.v
theories/ConsensusProperties.v
theories/ScriptModel.v
theories/ScriptSpec.v
theories/ScriptProofs.v
theories/ScriptProperties.v
theories/UndoCacheModel.v
theories/UndoCacheSpec.v
theories/UndoCacheProofs.v
theories/UndoCacheProperties.v
theories/NonceModel.v
theories/NonceSpec.v
theories/NonceProofs.v
theories/NonceProperties.v
theories/VerifierModel.v
theories/VerifierRecords.v
theories/VerifierSteps.v
theories/VerifierParts.v
theories/VerifierTx.v
theories/VerifierBlock.v
theories/SupplySpec.v
theories/HoldingProofs.v
theories/VerifierChain.v
theories/VerifierPast.v
theories/VerifierHistory.v
theories/SupplyProofs.v
theories/VerifierPools.v
theories/VerifierTokens.v
theories/VerifierProperties.v
theories/MempoolModel.v
theories/MempoolSpec.v
theories/MempoolGraph.v
theories/MempoolTraverse.v
theories/MempoolFolds.v
theories/MempoolAdd.v
theories/MempoolInsert.v
theories/MempoolRemove.v
theories/MempoolHistory.v
theories/MempoolProperties.v
theories/TemplateModel.v
theories/TemplateSpec.v
theories/TemplateProofs.v
theories/TemplateCollect.v
theories/TemplateProperties.v
theories/VerifierKeep.v
theories/TemplateVerifier.v
theories/CoinSelectModel.v
theories/CoinSelectSpec.v
theories/CoinSelectProofs.v
theories/CoinSelectSrd.v
theories/CoinSelectKnapsack.v
theories/CoinSelectBnb.v
theories/CoinSelectProperties.v
theories/SendModel.v
theories/SendSpec.v
theories/SendProofs.v
theories/SendLoop.v
theories/SendProperties.v
theories/CodecModel.v
theories/CodecSpec.v
theories/CodecProofs.v
theories/WireModel.v
theories/WireSpec.v
theories/WireProofs.v
theories/WireProperties.v
theories/SighashModel.v
theories/SighashSpec.v
theories/SighashProofs.v
theories/SighashProperties.v
theories/AuthModel.v
theories/AuthSpec.v
theories/AuthProofs.v
theories/AuthProperties.v
theories/HtlcModel.v
theories/HtlcSpec.v
theories/HtlcProofs.v
theories/HtlcProperties.v
theories/FrameModel.v
theories/FrameSpec.v
theories/FrameProofs.v
theories/FrameProperties.v
theories/BloomModel.v
theories/BloomSpec.v
theories/BloomProofs.v
theories/BloomProperties.v
theories/SyncModel.v
theories/SyncSpec.v
theories/SyncProofs.v
theories/SyncProperties.v
theories/DownloadModel.v
theories/DownloadSpec.v
theories/DownloadProofs.v
theories/DownloadProperties.v
theories/KeyChainModel.v
theories/KeyChainSpec.v
theories/KeyChainProofs.v
theories/KeyChainProperties.v
theories/OutputCacheModel.v
theories/OutputCacheSpec.v
theories/OutputCacheProofs.v
theories/OutputCacheProperties.v
theories/TxOrphanModel.v
theories/TxOrphanSpec.v
theories/TxOrphanProofs.v
theories/TxOrphanProperties.v
theories/VaultModel.v
theories/VaultSpec.v
theories/VaultProofs.v
theories/VaultProperties.v
theories/WalletSyncModel.v
theories/WalletSyncSpec.v
theories/WalletSyncProofs.v
theories/WalletSyncScan.v
theories/WalletSyncRun.v
theories/WalletSyncEnd.v
theories/WalletSyncProperties.v
theories/ScannerModel.v
theories/ScannerSpec.v
theories/ScannerTables.v
theories/ScannerLedger.v
theories/ScannerSteps.v
theories/ScannerProofs.v
theories/ScannerChain.v
theories/ScannerProgress.v
theories/ScannerSync.v
theories/ScannerFinal.v
theories/ScannerExamples.v
theories/ScannerProperties.v
theories/EvictionModel.v
theories/EvictionSpec.v
theories/EvictionProofs.v
theories/EvictionFinal.v
theories/EvictionProperties.v
theories/PeerTableModel.v
theories/PeerTableProofs.v
theories/PeerDbModel.v
theories/PeerDbSpec.v
theories/PeerDbProofs.v
theories/PeerDbSteps.v
theories/PeerDbBans.v
theories/PeerDbBook.v
theories/PeerDbProperties.v
theories/PeerManagerModel.v
theories/PeerManagerSpec.v
theories/PeerManagerProofs.v
theories/PeerManagerSteps.v
theories/PeerManagerRun.v
theories/PeerManagerLedger.v
theories/PeerManagerFinal.v
theories/PeerManagerCalls.v
theories/PeerManagerSpare.v
theories/PeerManagerProperties.v
theories/PeerManagerTalkSpec.v
theories/PeerManagerTalk.v
theories/PeerManagerTalkSteps.v
theories/PeerManagerTalkProperties.v
theories/TxRelayModel.v
theories/TxRelaySpec.v
theories/TxRelayProofs.v
theories/TxRelayHistory.v
theories/TxRelayProperties.v
theories/PeerManagerBlameProperties.v
theories/BestTxsModel.v
theories/BestTxsSpec.v
theories/BestTxsProofs.v
theories/BestTxsProperties.v
theories/CrawlerModel.v
theories/CrawlerSpec.v
theories/CrawlerProofs.v
theories/CrawlerMoves.v
theories/CrawlerProperties.v
theories/CrawlerOutcomeProperties.v
theories/CrawlerPanicProperties.v
theories/DnsAnswerModel.v
theories/DnsAnswerProperties.v
theories/TxRelayPacingProperties.v
theories/DnsShareProperties.v
theories/DnsConnectedProperties.v
