-Q theories Verif
theories/Base.v
theories/SortProofs.v
theories/PowModel.v
theories/BlockModel.v
theories/BlockSpec.v
theories/BlockProofs.v
theories/BlockOps.v
theories/BlockImport.v
theories/BlockRun.v
theories/BlockRules.v
theories/BlockHistory.v
theories/BlockFacts.v
theories/BlockQueries.v
theories/PowProofs.v
theories/BlockMain.v
theories/BlockOrigin.v
theories/ConvergeSpec.v
theories/BlockConverge.v
theories/ConvergeProofs.v
theories/BlockExample.v
theories/BlockProps.v
theories/ConvergeProps.v
theories/UtilModel.v
theories/UtilSpec.v
theories/UtilProofs.v
theories/UtilProps.v
theories/StoreModel.v
theories/StoreSpec.v
theories/StoreProofs.v
theories/StoreCrash.v
theories/StoreProps.v
theories/RunEx.v
theories/FeeModel.v
theories/FeeSpec.v
theories/FeeProofs.v
theories/FeeProps.v
theories/InvModel.v
theories/InvSpec.v
theories/InvProofs.v
theories/InvTrack.v
theories/InvViews.v
theories/InvMore.v
theories/InvOrigin.v
theories/InvFee.v
theories/InvProps.v
theories/CbfModel.v
theories/CbfSpec.v
theories/CbfProofs.v
theories/CbfStep.v
theories/CbfMain.v
theories/CbfScan.v
theories/CbfFacts.v
theories/CbfWatch.v
theories/CbfDrop.v
theories/CbfWait.v
theories/CbfAsked.v
theories/CbfSeen.v
theories/CbfProps.v
theories/PingModel.v
theories/PingSpec.v
theories/PingProofs.v
theories/PingProps.v
theories/SyncModel.v
theories/SyncSpec.v
theories/SyncProofs.v
theories/SyncMain.v
theories/SyncFacts.v
theories/SyncEvents.v
theories/SyncTold.v
theories/SyncRetry.v
theories/SyncAsk.v
theories/SyncProps.v
theories/AddrModel.v
theories/AddrSpec.v
theories/AddrProofs.v
theories/AddrMain.v
theories/AddrStep.v
theories/AddrFacts.v
theories/AddrMore.v
theories/AddrWord.v
theories/AddrProps.v
theories/PeerModel.v
theories/PeerSpec.v
theories/PeerProofs.v
theories/PeerMain.v
theories/PeerFacts.v
theories/PeerMore.v
theories/PeerRetry.v
theories/PeerEvents.v
theories/PeerDial.v
theories/PeerProps.v
theories/NetModel.v
theories/NetSpec.v
theories/NetProofs.v
theories/NetProps.v
theories/WalletModel.v
theories/WalletSpec.v
theories/WalletProofs.v
theories/WalletProps.v
theories/PfileModel.v
theories/PfileSpec.v
theories/PfileProofs.v
theories/PfileProps.v
theories/DispModel.v
theories/DispSpec.v
theories/DispProofs.v
theories/DispProps.v
theories/ReactModel.v
theories/ReactSpec.v
theories/ReactProofs.v
theories/ReactProps.v
theories/RulesProofs.v
theories/RulesProps.v
theories/FeeRates.v
theories/FeeRatesProps.v
theories/LoadModel.v
theories/LoadSpec.v
theories/LoadProofs.v
theories/LoadProps.v
theories/NodeModel.v
theories/NodeSpec.v
theories/NodeProofs.v
theories/NodeTold.v
theories/NodeLogSpec.v
theories/NodeLog.v
theories/NodeSeen.v
theories/NodeFetch.v
theories/NodeSingle.v
theories/NodeTip.v
theories/NodeProps.v
theories/NodeLogProps.v
theories/FullModel.v
theories/FullSpec.v
theories/FullSim.v
theories/FullProofs.v
theories/FullProps.v
theories/ClientModel.v
theories/FullChainSpec.v
theories/FullChain.v
theories/FullChainProps.v
theories/ClientSpec.v
theories/ClientProofs.v
theories/ClientWaits.v
theories/ClientProps.v
theories/ClientWaitProps.v
theories/ClientChain.v
theories/ClientChainProps.v
theories/FullMgrSpec.v
theories/FullMgr.v
theories/FullLinkSpec.v
theories/FullLink.v
theories/FullLinked.v
theories/FullMgrProps.v
theories/FullLinkProps.v
theories/FullNodeSpec.v
theories/FullNode.v
theories/FullWrites.v
theories/FullNodeProps.v
theories/OrderSpec.v
theories/OrderProofs.v
theories/OrderBlocks.v
theories/OrderMore.v
theories/OrderNode.v
theories/OrderProps.v
theories/OrderNodeProps.v
theories/PoolSpec.v
theories/PoolProofs.v
theories/PoolFull.v
theories/PoolProps.v
theories/TakeSpec.v
theories/TakeProofs.v
theories/TakeFull.v
theories/TakeProps.v
theories/SimModel.v
theories/SimSpec.v
theories/SimProofs.v
theories/SimSpace.v
theories/SimLinks.v
theories/SimFire.v
theories/SimProps.v
theories/ScreenModel.v
theories/ScreenSpec.v
theories/ScreenProofs.v
theories/ScreenPanic.v
theories/ScreenLoad.v
theories/ScreenEnds.v
theories/ScreenProps.v
