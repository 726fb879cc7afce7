-Q theories Verif
theories/Base.v
theories/BaseFacts.v
theories/Hex.v
theories/Types.v
theories/Rlp.v
theories/RlpFacts.v
theories/FixedCodec.v
theories/FixedCodecFacts.v
theories/CodecProps.v
theories/PropCodec.v
theories/StateAdapter.v
theories/StateAdapterFacts.v
theories/Executor.v
theories/ExecSpec.v
theories/ExecutorFacts.v
theories/ExecProps.v
theories/ExecBlock.v
theories/ExecMore.v
theories/AdapterProps.v
theories/ExecReward.v
theories/ExecOrder.v
theories/ExecChain.v
theories/PropExecutor.v
theories/Keccak.v
theories/ExecExamples.v
theories/TxMap.v
theories/TxMapFacts.v
theories/TxMapRun.v
theories/Mempool.v
theories/MempoolSpec.v
theories/MempoolFacts.v
theories/MempoolProps.v
theories/MempoolMore.v
theories/PropMempool.v
theories/MempoolExamples.v
theories/MempoolConc.v
theories/MempoolConcFacts.v
theories/MempoolConcProps.v
theories/MempoolConcMore.v
theories/MempoolConcSeq.v
theories/PropMempoolConc.v
theories/Broadcaster.v
theories/PropBroadcaster.v
theories/Proto.v
theories/ProtoFacts.v
theories/Wire.v
theories/WireFacts.v
theories/PropWire.v
theories/Storage.v
theories/StorageSpec.v
theories/StorageFacts.v
theories/StorageProps.v
theories/PropStorage.v
theories/StorageExamples.v
theories/Merkle.v
theories/Bincode.v
theories/ConsMsg.v
theories/PropConsMsg.v
theories/Consensus.v
theories/ConsSpec.v
theories/ConsFacts.v
theories/ConsInv.v
theories/ConsChain.v
theories/ConsMore.v
theories/ConsAuth.v
theories/ConsLast.v
theories/PropConsensus.v
theories/PropConsensus2.v
theories/MixSetup.v
theories/ConsExamples.v
theories/Endpoint.v
theories/NetSpec.v
theories/EndpointFacts.v
theories/RpcMap.v
theories/RpcMapFacts.v
theories/NetMsg.v
theories/NetFacts.v
theories/PropNet.v
theories/PeerManager.v
theories/PmSpec.v
theories/PmFacts.v
theories/PmMore.v
theories/PmPeers.v
theories/PmProps.v
theories/PmProps2.v
theories/PmProps3.v
theories/PropPeers.v
theories/PeerExamples.v
theories/PropPeersRestart.v
theories/Connection.v
theories/ConnFacts.v
theories/PropConn.v
theories/Api.v
theories/ApiSpec.v
theories/ApiFacts.v
theories/PropApi.v
theories/ApiExamples.v
theories/Keeper.v
theories/KeeperFacts.v
theories/KeeperProps.v
theories/KeeperMore.v
theories/PropKeeper.v
theories/KeeperExamples.v
theories/SyncSpec.v
theories/SyncFacts.v
theories/PropSync.v
theories/SyncExamples.v
theories/LedgerSpec.v
theories/LedgerFacts.v
theories/LedgerRun.v
theories/PropLedger.v
theories/LedgerExamples.v
theories/ReplicaSpec.v
theories/ReplicaFacts.v
theories/PropReplica.v
theories/ReplicaExamples.v
theories/StuckFacts.v
theories/PropStuck.v
theories/StuckExamples.v
theories/NodePool.v
theories/HaltFacts.v
theories/PropHalt.v
theories/PropProgress.v
theories/HaltExamples.v
theories/ConsCrypto.v
theories/PropConsCrypto.v
theories/ImmutFacts.v
theories/PropImmut.v
theories/ImmutExamples.v
theories/HeaderFacts.v
theories/LatestFacts.v
theories/PropHeader.v
theories/HeaderExamples.v
theories/PeerFile.v
theories/PropPeerFile.v
theories/NetService.v
theories/PropNetService.v
theories/Boot.v
theories/PropBoot.v
theories/BootExamples.v
theories/PropKept.v
theories/KeptExamples.v
theories/MerkleProof.v
theories/PropMerkle.v
theories/AdmitConc.v
theories/AdmitFacts.v
theories/PropAdmit.v
theories/Gossip.v
theories/PropGossip.v
theories/EndFacts.v
theories/PropEnd.v
theories/EndExamples.v
theories/PropNodes.v
theories/NodesExamples.v
theories/PropOnce.v
theories/OnceExamples.v
theories/PropOwn.v
theories/OwnExamples.v
theories/PropChain.v
theories/ChainExamples.v
theories/PropBlame.v
theories/BlameExamples.v
theories/Mpt.v
theories/MptExamples.v
theories/MptFacts.v
theories/MptDen.v
theories/MptCodec.v
theories/MptStore.v
theories/TrieSpec.v
theories/TrieFacts.v
theories/PropTrie.v
theories/PropTrieNode.v
theories/TrieExamples.v
theories/DbExec.v
theories/DbFacts.v
theories/DbRun.v
theories/DbSpec.v
theories/DbProof.v
theories/PropDb.v
theories/DbExamples.v
theories/PropWiring.v
theories/NodeDbSpec.v
theories/NodeDbProof.v
theories/NodeDbOwn.v
theories/PropNodeDb.v
theories/NodeDbExamples.v
theories/PropFailed.v
theories/FormatSpec.v
theories/FormatFacts.v
theories/PropFormat.v
theories/PropMsgFormat.v
theories/PropDiskLedger.v
theories/DiskLedgerExamples.v
theories/TwoNodes.v
theories/TwoNodesFacts.v
theories/PropTwoNodes.v
theories/PropWireGossip.v
theories/PropSilentPeer.v
theories/TwoNodesExamples.v
theories/BalanceFacts.v
theories/PropBalance.v
theories/BalanceExamples.v
theories/PropDiskBalance.v
theories/DiskBalanceExamples.v
theories/PropAgree.v
theories/AgreeExamples.v
theories/PropZero.v
theories/ZeroExamples.v
theories/PropGrow.v
theories/GrowExamples.v
