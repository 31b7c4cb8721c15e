-Q theories Verif
theories/Base.v
theories/Wire.v
theories/WireProofs.v
theories/Cid.v
theories/CidProofs.v
theories/Pb.v
theories/PbProofs.v
theories/PropsPb.v
theories/FileSpec.v
theories/FileAdder.v
theories/FileAdderProofs.v
theories/FileTreeProofs.v
theories/FileVisit.v
theories/FileVisitProofs.v
theories/FileProps.v
theories/PropsFile.v
theories/BTree.v
theories/Ipld.v
theories/Cbor.v
theories/CborSpec.v
theories/CborProofs.v
theories/CborRound.v
theories/CborMore.v
theories/PropsCbor.v
theories/Codecs.v
theories/CodecsProofs.v
theories/PropsCodecs.v
theories/Text.v
theories/TextProofs.v
theories/FMap.v
theories/BlockSpec.v
theories/MemBlocks.v
theories/MemBlocksProofs.v
theories/FsPaths.v
theories/FsPathsProofs.v
theories/FsBlocks.v
theories/FsBlocksProofs.v
theories/PropsBlocks.v
theories/FsConc.v
theories/FsConcProofs.v
theories/PropsConc.v
theories/PinSpec.v
theories/PinSpecProofs.v
theories/MemPins.v
theories/MemPinsProofs.v
theories/MemPinsReads.v
theories/FsPins.v
theories/FsPinsProofs.v
theories/FsPinsReads.v
theories/KvPins.v
theories/KvPinsProofs.v
theories/PinnedRepo.v
theories/PropsPins.v
theories/PropsPinsMore.v
theories/SubsSpec.v
theories/Subs.v
theories/SubsProofs.v
theories/GetPut.v
theories/GetPutProofs.v
theories/PropsSubs.v
theories/IpfsPath.v
theories/PathSpec.v
theories/IpfsPathProofs.v
theories/PropsPath.v
theories/DirLookup.v
theories/DirSpec.v
theories/DirLookupProofs.v
theories/PropsDir.v
theories/Resolve.v
theories/ResolveSpec.v
theories/ResolveProofs.v
theories/ResolveMore.v
theories/PropsResolve.v
theories/Refs.v
theories/RefsSpec.v
theories/RefsProofs.v
theories/RefsUnique.v
theories/PropsRefs.v
theories/TreeBuilder.v
theories/TreeSpec.v
theories/TreeBuilderProofs.v
theories/TreeIter.v
theories/TreeIterSpec.v
theories/TreeIterProofs.v
theories/TreeIterMain.v
theories/TreeSizes.v
theories/TreeOutSpec.v
theories/TreeOut.v
theories/TreeRead.v
theories/PropsTree.v
theories/StdPath.v
theories/Walk.v
theories/WalkSpec.v
theories/WalkProofs.v
theories/WalkSafe.v
theories/WalkNames.v
theories/WalkPending.v
theories/WalkTree.v
theories/PropsWalk.v
theories/Prost.v
theories/ProstProofs.v
theories/BitswapMsg.v
theories/BitswapMsgSpec.v
theories/BitswapMsgProofs.v
theories/Bitswap.v
theories/BitswapSpec.v
theories/BitswapProofs.v
theories/BitswapMore.v
theories/BitswapPeers.v
theories/PropsBitswap.v
theories/Pubsub.v
theories/PubsubSpec.v
theories/PubsubProofs.v
theories/PropsPubsub.v
theories/Addr.v
theories/AddrProofs.v
theories/PropsAddr.v
theories/Swarm.v
theories/SwarmSpec.v
theories/SwarmProofs.v
theories/SwarmConnProofs.v
theories/PropsSwarm.v
theories/Listen.v
theories/ListenSpec.v
theories/ListenProofs.v
theories/PropsListen.v
theories/Bootstrap.v
theories/BootstrapSpec.v
theories/BootstrapProofs.v
theories/PropsBootstrap.v
theories/Ipns.v
theories/IpnsSpec.v
theories/IpnsProofs.v
theories/PropsIpns.v
theories/Tar.v
theories/TarSpec.v
theories/TarFields.v
theories/TarPaths.v
theories/TarProofs.v
theories/TarWalk.v
theories/PropsTar.v
theories/RefsHttp.v
theories/RefsHttpSpec.v
theories/RefsHttpProofs.v
theories/PropsRefsHttp.v
theories/TreeSteps.v
theories/HttpAdd.v
theories/Cat.v
theories/HttpAddSpec.v
theories/HttpAddProofs.v
theories/HttpAddMain.v
theories/PropsHttpAdd.v
theories/PropsCat.v
theories/NodePins.v
theories/NodePinsSpec.v
theories/NodePinsProofs.v
theories/PropsNodePins.v
theories/HttpOptions.v
theories/HttpOptionsProofs.v
theories/HttpBlock.v
theories/HttpBlockSpec.v
theories/HttpBlockProofs.v
theories/PropsHttpBlock.v
theories/HttpPins.v
theories/HttpPinsSpec.v
theories/HttpPinsProofs.v
theories/PropsHttpPins.v
theories/HttpSub.v
theories/HttpSubSpec.v
theories/HttpSubProofs.v
theories/PropsHttpSub.v
theories/HttpPubsub.v
theories/HttpPubsubSpec.v
theories/HttpPubsubProofs.v
theories/PropsHttpPubsub.v
theories/Dht.v
theories/DhtSpec.v
theories/DhtProofs.v
theories/PropsDht.v
theories/GetPutMore.v
theories/Exchange.v
theories/ExchangeSpec.v
theories/ExchangeProofs.v
theories/ExchangePipe.v
theories/ExchangeArrive.v
theories/ExchangeCall.v
theories/ExchangeCancel.v
theories/PropsExchange.v
theories/Json.v
theories/JsonSpec.v
theories/JsonProofs.v
theories/Config.v
theories/ConfigSpec.v
theories/ConfigProofs.v
theories/ConfigWorld.v
theories/PropsConfig.v
theories/Str.v
theories/Routes.v
theories/RoutesSpec.v
theories/RoutesProofs.v
theories/PropsRoutes.v
theories/Endpoints.v
theories/EndpointsSpec.v
theories/EndpointsProofs.v
theories/PropsEndpoints.v
theories/Daemon.v
theories/DaemonSpec.v
theories/DaemonProofs.v
theories/PropsDaemon.v
theories/EventLoop.v
theories/EventLoopSpec.v
theories/EventLoopProofs.v
theories/EventLoopNode.v
theories/EventLoopNodeSpec.v
theories/PropsEventLoop.v
theories/DagJson.v
theories/DagJsonSpec.v
theories/DagJsonProofs.v
theories/PropsDagJson.v
theories/Symlink.v
theories/SymlinkSpec.v
theories/PropsSymlink.v
theories/WalkBackSpec.v
theories/WalkBack.v
theories/PropsWalkBack.v
theories/Timeouts.v
theories/TimeoutsSpec.v
theories/TimeoutsProofs.v
theories/PropsTimeouts.v
theories/Transfers.v
theories/TransfersSpec.v
theories/TransfersProofs.v
theories/TransfersProofs2.v
theories/PropsTransfers.v
theories/RepoLock.v
theories/RepoLockSpec.v
theories/RepoLockProofs.v
theories/PropsRepoLock.v
theories/PropsTarBack.v
theories/TimeoutsRefs.v
theories/PropsTimeoutsRefs.v
theories/Bodies.v
theories/BodiesSpec.v
theories/BodiesProofs.v
theories/PropsBodies.v
theories/AddBody.v
theories/PropsAddBody.v
theories/SubBody.v
theories/PropsSubBody.v
theories/LocalRefs.v
theories/PropsLocalRefs.v
theories/RmBody.v
theories/PropsRmBody.v
theories/LsBody.v
theories/PropsLsBody.v
