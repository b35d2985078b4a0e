-Q theories Verif
theories/Base.v
theories/GoRT.v
theories/Siphash.v
theories/Cuckoo.v
theories/SpecPow.v
theories/SipProofs.v
theories/CycleProofs.v
theories/PowProofs.v
theories/ContainProofs.v
theories/PowExamples.v
theories/PropPow.v
theories/PowCodec.v
theories/SpecCodec.v
theories/PowCodecProofs.v
theories/Ext.v
theories/Schnorr.v
theories/Consensus.v
theories/SpecConsensus.v
theories/CodecProofs.v
theories/BlockCodecProofs.v
theories/SpecSchnorr.v
theories/SchnorrProofs.v
theories/EC.v
theories/Instance.v
theories/CodecExamples.v
theories/PropCodec.v
theories/PropCrypto.v
theories/SpecRules.v
theories/RulesProofs.v
theories/RulesExamples.v
theories/PropRules.v
theories/Messages.v
theories/SpecMessages.v
theories/MessageProofs.v
theories/LoopProofs.v
theories/PropMessages.v
theories/Chain.v
theories/SpecChain.v
theories/ChainProofs.v
theories/ChainExamples.v
theories/PropChain.v
theories/Handshake.v
theories/SpecHandshake.v
theories/HandshakeProofs.v
theories/PropHandshake.v
theories/Peer.v
theories/SpecPeer.v
theories/PeerProofs.v
theories/PropPeer.v
theories/Pool.v
theories/SpecPool.v
theories/PoolProofs.v
theories/PoolExamples.v
theories/PropPool.v
theories/Sync.v
theories/SpecSync.v
theories/SyncProofs.v
theories/Shutdown.v
theories/ShutdownProofs.v
theories/SyncExamples.v
theories/PropSync.v
theories/Hashes.v
theories/Real.v
theories/Vectors.v
theories/SpecBody.v
theories/BodyProofs.v
theories/PropBody.v
theories/Serve.v
theories/SpecServe.v
theories/ServeProofs.v
theories/PropServe.v
theories/Send.v
theories/SpecSend.v
theories/SendProofs.v
theories/PropSend.v
theories/RequestProofs.v
theories/PropRequest.v
theories/GenesisProofs.v
theories/PropGenesis.v
theories/Relay.v
theories/SpecRelay.v
theories/RelayProofs.v
theories/PropRelay.v
theories/GoSort.v
theories/SpecGoSort.v
theories/GoSortProofs.v
theories/PropGoSort.v
theories/Alloc.v
theories/SpecAlloc.v
theories/AllocProofs.v
theories/PropAlloc.v
theories/SilentProofs.v
theories/PropSilent.v
theories/PrimeField.v
theories/GroupLaw.v
theories/Pocklington.v
theories/SecpPrimes.v
theories/Cyclic.v
theories/SpecSecp.v
theories/SecpGroup.v
theories/SecpProofs.v
theories/PropSecp.v
theories/HalfProofs.v
theories/PropHalf.v
theories/SpecLimits.v
theories/LimitProofs.v
theories/PropLimits.v
theories/Race.v
theories/SpecRace.v
theories/RaceProofs.v
theories/RaceExamples.v
theories/PropRace.v
theories/SpecAtomic.v
theories/AtomicProofs.v
theories/AtomicExamples.v
theories/PropAtomic.v
theories/LiveProofs.v
theories/EndToEndProofs.v
theories/PropEndToEnd.v
theories/SpecCanon.v
theories/CanonProofs.v
theories/CanonExamples.v
theories/PropCanon.v
theories/SpecDial.v
theories/DialProofs.v
theories/DialExamples.v
theories/PeersProofs.v
theories/PropDial.v
theories/SpecWrite.v
theories/WriteProofs.v
theories/PropWrite.v
theories/SpecRecord.v
theories/RecordProofs.v
theories/RecordExamples.v
theories/PropRecord.v
theories/SpecLate.v
theories/LateProofs.v
theories/LateExamples.v
theories/PropLate.v
theories/SpecShaken.v
theories/ShakenProofs.v
theories/PropShaken.v
theories/SpecEnding.v
theories/EndingProofs.v
theories/PropEnding.v
theories/ShippedProofs.v
theories/PropShipped.v
theories/SpecLayout.v
theories/LayoutProofs.v
theories/PropLayout.v
theories/SpecTrail.v
theories/TrailProofs.v
theories/PropTrail.v
theories/SpecVerdict.v
theories/VerdictProofs.v
theories/PropVerdict.v
theories/SpecDecay.v
theories/DecayProofs.v
theories/PropDecay.v
theories/SpecLine.v
theories/LineProofs.v
theories/LineExamples.v
theories/PropLine.v
theories/SpecFull.v
theories/FullProofs.v
theories/FullExamples.v
theories/PropFull.v
theories/SpecFirst.v
theories/FirstProofs.v
theories/PropFirst.v
theories/SpecStall.v
theories/StallProofs.v
theories/PropStall.v
theories/SpecAccess.v
theories/AccessProofs.v
theories/AccessStepProofs.v
theories/AccessExamples.v
theories/PropAccess.v
theories/SpecFinish.v
theories/FinishProofs.v
theories/PropFinish.v
theories/Start.v
theories/SpecEarly.v
theories/EarlyProofs.v
theories/EarlyExamples.v
theories/PropEarly.v
theories/World.v
theories/SpecWorld.v
theories/WorldProofs.v
theories/OwnProofs.v
theories/WorldExactProofs.v
theories/WorldStopProofs.v
theories/WorldExamples.v
theories/PropWorld.v
theories/SpecBan.v
theories/BanProofs.v
theories/BanExamples.v
theories/PropBan.v
theories/SpecHandle.v
theories/HandleProofs.v
theories/ServeRunProofs.v
theories/HandleExamples.v
theories/PropHandle.v
theories/SpecToldBy.v
theories/ToldByProofs.v
theories/PropToldBy.v
theories/SpecDone.v
theories/PeerEndProofs.v
theories/LockEndProofs.v
theories/WorldEndProofs.v
theories/WorldEndExamples.v
theories/PropDone.v
theories/SpecFate.v
theories/FateProofs.v
theories/FateExamples.v
theories/PropFate.v
theories/StopProofs.v
theories/SpecGuard.v
theories/GuardProofs.v
theories/PropGuard.v
theories/SpecTouch.v
theories/TouchProofs.v
theories/PropTouch.v
theories/Names.v
theories/SpecNames.v
theories/NamesProofs.v
theories/NamesUseProofs.v
theories/NamesExamples.v
theories/PropNames.v
theories/SpecFair.v
theories/FairProofs.v
theories/FairExamples.v
theories/PropFair.v
theories/SpecSelect.v
theories/SelectProofs.v
theories/SelectExamples.v
theories/PropSelect.v
theories/SpecTeam.v
theories/TeamProofs.v
theories/TeamExamples.v
theories/PropTeam.v
theories/SpecShutAll.v
theories/ShutAllProofs.v
theories/ShutAllExamples.v
theories/PropShutAll.v
theories/ShutStuckExamples.v
