-Q theories Verif
theories/Base.v
theories/BaseFacts.v
theories/Utf8.v
theories/Reader.v
theories/Codec.v
theories/Spec.v
theories/Utf8Facts.v
theories/CodecFacts.v
theories/Ids.v
theories/DecodeFacts.v
theories/ReaderFacts.v
theories/EventProofs.v
theories/IdsFacts.v
theories/PropsEvent.v
theories/Payload.v
theories/SpecPayload.v
theories/PayloadFacts.v
theories/PropsPayload.v
theories/Crypt.v
theories/SpecCrypt.v
theories/CryptWriteFacts.v
theories/CryptReadFacts.v
theories/CryptFacts.v
theories/CryptAttackFacts.v
theories/CryptExchangeFacts.v
theories/CryptClaims.v
theories/PropsCrypt.v
theories/Builder.v
theories/SpecBuilder.v
theories/BuilderFacts.v
theories/Pool.v
theories/SpecPool.v
theories/PoolFacts.v
theories/PropsBuild.v
theories/SettingsFacts.v
theories/PropsSettings.v
theories/Emit.v
theories/SpecEmit.v
theories/EmitFacts.v
theories/EmitPollFacts.v
theories/PropsEmit.v
theories/Timed.v
theories/SpecTimed.v
theories/TimedFacts.v
theories/PropsTimed.v
theories/Ipc.v
theories/SpecIpc.v
theories/IpcFacts.v
theories/IpcChanFacts.v
theories/IpcUsers.v
theories/IpcLoops.v
theories/IpcIds.v
theories/IpcTasks.v
theories/PropsDispatch.v
theories/IpcReplies.v
theories/IpcStreams.v
theories/IpcClaims.v
theories/IpcMore.v
theories/IpcFlow.v
theories/IpcLimits.v
theories/IpcRemoved.v
theories/IpcSenders.v
theories/PropsReplies.v
theories/IpcFate.v
theories/SpecCode.v
theories/IpcCode.v
theories/PropsCode.v
theories/Pair.v
theories/SpecPair.v
theories/PairFacts.v
theories/PairServer.v
theories/PairEnd.v
theories/PairRest.v
theories/PairQuiet.v
theories/PairForever.v
theories/PairStops.v
theories/PropsPair.v
theories/SpecMore.v
theories/IpcLost.v
theories/PropsMore.v
theories/Wire.v
theories/SpecWire.v
theories/WireFacts.v
theories/WireClaims.v
theories/WireLock.v
theories/PropsWire.v
theories/Proc.v
theories/SpecProc.v
theories/ProcFacts.v
theories/PropsProc.v
theories/Bounded.v
theories/SpecBounded.v
theories/BoundedFacts.v
theories/JamFacts.v
theories/PropsBounded.v
theories/BytePair.v
theories/SpecBytes.v
theories/BytePairFacts.v
theories/ByteRest.v
theories/ByteAll.v
theories/PropsBytes.v
theories/Multi.v
theories/SpecRest.v
theories/RestFacts.v
theories/EchoFacts.v
theories/PropsRest.v
theories/Life.v
theories/SpecLife.v
theories/LifeFacts.v
theories/PropsLife.v
theories/PairStream.v
theories/PropsStreams.v
theories/Link.v
theories/SpecLink.v
theories/LinkFacts.v
theories/LinkSim.v
theories/LinkRest.v
theories/LinkAll.v
theories/PropsLink.v
theories/SpecOrder.v
theories/OrderFacts.v
theories/PropsOrder.v
theories/Shared.v
theories/SpecShared.v
theories/SharedFacts.v
theories/SharedRuns.v
theories/SharedClaims.v
theories/PropsShared.v
theories/SpecConc.v
theories/IpcConc.v
theories/PropsConc.v
theories/SpecStop.v
theories/ByteStop.v
theories/PropsStop.v
theories/LinkStop.v
theories/PropsStopLink.v
theories/Attack.v
theories/SpecAttack.v
theories/AttackFacts.v
theories/PropsAttack.v
theories/SpecMiddle.v
theories/PropsMiddle.v
theories/Net.v
theories/SpecNet.v
theories/NetServer.v
theories/NetFacts.v
theories/NetEnd.v
theories/NetRest.v
theories/PropsNet.v
theories/Fair.v
theories/SpecFair.v
theories/FairFacts.v
theories/FairLive.v
theories/PropsFair.v
theories/SpecLive.v
theories/PairLive.v
theories/PairLiveMore.v
theories/PropsLive.v
theories/SpecPeers.v
theories/PeersFacts.v
theories/PeersRest.v
theories/PeersFresh.v
theories/PropsPeers.v
theories/PropsPeersEx.v
theories/SpecNested.v
theories/PeersLive.v
theories/BoundLive.v
theories/PropsNested.v
theories/SpecByteLive.v
theories/ByteLive.v
theories/PropsByteLive.v
theories/SpecNetLive.v
theories/NetLive.v
theories/NetLiveMore.v
theories/NetLiveRuns.v
theories/PropsNetLive.v
theories/RoomLive.v
theories/PropsRoom.v
theories/ByteRoom.v
theories/PropsByteRoom.v
theories/ProgLive.v
theories/PropsProg.v
