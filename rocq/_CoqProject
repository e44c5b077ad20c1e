-Q theories Verif
theories/Base.v
theories/Rooms.v
theories/RoomsSpec.v
theories/RoomsProofs.v
theories/GoTypes.v
theories/Adapter.v
theories/AdapterSpec.v
theories/AdapterProofs.v
theories/AdapterRun.v
theories/AdapterRunSpec.v
theories/AdapterRunProofs.v
theories/PropsRooms.v
theories/Operator.v
theories/OperatorSpec.v
theories/OperatorProofs.v
theories/OperatorProofs2.v
theories/PropsOperator.v
theories/Acks.v
theories/AcksSpec.v
theories/AcksProofs.v
theories/AcksSerial.v
theories/PropsAcks.v
theories/Once.v
theories/OnceProofs.v
theories/PropsOnce.v
theories/BcastAck.v
theories/BcastAckSpec.v
theories/BcastAckProofs.v
theories/BcastAckConc.v
theories/PropsBcastAck.v
theories/Write.v
theories/WriteSpec.v
theories/WriteProofs.v
theories/PropsWrite.v
theories/Middleware.v
theories/MiddlewareSpec.v
theories/MiddlewareProofs.v
theories/PropsMiddleware.v
theories/Session.v
theories/SessionSpec.v
theories/SessionProofs.v
theories/SessionLive.v
theories/PropsSession.v
theories/Recovery.v
theories/RecoverySpec.v
theories/RecoveryProofs.v
theories/RecoveryProofs2.v
theories/RecoveryProofs3.v
theories/RecoveryExamples.v
theories/PropsRecovery.v
theories/Cluster.v
theories/ClusterSpec.v
theories/ClusterProofs.v
theories/ClusterReq.v
theories/ClusterReqSpec.v
theories/ClusterReqProofs.v
theories/Heartbeat.v
theories/HeartbeatSpec.v
theories/HeartbeatProofs.v
theories/HeartbeatExamples.v
theories/ClusterAck.v
theories/ClusterAckSpec.v
theories/ClusterAckProofs.v
theories/ClusterAckCount.v
theories/ClusterAckReply.v
theories/ClusterAckExamples.v
theories/ClusterFetch.v
theories/ClusterFetchSpec.v
theories/ClusterFetchProofs.v
theories/ClusterFetchCount.v
theories/ClusterFetchResults.v
theories/ClusterFetchExamples.v
theories/PropsClusterFetch.v
theories/ClusterReqConc.v
theories/ClusterReqConcProofs.v
theories/ClusterExamples.v
theories/PropsCluster.v
theories/PropsHeartbeat.v
theories/PropsClusterAck.v
theories/AnyListeners.v
theories/AnyListenersSpec.v
theories/AnyListenersProofs.v
theories/Serve.v
theories/ServeSpec.v
theories/ServeProofs.v
theories/Options.v
theories/OptionsSpec.v
theories/OptionsProofs.v
theories/SessionData.v
theories/SessionDataSpec.v
theories/SessionDataProofs.v
theories/PropsMisc.v
theories/Dispatch.v
theories/DispatchSpec.v
theories/DispatchProofs.v
theories/RoomsConc.v
theories/RoomsConcSpec.v
theories/RoomsConcProofs.v
theories/PropsConc.v
theories/System.v
theories/SystemSpec.v
theories/SystemProofs.v
theories/SystemLife.v
theories/SystemPolite.v
theories/SystemClaims.v
theories/SystemNsp.v
theories/SystemReg.v
theories/SystemKeep.v
theories/SystemSeq.v
theories/SystemTimer.v
theories/SystemExamples.v
theories/PropsSystem.v
theories/LifeConc.v
theories/LifeConcSpec.v
theories/LifeConcProofs.v
theories/LifeMore.v
theories/LifeAlone.v
theories/LifeMoves.v
theories/PropsLife.v
theories/PropsClient.v
theories/ApplyConc.v
theories/ApplyConcSpec.v
theories/ApplyConcProofs.v
theories/ApplyConcExamples.v
theories/PropsApply.v
theories/OneSocketSpec.v
theories/OneSocketProofs.v
theories/OneSocketExamples.v
theories/PropsOne.v
theories/SessionConc.v
theories/SessionConcSpec.v
theories/SessionConcProofs.v
theories/SessionConcExamples.v
theories/PropsSessionConc.v
theories/NspConc.v
theories/NspConcSpec.v
theories/NspConcProofs.v
theories/NspConcExamples.v
theories/PropsNspConc.v
theories/AloneSpec.v
theories/AloneProofs.v
theories/PropsAlone.v
theories/WireConc.v
theories/WireConcSpec.v
theories/WireConcProofs.v
theories/WireConcExamples.v
theories/PropsWire.v
theories/Emissions.v
theories/EmissionsSpec.v
theories/EmissionsProofs.v
theories/PropsEmissions.v
theories/Args.v
theories/ArgsSpec.v
theories/ArgsProofs.v
theories/PropsArgs.v
theories/FlagsConc.v
theories/FlagsConcSpec.v
theories/FlagsConcProofs.v
theories/FlagsTurn.v
theories/PropsFlags.v
theories/ServerSpec.v
theories/ServerProofs.v
theories/ServerSteps.v
theories/PropsServer.v
theories/TurnSpec.v
theories/TurnProofs.v
theories/PropsTurn.v
theories/Swap.v
theories/SwapSpec.v
theories/SwapProofs.v
theories/PropsSwap.v
theories/Family.v
theories/FamilySpec.v
theories/FamilyProofs.v
theories/PropsFamily.v
theories/Http.v
theories/HttpSpec.v
theories/HttpProofs.v
theories/PropsHttp.v
theories/GoneSpec.v
theories/SystemGone.v
theories/PropsGone.v
theories/NspTurnSpec.v
theories/NspTurnProofs.v
theories/NspTurnBack.v
theories/PropsNspTurn.v
theories/TimerConc.v
theories/TimerConcProofs.v
theories/PropsTimer.v
theories/ConnConc.v
theories/ConnConcSpec.v
theories/ConnConcProofs.v
theories/ConnMore.v
theories/PropsConn.v
theories/Attach.v
theories/AttachSpec.v
theories/AttachProofs.v
theories/PropsAttach.v
theories/AnyConc.v
theories/AnyConcSpec.v
theories/AnyConcProofs.v
theories/PropsAny.v
theories/Shared.v
theories/SharedSpec.v
theories/SharedProofs.v
theories/PropsShared.v
