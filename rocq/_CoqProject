-Q theories Verif
theories/HTime.v
theories/Action.v
theories/TimeDep.v
theories/TimeCoord.v
theories/TimeProc.v
theories/TimeDepProofs.v
theories/TimeCoordProofs.v
theories/TimeProcProofs.v
theories/TimeInitProofs.v
theories/MinTimeProofs.v
theories/TimeInv.v
theories/TimeAnswer.v
theories/TimeGrid.v
theories/PropsTime1.v
theories/Examples1.v
theories/TimeTable.v
theories/TimeNotice.v
theories/NoticeStep.v
theories/PropsTime2.v
theories/PropsTime3.v
theories/PropsTime4.v
theories/PropsTime5.v
theories/PropsTime6.v
theories/PropsTime7.v
theories/StableSort.v
theories/Interfaces.v
theories/InputSpec.v
theories/PropsInput.v
theories/PropsInput2.v
theories/PropsEndpoint.v
theories/Codec.v
theories/CodecProofs.v
theories/CodecSafe.v
theories/PropsCodec.v
theories/PropsStream.v
theories/Bundle.v
theories/PropsBundle.v
theories/Monitor.v
theories/PropsMonitor.v
theories/MsgConv.v
theories/Values.v
theories/PropsValues.v
theories/Buffer.v
theories/BufferProofs.v
theories/BufferOps.v
theories/PropsBuffer.v
theories/Ids.v
theories/PropsIds.v
theories/Handles.v
theories/HandlesAlias.v
theories/HandlesInv.v
theories/PropsHandles.v
theories/Connect.v
theories/PropsConnect.v
theories/PropsConnect2.v
theories/Forward.v
theories/PropsForward.v
theories/Promise.v
theories/Mine.v
theories/Network.v
theories/PropsNetwork.v
theories/LogBuf.v
theories/PropsLog.v
theories/Timer.v
theories/PropsTimer.v
theories/PropsForward2.v
theories/PropsForward3.v
theories/Filters.v
theories/PropsFilters.v
theories/FilterFed.v
theories/PropsFilterFed.v
theories/PropsFilterFed2.v
theories/PropsChain.v
theories/FedApi.v
theories/PropsFedApi.v
theories/PropsFedApi2.v
theories/Route.v
theories/RouteInv.v
theories/PropsRoute.v
theories/RouteLive.v
theories/InitMode.v
theories/InitInv.v
theories/PropsInit.v
theories/InitExamples.v
theories/Shutdown.v
theories/PropsShutdown.v
theories/ShutdownLive.v
theories/ShutdownEnd.v
theories/ShutdownTerm.v
theories/ShutdownExamples.v
theories/Query.v
theories/PropsQuery.v
theories/QueryInv.v
theories/QueryLive.v
theories/QueryCache.v
theories/QueryOverlap.v
theories/QueryExamples.v
theories/GlobalTime.v
theories/GlobalInv.v
theories/PropsGlobal.v
theories/GlobalLive.v
theories/GlobalExamples.v
theories/GlobalExec.v
theories/Deliver.v
theories/PropsDeliver.v
theories/Mail.v
theories/PropsMail.v
theories/MailFlow.v
theories/MailNames.v
theories/Errors.v
theories/PropsErrors.v
theories/ErrorsNames.v
theories/Command.v
theories/PropsCommand.v
theories/CommandQueue.v
theories/MsgFed.v
theories/PropsMsgFed.v
theories/MinChange.v
theories/PropsMinChange.v
theories/MultiIn.v
theories/PropsMultiIn.v
theories/PlayerApp.v
theories/PropsPlayerApp.v
theories/SourceApp.v
theories/PropsSourceApp.v
theories/RecorderApp.v
theories/PropsRecorderApp.v
theories/BarrierNet.v
theories/PropsBarrierNet.v
