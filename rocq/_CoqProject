-Q theories Verif
theories/Base.v
theories/BaseFacts.v
theories/Json.v
theories/Utf8.v
theories/Utf8Proofs.v
theories/JsonText.v
theories/JsonTextProofs.v
theories/JsonParseProofs.v
theories/Hex.v
theories/Auth.v
theories/Message.v
theories/MessageProofs.v
theories/WireSpec.v
theories/WireLemmas.v
theories/PropsWire.v
theories/PropsFrames.v
theories/History.v
theories/HistoryProofs.v
theories/PropsHistory.v
theories/Tree.v
theories/Comm.v
theories/Kernel.v
theories/KernelSpec.v
theories/KernelProofs.v
theories/KernelRun.v
theories/KernelHandlers.v
theories/KernelExec.v
theories/KernelDispatch.v
theories/KernelLemmas.v
theories/KernelExecProps.v
theories/CommSpec.v
theories/CommHandlersSpec.v
theories/CommProofs.v
theories/KernelReplies.v
theories/KernelSession.v
theories/KernelMisc.v
theories/KernelComm.v
theories/KernelInfo.v
theories/KernelDemo.v
theories/PropsKernel.v
theories/PropsStarted.v
theories/PropsComm.v
theories/Server.v
theories/ServerSpec.v
theories/ServerProofs.v
theories/Split.v
theories/SplitSpec.v
theories/Threads.v
theories/SplitProofs.v
theories/SplitCalls.v
theories/SplitStop.v
theories/ServerExec.v
theories/ServerLemmas.v
theories/ServerDemo.v
theories/PropsServer.v
theories/Dap.v
theories/DapSpec.v
theories/DapProofs.v
theories/DapQueue.v
theories/DapMain.v
theories/DapAttach.v
theories/DapLive.v
theories/PropsDap.v
theories/Debugger.v
theories/DebuggerSpec.v
theories/DebuggerProofs.v
theories/DebuggerState.v
theories/DebuggerRequests.v
theories/DebuggerReplies.v
theories/DebuggerLock.v
theories/PropsDebugger.v
theories/Host.v
theories/Logger.v
theories/HostSpec.v
theories/ClockProofs.v
theories/HostProofs.v
theories/DirProofs.v
theories/LoggerProofs.v
theories/PropsHost.v
theories/SequentialSpec.v
theories/Sequential.v
theories/SequentialProofs.v
theories/PropsSequential.v
theories/SplitStreamSpec.v
theories/SplitStream.v
theories/SplitIds.v
theories/PropsSplitStream.v
theories/LiveSpec.v
theories/Live.v
theories/LiveDemo.v
theories/PropsLive.v
theories/AnsweredSpec.v
theories/Answered.v
theories/PropsAnswered.v
theories/ClientSpec.v
theories/Client.v
theories/PropsClient.v
theories/SplitLiveSpec.v
theories/SplitLive.v
theories/SplitLiveDemo.v
theories/PropsSplitLive.v
theories/SplitPathSpec.v
theories/SplitPath.v
theories/PropsSplitPath.v
theories/SplitAnsweredSpec.v
theories/SplitAnswered.v
theories/SplitRests.v
theories/PropsSplitAnswered.v
theories/SplitRaceSpec.v
theories/SplitRace.v
theories/PropsSplitRace.v
theories/Pretty.v
theories/PrettyProofs.v
theories/Monitor.v
theories/MonitorProofs.v
theories/PropsMonitor.v
theories/LogSpec.v
theories/LogSim.v
theories/LogServer.v
theories/PropsLog.v
theories/DapSessionSpec.v
theories/DapSession.v
theories/DapWaiting.v
theories/DebugSession.v
theories/PropsSession.v
theories/HeardSpec.v
theories/Heard.v
theories/PropsHeard.v
theories/Startup.v
theories/StartupSpec.v
theories/StartupProofs.v
theories/PropsStartup.v
theories/SplitClientSpec.v
theories/SplitClient.v
theories/PropsSplitClient.v
theories/Calendar.v
theories/CalendarSpec.v
theories/CalendarProofs.v
theories/PropsCalendar.v
theories/Construct.v
theories/ConstructSpec.v
theories/ConstructProofs.v
theories/PropsConstruct.v
theories/Join.v
theories/JoinSpec.v
theories/JoinProofs.v
theories/PropsJoin.v
theories/LoggedSpec.v
theories/Logged.v
theories/PropsLogged.v
theories/Destroy.v
theories/PropsDestroy.v
theories/Stopped.v
theories/PropsStopped.v
theories/Reentry.v
theories/ReentrySpec.v
theories/ReentryProofs.v
theories/PropsReentry.v
theories/Chain.v
theories/ChainSpec.v
theories/ChainProofs.v
theories/PropsChain.v
theories/DapConnect.v
theories/DapConnectSpec.v
theories/DapConnectProofs.v
theories/PropsDapConnect.v
theories/Bounded.v
theories/BoundedSpec.v
theories/BoundedProofs.v
theories/PropsBounded.v
theories/Pipes.v
theories/PipesSpec.v
theories/PipesProofs.v
theories/PropsPipes.v
theories/AskedSpec.v
theories/AskedProofs.v
theories/PropsAsked.v
theories/Shipped.v
theories/ShippedSpec.v
theories/ShippedProofs.v
theories/PropsShipped.v
theories/Program.v
theories/ProgramSpec.v
theories/ProgramProofs.v
theories/PropsProgram.v
theories/ThreadSpec.v
theories/ThreadProofs.v
theories/PropsThread.v
theories/ShutdownSpec.v
theories/ShutdownProofs.v
theories/PropsShutdown.v
theories/MetadataSpec.v
theories/PropsMetadata.v
theories/CommTargets.v
theories/PropsTargets.v
