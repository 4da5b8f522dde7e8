-Q theories Verif
theories/Model/Base.v
theories/Model/IndexedQueue.v
theories/Model/OneToManyDict.v
theories/Model/Float.v
theories/Model/Heapq.v
theories/Model/PriorityQueue.v
theories/Model/Allocator.v
theories/Model/Message.v
theories/Model/Transport.v
theories/Model/ZMQConfig.v
theories/Model/Sorter.v
theories/Model/SchedulerState.v
theories/Model/Scheduler.v
theories/Model/Worker.v
theories/Spec/QueueSpec.v
theories/Spec/DictSpec.v
theories/Spec/PriorityQueueSpec.v
theories/Spec/AllocatorSpec.v
theories/Spec/MessageSpec.v
theories/Proofs/BaseProofs.v
theories/Proofs/IndexedQueueProofs.v
theories/Proofs/DictProofs.v
theories/Proofs/HeapqProofs.v
theories/Proofs/PriorityQueueProofs.v
theories/Proofs/AllocatorProofs.v
theories/Proofs/FloatProofs.v
theories/Proofs/DataExamples.v
theories/Proofs/AllocatorExamples.v
theories/Proofs/MessageProofs.v
theories/Proofs/ZMQConfigProofs.v
theories/Spec/NumberSpec.v
theories/Proofs/NumberProofs.v
theories/Proofs/TransportProofs.v
theories/Props/PropsData.v
theories/Props/PropsAllocator.v
theories/Props/PropsMessage.v
theories/Spec/HistorySpec.v
theories/Spec/SchedulerSpec.v
theories/Spec/TrafficSpec.v
theories/Proofs/HistoryProofs.v
theories/Proofs/SchedWp.v
theories/Proofs/SchedCount.v
theories/Proofs/SchedHold.v
theories/Proofs/SchedContent.v
theories/Proofs/SchedSend.v
theories/Proofs/SchedPrim.v
theories/Proofs/SchedFn.v
theories/Proofs/SchedGlobal.v
theories/Proofs/SchedStep.v
theories/Proofs/SchedRemove.v
theories/Proofs/SchedPlain.v
theories/Proofs/SchedLive.v
theories/Proofs/SchedBegin.v
theories/Proofs/SchedTraffic.v
theories/Proofs/SchedFinish.v
theories/Proofs/SchedPolite.v
theories/Proofs/SchedEcho.v
theories/Proofs/SchedExamples.v
theories/Spec/TextSpec.v
theories/Proofs/TextProofs.v
theories/Props/PropsScheduler.v
theories/Proofs/SorterProofs.v
theories/Proofs/SchedGraph.v
theories/Proofs/SchedNodes.v
theories/Proofs/GraphExamples.v
theories/Props/PropsGraph.v
theories/Proofs/TrafficExamples.v
theories/Props/PropsTraffic.v
theories/Model/Processor.v
theories/Spec/WorkerSpec.v
theories/Spec/ProcessorSpec.v
theories/Proofs/WorkerProofs.v
theories/Proofs/ProcessorProofs.v
theories/Proofs/WorkerExamples.v
theories/Spec/CacheSpec.v
theories/Proofs/ProcessorCache.v
theories/Props/PropsWorker.v
theories/Model/Client.v
theories/Spec/ClientSpec.v
theories/Proofs/ClientProofs.v
theories/Proofs/ClientRuns.v
theories/Proofs/ClientStates.v
theories/Proofs/ClientFacts.v
theories/Props/PropsClient.v
theories/Model/ClientCalls.v
theories/Spec/ClientCallsSpec.v
theories/Proofs/CallProofs.v
theories/Proofs/GetProofs.v
theories/Proofs/MapProofs.v
theories/Proofs/CancelProofs.v
theories/Props/PropsCalls.v
theories/Props/PropsFutures.v
theories/Props/PropsLoops.v
theories/Props/PropsCounters.v
theories/Model/Formatter.v
theories/Spec/FormatterSpec.v
theories/Proofs/FormatterProofs.v
theories/Model/Top.v
theories/Spec/TopSpec.v
theories/Proofs/TopProofs.v
theories/Props/PropsMonitor.v
theories/Model/MonitorLoop.v
theories/Spec/MonitorSpec.v
theories/Proofs/MonitorProofs.v
theories/Props/PropsMonitorLoop.v
theories/Spec/StateSpec.v
theories/Proofs/StateProofs.v
theories/Proofs/NameProofs.v
theories/Props/PropsStates.v
theories/Model/Published.v
theories/Spec/PublishedSpec.v
theories/Proofs/PublishedProofs.v
theories/Props/PropsPublished.v
theories/Model/Startup.v
theories/Model/EventLoop.v
theories/Model/Counters.v
theories/Spec/StartupSpec.v
theories/Proofs/SchedSame.v
theories/Proofs/StartupProofs.v
theories/Props/PropsStartup.v
theories/Model/System.v
theories/Spec/SystemSpec.v
theories/Proofs/SchedTalk.v
theories/Proofs/SystemParts.v
theories/Proofs/SystemProofs.v
theories/Proofs/SystemExamples.v
theories/Props/PropsSystem.v
theories/Spec/FlowSpec.v
theories/Spec/LoopSpec.v
theories/Spec/CountersSpec.v
theories/Proofs/FlowSched.v
theories/Proofs/FlowWorker.v
theories/Proofs/FlowWork.v
theories/Proofs/FlowClient.v
theories/Proofs/GraphRounds.v
theories/Proofs/FlowSystem.v
theories/Proofs/FlowFinish.v
theories/Spec/OnceSpec.v
theories/Proofs/LoopProofs.v
theories/Proofs/CountersProofs.v
theories/Proofs/FlowOnce.v
theories/Spec/PunctualSpec.v
theories/Proofs/FlowClock.v
theories/Proofs/FlowExamples.v
theories/Proofs/ClockExamples.v
theories/Props/PropsFlow.v
theories/Spec/GraphFlowSpec.v
theories/Proofs/GraphClient.v
theories/Proofs/GraphFlow.v
theories/Proofs/GraphFlowExamples.v
theories/Props/PropsGraphFlow.v
theories/Proofs/GraphStep.v
theories/Proofs/GraphFinish.v
theories/Proofs/GraphDrive.v
theories/Proofs/GraphEnd.v
theories/Proofs/GraphTold.v
theories/Proofs/GraphDone.v
theories/Proofs/GraphOnce.v
theories/Proofs/GraphClock.v
theories/Proofs/GraphClockExamples.v
theories/Props/PropsGraphFinish.v
theories/Model/MemoryCleaner.v
theories/Spec/MemorySpec.v
theories/Spec/CrashSpec.v
theories/Proofs/MemoryProofs.v
theories/Props/PropsMemory.v
theories/Proofs/CrashSched.v
theories/Proofs/CrashFlow.v
theories/Proofs/CrashExamples.v
theories/Props/PropsCrash.v
theories/Spec/CrashGraphSpec.v
theories/Proofs/CrashGraph.v
theories/Proofs/CrashGraphFinish.v
theories/Proofs/CrashGraphExamples.v
theories/Props/PropsCrashGraph.v
theories/Proofs/CrashOnce.v
theories/Props/PropsCrashOnce.v
theories/Model/Logging.v
theories/Spec/LoggingSpec.v
theories/Proofs/LoggingProofs.v
theories/Props/PropsLogging.v
theories/Model/MonitorCommand.v
theories/Proofs/EqualsProofs.v
theories/Proofs/MonitorCommandProofs.v
theories/Props/PropsMonitorCommand.v
