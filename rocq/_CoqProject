-Q theories Verif
theories/Base.v
theories/BaseFacts.v
theories/BitVectorModel.v
theories/BitVectorSpec.v
theories/BitFieldProofs.v
theories/CrcProofs.v
theories/BitPackProofs.v
theories/BitMiscProofs.v
theories/BitVectorProps.v
theories/VectorHeapModel.v
theories/VectorHeapSpec.v
theories/VectorHeapProofs.v
theories/VectorAliasProofs.v
theories/VectorHeapProps.v
theories/F16Model.v
theories/F16Spec.v
theories/F16Props.v
theories/ListModel.v
theories/ListSpec.v
theories/ListProofs.v
theories/ListProps.v
theories/Monitor.v
theories/MonitorProofs.v
theories/WakeProofs.v
theories/InterthreadModel.v
theories/InterthreadSpec.v
theories/InterthreadProofs.v
theories/InterthreadProofs2.v
theories/InterthreadProps.v
theories/TimevalModel.v
theories/TimevalProps.v
theories/ThreadsModel.v
theories/ThreadsProofs.v
theories/ScopedLockProofs.v
theories/ScopedLockProofs2.v
theories/ThreadsProps.v
theories/CodecModel.v
theories/CodecSpec.v
theories/CodecProofs.v
theories/CodecProps.v
theories/UtilsModel.v
theories/UtilsSpec.v
theories/UtilsProofs.v
theories/UtilsProofs2.v
theories/UtilsProps.v
theories/RefCntModel.v
theories/RefCntProofs.v
theories/RefCntProps.v
theories/SqlModel.v
theories/SqlProofs.v
theories/ConfigModel.v
theories/ConfigSpec.v
theories/ConfigProofs.v
theories/NumProofs.v
theories/ConfigProps.v
theories/SqlProps.v
theories/KvModel.v
theories/KvProps.v
theories/ValidModel.v
theories/ValidSpec.v
theories/ValidProofs.v
theories/ValidProps.v
theories/LoggerModel.v
theories/LoggerSpec.v
theories/LoggerProps.v
theories/ReportModel.v
theories/ReportSpec.v
theories/ReportProps.v
theories/SignalModel.v
theories/SignalProps.v
theories/VectorContentProps.v
theories/VectorBoundsModel.v
theories/VectorBoundsProps.v
theories/SocketModel.v
theories/SocketProps.v
theories/StmtModel.v
theories/StmtProps.v
theories/F16Float.v
theories/F16FloatProofs.v
theories/F16FloatProps.v
theories/SchemaModel.v
theories/SchemaSpec.v
theories/SchemaProofs.v
theories/SchemaProps.v
theories/TaskModel.v
theories/TaskProps.v
theories/StreamModel.v
theories/StreamProps.v
theories/LeakModel.v
theories/LeakProps.v
theories/ScanModel.v
theories/ScanProps.v
theories/IsoModel.v
theories/IsoProps.v
theories/RwModel.v
theories/RwProps.v
theories/SoftModel.v
theories/SoftProofs.v
theories/SoftProps.v
theories/LogFileModel.v
theories/LogFileProps.v
theories/ReportLifeModel.v
theories/ReportLifeProps.v
theories/FloatNumModel.v
theories/FloatNumProps.v
theories/RowModel.v
theories/RowProps.v
theories/ScalarModel.v
theories/ScalarProps.v
theories/SecondsModel.v
theories/SecondsProps.v
theories/StartModel.v
theories/StartProps.v
theories/PrintfModel.v
theories/PrintfProps.v
theories/TableThreadsModel.v
theories/TableThreadsProps.v
theories/RegexModel.v
theories/RegexSpec.v
theories/RegexProofs.v
theories/RegexParse.v
theories/RegexParse2.v
theories/RegexProps.v
theories/FloatRangeModel.v
theories/FloatRangeProps.v
theories/FieldAddrModel.v
theories/FieldAddrProps.v
theories/SigThreadsModel.v
theories/SigThreadsProps.v
theories/RefThreadsModel.v
theories/RefThreadsProps.v
theories/LogThreadsModel.v
theories/LogThreadsProps.v
theories/LogStmtModel.v
theories/LogStmtSpec.v
theories/LogStmtProofs.v
theories/LogStmtProps.v
theories/NetModel.v
theories/NetSpec.v
theories/NetProofs.v
theories/NetProps.v
theories/SigObjModel.v
theories/SigObjSpec.v
theories/SigObjProps.v
theories/StatTextModel.v
theories/StatTextProofs.v
theories/StatTextProps.v
theories/TimedModel.v
theories/TimedProps.v
theories/AcceptProps.v
theories/ChainProps.v
theories/AliasModel.v
theories/AliasProofs.v
theories/AliasProps.v
theories/InstallProps.v
theories/SoftChainProps.v
theories/IterModel.v
theories/IterProps.v
theories/SllQueueModel.v
theories/SllQueueProps.v
theories/FormatCallModel.v
theories/FormatCallProps.v
theories/PrintModel.v
theories/PrintProps.v
theories/StatFloatModel.v
theories/StatFloatProps.v
theories/MapIterModel.v
theories/MapIterProps.v
theories/MapIterModel.v
theories/MapIterProps.v
theories/FifoCopyModel.v
theories/FifoCopyProps.v
theories/PipelineModel.v
theories/PipelineProps.v
theories/TextObjModel.v
theories/TextObjProps.v
theories/BacktraceModel.v
theories/BacktraceProps.v
theories/GuardModel.v
theories/GuardProps.v
theories/QueueLifeModel.v
theories/QueueLifeProps.v
theories/SockThreadsModel.v
theories/SockThreadsProps.v
theories/HeapModel.v
theories/HeapFacts.v
theories/HeapProps.v
theories/SockCopyModel.v
theories/SockCopyProps.v
theories/LastMsgModel.v
theories/LastMsgProps.v
theories/ConnUseModel.v
theories/ConnUseProps.v
theories/ProcEndModel.v
theories/ProcEndProps.v
theories/StatLogModel.v
theories/StatLogProps.v
theories/KeyTextModel.v
theories/KeyTextProps.v
theories/MemThrModel.v
theories/MemThrProps.v
theories/StatLeakModel.v
theories/StatLeakProps.v
