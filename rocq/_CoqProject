-Q theories Verif
theories/AggregateLive_Proofs.v
theories/AggregateUse_Proofs.v
theories/Aggregate_Model.v
theories/Aggregate_Proofs.v
theories/Aggregate_Props.v
theories/Aggregate_Spec.v
theories/Api_Model.v
theories/Api_Proofs.v
theories/Api_Props.v
theories/Api_Spec.v
theories/AsyncReadNonvolatile_Proofs.v
theories/AsyncReadNonvolatile_Props.v
theories/AsyncReadVolatile_Proofs.v
theories/AsyncReadVolatile_Props.v
theories/AsyncRead_Model.v
theories/AsyncRead_Proofs.v
theories/Base.v
theories/Batching_Model.v
theories/Batching_Proofs.v
theories/Batching_Props.v
theories/Batching_Spec.v
theories/BufferManager_Model.v
theories/BufferManager_Proofs.v
theories/BufferManager_Props.v
theories/BufferManager_Spec.v
theories/BufferMatcher_Model.v
theories/ClientConfig_Model.v
theories/ClientConfig_Proofs.v
theories/ClientConfig_Props.v
theories/ClientConfig_Spec.v
theories/Collector_Model.v
theories/Collector_Proofs.v
theories/Collector_Props.v
theories/Collector_Spec.v
theories/Connection_Model.v
theories/Connection_Proofs.v
theories/Connection_Props.v
theories/Connection_Spec.v
theories/DeliveryLive_Proofs.v
theories/DeliveryLive_Props.v
theories/Delivery_Model.v
theories/Delivery_Proofs.v
theories/Delivery_Props.v
theories/Delivery_Spec.v
theories/Demux_Model.v
theories/Demux_Proofs.v
theories/Demux_Props.v
theories/Demux_Spec.v
theories/Device_Model.v
theories/Device_Proofs.v
theories/Device_Props.v
theories/Device_Spec.v
theories/ErrorReport_Model.v
theories/ErrorReport_Proofs.v
theories/ErrorReport_Props.v
theories/ErrorReport_Spec.v
theories/Filter_Model.v
theories/Filter_Proofs.v
theories/Filter_Props.v
theories/Filter_Spec.v
theories/Flags_Model.v
theories/Flags_Proofs.v
theories/Flags_Props.v
theories/Flags_Spec.v
theories/Freeze_Model.v
theories/Freeze_Proofs.v
theories/Freeze_Props.v
theories/Freeze_Spec.v
theories/Gather_Model.v
theories/Gather_Proofs.v
theories/Gather_Props.v
theories/Gather_Spec.v
theories/GrpcService_Model.v
theories/GrpcService_Proofs.v
theories/GrpcService_Props.v
theories/GrpcService_Spec.v
theories/Grpc_Model.v
theories/Grpc_Proofs.v
theories/Grpc_Props.v
theories/Grpc_Spec.v
theories/Handle_Model.v
theories/Handle_Proofs.v
theories/Handle_Props.v
theories/Handle_Spec.v
theories/Handshake_Model.v
theories/Handshake_Proofs.v
theories/Handshake_Props.v
theories/Handshake_Spec.v
theories/Histogram_Model.v
theories/Histogram_Proofs.v
theories/Histogram_Spec.v
theories/Hyper_Model.v
theories/Hyper_Proofs.v
theories/Hyper_Props.v
theories/Hyper_Spec.v
theories/IntrusiveQueue_Model.v
theories/IntrusiveQueue_Proofs.v
theories/IntrusiveQueue_Props.v
theories/IntrusiveQueue_Spec.v
theories/KeyValue_Model.v
theories/KeyValue_Proofs.v
theories/KeyValue_Props.v
theories/KeyValue_Spec.v
theories/Labels_Model.v
theories/Labels_Proofs.v
theories/Labels_Props.v
theories/Late_Model.v
theories/Late_Proofs.v
theories/Late_Props.v
theories/Late_Spec.v
theories/LogBufferShot_Proofs.v
theories/LogBufferShot_Props.v
theories/LogBufferShot_Spec.v
theories/LogBuffer_Model.v
theories/LogBuffer_Proofs.v
theories/LogBuffer_Props.v
theories/LogBuffer_Spec.v
theories/LogMatcher_Model.v
theories/Log_Model.v
theories/Lru_Model.v
theories/Lru_Proofs.v
theories/Lru_Props.v
theories/Lru_Spec.v
theories/Matcher_Proofs.v
theories/Matcher_Props.v
theories/Matcher_Spec.v
theories/MemoryBound_Model.v
theories/MemoryBound_Proofs.v
theories/MemoryBound_Props.v
theories/MemoryBound_Spec.v
theories/Metadata_Model.v
theories/Metadata_Proofs.v
theories/Metadata_Props.v
theories/Metadata_Spec.v
theories/Network_Model.v
theories/Network_Proofs.v
theories/Network_Props.v
theories/Network_Spec.v
theories/NonvolatileClient_Proofs.v
theories/NonvolatileClient_Spec.v
theories/NonvolatileCorrupt_Proofs.v
theories/NonvolatileCorrupt_Props.v
theories/NonvolatileCorrupt_Spec.v
theories/NonvolatileCrash_Proofs.v
theories/NonvolatileQueue_Proofs.v
theories/NonvolatileStores_Proofs.v
theories/NonvolatileUse_Proofs.v
theories/Nonvolatile_Model.v
theories/Nonvolatile_Proofs.v
theories/Nonvolatile_Props.v
theories/Nonvolatile_Spec.v
theories/Panic_Model.v
theories/Panic_Props.v
theories/Parts_Model.v
theories/Parts_Proofs.v
theories/Parts_Props.v
theories/Parts_Spec.v
theories/Paths_Model.v
theories/Paths_Proofs.v
theories/Paths_Props.v
theories/Paths_Spec.v
theories/PipelineEffects_Proofs.v
theories/PipelineState_Proofs.v
theories/Pipeline_Model.v
theories/Pipeline_Proofs.v
theories/Pipeline_Props.v
theories/Pipeline_Spec.v
theories/PreConfig_Model.v
theories/PreConfig_Proofs.v
theories/PreConfig_Props.v
theories/PreConfig_Spec.v
theories/Privacy_Proofs.v
theories/Privacy_Props.v
theories/Privacy_Spec.v
theories/ProtoHash_Model.v
theories/ProtoHash_Proofs.v
theories/ProtoHash_Props.v
theories/ProtoHash_Spec.v
theories/RateLimit_Model.v
theories/RateLimit_Proofs.v
theories/RateLimit_Props.v
theories/RateLimit_Spec.v
theories/Record_Model.v
theories/Record_Proofs.v
theories/Record_Props.v
theories/Record_Spec.v
theories/RecorderShots_Proofs.v
theories/Recorder_Model.v
theories/Recorder_Proofs.v
theories/Recorder_Props.v
theories/Recorder_Spec.v
theories/Refused_Proofs.v
theories/Refused_Props.v
theories/Refused_Spec.v
theories/Retry_Model.v
theories/Retry_Proofs.v
theories/Retry_Props.v
theories/Ring_Layout.v
theories/Ring_Model.v
theories/Ring_Proofs.v
theories/Rt_Model.v
theories/Rt_Proofs.v
theories/Rt_Props.v
theories/Runtime_Model.v
theories/Runtime_Proofs.v
theories/Runtime_Props.v
theories/Runtime_Spec.v
theories/Sankey_Model.v
theories/Sankey_Proofs.v
theories/Sankey_Props.v
theories/Sankey_Spec.v
theories/Sdk_Model.v
theories/Sdk_Proofs.v
theories/Sdk_Props.v
theories/Sdk_Spec.v
theories/Serve_Model.v
theories/Serve_Proofs.v
theories/Serve_Props.v
theories/Serve_Spec.v
theories/Session_Model.v
theories/Session_Proofs.v
theories/Session_Props.v
theories/Session_Spec.v
theories/ShutdownLogger_Proofs.v
theories/Shutdown_Model.v
theories/Shutdown_Proofs.v
theories/Shutdown_Props.v
theories/Shutdown_Spec.v
theories/Sizes_Model.v
theories/Sizes_Proofs.v
theories/Sizes_Props.v
theories/Sizes_Spec.v
theories/StatsDue_Proofs.v
theories/StatsDue_Props.v
theories/StatsDue_Spec.v
theories/StatsFile_Model.v
theories/StatsFile_Proofs.v
theories/StatsFile_Props.v
theories/StatsFile_Spec.v
theories/StatsStore_Model.v
theories/StatsStore_Proofs.v
theories/StatsStore_Props.v
theories/StatsStore_Spec.v
theories/Str_Base.v
theories/Ticker_Model.v
theories/Ticker_Proofs.v
theories/Ticker_Props.v
theories/Ticker_Spec.v
theories/Time_Model.v
theories/Time_Proofs.v
theories/Time_Props.v
theories/UploadManagerUse_Proofs.v
theories/UploadManager_Model.v
theories/UploadManager_Proofs.v
theories/UploadManager_Props.v
theories/UploadManager_Spec.v
theories/Validate_Model.v
theories/Validate_Proofs.v
theories/Validate_Props.v
theories/Validate_Spec.v
theories/Version_Model.v
theories/Version_Proofs.v
theories/Version_Props.v
theories/Version_Spec.v
theories/Volatile_Model.v
theories/Volatile_Proofs.v
theories/Volatile_Props.v
theories/Volatile_Spec.v
theories/WarnTracker_Model.v
theories/WarnTracker_Proofs.v
theories/WarnTracker_Props.v
theories/WorkflowActions_Proofs.v
theories/WorkflowEngine_Model.v
theories/WorkflowEngine_Proofs.v
theories/WorkflowEngine_Props.v
theories/WorkflowEngine_Spec.v
theories/WorkflowEqual_Proofs.v
theories/WorkflowExamples_Model.v
theories/WorkflowFile_Proofs.v
theories/WorkflowFinal_Proofs.v
theories/WorkflowFires_Proofs.v
theories/WorkflowFlush_Proofs.v
theories/WorkflowFlush_Props.v
theories/WorkflowFlush_Spec.v
theories/WorkflowHistory_Proofs.v
theories/WorkflowMeans_Proofs.v
theories/WorkflowMeans_Props.v
theories/WorkflowMeans_Spec.v
theories/WorkflowNegotiation_Proofs.v
theories/WorkflowRefuted_Proofs.v
theories/WorkflowRestore_Proofs.v
theories/WorkflowStats_Model.v
theories/WorkflowStats_Proofs.v
theories/WorkflowStats_Props.v
theories/WorkflowStats_Spec.v
theories/WorkflowSummary_Proofs.v
theories/Workflow_Model.v
theories/Workflow_Proofs.v
theories/Workflow_Props.v
theories/Workflow_Spec.v
