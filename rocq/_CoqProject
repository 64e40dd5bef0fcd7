-Q theories Verif
theories/Base.v
theories/IndexShuffle.v
theories/IndexShuffle_proofs.v
theories/Sharding.v
theories/MapDatasets.v
theories/Spec.v
theories/Sharding_proofs.v
theories/ListFacts.v
theories/MapSlice_proofs.v
theories/SeedSeq.v
theories/MapShuffle_proofs.v
theories/MapOther_proofs.v
theories/MixSelect_proofs.v
theories/MapBatched_proofs.v
theories/Prop_Map.v
theories/Iter.v
theories/IterSpec.v
theories/IterLaw.v
theories/IterBasic_proofs.v
theories/IterBatch_proofs.v
theories/IterFlat_proofs.v
theories/IterSource_proofs.v
theories/IterWindow_proofs.v
theories/IterRebatch_proofs.v
theories/IterMany_proofs.v
theories/IterThreshold_proofs.v
theories/IterOnce_proofs.v
theories/IterMore_proofs.v
theories/FileSources.v
theories/FileSpec.v
theories/Prop_Source.v
theories/Packing.v
theories/PackingSpec.v
theories/Packing_proofs.v
theories/ConcatSplit.v
theories/ConcatSplitSpec.v
theories/ConcatSplit_proofs.v
theories/ConcatSplitRows_proofs.v
theories/ThreadPrefetch.v
theories/ThreadPrefetchSpec.v
theories/ThreadPrefetch_proofs.v
theories/ProcessPrefetch.v
theories/ProcessPrefetch_proofs.v
theories/Scheduled.v
theories/Scheduled_proofs.v
theories/Pipeline.v
theories/Pipeline_proofs.v
theories/Prop_Iter.v
theories/RngPool.v
theories/Prop_Rng.v
theories/Samplers.v
theories/Prop_Sampler.v
theories/Queues.v
theories/Prop_Queue.v
theories/Options.v
theories/Prop_Options.v
theories/Parallel.v
theories/Prop_Parallel.v
theories/Tree.v
theories/Prop_Tree.v
theories/Elastic.v
theories/Prop_Elastic.v
theories/Interleave.v
theories/InterleaveSpec.v
theories/Interleave_proofs.v
theories/Prop_Interleave.v
theories/Prop_Packing.v
theories/Prop_ConcatSplit.v
theories/Prop_Prefetch.v
theories/Prop_ProcessPrefetch.v
theories/Multiprocess.v
theories/MultiprocessSpec.v
theories/Multiprocess_proofs.v
theories/Prop_Multiprocess.v
theories/DataLoader.v
theories/DataLoaderSpec.v
theories/DataLoader_proofs.v
theories/Prop_DataLoader.v
theories/Operations.v
theories/Operations_proofs.v
theories/Prop_Operations.v
theories/PackOperation.v
theories/PackOperation_proofs.v
theories/Prop_PackOperation.v
theories/SequentialSlice.v
theories/SequentialSliceSpec.v
theories/SequentialSlice_proofs.v
theories/Prop_SequentialSlice.v
theories/Load.v
theories/Prop_Load.v
theories/DevicePut.v
theories/Prop_DevicePut.v
theories/SharedMemory.v
theories/SharedMemorySpec.v
theories/SharedMemory_proofs.v
theories/Prop_SharedMemory.v
theories/ShmProtocol.v
theories/Prop_ShmProtocol.v
theories/NextIndex.v
theories/NextIndexSpec.v
theories/NextIndex_proofs.v
theories/Prop_NextIndex.v
theories/ElasticJob.v
theories/ElasticJob_proofs.v
theories/Prop_ElasticJob.v
theories/ElementSpec.v
theories/ElementConforms.v
theories/ElementSpec_proofs.v
theories/ElementSpecIter_proofs.v
theories/Prop_ElementSpec.v
theories/ExecutionSummary.v
theories/ExecutionSummarySpec.v
theories/ExecutionSummary_proofs.v
theories/ExecutionSummaryBuild_proofs.v
theories/ExecutionSummaryReport_proofs.v
theories/Prop_ExecutionSummary.v
theories/Close.v
theories/CloseSpec.v
theories/Close_proofs.v
theories/Prop_Close.v
theories/PerfConfig.v
theories/PerfConfigSpec.v
theories/PerfConfig_proofs.v
theories/Prop_PerfConfig.v
theories/ElasticPipe.v
theories/ElasticPipeSpec.v
theories/ElasticPipe_proofs.v
theories/Prop_ElasticPipe.v
theories/MpInterleave.v
theories/MpInterleaveSpec.v
theories/MpInterleave_proofs.v
theories/Prop_MpInterleave.v
theories/ElasticClose.v
theories/LoaderFlat.v
theories/LoaderFlatSpec.v
theories/LoaderFlat_proofs.v
theories/Prop_LoaderFlat.v
theories/ElasticGraph.v
theories/ElasticGraphSpec.v
theories/ElasticGraph_proofs.v
theories/Prop_ElasticGraph.v
theories/OptionsMp.v
theories/OptionsMpSpec.v
theories/Prop_OptionsMp.v
theories/MpShared.v
theories/Prop_MpShared.v
theories/StopQueue.v
theories/Prop_StopQueue.v
theories/Assumptions.v
