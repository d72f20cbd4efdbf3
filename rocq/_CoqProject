-Q theories Verif
theories/Base.v
theories/SizeMap.v
theories/SizeMapProofs.v
theories/SizeMapProofs2.v
theories/Tables.v
theories/SizeMapProps.v
theories/Bitmap.v
theories/BitmapProofs.v
theories/BitmapProofs2.v
theories/BitmapProps.v
theories/RangeTrackerProofs.v
theories/RangeTrackerProofs2.v
theories/RangeTrackerProps.v
theories/Span.v
theories/SpanProofs.v
theories/SpanProofs2.v
theories/SpanProps.v
theories/LinkedList.v
theories/LinkedListProps.v
theories/HintedLists.v
theories/HintedListsProofs.v
theories/CentralFreeList.v
theories/CFLProofs.v
theories/CFLProofs2.v
theories/CFLProofs3.v
theories/CFLProps.v
theories/HugeAddressMap.v
theories/HugeAddressMapProofs.v
theories/HugeAddressMapProps.v
theories/HugeAllocator.v
theories/HugeAllocatorProps.v
theories/HugeCache.v
theories/HugeCacheProps.v
theories/FrontApi.v
theories/FrontApiProofs.v
theories/FrontApiProps.v
theories/FrontApiProps2.v
theories/FrontApiProps3.v
theories/PageMap.v
theories/PageMapProps.v
theories/Ranges.v
theories/Arena.v
theories/ArenaProofs.v
theories/ArenaProps.v
theories/Sampler.v
theories/SamplerProps.v
theories/TimeSeries.v
theories/TimeSeriesProps.v
theories/CpuList.v
theories/CpuListProps.v
theories/StackFilter.v
theories/StackFilterProps.v
theories/TransferCache.v
theories/TransferCacheProps.v
theories/Slab.v
theories/SlabProps.v
theories/SlabRseq.v
theories/SlabRseqProofs.v
theories/SlabRseqProps.v
theories/CpuCache.v
theories/CpuCacheProps.v
theories/PageTracker.v
theories/PageTrackerProps.v
theories/Filler.v
theories/FillerProofs.v
theories/FillerProofs2.v
theories/FillerProofs3.v
theories/FillerProofs4.v
theories/FillerProofs5.v
theories/FillerProofs6.v
theories/FillerProps.v
theories/FillerDense.v
theories/HugeRegion.v
theories/HugeRegionProofs.v
theories/HugeRegionProofs2.v
theories/HugeRegionProps.v
theories/HugeRegionSetProps.v
theories/HookList.v
theories/HookListProps.v
theories/Recorder.v
theories/RecorderProps.v
theories/Limits.v
theories/LimitsProps.v
theories/Guarded.v
theories/GuardedProps.v
theories/Hpaa.v
theories/HpaaProofs.v
theories/HpaaProps.v
theories/HpaaExamples.v
theories/SysAlloc.v
theories/SysAllocProps.v
theories/HeapClass.v
theories/HeapPages.v
theories/HeapCaches.v
theories/Heap.v
theories/HeapProofs.v
theories/HeapProps.v
theories/HeapExamples.v
theories/ThreadCache.v
theories/ThreadCacheProofs.v
theories/ThreadCacheProofs2.v
theories/ThreadCacheProps.v
theories/Flow.v
theories/FlowProofs.v
theories/FlowProps.v
theories/FlowLive.v
theories/FlowExamples.v
theories/FlowStop.v
theories/Profiling.v
theories/ProfilingProofs.v
theories/ProfilingLife.v
theories/ProfilingProps.v
theories/ProfilingPeak.v
theories/HeapStats.v
theories/HeapStatsProofs.v
theories/HeapStatsProps.v
theories/HeapStatsExamples.v
theories/Residency.v
theories/ResidencyProps.v
theories/Releaser.v
theories/ReleaserProps.v
theories/Printing.v
theories/PrintingProps.v
theories/Subrelease.v
theories/SubreleaseSpec.v
theories/SubreleaseProofs.v
theories/SubreleaseSkip.v
theories/SubreleaseProps.v
theories/Treatment.v
theories/TreatmentProofs.v
theories/TreatmentProofs2.v
theories/TreatmentProofs3.v
theories/TreatmentSpec.v
theories/TreatmentProofs4.v
theories/TreatmentProps.v
theories/ProfileProto.v
theories/ProfileProtoSpec.v
theories/ProfileProtoProofs.v
theories/ProfileProtoProofs2.v
theories/ProfileProtoProofs3.v
theories/ProfileProtoProps.v
theories/BuildId.v
theories/BuildIdProps.v
theories/Topology.v
theories/TopologySpec.v
theories/TopologyProofs.v
theories/TopologyProofs2.v
theories/TopologyProps.v
theories/SafeIo.v
theories/SafeIoSpec.v
theories/SafeIoProofs.v
theories/SafeIoProofs2.v
theories/SafeIoProps.v
theories/ProcMaps.v
theories/ProcMapsSpec.v
theories/ProcMapsProofs.v
theories/ProcMapsProofs2.v
theories/ProcMapsProps.v
theories/Experiment.v
theories/ExperimentSpec.v
theories/ExperimentProofs.v
theories/ExperimentProps.v
theories/Compress.v
theories/CompressSpec.v
theories/CompressProofs.v
theories/CompressProps.v
theories/GuardRate.v
theories/GuardRateProps.v
theories/Report.v
theories/ReportProps.v
theories/HookFront.v
theories/HookFrontProps.v
theories/Figures.v
theories/FiguresProps.v
theories/FrontApiProps4.v
theories/HookSizes.v
theories/HookSizesProps.v
theories/HookSizesProps2.v
