-Q theories Verif
theories/IndexSpec.v
theories/LoopsModel.v
theories/LoopsProofs.v
theories/LoopsProps.v
theories/NDArrayModel.v
theories/NDArrayProofs.v
theories/NDArrayOps.v
theories/NDArrayOps2.v
theories/NDArrayOps3.v
theories/NDArrayProps.v
theories/CodecModel.v
theories/CodecProps.v
theories/NullSupModel.v
theories/NullSupProps.v
theories/StreamerModel.v
theories/StreamerProofs.v
theories/StreamerProofs2.v
theories/StreamerProps.v
theories/CacheModel.v
theories/CacheProofs.v
theories/CacheProps.v
theories/PoolModel.v
theories/PoolProofs.v
theories/PoolProps.v
theories/BBoxModel.v
theories/BBoxProps.v
theories/RTreeModel.v
theories/RTreeBoxes.v
theories/RTreeInv.v
theories/RTreeInsert.v
theories/RTreeSearch.v
theories/RTreeOps.v
theories/RTreeRebuild.v
theories/RTreeProps.v
theories/DownsampleModel.v
theories/DownsampleProps.v
theories/KernelModel.v
theories/KernelProps.v
theories/InterpModel.v
theories/InterpProps.v
theories/ChunkMetaModel.v
theories/ChunkMetaProps.v
theories/ValidationModel.v
theories/ValidationProps.v
theories/NumpyModel.v
theories/NumpyProps.v
theories/FieldStatsModel.v
theories/FieldStatsProps.v
theories/PartitionModel.v
theories/PartitionProps.v
theories/BoundaryModel.v
theories/BoundaryProps.v
theories/SignalModel.v
theories/SignalProps.v
theories/SignalProps2.v
theories/ChunkCacheModel.v
theories/ChunkCacheSpec.v
theories/ChunkCacheProofs.v
theories/ChunkCacheProofs2.v
theories/ChunkCacheProofs3.v
theories/ChunkCacheProps.v
theories/LibraryModel.v
theories/LibrarySpec.v
theories/LibraryProofs.v
theories/LibraryProofs2.v
theories/LibraryProofs3.v
theories/LibraryProofs4.v
theories/LibraryProofs5.v
theories/LibraryProofs6.v
theories/LibrarySwap.v
theories/LibraryProofs7.v
theories/LibraryProps.v
theories/RebuildModel.v
theories/RebuildSpec.v
theories/RebuildProofs.v
theories/RebuildProofs2.v
theories/RebuildProofs3.v
theories/RebuildProofs4.v
theories/RebuildProps.v
theories/CrashModel.v
theories/CrashSpec.v
theories/CrashProofs.v
theories/CrashProofs2.v
theories/CrashProofs3.v
theories/CrashProps.v
theories/LibrarySwapProps.v
theories/LibraryFiles.v
theories/LibraryFilesProps.v
theories/ParallelModel.v
theories/ParallelSpec.v
theories/ParallelProofs.v
theories/ParallelProofs2.v
theories/ParallelProofs3.v
theories/ParallelProps.v
theories/RecordModel.v
theories/RecordSpec.v
theories/RecordProofs.v
theories/RecordProofs2.v
theories/RecordProofs3.v
theories/RecordProps.v
theories/StorageModel.v
theories/StorageSpec.v
theories/StorageProofs.v
theories/StorageProofs2.v
theories/StorageProofs3.v
theories/StorageProps.v
theories/CalculateModel.v
theories/CalculateSpec.v
theories/CalculateProofs.v
theories/CalculateProofs2.v
theories/CalculateProps.v
theories/FillModel.v
theories/FillSpec.v
theories/FillProofs.v
theories/FillProofs2.v
theories/FillProps.v
theories/CoordsModel.v
theories/CoordsSpec.v
theories/CoordsProps.v
theories/AnalyticModel.v
theories/AnalyticSpec.v
theories/AnalyticProofs.v
theories/AnalyticProps.v
theories/ReadModel.v
theories/ReadSpec.v
theories/ReadProofs.v
theories/ReadProofs2.v
theories/ReadProps.v
theories/ReadAnalytic.v
theories/GammaModel.v
theories/GammaSpec.v
theories/GammaProofs.v
theories/GammaProofs2.v
theories/GammaProps.v
theories/DipoleModel.v
theories/DipoleSpec.v
theories/DipoleProofs.v
theories/DipoleProps.v
theories/SamplingModel.v
theories/SamplingSpec.v
theories/SamplingProofs.v
theories/SamplingProps.v
theories/StoredModel.v
theories/StoredSpec.v
theories/StoredProps.v
theories/StoredSignalSpec.v
theories/StoredSignal.v
theories/ShowerModel.v
theories/ShowerSpec.v
theories/ShowerProofs.v
theories/ShowerProps.v
theories/CreatorModel.v
theories/CreatorSpec.v
theories/CreatorProps.v
theories/EmissionModel.v
theories/EmissionSpec.v
theories/EmissionProps.v
theories/EmissionAnalytic.v
theories/MeepSpec.v
theories/MeepProps.v
theories/RebuildWholeModel.v
theories/RebuildWhole.v
theories/RebuildWholeProps.v
theories/AntennaModel.v
theories/AntennaSpec.v
theories/AntennaProps.v
theories/ArrayReadsProps.v
theories/DiscreteModel.v
theories/DiscreteSpec.v
theories/DiscreteProps.v
theories/DiscreteTimes.v
theories/ExportModel.v
theories/ExportSpec.v
theories/ExportProps.v
theories/Interp32Model.v
theories/Interp32Spec.v
theories/Interp32Weights.v
theories/Interp32Proofs.v
theories/Interp32Props.v
theories/Interp32Nodes.v
theories/CrashAppendModel.v
theories/CrashAppendSpec.v
theories/CrashAppendProofs.v
theories/CrashAppendProofs2.v
theories/CrashAppendProofs3.v
theories/CrashAppendProps.v
theories/Signal32Model.v
theories/Signal32Spec.v
theories/Signal32Props.v
theories/Signal32Whole.v
theories/Signal32Signal.v
theories/Signal32Error.v
theories/Signal32Example.v
theories/Signal32Any.v
theories/Signal32Stops.v
theories/Chunk32Spec.v
theories/Chunk32Props.v
theories/Chunk32Loop.v
theories/Chunk32Contrib.v
theories/Chunk32Whole.v
theories/Chunk32Signal.v
theories/Track32Props.v
theories/Track32Signal.v
theories/Sample32Props.v
theories/Sample32Example.v
theories/TableModel.v
theories/TableSpec.v
theories/TableProps.v
theories/TableRead.v
theories/TableFloatModel.v
theories/TableFloat.v
theories/TableFloatProfiles.v
theories/IceModel.v
theories/IceProps.v
theories/ChargeModel.v
theories/ChargeProps.v
theories/TimesModel.v
theories/TimesProps.v
