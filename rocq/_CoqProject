-Q theories Verif
theories/Prelude.v
theories/Model/Base.v
theories/Spec/BaseSpec.v
theories/Proofs/BaseProofs.v
theories/Proofs/BaseBatch.v
theories/Proofs/BaseRun.v
theories/Proofs/BaseLoop.v
theories/Proofs/BaseFinal.v
theories/Properties/BaseProps.v
theories/Model/Files.v
theories/Model/Loaders.v
theories/Spec/LoaderSpec.v
theories/Proofs/LoaderProofs.v
theories/Spec/FilesSpec.v
theories/Proofs/FilesProofs.v
theories/Proofs/LoaderFinal.v
theories/Properties/LoaderProps.v
theories/Model/Episodic.v
theories/Spec/EpisodicSpec.v
theories/Proofs/EpisodicProofs.v
theories/Proofs/EpisodicFinal.v
theories/Proofs/FreshKeys.v
theories/Properties/EpisodicProps.v
theories/Properties/FreshProps.v
theories/Model/Prefetch.v
theories/Model/StartRace.v
theories/Spec/PrefetchSpec.v
theories/Proofs/PrefetchProofs.v
theories/Proofs/PrefetchMore.v
theories/Proofs/PrefetchEnd.v
theories/Proofs/PrefetchEpisodes.v
theories/Proofs/PrefetchWitness.v
theories/Proofs/StartRaceProofs.v
theories/Properties/PrefetchProps.v
theories/Model/Sampler.v
theories/Model/Keys.v
theories/Spec/SamplerSpec.v
theories/Spec/KeySpec.v
theories/Proofs/SamplerProofs.v
theories/Proofs/SamplerRuns.v
theories/Proofs/SamplerMore.v
theories/Proofs/KeyProofs.v
theories/Properties/SamplerProps.v
theories/Model/Interp.v
theories/Model/Apply.v
theories/Spec/InterpSpec.v
theories/Spec/WarpSpec.v
theories/Proofs/InterpProofs.v
theories/Proofs/WarpProofs.v
theories/Proofs/AdapterProofs.v
theories/Properties/InterpProps.v
theories/Model/Geometry.v
theories/Model/DataGen.v
theories/Spec/GeometrySpec.v
theories/Proofs/GeometryProofs.v
theories/Proofs/FloatProofs.v
theories/Proofs/FloatGeometry.v
theories/Properties/GeometryProps.v
theories/Model/Render.v
theories/Model/Hist.v
theories/Spec/RenderSpec.v
theories/Spec/HistSpec.v
theories/Proofs/RenderProofs.v
theories/Proofs/HistProofs.v
theories/Proofs/KernelProofs.v
theories/Proofs/DataGenProofs.v
theories/Proofs/ShiftProofs.v
theories/Properties/RenderProps.v
theories/Model/PyVal.v
theories/Model/Types.v
theories/Spec/TypesSpec.v
theories/Spec/SpecValues.v
theories/Proofs/TypesProofs.v
theories/Properties/TypesProps.v
theories/Model/Stack.v
theories/Model/Make.v
theories/Spec/StackSpec.v
theories/Spec/MakeSpec.v
theories/Proofs/StackProofs.v
theories/Proofs/MakeProofs.v
theories/Proofs/MakeMore.v
theories/Properties/MakeProps.v
theories/Model/Sanity.v
theories/Spec/SanitySpec.v
theories/Proofs/SanityText.v
theories/Proofs/SanitySpeeds.v
theories/Proofs/SanityPanel.v
theories/Properties/SanityProps.v
theories/Model/Scripts.v
theories/Spec/ScriptsSpec.v
theories/Proofs/ScriptsText.v
theories/Proofs/ScriptsSplit.v
theories/Proofs/ScriptsFlow.v
theories/Proofs/ScriptsFloat.v
theories/Spec/SliceSpec.v
theories/Proofs/SliceProofs.v
theories/Spec/FlowKeysSpec.v
theories/Proofs/FlowKeysProofs.v
theories/Properties/ScriptsProps.v
theories/Model/Records.v
theories/Spec/RecordsSpec.v
theories/Proofs/RecordsProofs.v
theories/Properties/RecordsProps.v
theories/Spec/PipelineSpec.v
theories/Proofs/PipelineProofs.v
theories/Properties/PipelineProps.v
theories/Proofs/EpisodePipeline.v
theories/Properties/EpisodePipelineProps.v
theories/Model/Synthetic.v
theories/Spec/SyntheticSpec.v
theories/Proofs/SyntheticProofs.v
theories/Properties/SyntheticProps.v
theories/Model/Configured.v
theories/Spec/ConfiguredSpec.v
theories/Proofs/ConfiguredProofs.v
theories/Properties/ConfiguredProps.v
theories/Spec/AcceptSpec.v
theories/Proofs/AcceptProofs.v
theories/Properties/AcceptProps.v
theories/Model/Real.v
theories/Spec/RealSpec.v
theories/Proofs/RealProofs.v
theories/Properties/RealProps.v
theories/Model/Shutdown.v
theories/Spec/ShutdownSpec.v
theories/Proofs/ShutdownProofs.v
theories/Properties/ShutdownProps.v
theories/Model/Debug.v
theories/Spec/DebugSpec.v
theories/Proofs/DebugProofs.v
theories/Properties/DebugProps.v
theories/Model/Reassign.v
theories/Spec/ReassignSpec.v
theories/Proofs/ReassignProofs.v
theories/Properties/ReassignProps.v
theories/Proofs/RaceProofs.v
theories/Properties/RaceProps.v
theories/Model/InterpFloat.v
theories/Spec/InterpFloatSpec.v
theories/Spec/LipschitzSpec.v
theories/Proofs/RoundProofs.v
theories/Proofs/InterpFloatProofs.v
theories/Proofs/InterpBinary.v
theories/Proofs/LipschitzProofs.v
theories/Properties/InterpFloatProps.v
theories/Model/HistFloat.v
theories/Spec/HistFloatSpec.v
theories/Proofs/HistFloatProofs.v
theories/Properties/HistFloatProps.v
theories/Model/Main.v
theories/Spec/MainSpec.v
theories/Proofs/MainProofs.v
theories/Properties/MainProps.v
theories/Spec/TimingSpec.v
theories/Proofs/TimingProofs.v
theories/Proofs/TimingMore.v
theories/Properties/TimingProps.v
theories/Spec/ArithSpec.v
theories/Proofs/ArithProofs.v
theories/Model/Shipped.v
theories/Spec/ShippedSpec.v
theories/Proofs/ShippedProofs.v
theories/Properties/ShippedProps.v
theories/Spec/PairSpec.v
theories/Proofs/PairProofs.v
theories/Properties/PairProps.v
theories/Model/DrawFloat.v
theories/Spec/DrawFloatSpec.v
theories/Proofs/DrawFloatProofs.v
theories/Proofs/PlaceFloatProofs.v
theories/Proofs/DrawnPixel.v
theories/Properties/DrawFloatProps.v
theories/Spec/KernelFloatSpec.v
theories/Proofs/KernelError.v
theories/Proofs/KernelFloatProofs.v
theories/Proofs/KernelImage.v
theories/Properties/KernelFloatProps.v
theories/Model/MoveFloat.v
theories/Spec/MoveFloatSpec.v
theories/Proofs/MoveFloatProofs.v
theories/Properties/MoveFloatProps.v
theories/Model/SampleFloat.v
theories/Spec/SampleFloatSpec.v
theories/Proofs/SampleFloatProofs.v
theories/Properties/SampleFloatProps.v
theories/Model/FinishFloat.v
theories/Spec/FinishFloatSpec.v
theories/Proofs/FinishFloatProofs.v
theories/Properties/FinishFloatProps.v
theories/Model/AdaptFloat.v
theories/Spec/AdaptFloatSpec.v
theories/Proofs/AdaptFloatProofs.v
theories/Properties/AdaptFloatProps.v
theories/Model/SceneFloat.v
theories/Spec/SceneFloatSpec.v
theories/Proofs/SceneFloatProofs.v
theories/Properties/SceneFloatProps.v
theories/Spec/GeomFloatSpec.v
theories/Proofs/GeomFloatProofs.v
theories/Properties/GeomFloatProps.v
theories/Model/WarpFloat.v
theories/Spec/WarpFloatSpec.v
theories/Proofs/WarpFloatProofs.v
theories/Properties/WarpFloatProps.v
theories/Spec/RegisterSpec.v
theories/Proofs/RegisterProofs.v
theories/Properties/RegisterProps.v
theories/Model/Length.v
theories/Properties/LengthProps.v
theories/Spec/CompareSpec.v
theories/Proofs/CompareProofs.v
theories/Properties/CompareProps.v
theories/Model/MatFile.v
theories/Spec/MatFileSpec.v
theories/Proofs/MatFileProofs.v
theories/Properties/MatFileProps.v
theories/Model/Abandon.v
theories/Spec/AbandonSpec.v
theories/Proofs/AbandonProofs.v
theories/Properties/AbandonProps.v
theories/Model/Checks.v
theories/Spec/ChecksSpec.v
theories/Proofs/ChecksProofs.v
theories/Properties/ChecksProps.v
theories/Properties/BlockProps.v
theories/Properties/AuditProps.v
theories/Model/Construct.v
theories/Spec/ConstructSpec.v
theories/Proofs/NamesProofs.v
theories/Proofs/ConstructProofs.v
theories/Properties/ConstructProps.v
theories/Model/BatchSize.v
theories/Spec/BatchSizeSpec.v
theories/Proofs/BatchSizeProofs.v
theories/Properties/BatchSizeProps.v
theories/Spec/SplitNamesSpec.v
theories/Proofs/SplitNamesProofs.v
theories/Properties/SplitNamesProps.v
theories/Model/Readers.v
theories/Spec/ReadersSpec.v
theories/Proofs/ReadersProofs.v
theories/Properties/ReadersProps.v
theories/Model/Stopper.v
theories/Spec/StopperSpec.v
theories/Proofs/StopperProofs.v
theories/Properties/StopperProps.v
theories/Model/Resetter.v
theories/Spec/ResetterSpec.v
theories/Proofs/ResetterProofs.v
theories/Proofs/ResetterLive.v
theories/Properties/ResetterProps.v
theories/Model/Skipper.v
theories/Spec/SkipperSpec.v
theories/Proofs/SkipperProofs.v
theories/Properties/SkipperProps.v
theories/Model/TriFloat.v
theories/Spec/TriFloatSpec.v
theories/Proofs/TriFloatProofs.v
theories/Properties/TriFloatProps.v
theories/Model/Move3Float.v
theories/Spec/Move3FloatSpec.v
theories/Proofs/Move3FloatProofs.v
theories/Properties/Move3FloatProps.v
