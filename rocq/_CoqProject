-Q theories Verif
theories/Base.v
theories/Manager.v
theories/Spec.v
theories/Closure.v
theories/ManagerProofs.v
theories/ManagerInv.v
theories/ManagerQueries.v
theories/ManagerSem.v
theories/ManagerThms.v
theories/PropManager.v
theories/MinMax.v
theories/MinMaxThms.v
theories/PropMinMax.v
theories/Json.v
theories/JsonSpec.v
theories/JsonProofs.v
theories/JsonThms.v
theories/PropJson.v
theories/Sampling.v
theories/SamplingSpec.v
theories/SamplingProofs.v
theories/SamplingThms.v
theories/PropSampling.v
theories/Loop.v
theories/LoopThms.v
theories/PropLoop.v
theories/Rename.v
theories/ClusterSpec.v
theories/RenameThms.v
theories/PropRename.v
theories/ClusterProofs.v
theories/KMeans.v
theories/KMeansSpec.v
theories/KMeansProofs.v
theories/KMeansRun.v
theories/KMeansThms.v
theories/PropKMeans.v
theories/Hierarchical.v
theories/HierSpec.v
theories/HierProofs.v
theories/HierRun.v
theories/HierTree.v
theories/HierThms.v
theories/PropHier.v
theories/Spectral.v
theories/SpectralSpec.v
theories/SpectralThms.v
theories/PropSpectral.v
theories/Affinity.v
theories/AffinitySpec.v
theories/AffinityProofs.v
theories/AffinityRun.v
theories/AffinityExact.v
theories/AffinityExample.v
theories/AffinityThms.v
theories/PropAffinity.v
theories/Dbscan.v
theories/DbscanSpec.v
theories/DbscanProofs.v
theories/DbscanRun.v
theories/DbscanThms.v
theories/PropDbscan.v
theories/Mpckmeans.v
theories/MpckSpec.v
theories/MpckGraph.v
theories/MpckRun.v
theories/MpckThms.v
theories/PropMpck.v
theories/Frequency.v
theories/FrequencyThms.v
theories/PropFrequency.v
theories/Factories.v
theories/FactoriesSpec.v
theories/FactoriesThms.v
theories/PropFactories.v
theories/UsageSpec.v
theories/Usage.v
theories/UsageThms.v
theories/PropUsage.v
theories/Text.v
theories/TextSpec.v
theories/TextThms.v
theories/PropText.v
theories/GuideThms.v
theories/PropGuide.v
theories/SameSpec.v
theories/Same.v
theories/SameComps.v
theories/SameHier.v
theories/SameAff.v
theories/SameThms.v
theories/PropSame.v
theories/ColoringSpec.v
theories/ColoringThms.v
theories/PropColoring.v
theories/Objects.v
theories/ObjectsSpec.v
theories/ObjectsThms.v
theories/PropObjects.v
theories/Seeds.v
theories/SeedsThms.v
theories/PropSeeds.v
theories/ResumeSpec.v
theories/ResumeThms.v
theories/PropResume.v
theories/Heap.v
theories/HeapProofs.v
theories/HeapRun.v
theories/HeapCalls.v
theories/HeapSpec.v
theories/HeapThms.v
theories/PropHeap.v
theories/RepairSpec.v
theories/RepairThms.v
theories/PropRepair.v
theories/EffortSpec.v
theories/EffortThms.v
theories/PropEffort.v
theories/NamesSpec.v
theories/NamesThms.v
theories/PropNames.v
theories/MonoSpec.v
theories/Rel.v
theories/RelManager.v
theories/RelClusterings.v
theories/RelHierDb.v
theories/MonoThms.v
theories/PropMono.v
theories/Annotator.v
theories/AnnotatorSpec.v
theories/AnnotatorThms.v
theories/PropAnnotator.v
theories/TestLib.v
theories/TestsManager.v
theories/TestsSampling.v
theories/TestsClustering.v
theories/TestsHierarchical.v
theories/TestsAffinity.v
theories/LloydSpec.v
theories/LloydProofs.v
theories/LloydThms.v
theories/PropLloyd.v
theories/CutSpec.v
theories/CutThms.v
theories/PropCut.v
theories/DensitySpec.v
theories/DensityThms.v
theories/PropDensity.v
theories/InversionThms.v
theories/PropInversion.v
theories/RangeSpec.v
theories/RangeThms.v
theories/PropRange.v
theories/BlockSpec.v
theories/BlockThms.v
theories/PropBlock.v
theories/WeightSpec.v
theories/WeightThms.v
theories/PropWeight.v
theories/Arguments.v
theories/ArgumentsSpec.v
theories/ArgumentsThms.v
theories/PropArguments.v
theories/ConvergeSpec.v
theories/ConvergeThms.v
theories/PropConverge.v
theories/TellSpec.v
theories/TellThms.v
theories/PropTell.v
theories/StaleSpec.v
theories/StaleThms.v
theories/PropStale.v
theories/UnitSpec.v
theories/UnitProofs.v
theories/UnitThms.v
theories/PropUnit.v
theories/TwinSpec.v
theories/TwinThms.v
theories/PropTwin.v
theories/MoveSpec.v
theories/MoveProofs.v
theories/MoveThms.v
theories/PropMove.v
theories/RankSpec.v
theories/RankThms.v
theories/PropRank.v
theories/CanonSpec.v
theories/CanonThms.v
theories/PropCanon.v
theories/UndoSpec.v
theories/UndoThms.v
theories/PropUndo.v
theories/PeriodThms.v
theories/PropPeriod.v
theories/PartitionSpec.v
theories/PartitionThms.v
theories/PropPartition.v
theories/TeamsSpec.v
theories/TeamsThms.v
theories/PropTeams.v
theories/IgnoredThms.v
theories/PropIgnored.v
theories/RoundsSpec.v
theories/RoundsThms.v
theories/PropRounds.v
theories/StopSpec.v
theories/StopThms.v
theories/PropStop.v
theories/Interrupt.v
theories/InterruptSpec.v
theories/InterruptThms.v
theories/PropInterrupt.v
theories/FairSpec.v
theories/FairProofs.v
theories/FairThms.v
theories/PropFair.v
theories/NarrowThms.v
theories/PropNarrow.v
theories/FloatSpec.v
theories/FloatThms.v
theories/PropFloat.v
theories/AsymThms.v
theories/PropAsym.v
theories/Threads.v
theories/ThreadSpec.v
theories/ThreadsThms.v
theories/PropThreads.v
theories/StableThms.v
theories/PropStable.v
theories/SepSpec.v
theories/SeparatedThms.v
theories/PropSeparated.v
theories/SepDbscanThms.v
theories/PropSepDbscan.v
theories/KStableThms.v
theories/PropKStable.v
theories/WrongSpec.v
theories/WrongThms.v
theories/PropWrong.v
theories/Readers.v
theories/ReadersSpec.v
theories/ReadersThms.v
theories/PropReaders.v
theories/TeachSpec.v
theories/TeachThms.v
theories/PropTeach.v
theories/KnowThms.v
theories/PropKnow.v
theories/CostSpec.v
theories/CostThms.v
theories/PropCost.v
theories/SureSpec.v
theories/SureThms.v
theories/PropSure.v
theories/ExhaustSpec.v
theories/ExhaustThms.v
theories/PropExhaust.v
theories/RoundingProofs.v
theories/FrequencyFloatThms.v
theories/PropFrequencyFloat.v
theories/ApproxSpec.v
theories/ApproxThms.v
theories/PropApprox.v
theories/Listing.v
theories/ListingSpec.v
theories/ListingThms.v
theories/PropListing.v
theories/SampleThread.v
theories/SampleThreadSpec.v
theories/SampleThreadThms.v
theories/PropSampleThread.v
theories/KMeansThread.v
theories/KMeansThreadSpec.v
theories/KMeansThreadThms.v
theories/PropKMeansThread.v
theories/HierThread.v
theories/HierThreadSpec.v
theories/HierThreadProofs.v
theories/HierThreadThms.v
theories/PropHierThread.v
theories/AffinityThread.v
theories/AffinityThreadSpec.v
theories/AffinityThreadThms.v
theories/PropAffinityThread.v
theories/DbscanThread.v
theories/DbscanThreadSpec.v
theories/DbscanThreadProofs.v
theories/DbscanThreadThms.v
theories/PropDbscanThread.v
theories/SpectralThread.v
theories/SpectralThreadSpec.v
theories/SpectralThreadThms.v
theories/PropSpectralThread.v
theories/MpckThread.v
theories/MpckThreadSpec.v
theories/MpckThreadProofs.v
theories/MpckThreadThms.v
theories/PropMpckThread.v
theories/SaveThread.v
theories/SaveThreadSpec.v
theories/SaveThreadThms.v
theories/PropSaveThread.v
theories/MinMaxThread.v
theories/MinMaxThreadThms.v
theories/PropMinMaxThread.v
theories/ConflictThread.v
theories/ConflictThreadSpec.v
theories/RisingProofs.v
theories/ConflictThreadThms.v
theories/PropConflictThread.v
theories/AskAgain.v
theories/AskAgainSpec.v
theories/AskAgainThms.v
theories/PropAskAgain.v
theories/ToldSpec.v
theories/ToldThms.v
theories/PropTold.v
theories/KeepSpec.v
theories/KeepThms.v
theories/PropKeep.v
theories/ManagedThread.v
theories/ManagedThreadThms.v
theories/PropManagedThread.v
theories/GrowThms.v
theories/PropGrow.v
