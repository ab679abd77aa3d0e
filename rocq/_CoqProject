-Q theories Verif
theories/Model/Ale.v
theories/Model/AlePlot.v
theories/Model/Base.v
theories/Model/Cache.v
theories/Model/CacheLazy.v
theories/Model/Constructor.v
theories/Model/Csr.v
theories/Model/Distance.v
theories/Model/Ext.v
theories/Model/FitCall.v
theories/Model/Float32.v
theories/Model/Float64.v
theories/Model/GridSearch.v
theories/Model/History.v
theories/Model/ImportanceMaps.v
theories/Model/Inspect.v
theories/Model/Kernel.v
theories/Model/KernelFloat.v
theories/Model/LeaveOneOut.v
theories/Model/LocalImportance.v
theories/Model/Moran.v
theories/Model/Neighbour.v
theories/Model/NumbaImpl.v
theories/Model/PartialDependence.v
theories/Model/Plots.v
theories/Model/Readme.v
theories/Model/Robust.v
theories/Model/Scripts.v
theories/Model/Simulation.v
theories/Model/Sort.v
theories/Model/Stacking.v
theories/Model/StackingHistory.v
theories/Model/StackingInspect.v
theories/Model/StackingPoints.v
theories/Model/StackingPredict.v
theories/Model/Surfaces.v
theories/Model/TypicalPlot.v
theories/Model/Variation.v
theories/Model/Visualize.v
theories/Model/WeightFloat.v
theories/Model/WeightMatrix.v
theories/Model/WeightModel.v
theories/Proofs/AdaptiveFacts.v
theories/Proofs/AleExamples.v
theories/Proofs/AleFacts.v
theories/Proofs/AleGrid.v
theories/Proofs/AleOrder.v
theories/Proofs/AlePlotProps.v
theories/Proofs/AleProps.v
theories/Proofs/AleProps2.v
theories/Proofs/AleProps3.v
theories/Proofs/AleShape.v
theories/Proofs/AleShapeExamples.v
theories/Proofs/CacheExamples.v
theories/Proofs/CacheLazyProps.v
theories/Proofs/CacheProps.v
theories/Proofs/CacheProps2.v
theories/Proofs/ConstructorProps.v
theories/Proofs/Copies.v
theories/Proofs/CopiesExamples.v
theories/Proofs/CsrFacts.v
theories/Proofs/DistanceExamples.v
theories/Proofs/DistanceFacts.v
theories/Proofs/EndToEnd.v
theories/Proofs/EndToEndExamples.v
theories/Proofs/Extension.v
theories/Proofs/ExtensionExamples.v
theories/Proofs/FeatureCurves.v
theories/Proofs/FeatureExamples.v
theories/Proofs/FeatureLinear.v
theories/Proofs/FeatureOrder.v
theories/Proofs/FeatureOrderExamples.v
theories/Proofs/FeatureUnits.v
theories/Proofs/FitCallProps.v
theories/Proofs/FitExamples.v
theories/Proofs/FitProps.v
theories/Proofs/Float32Facts.v
theories/Proofs/Float64Facts.v
theories/Proofs/FloatError.v
theories/Proofs/FloatErrorInst.v
theories/Proofs/FloatErrorMatrix.v
theories/Proofs/FloatExamples.v
theories/Proofs/FloatFacts.v
theories/Proofs/FloatNorm.v
theories/Proofs/GridSearchProps.v
theories/Proofs/GrowingProps.v
theories/Proofs/HistoryExamples.v
theories/Proofs/HistoryProps.v
theories/Proofs/HistoryShared.v
theories/Proofs/HistorySharedFit.v
theories/Proofs/ImportanceMapsProps.v
theories/Proofs/InspectExamples.v
theories/Proofs/InspectIce.v
theories/Proofs/InspectProps.v
theories/Proofs/InspectProps2.v
theories/Proofs/InspectProps3.v
theories/Proofs/InspectProps4.v
theories/Proofs/InteractionValues.v
theories/Proofs/KernelExamples.v
theories/Proofs/KernelFacts.v
theories/Proofs/KernelProps.v
theories/Proofs/LeaveOneOutExamples.v
theories/Proofs/LeaveOneOutProps.v
theories/Proofs/LeaveOut.v
theories/Proofs/LeaveOutExamples.v
theories/Proofs/LeaveOutLinear.v
theories/Proofs/LeaveOutProps.v
theories/Proofs/LineProps.v
theories/Proofs/LinearExamples.v
theories/Proofs/LinearPredict.v
theories/Proofs/LinearProps.v
theories/Proofs/ListFacts.v
theories/Proofs/LocalImportanceApi.v
theories/Proofs/LocalImportanceExamples.v
theories/Proofs/LocalImportanceExamples2.v
theories/Proofs/LocalImportanceFacts.v
theories/Proofs/LocalImportanceProps.v
theories/Proofs/LocalImportanceStack.v
theories/Proofs/LocalMoranProps.v
theories/Proofs/ManyDimsProps.v
theories/Proofs/MoranDiagram.v
theories/Proofs/MoranExamples.v
theories/Proofs/MoranFacts.v
theories/Proofs/MoranMoments.v
theories/Proofs/MoranProps.v
theories/Proofs/MoranRandom.v
theories/Proofs/MoranRangeProps.v
theories/Proofs/MutualProps.v
theories/Proofs/NeighbourFacts.v
theories/Proofs/NeighbourProps.v
theories/Proofs/NoiseExamples.v
theories/Proofs/NoiseProps.v
theories/Proofs/OneDimProps.v
theories/Proofs/PartialExamples.v
theories/Proofs/PartialGrid.v
theories/Proofs/PartialProps.v
theories/Proofs/PlotEnd.v
theories/Proofs/PlotMore.v
theories/Proofs/PlotProps.v
theories/Proofs/PlotTraces.v
theories/Proofs/PredictProps.v
theories/Proofs/PredictSparse.v
theories/Proofs/RangeExamples.v
theories/Proofs/RangeProps.v
theories/Proofs/RangeStacking.v
theories/Proofs/ReadmeProps.v
theories/Proofs/Refit.v
theories/Proofs/RefitExamples.v
theories/Proofs/RidgeChanges.v
theories/Proofs/RidgeProps.v
theories/Proofs/RobustExamples.v
theories/Proofs/RobustProps.v
theories/Proofs/SampleFacts.v
theories/Proofs/ScaleExamples.v
theories/Proofs/ScaleProps.v
theories/Proofs/ScaleStacking.v
theories/Proofs/ScriptsProps.v
theories/Proofs/SelfPredictProps.v
theories/Proofs/ShrinkFacts.v
theories/Proofs/SimulationProps.v
theories/Proofs/SimulationProps2.v
theories/Proofs/SimulationProps3.v
theories/Proofs/SolverExists.v
theories/Proofs/SortFacts.v
theories/Proofs/StackingAle.v
theories/Proofs/StackingClaims.v
theories/Proofs/StackingClaims2.v
theories/Proofs/StackingClaims3.v
theories/Proofs/StackingCsr.v
theories/Proofs/StackingEasy.v
theories/Proofs/StackingEasyExamples.v
theories/Proofs/StackingExamples.v
theories/Proofs/StackingFacts.v
theories/Proofs/StackingHistoryProps.v
theories/Proofs/StackingInspectExamples.v
theories/Proofs/StackingInspectProps.v
theories/Proofs/StackingLocal.v
theories/Proofs/StackingLocalExamples.v
theories/Proofs/StackingMeta.v
theories/Proofs/StackingNewExamples.v
theories/Proofs/StackingNewProps.v
theories/Proofs/StackingPointsExamples.v
theories/Proofs/StackingPointsProps.v
theories/Proofs/StackingPredictProps.v
theories/Proofs/StackingPredictTotal.v
theories/Proofs/StackingPredictTotalExamples.v
theories/Proofs/StackingProps.v
theories/Proofs/StackingTotal.v
theories/Proofs/StackingTotalExamples.v
theories/Proofs/StackingUnits.v
theories/Proofs/StackingUnitsExamples.v
theories/Proofs/StackingUsual.v
theories/Proofs/StackingUsualNumba.v
theories/Proofs/SumFacts.v
theories/Proofs/SurfaceProps.v
theories/Proofs/TwinsProps.v
theories/Proofs/TypicalPlotProps.v
theories/Proofs/Units.v
theories/Proofs/UnitsExamples.v
theories/Proofs/VariationExamples.v
theories/Proofs/VariationProps.v
theories/Proofs/VariationSame.v
theories/Proofs/VisualizeFacts.v
theories/Proofs/VisualizeProps.v
theories/Proofs/WeightExamples.v
theories/Proofs/WeightFacts.v
theories/Proofs/WeightFloat32.v
theories/Proofs/WeightFloatExamples.v
theories/Proofs/WeightFloatFacts.v
theories/Proofs/WeightFloatProps.v
theories/Proofs/WeightFloatSame.v
theories/Proofs/WeightFloatThms.v
theories/Proofs/WeightModelFacts.v
theories/Proofs/WeightModelProps.v
theories/Proofs/WeightProps.v
theories/Proofs/WeightRaises.v
theories/Properties/P_Ale.v
theories/Properties/P_AlePlot.v
theories/Properties/P_AleShape.v
theories/Properties/P_Cache.v
theories/Properties/P_CacheLazy.v
theories/Properties/P_Constructor.v
theories/Properties/P_Copies.v
theories/Properties/P_Distance.v
theories/Properties/P_EndToEnd.v
theories/Properties/P_Extension.v
theories/Properties/P_FeatureOrder.v
theories/Properties/P_FeatureUnits.v
theories/Properties/P_Float.v
theories/Properties/P_FloatError.v
theories/Properties/P_GridSearch.v
theories/Properties/P_Growing.v
theories/Properties/P_History.v
theories/Properties/P_ImportanceMaps.v
theories/Properties/P_Inspect.v
theories/Properties/P_InspectCurves.v
theories/Properties/P_Kernel.v
theories/Properties/P_LeaveOneOut.v
theories/Properties/P_LeaveOut.v
theories/Properties/P_Linear.v
theories/Properties/P_LocalImportance.v
theories/Properties/P_LocalMoran.v
theories/Properties/P_ManyDims.v
theories/Properties/P_Moran.v
theories/Properties/P_MoranRange.v
theories/Properties/P_Mutual.v
theories/Properties/P_Neighbour.v
theories/Properties/P_Noise.v
theories/Properties/P_OneDim.v
theories/Properties/P_PartialDependence.v
theories/Properties/P_PlotTraces.v
theories/Properties/P_Plots.v
theories/Properties/P_Range.v
theories/Properties/P_Readme.v
theories/Properties/P_Refit.v
theories/Properties/P_Ridge.v
theories/Properties/P_RidgeChanges.v
theories/Properties/P_Robust.v
theories/Properties/P_Scale.v
theories/Properties/P_Scripts.v
theories/Properties/P_SelfPredict.v
theories/Properties/P_Simulation.v
theories/Properties/P_Stacking.v
theories/Properties/P_StackingEasy.v
theories/Properties/P_StackingHistory.v
theories/Properties/P_StackingInspect.v
theories/Properties/P_StackingLocal.v
theories/Properties/P_StackingNew.v
theories/Properties/P_StackingPoints.v
theories/Properties/P_StackingPredict.v
theories/Properties/P_StackingPredictTotal.v
theories/Properties/P_StackingTotal.v
theories/Properties/P_StackingUnits.v
theories/Properties/P_Surfaces.v
theories/Properties/P_Twins.v
theories/Properties/P_TypicalPlot.v
theories/Properties/P_Units.v
theories/Properties/P_Variation.v
theories/Properties/P_Visualize.v
theories/Properties/P_WeightFloat.v
theories/Properties/P_WeightMatrix.v
theories/Properties/P_WeightModel.v
theories/Spec/AlePlotSpec.v
theories/Spec/AleShapeSpec.v
theories/Spec/AleSpec.v
theories/Spec/CacheLazySpec.v
theories/Spec/CacheSpec.v
theories/Spec/ConstructorSpec.v
theories/Spec/CopiesSpec.v
theories/Spec/DistanceSpec.v
theories/Spec/EndToEndSpec.v
theories/Spec/ExtensionSpec.v
theories/Spec/FeatureOrderSpec.v
theories/Spec/FeatureUnitsSpec.v
theories/Spec/FloatErrorSpec.v
theories/Spec/FloatSpec.v
theories/Spec/GridSearchSpec.v
theories/Spec/GrowingSpec.v
theories/Spec/HistorySpec.v
theories/Spec/ImportanceMapsSpec.v
theories/Spec/InspectSpec.v
theories/Spec/KernelSpec.v
theories/Spec/LeaveOneOutSpec.v
theories/Spec/LeaveOutSpec.v
theories/Spec/LinearSpec.v
theories/Spec/LocalImportanceSpec.v
theories/Spec/ManyDimsSpec.v
theories/Spec/MoranRangeSpec.v
theories/Spec/MoranSpec.v
theories/Spec/MutualSpec.v
theories/Spec/NeighbourSpec.v
theories/Spec/NoiseSpec.v
theories/Spec/OneDimSpec.v
theories/Spec/PartialSpec.v
theories/Spec/PlotSpec.v
theories/Spec/RangeSpec.v
theories/Spec/RefitSpec.v
theories/Spec/RidgeMetaSpec.v
theories/Spec/RidgeSpec.v
theories/Spec/RobustSpec.v
theories/Spec/ScaleSpec.v
theories/Spec/SelfPredictSpec.v
theories/Spec/SimulationSpec.v
theories/Spec/StackingHistorySpec.v
theories/Spec/StackingNewSpec.v
theories/Spec/StackingSpec.v
theories/Spec/StackingTotalSpec.v
theories/Spec/SurfaceSpec.v
theories/Spec/TwinsSpec.v
theories/Spec/TypicalPlotSpec.v
theories/Spec/UnitsSpec.v
theories/Spec/VariationSpec.v
theories/Spec/VisualizeSpec.v
theories/Spec/WeightFloatSpec.v
theories/Spec/WeightModelSpec.v
theories/Spec/WeightSpec.v
