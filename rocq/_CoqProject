-Q theories Verif
theories/Model/Num.v
theories/Model/BinarySearch.v
theories/Model/Flags.v
theories/Model/Ecdf.v
theories/Model/BinTransform.v
theories/Spec/SearchSpec.v
theories/Spec/FlagSpec.v
theories/Spec/BinningSpec.v
theories/Proofs/NumFacts.v
theories/Proofs/BinarySearchFacts.v
theories/Proofs/FlagFacts.v
theories/Proofs/FnumOrder.v
theories/Proofs/EcdfFacts.v
theories/Proofs/ReduceFacts.v
theories/Proofs/FitFacts.v
theories/Proofs/TransformFacts.v
theories/Proofs/InterpFacts.v
theories/Proofs/EquivFacts.v
theories/Proofs/FitUser.v
theories/Proofs/NarrowFacts.v
theories/Proofs/BinningExamples.v
theories/Model/LexBins.v
theories/Spec/LexSpec.v
theories/Proofs/LexFacts.v
theories/Props/SearchProps.v
theories/Props/FlagProps.v
theories/Props/BinningProps.v
theories/Proofs/LexExamples.v
theories/Props/LexProps.v
theories/Model/Train.v
theories/Spec/TrainSpec.v
theories/Proofs/TrainFacts.v
theories/Proofs/TrainHistory.v
theories/Proofs/TrainBounds.v
theories/Proofs/TrainExamples.v
theories/Model/Predict.v
theories/Spec/PredictSpec.v
theories/Proofs/PredictFacts.v
theories/Proofs/NeutralFacts.v
theories/Proofs/PredictExamples.v
theories/Proofs/TrainPropFacts.v
theories/Props/TrainProps.v
theories/Proofs/PredictPropFacts.v
theories/Props/PredictProps.v
theories/Model/Importance.v
theories/Spec/ImportanceSpec.v
theories/Proofs/ImportanceFacts.v
theories/Proofs/ImportanceExamples.v
theories/Proofs/BookingFacts.v
theories/Proofs/ContributionFacts.v
theories/Props/ContributionProps.v
theories/Proofs/GridFacts.v
theories/Model/Link.v
theories/Model/Estimators.v
theories/Spec/LinkSpec.v
theories/Spec/EstimatorSpec.v
theories/Proofs/LinkFacts.v
theories/Props/LinkProps.v
theories/Proofs/EstimatorFacts.v
theories/Proofs/ClassifierFacts.v
theories/Proofs/LocationFacts.v
theories/Proofs/CentredFacts.v
theories/Proofs/EstimatorExamples.v
theories/Props/EstimatorProps.v
theories/Model/Regularize.v
theories/Spec/RegularizeSpec.v
theories/Proofs/TotalFacts.v
theories/Proofs/RegularizeFacts.v
theories/Proofs/NeighborFacts.v
theories/Proofs/NeutralizeFacts.v
theories/Proofs/RegressionFacts.v
theories/Proofs/RegularizeExamples.v
theories/Props/RegularizeProps.v
theories/Model/SmootherChoice.v
theories/Spec/SmootherSpec.v
theories/Proofs/SmootherFacts.v
theories/Props/SmootherProps.v
theories/Model/MetaSmoothers.v
theories/Spec/MetaSpec.v
theories/Proofs/MetaFacts.v
theories/Props/MetaProps.v
theories/Proofs/CutFacts.v
theories/Proofs/MetaExamples.v
theories/Model/Orthofit.v
theories/Spec/OrthoSpec.v
theories/Proofs/OrthoFacts.v
theories/Proofs/OrthoDegree.v
theories/Model/OneDim.v
theories/Spec/SeasonSpec.v
theories/Proofs/OneDimFacts.v
theories/Props/OneDimProps.v
theories/Model/Quantile.v
theories/Spec/QuantileSpec.v
theories/Proofs/QuantileFacts.v
theories/Proofs/GenericFacts.v
theories/Props/QuantileProps.v
theories/Model/Qpd.v
theories/Spec/QpdSpec.v
theories/Proofs/QpdFacts.v
theories/Proofs/ChainFacts.v
theories/Props/QpdProps.v
theories/Model/Price.v
theories/Spec/PriceSpec.v
theories/Proofs/PriceFacts.v
theories/Props/PriceProps.v
theories/Model/Interactions.v
theories/Spec/InteractionSpec.v
theories/Proofs/InteractionFacts.v
theories/Props/InteractionProps.v
theories/Model/Pipelines.v
theories/Spec/PipelineSpec.v
theories/Proofs/PipelineFacts.v
theories/Props/PipelineProps.v
theories/Model/Dispersion.v
theories/Spec/DispersionSpec.v
theories/Proofs/DispersionFacts.v
theories/Props/DispersionProps.v
theories/Model/Gbs.v
theories/Spec/GbsSpec.v
theories/Proofs/GbsFacts.v
theories/Props/GbsProps.v
theories/Model/Targets.v
theories/Spec/TargetSpec.v
theories/Proofs/TargetFacts.v
theories/Props/TargetProps.v
theories/Model/LossModes.v
theories/Proofs/LossModeFacts.v
theories/Props/LossModeProps.v
theories/Model/Frames.v
theories/Spec/FrameSpec.v
theories/Proofs/FrameFacts.v
theories/Props/FrameProps.v
theories/Model/Lifecycle.v
theories/Spec/LifecycleSpec.v
theories/Proofs/LifecycleFacts.v
theories/Props/LifecycleProps.v
theories/Model/Isotonic.v
theories/Spec/IsotonicSpec.v
theories/Proofs/PoolFacts.v
theories/Proofs/MonotoneTrain.v
theories/Proofs/IsotonicFacts.v
theories/Proofs/IsotonicRuns.v
theories/Props/IsotonicProps.v
theories/Model/WholeFit.v
theories/Proofs/Simulation.v
theories/Proofs/OrderFacts.v
theories/Spec/DataSpec.v
theories/Proofs/ShiftFacts.v
theories/Model/BinSmoothers.v
theories/Proofs/WholeExamples.v
theories/Props/WholeProps.v
theories/Spec/RelabelSpec.v
theories/Proofs/RelabelFacts.v
theories/Proofs/RelabelExamples.v
theories/Props/RelabelProps.v
theories/Model/Cloning.v
theories/Spec/CloneSpec.v
theories/Proofs/CloneFacts.v
theories/Props/CloneProps.v
theories/Model/Diagnostics.v
theories/Model/Pickle.v
theories/Spec/DiagnosticsSpec.v
theories/Spec/PickleSpec.v
theories/Proofs/DiagnosticsFacts.v
theories/Proofs/SmearFacts.v
theories/Proofs/PickleFacts.v
theories/Proofs/ObserverFacts.v
theories/Proofs/DiagnosticsRuns.v
theories/Props/DiagnosticsProps.v
theories/Model/FailedFit.v
theories/Spec/FailedFitSpec.v
theories/Proofs/FailedFitFacts.v
theories/Props/FailedFitProps.v
theories/Model/PlotData.v
theories/Spec/PlotSpec.v
theories/Proofs/PlotFacts.v
theories/Props/PlotProps.v
theories/Proofs/DirectionFacts.v
theories/Proofs/RangeFacts.v
theories/Model/BinFit.v
theories/Spec/BinFitSpec.v
theories/Proofs/BinOrderFacts.v
theories/Proofs/BinFitFacts.v
theories/Proofs/PriorDispersionFacts.v
theories/Proofs/BinFitExamples.v
theories/Props/BinFitProps.v
theories/Model/PriceFit.v
theories/Proofs/PriceFitFacts.v
theories/Spec/PriceFitSpec.v
theories/Proofs/PriceFitExamples.v
theories/Props/PriceFitProps.v
theories/Model/Refit.v
theories/Spec/RefitSpec.v
theories/Proofs/RefitFacts.v
theories/Proofs/RefitExamples.v
theories/Props/RefitProps.v
theories/Model/Pipe.v
theories/Spec/PipeSpec.v
theories/Proofs/UnitFacts.v
theories/Proofs/PipeFacts.v
theories/Proofs/PipeRuns.v
theories/Proofs/PipeRows.v
theories/Proofs/PipeSteps.v
theories/Proofs/PipeWeights.v
theories/Proofs/PipeExamples.v
theories/Props/PipeProps.v
theories/Proofs/PlotLevels.v
theories/Spec/MonotoneSpec.v
theories/Proofs/ColumnMonotone.v
theories/Proofs/PipeMonotone.v
theories/Proofs/PipeMonotoneExample.v
theories/Props/PipeMonotoneProps.v
theories/Spec/InsampleSpec.v
theories/Proofs/InsampleFacts.v
theories/Proofs/InsampleExamples.v
theories/Props/InsampleProps.v
theories/Spec/PriorSpec.v
theories/Proofs/PriorFacts.v
theories/Proofs/PriorExamples.v
theories/Props/PriorProps.v
theories/Spec/StopSpec.v
theories/Proofs/StopFacts.v
theories/Proofs/StopExamples.v
theories/Props/StopProps.v
theories/Spec/ShuffleSpec.v
theories/Proofs/ShuffleFacts.v
theories/Proofs/ShuffleExamples.v
theories/Props/ShuffleProps.v
theories/Spec/MirrorSpec.v
theories/Proofs/MirrorFacts.v
theories/Proofs/MirrorExamples.v
theories/Props/MirrorProps.v
theories/Proofs/RenumberFacts.v
theories/Spec/RecodeSpec.v
theories/Proofs/RecodeColumn.v
theories/Proofs/RecodeGroups.v
theories/Proofs/RecodeFit.v
theories/Proofs/RecodePipe.v
theories/Proofs/RecodeExamples.v
theories/Props/RecodeProps.v
theories/Model/QuantileFit.v
theories/Spec/QuantileFitSpec.v
theories/Proofs/QuantileFitFacts.v
theories/Proofs/QuantileFitExamples.v
theories/Props/QuantileFitProps.v
theories/Spec/ColumnOrderSpec.v
theories/Proofs/ColumnOrderFacts.v
theories/Proofs/ColumnOrderFit.v
theories/Proofs/ColumnOrderExamples.v
theories/Props/ColumnOrderProps.v
theories/Spec/ExponentSpec.v
theories/Proofs/ExponentFacts.v
theories/Spec/OffersSpec.v
theories/Proofs/OffersFacts.v
theories/Spec/HierSpec.v
theories/Proofs/HierFacts.v
theories/Proofs/HierWhole.v
theories/Proofs/HierExamples.v
theories/Props/HierProps.v
theories/Spec/ZeroWeightSpec.v
theories/Proofs/ZeroWeightFacts.v
theories/Proofs/ZeroWeightExamples.v
theories/Props/ZeroWeightProps.v
theories/Model/Observers.v
theories/Spec/ObserverSpec.v
theories/Proofs/ObserverProofs.v
theories/Proofs/ObserverExamples.v
theories/Props/ObserverProps.v
theories/Proofs/WatchFacts.v
theories/Spec/MagicSpec.v
theories/Proofs/MagicFacts.v
theories/Props/MagicProps.v
theories/Proofs/RecodeOrder.v
theories/Proofs/RecodeOrderExamples.v
theories/Spec/RepeatSpec.v
theories/Proofs/RepeatFacts.v
theories/Proofs/RepeatExamples.v
theories/Props/RepeatProps.v
theories/Model/BinBounds.v
theories/Spec/BoundsSpec.v
theories/Proofs/BoundsFacts.v
theories/Proofs/BoundsExamples.v
theories/Props/BoundsProps.v
theories/Model/PlotAxis.v
theories/Spec/AxisSpec.v
theories/Proofs/AxisFacts.v
theories/Proofs/AxisExamples.v
theories/Props/AxisProps.v
theories/Spec/DescentSpec.v
theories/Proofs/DescentFacts.v
theories/Proofs/DescentExamples.v
theories/Props/DescentProps.v
theories/Model/TableSmoothers.v
theories/Spec/TableSpec.v
theories/Proofs/TableFacts.v
theories/Proofs/TableExamples.v
theories/Props/TableProps.v
theories/Spec/CellSpec.v
theories/Proofs/CellFacts.v
theories/Proofs/CellExamples.v
theories/Props/CellProps.v
theories/Spec/ConstantSpec.v
theories/Proofs/ConstantFacts.v
theories/Proofs/ConstantExamples.v
theories/Props/ConstantProps.v
theories/Spec/PoissonCellSpec.v
theories/Proofs/PosteriorSteps.v
theories/Proofs/PoissonCell.v
theories/Proofs/PoissonCellExamples.v
theories/Props/PoissonCellProps.v
theories/Spec/InertSpec.v
theories/Proofs/InertFacts.v
theories/Proofs/InertWhole.v
theories/Proofs/InertExamples.v
theories/Props/InertProps.v
theories/Proofs/InertPoisson.v
theories/Spec/LighterSpec.v
theories/Proofs/SameFit.v
theories/Proofs/LighterFacts.v
theories/Proofs/LighterExamples.v
theories/Props/LighterProps.v
theories/Spec/DispersedSpec.v
theories/Proofs/NoisySteps.v
theories/Proofs/DispersedCell.v
theories/Proofs/DispersedExamples.v
theories/Props/DispersedProps.v
theories/Spec/ClassifierCellSpec.v
theories/Proofs/EvidenceSteps.v
theories/Proofs/ClassifierCell.v
theories/Proofs/ClassifierCellExamples.v
theories/Props/ClassifierCellProps.v
theories/Spec/ExplainSpec.v
theories/Proofs/PriceContributions.v
theories/Props/PriceContributionProps.v
theories/Spec/UncertaintySpec.v
theories/Proofs/UnsmoothedFacts.v
theories/Proofs/WeightExamples.v
theories/Props/WeightProps.v
theories/Proofs/DispersionZero.v
theories/Model/Plot2D.v
theories/Spec/Plot2DSpec.v
theories/Proofs/Plot2DFacts.v
theories/Proofs/Plot2DExamples.v
theories/Props/Plot2DProps.v
theories/Spec/LocationCellSpec.v
theories/Proofs/CentredDescent.v
theories/Proofs/LocationCell.v
theories/Proofs/LocationCellExamples.v
theories/Props/LocationCellProps.v
theories/Proofs/LocationMissing.v
theories/Proofs/LocationMissingExamples.v
theories/Model/LearnRate.v
theories/Spec/LimitSpec.v
theories/Proofs/LimitFacts.v
theories/Props/LimitProps.v
theories/Spec/LocPoissonCellSpec.v
theories/Proofs/LocPoissonCell.v
theories/Proofs/LocPoissonCellExamples.v
theories/Props/LocPoissonCellProps.v
theories/Proofs/LocPoissonBetter.v
theories/Model/ExplicitSmoothers.v
theories/Spec/ExplicitSpec.v
theories/Proofs/ExplicitFacts.v
theories/Proofs/ExplicitExamples.v
theories/Props/ExplicitProps.v
theories/Spec/TargetUnitSpec.v
theories/Proofs/TargetUnitFacts.v
theories/Proofs/TargetUnitExamples.v
theories/Props/TargetUnitProps.v
theories/Proofs/LocUnitExamples.v
theories/Model/LsqSpline.v
theories/Spec/LsqSplineSpec.v
theories/Proofs/LsqSplineFacts.v
theories/Proofs/LsqSplineExamples.v
theories/Props/LsqSplineProps.v
theories/Proofs/Plot2DCurves.v
theories/Spec/ConstantColumnSpec.v
theories/Proofs/ConstantColumn.v
theories/Proofs/SilentTraining.v
theories/Proofs/SilentWhole.v
theories/Proofs/ConstantColumnExamples.v
theories/Props/ConstantColumnProps.v
theories/Proofs/ConstantStop.v
