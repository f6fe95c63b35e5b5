-Q theories Verif
theories/Model/Freq.v
theories/Spec/FreqSpec.v
theories/Proof/FreqProof.v
theories/Model/Names.v
theories/Spec/NamesSpec.v
theories/Proof/NamesProof.v
theories/Model/Series.v
theories/Model/Transformer.v
theories/Spec/TransformerSpec.v
theories/Spec/TransformerInput.v
theories/Proof/SeriesProof.v
theories/Proof/TransformerProof.v
theories/Proof/TransformerProof2.v
theories/Proof/TransformerProof3.v
theories/Proof/TransformerProof4.v
theories/Model/Formatter.v
theories/Spec/FormatterSpec.v
theories/Spec/FormatterInput.v
theories/Proof/FormatterProof.v
theories/Proof/FormatterProof2.v
theories/Model/GlobalForm.v
theories/Spec/GlobalFormSpec.v
theories/Proof/GlobalFormProof.v
theories/Model/Subsample.v
theories/Spec/SubsampleSpec.v
theories/Proof/SubsampleProof.v
theories/Model/Stats.v
theories/Spec/StatsSpec.v
theories/Proof/StatsProof.v
theories/Model/Quantiles.v
theories/Spec/QuantilesSpec.v
theories/Proof/QuantilesProof.v
theories/Model/Encoder.v
theories/Spec/EncoderSpec.v
theories/Proof/EncoderProof.v
theories/Model/Metrics.v
theories/Spec/MetricsSpec.v
theories/Proof/MetricsProof.v
theories/Proof/MetricsProof2.v
theories/Proof/MetricsProof3.v
theories/Model/ScenGen.v
theories/Spec/ScenGenSpec.v
theories/Proof/ScenGenProof.v
theories/Proof/ScenGenProof2.v
theories/Model/Scenred.v
theories/Spec/ScenredSpec.v
theories/Proof/ScenredProof.v
theories/Proof/ScenredProof2.v
theories/Proof/ScenredProof3.v
theories/Model/TreeBuild.v
theories/Spec/TreeBuildSpec.v
theories/Proof/ScenredProof4.v
theories/Proof/TreeBuildProof.v
theories/Proof/TreeBuildProof2.v
theories/Proof/TreeBuildProof3.v
theories/Model/Hierarchy.v
theories/Model/Reconcile.v
theories/Model/ReconcileScen.v
theories/Spec/ReconcileSpec.v
theories/Proof/ReconcileProof.v
theories/Proof/ReconcileProof2.v
theories/Proof/ReconcileProof3.v
theories/Proof/ReconcileScenProof.v
theories/Model/BigData.v
theories/Model/BigDataFloat.v
theories/Spec/BigDataSpec.v
theories/Spec/BigDataFloatSpec.v
theories/Proof/BigDataProof.v
theories/Proof/BigDataProof2.v
theories/Model/HoltWinters.v
theories/Spec/HoltWintersSpec.v
theories/Proof/HoltWintersProof.v
theories/Proof/HoltWintersProof2.v
theories/Model/FourierEs.v
theories/Model/FourierKalman.v
theories/Model/Experts.v
theories/Spec/FourierSpec.v
theories/Spec/ExpertsSpec.v
theories/Proof/FourierProof.v
theories/Proof/FourierProof2.v
theories/Proof/FourierKalmanProof.v
theories/Model/Kalman.v
theories/Spec/KalmanSpec.v
theories/Proof/KalmanProof.v
theories/Model/Benchmarks.v
theories/Spec/BenchmarksSpec.v
theories/Proof/BenchmarksProof.v
theories/Model/Hybrid.v
theories/Spec/HybridSpec.v
theories/Proof/HybridProof.v
theories/Model/Boost.v
theories/Proof/BoostProof.v
theories/Model/Activations.v
theories/Spec/ActivationsSpec.v
theories/Proof/ActivationsProof.v
theories/Model/Invertible.v
theories/Spec/InvertibleSpec.v
theories/Proof/InvertibleProof.v
theories/Model/Picnn.v
theories/Spec/PicnnSpec.v
theories/Proof/PicnnProof.v
theories/Model/Reproject.v
theories/Spec/ReprojectSpec.v
theories/Proof/ReprojectProof.v
theories/Model/Training.v
theories/Spec/TrainingSpec.v
theories/Proof/TrainingProof.v
theories/Model/PicnnFit.v
theories/Proof/PicnnFitProof.v
theories/Model/Lstm.v
theories/Model/Trainer.v
theories/Model/SaveLoad.v
theories/Model/Optimize.v
theories/Model/Gaussian.v
theories/Spec/LstmSpec.v
theories/Spec/TrainerSpec.v
theories/Spec/OptimizeSpec.v
theories/Spec/GaussianSpec.v
theories/Proof/LstmProof.v
theories/Proof/TrainerProof.v
theories/Proof/SaveLoadProof.v
theories/Proof/OptimizeProof.v
theories/Proof/GaussianProof.v
theories/Model/PostFit.v
theories/Model/CopulaFit.v
theories/Spec/PostFitSpec.v
theories/Spec/CopulaFitSpec.v
theories/Proof/PostFitProof.v
theories/Proof/CopulaFitProof.v
theories/Model/TreeGen.v
theories/Spec/TreeGenSpec.v
theories/Proof/TreeGenProof.v
theories/Model/ReconcileFit.v
theories/Spec/ReconcileFitSpec.v
theories/Proof/ReconcileFitProof.v
theories/Model/ReconcileQuant.v
theories/Proof/ReconcileQuantProof.v
theories/Properties/ReconcileFitProps.v
theories/Model/Rolling.v
theories/Spec/RollingSpec.v
theories/Proof/RollingProof.v
theories/Model/Bootstrap.v
theories/Spec/BootstrapSpec.v
theories/Proof/BootstrapProof.v
theories/Model/Summary.v
theories/Spec/SummarySpec.v
theories/Proof/SummaryProof.v
theories/Model/Scaling.v
theories/Model/Rff.v
theories/Spec/ScalingSpec.v
theories/Proof/ScalingProof.v
theories/Proof/RffProof.v
theories/Model/Tuning.v
theories/Model/HwQuant.v
theories/Spec/TuningSpec.v
theories/Spec/HwQuantSpec.v
theories/Proof/TuningProof.v
theories/Proof/HwQuantProof.v
theories/Model/Losses.v
theories/Spec/LossSpec.v
theories/Proof/LossProof.v
theories/Proof/LossProof2.v
theories/Proof/LossProof3.v
theories/Proof/LossProof4.v
theories/Model/FlatBins.v
theories/Model/Rename.v
theories/Spec/FlatBinsSpec.v
theories/Spec/RenameSpec.v
theories/Proof/FlatBinsProof.v
theories/Proof/FlatBinsProof2.v
theories/Proof/RenameProof.v
theories/Model/FkConfig.v
theories/Spec/FkConfigSpec.v
theories/Proof/FkConfigProof.v
theories/Proof/FkConfigProof2.v
theories/Model/BenchFit.v
theories/Spec/BenchFitSpec.v
theories/Proof/BenchFitProof.v
theories/Model/FeedForward.v
theories/Spec/FeedForwardSpec.v
theories/Proof/FeedForwardProof.v
theories/Model/Embedding.v
theories/Spec/EmbeddingSpec.v
theories/Proof/EmbeddingProof.v
theories/Model/ScenConfig.v
theories/Spec/ScenConfigSpec.v
theories/Proof/ScenConfigProof.v
theories/Proof/RollingProof2.v
theories/Model/PicnnShape.v
theories/Spec/PicnnShapeSpec.v
theories/Proof/PicnnShapeProof.v
theories/Model/Forest.v
theories/Spec/ForestSpec.v
theories/Proof/ForestProof.v
theories/Model/LatentOpt.v
theories/Proof/LatentOptProof.v
theories/Model/NetColumns.v
theories/Spec/NetColumnsSpec.v
theories/Proof/NetColumnsProof.v
theories/Proof/FkConfigProof3.v
theories/Proof/FeedForwardProof2.v
theories/Proof/EmbeddingProof2.v
theories/Model/Labels.v
theories/Spec/LabelsSpec.v
theories/Proof/LabelsProof.v
theories/Model/SearchSpace.v
theories/Spec/SearchSpaceSpec.v
theories/Proof/SearchSpaceProof.v
theories/Model/ReconcileKpi.v
theories/Spec/ReconcileKpiSpec.v
theories/Proof/ReconcileKpiProof.v
theories/Model/Lifecycle.v
theories/Proof/LifecycleProof.v
theories/Model/Recurrent.v
theories/Spec/RecurrentSpec.v
theories/Proof/RecurrentProof.v
theories/Model/HwSearch.v
theories/Spec/HwSearchSpec.v
theories/Proof/HwSearchProof.v
theories/Spec/UnitsSpec.v
theories/Proof/UnitsProof.v
theories/Proof/UnitsProof2.v
theories/Proof/UnitsProof3.v
theories/Proof/FourierProof3.v
theories/Proof/HwSearchProof2.v
theories/Proof/LossProof5.v
theories/Proof/MetricsProof4.v
theories/Spec/PicnnValueSpec.v
theories/Proof/PicnnValueProof.v
theories/Proof/ScenredTolProof.v
theories/Proof/ScalingProof2.v
theories/Proof/SaveLoadProof2.v
theories/Proof/SearchSpaceProof2.v
theories/Proof/ScenConfigProof2.v
theories/Proof/HoltWintersProof3.v
theories/Proof/BigDataProof3.v
theories/Proof/ScenGenProof3.v
theories/Proof/ActivationsProof2.v
theories/Model/ScenDist.v
theories/Spec/ScenDistSpec.v
theories/Proof/ScenredUnitProof.v
theories/Proof/ScenDistProof.v
theories/Proof/ReconcileUnitProof.v
theories/Spec/ScenUnitSpec.v
theories/Proof/ScenUnitProof.v
theories/Spec/TreeInitSpec.v
theories/Proof/TreeInitProof.v
theories/Model/TreeLoss.v
theories/Spec/TreeLossSpec.v
theories/Proof/TreeLossProof.v
theories/Proof/TreeGradProof.v
theories/Proof/TreeSoftProof.v
theories/Proof/TreeCountProof.v
theories/Model/HierarchyCheck.v
theories/Proof/HierarchyCheckProof.v
theories/Model/PicnnInit.v
theories/Spec/PicnnInitSpec.v
theories/Proof/PicnnInitProof.v
theories/Properties/NamesProps.v
theories/Properties/TransformerProps.v
theories/Properties/FormatterProps.v
theories/Properties/ForecasterProps.v
theories/Properties/MetricsProps.v
theories/Properties/ScenarioProps.v
theories/Properties/TreeProps.v
theories/Properties/ReconcileProps.v
theories/Properties/ReconcileScenProps.v
theories/Properties/BigDataProps.v
theories/Properties/HoltWintersProps.v
theories/Properties/FourierProps.v
theories/Properties/KalmanProps.v
theories/Properties/ModelsProps.v
theories/Properties/NeuralProps.v
theories/Properties/TrainerProps.v
theories/Properties/NeuralProps2.v
theories/Properties/PostFitProps.v
theories/Properties/TreeGenProps.v
theories/Properties/ReconcileQuantProps.v
theories/Properties/RollingProps.v
theories/Properties/BootstrapProps.v
theories/Properties/SummaryProps.v
theories/Properties/ScalingProps.v
theories/Properties/TuningProps.v
theories/Properties/LossProps.v
theories/Properties/FlatBinsProps.v
theories/Properties/FkConfigProps.v
theories/Properties/BenchFitProps.v
theories/Properties/FeedForwardProps.v
theories/Properties/EmbeddingProps.v
theories/Properties/ScenConfigProps.v
theories/Properties/PicnnShapeProps.v
theories/Properties/ForestProps.v
theories/Properties/LatentOptProps.v
theories/Properties/NetColumnsProps.v
theories/Properties/LabelsProps.v
theories/Properties/SearchSpaceProps.v
theories/Properties/ReconcileKpiProps.v
theories/Properties/LifecycleProps.v
theories/Properties/RecurrentProps.v
theories/Properties/HwSearchProps.v
theories/Properties/UnitsProps.v
theories/Properties/UnitsProps2.v
