-Q theories Verif
theories/Base/Prelude.v
theories/Base/Matrix.v
theories/Base/Rounding.v
theories/Base/Random.v
theories/Model/Constants.v
theories/Model/Geometry.v
theories/Model/MicroscopeUtils.v
theories/Model/Graphene.v
theories/Proofs/BaseFacts.v
theories/Spec/Grids.v
theories/Proofs/FovFacts.v
theories/Proofs/RoundingFacts.v
theories/Proofs/FovAlgebra.v
theories/Props/MaterialProps.v
theories/Props/RateProps.v
theories/Props/FieldOfView.v
theories/Spec/Neighbours.v
theories/Spec/Material.v
theories/Spec/MaterialRuns.v
theories/Spec/Lattice.v
theories/Proofs/GeometryFacts.v
theories/Proofs/NeighbourFacts.v
theories/Proofs/NearestFacts.v
theories/Proofs/MaterialFacts.v
theories/Proofs/RateFacts.v
theories/Proofs/GaussianFacts.v
theories/Proofs/ExposureFacts.v
theories/Proofs/LatticeFacts.v
theories/Proofs/SheetFacts.v
theories/Proofs/CanonicalFacts.v
theories/Proofs/ExampleSampler.v
theories/Proofs/ViewFacts.v
theories/Props/GeometryProps.v
theories/Spec/Protos.v
theories/Proofs/ProtoFacts.v
theories/Proofs/GridEqFacts.v
theories/Props/GridEquality.v
theories/Props/Serialisation.v
theories/Model/Simulator.v
theories/Model/SimulatorObservers.v
theories/Spec/Simulation.v
theories/Proofs/SimulatorFacts.v
theories/Proofs/SimulatorRuns.v
theories/Proofs/SimulatorHistories.v
theories/Props/SimulatorProps.v
theories/Model/ActionAdapters.v
theories/Model/Goals.v
theories/Model/FeatureConstructors.v
theories/Model/Agents.v
theories/Model/Environment.v
theories/Model/EvalLib.v
theories/Spec/Acting.v
theories/Spec/Episodes.v
theories/Proofs/ActingFacts.v
theories/Proofs/EnvironmentFacts.v
theories/Proofs/EpisodeFacts.v
theories/Proofs/SeedFacts.v
theories/Props/AdapterProps.v
theories/Props/GoalProps.v
theories/Props/FeatureProps.v
theories/Props/AgentProps.v
theories/Props/EnvironmentProps.v
theories/Props/StepLimitProps.v
theories/Props/ShippedStack.v
theories/Props/EvalProps.v
theories/Spec/Evaluation.v
theories/Proofs/EvalFacts.v
theories/Proofs/EvalEnvFacts.v
theories/Model/PlottingUtils.v
theories/Model/Io.v
theories/Model/MicroscopeAgent.v
theories/Model/Alignment.v
theories/Model/DataUtils.v
theories/Model/Pipeline.v
theories/Model/RateData.v
theories/Spec/Augmenting.v
theories/Spec/Video.v
theories/Spec/AgentLog.v
theories/Spec/Records.v
theories/Spec/Aligning.v
theories/Spec/Merging.v
theories/Spec/Clumps.v
theories/Spec/Colouring.v
theories/Spec/AlignSession.v
theories/Proofs/VideoFacts.v
theories/Proofs/AgentLogFacts.v
theories/Proofs/AlignFacts.v
theories/Proofs/MergeFacts.v
theories/Proofs/ClumpFacts.v
theories/Proofs/ColouringFacts.v
theories/Proofs/FilterFacts.v
theories/Props/VideoProps.v
theories/Props/IoProps.v
theories/Props/AlignProps.v
theories/Props/MergeProps.v
theories/Props/ClumpProps.v
theories/Props/ColouringProps.v
theories/Props/FilterProps.v
theories/Props/FilterCallProps.v
theories/Props/AugmentProps.v
theories/Props/MicroscopeAgentProps.v
theories/Spec/Splitting.v
theories/Props/SplitProps.v
theories/Spec/Orienting.v
theories/Props/OrientProps.v
theories/Spec/Pipelines.v
theories/Spec/RateLearning.v
theories/Props/PipelineProps.v
theories/Props/TrajectoryAlignProps.v
theories/Props/RateDataProps.v
theories/Props/RateSetProps.v
theories/Model/ImageAligner.v
theories/Model/LearnRates.v
theories/Spec/WaitingTimes.v
theories/Proofs/LossFacts.v
theories/Props/LossProps.v
theories/Spec/Networks.v
theories/Props/EnsembleProps.v
theories/Spec/Training.v
theories/Props/TrainingProps.v
theories/Props/DatasetProps.v
theories/Props/PredictorProps.v
theories/Props/DistillProps.v
theories/Spec/Views.v
theories/Props/CropProps.v
theories/Spec/ImageMemory.v
theories/Props/ImageAlignerProps.v
theories/Spec/Detection.v
theories/Props/DetectionProps.v
theories/Model/AtomDetector.v
theories/Spec/AtomDetection.v
theories/Props/AtomDetectorProps.v
theories/Spec/Scale.v
theories/Props/ScaleProps.v
theories/Model/Imaging.v
theories/Spec/Imaging.v
theories/Props/MaskProps.v
theories/Props/CleanImageProps.v
theories/Props/NoiseProps.v
theories/Model/Downloads.v
theories/Spec/Downloads.v
theories/Props/DownloadProps.v
theories/Model/LoadedModels.v
theories/Spec/LoadedModels.v
theories/Props/LoadedModelProps.v
theories/Model/TestUtils.v
theories/Model/TrainEnvironment.v
theories/Props/TestUtilsProps.v
theories/Model/ParameterTrees.v
theories/Spec/ParameterTrees.v
theories/Props/ParameterTreesProps.v
theories/Model/FovText.v
theories/Spec/FovText.v
theories/Props/FovTextProps.v
theories/Model/Registry.v
theories/Spec/Registry.v
theories/Props/RegistryProps.v
theories/Model/ModelTraining.v
theories/Model/RateFunctionFiles.v
theories/Spec/RateFunctionFiles.v
theories/Spec/ModelTraining.v
theories/Props/ModelTrainingProps.v
theories/Props/AlignDefaultsProps.v
theories/Props/PredictorKeysProps.v
theories/Model/CheckpointKeys.v
theories/Spec/CheckpointKeys.v
theories/Props/CheckpointKeysProps.v
theories/Model/Upload.v
theories/Spec/Upload.v
theories/Props/UploadProps.v
theories/Props/UploadScriptProps.v
theories/Model/LearningData.v
theories/Spec/LearningData.v
theories/Props/LearningDataProps.v
theories/Model/LearningSteps.v
theories/Spec/LearningSteps.v
theories/Props/LearningStepsProps.v
theories/Model/Schedule.v
theories/Spec/Schedule.v
theories/Props/ScheduleProps.v
theories/Model/GraphLearning.v
theories/Spec/GraphLearning.v
theories/Props/GraphLearningProps.v
theories/Model/GraphNet.v
theories/Spec/GraphNet.v
theories/Proofs/GraphNetFacts.v
theories/Props/GraphNetProps.v
theories/Model/UNet.v
theories/Spec/UNet.v
theories/Props/UNetProps.v
theories/Props/UNetValueProps.v
theories/Props/RateFunctionFilesProps.v
theories/Model/RatePlots.v
theories/Spec/RatePlots.v
theories/Props/RatePlotsProps.v
theories/Props/RateVisualProps.v
theories/Model/RateTraining.v
theories/Spec/RateTraining.v
theories/Props/RateTrainingProps.v
theories/Props/RateRunProps.v
theories/Props/NetworkRunProps.v
theories/Props/BoundaryProps.v
theories/Model/Drawing.v
theories/Spec/Drawing.v
theories/Props/RenderProps.v
theories/Model/Wrappers.v
theories/Spec/Wrappers.v
theories/Props/WrapperProps.v
theories/Props/DefaultsProps.v
theories/Model/EvalCommand.v
theories/Spec/EvalCommand.v
theories/Props/EvalCommandProps.v
theories/Model/EnvSpecs.v
theories/Spec/Conformance.v
theories/Props/ConformanceProps.v
theories/Model/UNetParameters.v
theories/Spec/UNetParameters.v
theories/Props/UNetParametersProps.v
theories/Model/SyntheticData.v
theories/Spec/SyntheticData.v
theories/Props/SyntheticDataProps.v
theories/Props/TrainEnvironmentProps.v
theories/Props/StepLimitEdges.v
theories/Props/TrainingEdges.v
