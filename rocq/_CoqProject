-Q theories Verif
theories/Lib/Arr.v
theories/Model/Addressing.v
theories/Model/Binning.v
theories/Model/BoostBinning.v
theories/Model/BoostConfig.v
theories/Model/BoostEvaluation.v
theories/Model/BoostModel.v
theories/Model/BoostNDBinning.v
theories/Model/BoostNonDecomposable.v
theories/Model/BoostStatistics.v
theories/Model/BoostTraining.v
theories/Model/CalibrationData.v
theories/Model/Configuration.v
theories/Model/Containers.v
theories/Model/Conversion.v
theories/Model/Csc.v
theories/Model/Estimators.v
theories/Model/Experiments.v
theories/Model/FeatureSampling.v
theories/Model/FeatureTypes.v
theories/Model/Filter.v
theories/Model/Floats.v
theories/Model/Incremental.v
theories/Model/Induction.v
theories/Model/Isotonic.v
theories/Model/Iterators.v
theories/Model/JointPrediction.v
theories/Model/Labels.v
theories/Model/Losses.v
theories/Model/MinCoverage.v
theories/Model/MultiThreading.v
theories/Model/Options.v
theories/Model/OutputWise.v
theories/Model/ParallelUpdate.v
theories/Model/Parameters.v
theories/Model/PartialBinning.v
theories/Model/Prediction.v
theories/Model/Predictors.v
theories/Model/PyConfig.v
theories/Model/Refinement.v
theories/Model/Rng.v
theories/Model/Rounding.v
theories/Model/Rules.v
theories/Model/Sampling.v
theories/Model/Saving.v
theories/Model/Search.v
theories/Model/SecoEvaluation.v
theories/Model/SecoHeuristics.v
theories/Model/SecoModel.v
theories/Model/SecoPrediction.v
theories/Model/SecoStatistics.v
theories/Model/Serialization.v
theories/Model/Setters.v
theories/Model/SparseLosses.v
theories/Model/Stopping.v
theories/Model/Stratified.v
theories/Model/Testbed.v
theories/Model/Training.v
theories/Proofs/Addressing.v
theories/Proofs/BeamCoverage.v
theories/Proofs/Binning.v
theories/Proofs/BinningFindings.v
theories/Proofs/BinningWidth.v
theories/Proofs/BoostBinning.v
theories/Proofs/BoostConfig.v
theories/Proofs/BoostEvaluation.v
theories/Proofs/BoostModel.v
theories/Proofs/BoostNDBinning.v
theories/Proofs/BoostNonDecomposable.v
theories/Proofs/BoostStatistics.v
theories/Proofs/BoostTraining.v
theories/Proofs/Calibration.v
theories/Proofs/CalibrationData.v
theories/Proofs/CalibrationFindings.v
theories/Proofs/CalibrationSparse.v
theories/Proofs/Configuration.v
theories/Proofs/Containers.v
theories/Proofs/Conversion.v
theories/Proofs/Csc.v
theories/Proofs/Estimators.v
theories/Proofs/Experiments.v
theories/Proofs/FeatureFormats.v
theories/Proofs/FeatureSampling.v
theories/Proofs/FeatureTypes.v
theories/Proofs/FeatureVectors.v
theories/Proofs/Filter.v
theories/Proofs/FilterBinned.v
theories/Proofs/FilterFindings.v
theories/Proofs/FilterFound.v
theories/Proofs/FilterRun.v
theories/Proofs/FloatFractions.v
theories/Proofs/Floats.v
theories/Proofs/FormatFindings.v
theories/Proofs/Greedy.v
theories/Proofs/Incremental.v
theories/Proofs/Induction.v
theories/Proofs/Interleaving.v
theories/Proofs/Isotonic.v
theories/Proofs/Iterators.v
theories/Proofs/JointPrediction.v
theories/Proofs/Labels.v
theories/Proofs/Losses.v
theories/Proofs/MinCoverage.v
theories/Proofs/MultiThreading.v
theories/Proofs/OptionValues.v
theories/Proofs/Options.v
theories/Proofs/OutputWise.v
theories/Proofs/Parallel.v
theories/Proofs/ParallelUpdate.v
theories/Proofs/Parameters.v
theories/Proofs/PartialBinning.v
theories/Proofs/PostOptimization.v
theories/Proofs/Prediction.v
theories/Proofs/Predictors.v
theories/Proofs/PredictorsBinary.v
theories/Proofs/PredictorsProbability.v
theories/Proofs/Pruning.v
theories/Proofs/PyConfig.v
theories/Proofs/Refinement.v
theories/Proofs/RefinementFindings.v
theories/Proofs/RefinementParallel.v
theories/Proofs/Rng.v
theories/Proofs/Rounding.v
theories/Proofs/Rules.v
theories/Proofs/RulesFindings.v
theories/Proofs/Sampling.v
theories/Proofs/Saving.v
theories/Proofs/Search.v
theories/Proofs/SearchBinned.v
theories/Proofs/SearchFindings.v
theories/Proofs/SearchNumerical.v
theories/Proofs/SearchOrdinal.v
theories/Proofs/Seco.v
theories/Proofs/SecoCoverage.v
theories/Proofs/SecoEvaluation.v
theories/Proofs/SecoExact.v
theories/Proofs/SecoFindings.v
theories/Proofs/SecoHeuristics.v
theories/Proofs/SecoMajority.v
theories/Proofs/SecoModel.v
theories/Proofs/SecoPrediction.v
theories/Proofs/SecoTotals.v
theories/Proofs/Serialization.v
theories/Proofs/Setters.v
theories/Proofs/SparseLosses.v
theories/Proofs/SparseStatistics.v
theories/Proofs/Stopping.v
theories/Proofs/StoppingFindings.v
theories/Proofs/Stratified.v
theories/Proofs/StratifiedFindings.v
theories/Proofs/StratifiedOutput.v
theories/Proofs/Testbed.v
theories/Proofs/Training.v
theories/Properties/Addressing.v
theories/Properties/BeamCoverage.v
theories/Properties/Binning.v
theories/Properties/BoostBinning.v
theories/Properties/BoostConfig.v
theories/Properties/BoostEvaluation.v
theories/Properties/BoostModel.v
theories/Properties/BoostNDBinning.v
theories/Properties/BoostNonDecomposable.v
theories/Properties/BoostStatistics.v
theories/Properties/BoostTraining.v
theories/Properties/Calibration.v
theories/Properties/CalibrationData.v
theories/Properties/Configuration.v
theories/Properties/Conversion.v
theories/Properties/Data.v
theories/Properties/Estimators.v
theories/Properties/Experiments.v
theories/Properties/FeatureFormats.v
theories/Properties/FeatureSampling.v
theories/Properties/FeatureTypes.v
theories/Properties/Filter.v
theories/Properties/Floats.v
theories/Properties/Incremental.v
theories/Properties/Iterators.v
theories/Properties/JointPrediction.v
theories/Properties/Losses.v
theories/Properties/MinCoverage.v
theories/Properties/MultiThreading.v
theories/Properties/OptionValues.v
theories/Properties/Options.v
theories/Properties/OutputWise.v
theories/Properties/ParallelUpdate.v
theories/Properties/Parameters.v
theories/Properties/PartialBinning.v
theories/Properties/PostOptimization.v
theories/Properties/Predictors.v
theories/Properties/PyConfig.v
theories/Properties/Refinement.v
theories/Properties/Rounding.v
theories/Properties/Rules.v
theories/Properties/Sampling.v
theories/Properties/Saving.v
theories/Properties/Search.v
theories/Properties/Seco.v
theories/Properties/SecoEvaluation.v
theories/Properties/SecoHeuristics.v
theories/Properties/SecoModel.v
theories/Properties/SecoPrediction.v
theories/Properties/Serialization.v
theories/Properties/Setters.v
theories/Properties/Stopping.v
theories/Properties/Stratified.v
theories/Properties/Testbed.v
theories/Properties/Training.v
theories/Spec/Addressing.v
theories/Spec/Binning.v
theories/Spec/BoostBinning.v
theories/Spec/BoostConfig.v
theories/Spec/BoostEvaluation.v
theories/Spec/BoostModel.v
theories/Spec/BoostNDBinning.v
theories/Spec/BoostNonDecomposable.v
theories/Spec/BoostStatistics.v
theories/Spec/BoostTraining.v
theories/Spec/CalibrationData.v
theories/Spec/Configuration.v
theories/Spec/Containers.v
theories/Spec/Conversion.v
theories/Spec/Estimators.v
theories/Spec/Experiments.v
theories/Spec/FeatureFormats.v
theories/Spec/FeatureSampling.v
theories/Spec/FeatureTypes.v
theories/Spec/Filter.v
theories/Spec/FilterBinned.v
theories/Spec/Floats.v
theories/Spec/Incremental.v
theories/Spec/Induction.v
theories/Spec/Interleaving.v
theories/Spec/Isotonic.v
theories/Spec/Iterators.v
theories/Spec/JointPrediction.v
theories/Spec/Labels.v
theories/Spec/Losses.v
theories/Spec/Options.v
theories/Spec/ParallelUpdate.v
theories/Spec/Parameters.v
theories/Spec/PostOptimization.v
theories/Spec/Predictors.v
theories/Spec/PyConfig.v
theories/Spec/Refinement.v
theories/Spec/Rounding.v
theories/Spec/Rules.v
theories/Spec/Saving.v
theories/Spec/Search.v
theories/Spec/Seco.v
theories/Spec/SecoEvaluation.v
theories/Spec/SecoHeuristics.v
theories/Spec/SecoModel.v
theories/Spec/SecoPrediction.v
theories/Spec/Serialization.v
theories/Spec/Setters.v
theories/Spec/SparseLosses.v
theories/Spec/Stopping.v
theories/Spec/Stratified.v
theories/Spec/Testbed.v
theories/Spec/Training.v
