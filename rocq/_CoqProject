-Q theories Verif
theories/Base/FTac.v
theories/Base/GoInt.v
theories/Base/GoMap.v
theories/Base/GoRes.v
theories/Base/GoSort.v
theories/Base/Inf.v
theories/Base/Interleave.v
theories/Base/ListX.v
theories/Base/Mat.v
theories/Base/Num.v
theories/Base/RTac.v
theories/Model/ApiCallbacks.v
theories/Model/Callbacks.v
theories/Model/Checkpoint.v
theories/Model/ChunkPar.v
theories/Model/CrossVal.v
theories/Model/Dataset.v
theories/Model/Drift.v
theories/Model/EarlyStop.v
theories/Model/Efb.v
theories/Model/EfbUse.v
theories/Model/ErrChain.v
theories/Model/ErrLog.v
theories/Model/EstParams.v
theories/Model/EvalMetrics.v
theories/Model/EvalValid.v
theories/Model/GcOpt.v
theories/Model/KMeans.v
theories/Model/LgbApi.v
theories/Model/LgbBooster.v
theories/Model/LgbCv.v
theories/Model/LgbDump.v
theories/Model/LgbEstimator.v
theories/Model/LgbHist.v
theories/Model/LgbLeaf.v
theories/Model/LgbMerge.v
theories/Model/LgbObjective.v
theories/Model/LgbQuick.v
theories/Model/LgbSimple.v
theories/Model/LgbText.v
theories/Model/LgbTrain.v
theories/Model/LgbTrainer.v
theories/Model/LgbTransform.v
theories/Model/LgbTree.v
theories/Model/Linear.v
theories/Model/Log.v
theories/Model/Logistic.v
theories/Model/Memory.v
theories/Model/Metrics.v
theories/Model/MetricsMat.v
theories/Model/NaiveBayes.v
theories/Model/NodeHist.v
theories/Model/Numerical.v
theories/Model/OneHot.v
theories/Model/Parallel.v
theories/Model/ParamMap.v
theories/Model/PassiveAgg.v
theories/Model/Paths.v
theories/Model/Persist.v
theories/Model/Pipeline.v
theories/Model/Scaler.v
theories/Model/Sgd.v
theories/Model/Shap.v
theories/Model/ShapInter.v
theories/Model/SkJson.v
theories/Model/StateManager.v
theories/Model/Stream.v
theories/Model/Streaming.v
theories/Model/Tensor.v
theories/Model/TestLog.v
theories/Model/TrainerCallbacks.v
theories/Model/Tree.v
theories/Model/Weights.v
theories/Proofs/ApiCallbacksEarlyP.v
theories/Proofs/ApiCallbacksP.v
theories/Proofs/ApiCallbacksStopP.v
theories/Proofs/ApiCallbacksTrainP.v
theories/Proofs/AucP.v
theories/Proofs/CallbacksP.v
theories/Proofs/CheckpointP.v
theories/Proofs/ChunkParP.v
theories/Proofs/CrossValP.v
theories/Proofs/DatasetP.v
theories/Proofs/DriftP.v
theories/Proofs/EarlyStopP.v
theories/Proofs/EfbP.v
theories/Proofs/EfbRP.v
theories/Proofs/EstParamsP.v
theories/Proofs/EvalAucP.v
theories/Proofs/EvalMetricsP.v
theories/Proofs/EvalMetricsRP.v
theories/Proofs/EvalRegrP.v
theories/Proofs/GcOptP.v
theories/Proofs/KMeansP.v
theories/Proofs/LgbApiP.v
theories/Proofs/LgbApiTrainP.v
theories/Proofs/LgbArrayP.v
theories/Proofs/LgbBoostP.v
theories/Proofs/LgbBoosterP.v
theories/Proofs/LgbCatP.v
theories/Proofs/LgbCvP.v
theories/Proofs/LgbDumpP.v
theories/Proofs/LgbEstimatorP.v
theories/Proofs/LgbEstimatorRP.v
theories/Proofs/LgbHistP.v
theories/Proofs/LgbHistRP.v
theories/Proofs/LgbImportanceP.v
theories/Proofs/LgbLeafP.v
theories/Proofs/LgbMergeP.v
theories/Proofs/LgbObjectiveP.v
theories/Proofs/LgbQuickP.v
theories/Proofs/LgbSimpleP.v
theories/Proofs/LgbSplitP.v
theories/Proofs/LgbTextFileP.v
theories/Proofs/LgbTextModelP.v
theories/Proofs/LgbTextP.v
theories/Proofs/LgbTextStrP.v
theories/Proofs/LgbTextTrainP.v
theories/Proofs/LgbTextTreeP.v
theories/Proofs/LgbTrainP.v
theories/Proofs/LgbTrainerP.v
theories/Proofs/LgbTransformP.v
theories/Proofs/LgbTreeP.v
theories/Proofs/LinearP.v
theories/Proofs/LogP.v
theories/Proofs/LogisticFitP.v
theories/Proofs/LogisticNanP.v
theories/Proofs/LogisticP.v
theories/Proofs/LogisticPredP.v
theories/Proofs/LogisticTrainP.v
theories/Proofs/MemoryP.v
theories/Proofs/MetricsFP.v
theories/Proofs/NaiveBayesP.v
theories/Proofs/NodeHistFP.v
theories/Proofs/NodeHistP.v
theories/Proofs/NumericalP.v
theories/Proofs/OneHotP.v
theories/Proofs/OrderP.v
theories/Proofs/ParallelP.v
theories/Proofs/ParamMapP.v
theories/Proofs/ParamSetP.v
theories/Proofs/PassiveAggP.v
theories/Proofs/PathsP.v
theories/Proofs/PipelineP.v
theories/Proofs/RankP.v
theories/Proofs/RegrP.v
theories/Proofs/ScalerFP.v
theories/Proofs/ScalerP.v
theories/Proofs/SgdFP.v
theories/Proofs/SgdP.v
theories/Proofs/ShapInterP.v
theories/Proofs/ShapP.v
theories/Proofs/SkJsonP.v
theories/Proofs/StateManagerP.v
theories/Proofs/StreamingP.v
theories/Proofs/TensorP.v
theories/Proofs/TestLogP.v
theories/Proofs/TrainerCallbacksP.v
theories/Proofs/TransformFP.v
theories/Proofs/TreeP.v
theories/Proofs/TreeRP.v
theories/Proofs/WeightsP.v
theories/Props/ApiCallbacksProps.v
theories/Props/CallbacksProps.v
theories/Props/CheckpointProps.v
theories/Props/ChunkParProps.v
theories/Props/CrossValProps.v
theories/Props/DatasetProps.v
theories/Props/DriftProps.v
theories/Props/EarlyStopProps.v
theories/Props/EfbProps.v
theories/Props/EfbUseProps.v
theories/Props/ErrChainProps.v
theories/Props/ErrLogProps.v
theories/Props/EstParamsProps.v
theories/Props/EvalMetricsProps.v
theories/Props/EvalValidProps.v
theories/Props/GcOptProps.v
theories/Props/KMeansProps.v
theories/Props/LgbApiProps.v
theories/Props/LgbBoosterProps.v
theories/Props/LgbCatProps.v
theories/Props/LgbCvProps.v
theories/Props/LgbDumpProps.v
theories/Props/LgbEstimatorProps.v
theories/Props/LgbEstimatorWitProps.v
theories/Props/LgbHistProps.v
theories/Props/LgbLeafProps.v
theories/Props/LgbMergeProps.v
theories/Props/LgbObjectiveProps.v
theories/Props/LgbQuickProps.v
theories/Props/LgbSimpleProps.v
theories/Props/LgbTextProps.v
theories/Props/LgbTrainProps.v
theories/Props/LgbTrainerProps.v
theories/Props/LgbTransformProps.v
theories/Props/LgbTreeProps.v
theories/Props/LinearProps.v
theories/Props/LogProps.v
theories/Props/LogisticFProps.v
theories/Props/LogisticProps.v
theories/Props/MemoryProps.v
theories/Props/MetricsFProps.v
theories/Props/MetricsMatProps.v
theories/Props/MetricsProps.v
theories/Props/NaiveBayesProps.v
theories/Props/NodeHistProps.v
theories/Props/NumericalProps.v
theories/Props/OneHotProps.v
theories/Props/ParallelProps.v
theories/Props/ParamMapProps.v
theories/Props/PassiveAggProps.v
theories/Props/PathsProps.v
theories/Props/PersistProps.v
theories/Props/PipelineProps.v
theories/Props/ScalerFProps.v
theories/Props/ScalerProps.v
theories/Props/SgdProps.v
theories/Props/ShapInterProps.v
theories/Props/ShapProps.v
theories/Props/SkJsonProps.v
theories/Props/StateManagerProps.v
theories/Props/StreamProps.v
theories/Props/StreamingProps.v
theories/Props/TensorProps.v
theories/Props/TestLogProps.v
theories/Props/TrainerCallbacksProps.v
theories/Props/TransformFProps.v
theories/Props/TreeProps.v
theories/Props/WeightsProps.v
theories/Spec/ApiCallbacks.v
theories/Spec/AtomicState.v
theories/Spec/Callbacks.v
theories/Spec/Checkpoint.v
theories/Spec/ChunkPar.v
theories/Spec/CrossVal.v
theories/Spec/Dataset.v
theories/Spec/Drift.v
theories/Spec/EarlyStop.v
theories/Spec/Efb.v
theories/Spec/EstParams.v
theories/Spec/EvalMetrics.v
theories/Spec/EvalValid.v
theories/Spec/GcOpt.v
theories/Spec/KMeans.v
theories/Spec/LgbApi.v
theories/Spec/LgbBooster.v
theories/Spec/LgbCv.v
theories/Spec/LgbDump.v
theories/Spec/LgbEstimator.v
theories/Spec/LgbHist.v
theories/Spec/LgbLeaf.v
theories/Spec/LgbMerge.v
theories/Spec/LgbObjective.v
theories/Spec/LgbQuick.v
theories/Spec/LgbSimple.v
theories/Spec/LgbSplit.v
theories/Spec/LgbText.v
theories/Spec/LgbTrain.v
theories/Spec/LgbTrainer.v
theories/Spec/LgbTransform.v
theories/Spec/LgbTree.v
theories/Spec/Linear.v
theories/Spec/Log.v
theories/Spec/Logistic.v
theories/Spec/Memory.v
theories/Spec/NaiveBayes.v
theories/Spec/NodeHist.v
theories/Spec/OneHot.v
theories/Spec/Order.v
theories/Spec/Parallel.v
theories/Spec/ParamMap.v
theories/Spec/PassiveAgg.v
theories/Spec/Paths.v
theories/Spec/Persist.v
theories/Spec/Pipeline.v
theories/Spec/Ranking.v
theories/Spec/Sgd.v
theories/Spec/Shap.v
theories/Spec/ShapInter.v
theories/Spec/SkJson.v
theories/Spec/Stats.v
theories/Spec/Stream.v
theories/Spec/Streaming.v
theories/Spec/Tensor.v
theories/Spec/TestLog.v
theories/Spec/TrainerCallbacks.v
theories/Spec/Tree.v
theories/Spec/Weights.v
