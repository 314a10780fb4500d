{"id": "C01", "title": "Parallel loops visit every item exactly once", "statement": "Splitting a loop of n items over any number of CPUs hands every item index 0..n-1 to exactly one callback range, all ranges are non-empty, contiguous and inside [0,n), and a body that only writes its own item's slot produces, for every interleaving of the workers, the same final array as the sequential loop.", "quantifier": "for all item counts n, all CPU counts, all thresholds, all loop bodies writing their own slot, all interleavings of the worker goroutines", "why_tests_cant": "A test sees one CPU count and a handful of schedules; the claim is about every CPU count, size and interleaving.", "anchors": ["core/parallel/parallel.go:Parallelize", "core/parallel/parallel.go:ParallelizeWithThreshold"]}
{"id": "C02", "title": "Fitted-state bookkeeping is linearizable", "statement": "Concurrent callers of the shared state manager (is-fitted, set-fitted, reset, set/get dimensions, get/set state, require-fitted) observe results that some one-at-a-time execution respecting real-time order would give; in particular a reader never sees half of a two-field update, and require-fitted fails exactly when the linearized flag is false.", "quantifier": "for all finite sets of concurrent callers, all operation sequences, all interleavings of lock acquisitions and field accesses", "why_tests_cant": "Race tests sample schedules; linearizability is a statement over all of them.", "anchors": ["core/model/state_manager.go:StateManager"]}
{"id": "C03", "title": "Unfitted estimators refuse to answer", "statement": "Predict/Transform/InverseTransform/Score on an estimator that was never successfully fitted returns a not-fitted error and changes nothing; after a successful fit the same call with the fitted column count no longer fails with not-fitted; a wrong column count gives a dimension error.", "quantifier": "for all input matrices and all histories of fit/transform/reset calls", "why_tests_cant": "Tests check one unfitted call; the claim covers every history including failed fits and resets.", "anchors": ["preprocessing/scaler.go:StandardScaler.Transform", "preprocessing/scaler.go:MinMaxScaler.Transform", "core/model/state_manager.go:RequireFitted"]}
{"id": "C04", "title": "NaN and infinity detection is exact", "statement": "The numerical-stability check reports an error if and only if at least one of the supplied values is NaN or infinite; the matrix version reports an error exactly when some entry of the matrix is NaN or infinite and every value it reports is an actual non-finite entry.", "quantifier": "for all value lists and matrices of IEEE doubles, any dimensions", "why_tests_cant": "2^64 values per entry and unbounded shapes.", "anchors": ["pkg/errors/numerical.go:CheckNumericalStability", "pkg/errors/numerical.go:CheckScalar", "pkg/errors/numerical.go:CheckMatrix"]}
{"id": "C05", "title": "Clipping keeps values and gradients in bounds", "statement": "ClipValue maps every non-NaN double into [min,max] and leaves in-range values untouched; ClipGradient returns a vector whose Euclidean norm never exceeds the bound, which is unchanged when already within the bound and is otherwise a non-negative multiple of the input.", "quantifier": "for all doubles (ClipValue) and all real vectors of any length and all positive bounds (ClipGradient)", "why_tests_cant": "Boundary, sign and NaN combinations are unbounded; norm bound is over all vectors.", "anchors": ["pkg/errors/numerical.go:ClipValue", "pkg/errors/numerical.go:ClipGradient"]}
{"id": "C06", "title": "Guarded calls never let a panic escape", "statement": "A function run under the recovery wrapper always returns normally: the result is nil exactly when the body returned nil without panicking, the body's own error is returned unchanged when it did not panic, and a panic is reported as a panic error (wrapping an error that was already set).", "quantifier": "for all bodies (returning nil, returning an error, panicking, panicking after setting the error) and all nestings of wrappers", "why_tests_cant": "Tests use one panicking body; nesting depth and outcome combinations are unbounded.", "anchors": ["pkg/errors/recovery.go:Recover", "pkg/errors/recovery.go:SafeExecute"]}
{"id": "C07", "title": "Log-sum-exp is exact and shift-invariant", "statement": "LogSumExp of a non-empty list of finite reals equals the logarithm of the sum of exponentials, lies between the maximum and the maximum plus log n, and never evaluates the exponential at a positive argument.", "quantifier": "for all non-empty lists of reals", "why_tests_cant": "Holds for all lengths and magnitudes, including those whose naive evaluation overflows.", "anchors": ["pkg/errors/numerical.go:LogSumExp"]}
{"id": "C08", "title": "AUC is the Mann-Whitney probability", "statement": "For binary labels with both classes present, AUC equals the fraction of (positive, negative) pairs ranked correctly, counting ties as one half, independently of the order of the samples; when one class is missing it is 0.5.", "quantifier": "for all label/score lists of any length with labels in {0,1}, all tie patterns", "why_tests_cant": "Tie patterns and orders are exponential in the length.", "anchors": ["metrics/classification.go:AUC"]}
{"id": "C09", "title": "AUC lies in [0,1] and is antisymmetric", "statement": "AUC is always between 0 and 1 and negating all scores replaces a by 1-a; strictly increasing transformations of scores leave it unchanged.", "quantifier": "for all binary-labelled score lists and all strictly monotone transformations", "why_tests_cant": "Quantifies over functions and unbounded lists.", "anchors": ["metrics/classification.go:AUC"]}
{"id": "C10", "title": "Accuracy and error rate are complementary and count matches", "statement": "Accuracy equals the number of agreeing positions over n, the error rate equals the number of disagreeing positions over n, they sum to one and lie in [0,1]; mismatched or empty inputs are errors and never a number. In binary64, for fewer than 2^53 labels: both are finite and in [0,1], the accuracy is exactly 1 (the error 0) iff no position disagrees and exactly 0 (the error 1) iff all do, and fewer disagreements never give a smaller accuracy; but 1 - 2/3 is not the double for 1/3, and a NaN label disagrees with itself.", "quantifier": "for all label lists of any length; for all lists of fewer than 2^53 doubles", "why_tests_cant": "Unbounded lengths and label values.", "anchors": ["metrics/classification.go:ClassificationError", "metrics/classification.go:Accuracy"]}
{"id": "C11", "title": "Regression errors vanish exactly on perfect predictions", "statement": "MSE, RMSE and MAE are non-negative, symmetric in their arguments, zero if and only if the vectors are equal, and MAE <= RMSE; shape mismatch or emptiness is an error (exact arithmetic). In binary64, for all doubles: the three errors are NaN, +0 or positive, and exchanging the vectors changes no bit; for finite data they are never NaN and a perfect prediction gives exactly +0. But in binary64 a zero MSE and RMSE does not mean equal vectors, and MAE can exceed RMSE (the squares underflow).", "quantifier": "for all real vectors and all vectors of doubles of any length; witnesses for the binary64 failures", "why_tests_cant": "Unbounded lengths and values.", "anchors": ["metrics/regression.go:MSE", "metrics/regression.go:RMSE", "metrics/regression.go:MAE"]}
{"id": "C12", "title": "R2 score is at most one", "statement": "For a non-constant target R2 is at most 1, equals 1 iff the prediction equals the target, equals 0 for the constant mean prediction, and the explained variance score is never smaller than R2 (exact arithmetic). In binary64 neither score is ever above 1, and a perfect prediction of finite values scores exactly 1 (or NaN when the sum of squares is NaN). In binary64 a constant target is not always recognised: for 0.1, 0.1, 0.1 R2Score returns a score, below -10^30 for the prediction 0.2, instead of the error.", "quantifier": "for all real vectors of any length with a non-constant target; for all vectors of doubles; a witness for the constant target", "why_tests_cant": "An inequality over all real vectors.", "anchors": ["metrics/regression.go:R2Score", "metrics/regression.go:ExplainedVarianceScore"]}
{"id": "C13", "title": "NDCG is normalised and attained by the ideal ranking", "statement": "NDCG@k of non-negative relevances lies in [0,1], equals 1 when the scores order the items by relevance, is 0 when there is no relevant item, and k larger than n behaves as k = n.", "quantifier": "for all relevance/score lists of any length and all k", "why_tests_cant": "The optimality of the sorted order is a rearrangement inequality over all permutations.", "anchors": ["metrics/ranking.go:NDCG", "metrics/ranking.go:dcg"]}
{"id": "C14", "title": "Average precision is in [0,1] and perfect on perfect rankings", "statement": "Average precision is the mean over the positive items of the precision at their rank, lies in [0,1], and is 1 under every order the unstable sort may give to tied items exactly when every positive item is scored strictly above every negative item; with a tie between a positive and a negative item the value depends on that order. Mean average precision is the mean over the queries and fails if any query fails.", "quantifier": "for all binary label/score lists of any length", "why_tests_cant": "Unbounded lists and orders.", "anchors": ["metrics/ranking.go:AveragePrecision", "metrics/ranking.go:MeanAveragePrecision"]}
{"id": "C15", "title": "Standardised columns have mean zero and unit variance", "statement": "After StandardScaler.FitTransform with centring and scaling, each column has mean exactly zero and variance one unless its standard deviation is below the threshold, in which case the column is centred and not scaled; InverseTransform after Transform is the identity on every matrix with the fitted column count. In binary64, for any settings and finite data, a column with finite results keeps its order (two values are never inverted). But a constant column can be standardised to -1: three times 1000000000.2 gives -1, -1, -1, because the rounded mean differs from the values by more than the threshold.", "quantifier": "for all real matrices with at least one row and column and all fitted states", "why_tests_cant": "Identities over all real matrices.", "anchors": ["preprocessing/scaler.go:StandardScaler.Fit", "preprocessing/scaler.go:StandardScaler.Transform", "preprocessing/scaler.go:StandardScaler.InverseTransform"]}
{"id": "C16", "title": "Min-max scaling hits the requested range exactly", "statement": "After MinMaxScaler.FitTransform each column lies in the requested feature range, a non-constant column attains both ends, constant columns map to the lower end, order is preserved, and InverseTransform undoes Transform (exact arithmetic). In binary64 with the range [0, 1], for finite data whose spread does not overflow: every result is a finite double in [0, 1], the order is kept (not strictly), the smallest value becomes exactly 0, the largest exactly 1 when the computed spread is at least 1e-8, and constant columns become 0. In binary64 it fails otherwise: with the range [-1, 0.1] the largest value becomes 0.10000000000000009, an overflowing spread gives NaN, and InverseTransform does not restore the data.", "quantifier": "for all real matrices and all feature ranges lo < hi; for all matrices of finite doubles and the range [0, 1]; witnesses for the failures", "why_tests_cant": "Identities and bounds over all real and all double matrices; the failures depend on the rounding of particular ranges.", "anchors": ["preprocessing/scaler.go:MinMaxScaler.Fit", "preprocessing/scaler.go:MinMaxScaler.Transform", "preprocessing/scaler.go:MinMaxScaler.InverseTransform"]}
{"id": "C17", "title": "One-hot rows have exactly one 1 per known category", "statement": "Transforming a table after fitting yields, per feature block, exactly one 1 at the position of the value among the sorted distinct training values, an all-zero block for unseen values, the total width is the sum of the numbers of distinct values and equals the number of output feature names; the result does not depend on map iteration order and the training table can be decoded back.", "quantifier": "for all rectangular string tables, all category sets, all map iteration orders", "why_tests_cant": "Unbounded tables and orders.", "anchors": ["preprocessing/encoder.go:OneHotEncoder.Fit", "preprocessing/encoder.go:OneHotEncoder.Transform", "preprocessing/encoder.go:GetFeatureNamesOut"]}
{"id": "C18", "title": "One-hot encoding of ragged or empty tables", "statement": "Tables whose first row has the fitted width but other rows are shorter give an error (never a partial result), longer rows are silently truncated to the fitted width, and an empty table is reported as an error although it has zero rows to encode.", "quantifier": "for all fitted encoders and all tables", "why_tests_cant": "Raggedness patterns are unbounded.", "anchors": ["preprocessing/encoder.go:OneHotEncoder.Transform"]}
{"id": "C19", "title": "A fitted pipeline is function composition", "statement": "After a successful Fit, Predict on any input equals the final estimator's Predict applied to the successive Transforms of the earlier steps, each step having been fitted on the output of its predecessors; InverseTransform applies the inverses in reverse order and undoes Transform whenever every step's inverse undoes its transform; any step error aborts with that error and later steps are not called.", "quantifier": "for all pipelines of any length, all steps (arbitrary state machines), all inputs", "why_tests_cant": "Quantifies over step implementations and pipeline length.", "anchors": ["sklearn/pipeline/pipeline.go:Pipeline.Fit", "sklearn/pipeline/pipeline.go:Pipeline.Predict", "sklearn/pipeline/pipeline.go:Pipeline.InverseTransform"]}
{"id": "C20", "title": "FitTransform is not Fit followed by Transform", "statement": "Although documented as equivalent to Fit followed by Transform, no non-empty pipeline supports both: once Fit has succeeded on any data, Transform and FitTransform fail for every input and state, and conversely. FitTransform does equal a later Transform of the same data when every step owns its state. A failing re-Fit leaves the pipeline reporting itself as fitted, with the steps before the failure refitted and the others old.", "quantifier": "for all pipelines of any length over arbitrary step implementations; existence of witnesses for the refuted equivalence and the mixed state", "why_tests_cant": "The documented equivalence is universally quantified; a test only sees the step kinds it tries.", "anchors": ["sklearn/pipeline/pipeline.go:Pipeline.FitTransform", "sklearn/pipeline/pipeline.go:Pipeline.Fit", "sklearn/pipeline/pipeline.go:Pipeline.Transform"]}
{"id": "C21", "title": "DDM statistics and thresholds", "statement": "After any sequence of outcomes, resets and drift reports the counts shown by GetStatistics are those of the outcomes since the last reset or drift; once the minimum number of instances is reached the reported rate is errors/samples, the reference point is the earliest history of lowest rate+deviation, and warning and drift are reported exactly when the current level exceeds the reference rate plus the configured multiple of the reference deviation. No alarm is raised earlier, a drift report resets every statistic (so GetStatistics never shows a drift), the recorded minimum never increases between resets, and a single error following only correct predictions is always a drift.", "quantifier": "for all sequences of predictions and resets of any length and all parameter values (exact arithmetic)", "why_tests_cant": "History-dependent state over unbounded streams.", "anchors": ["sklearn/drift/ddm.go:DDM.Update", "sklearn/drift/ddm.go:DDM.Reset", "sklearn/drift/ddm.go:DDM.GetStatistics"]}
{"id": "C22", "title": "ADWIN keeps an exact summary of a suffix of the stream", "statement": "At every moment the width reported by ADWIN is the length of a suffix of the values seen since the last reset, bounded by twice the bucket limit (any arithmetic); in exact arithmetic the reported mean is the mean of that suffix, and Update reports a drift exactly when some cut at an even position of a window of at least five values separates means by more than the Hoeffding bound, in which case the values before the first such cut are dropped.", "quantifier": "for all value streams of any length with resets, all bucket limits, all deltas in (0,2]", "why_tests_cant": "Invariant over unbounded histories.", "anchors": ["sklearn/drift/ddm.go:ADWIN.Update", "sklearn/drift/ddm.go:ADWIN.addElement", "sklearn/drift/ddm.go:ADWIN.detectDrift", "sklearn/drift/ddm.go:ADWIN.GetMean"]}
{"id": "C23", "title": "Model weights clone is deep and import/export round-trips", "statement": "Cloning model weights yields an equal value that shares no mutable storage with the original: no later writes to one are visible through the other; export followed by import restores coefficients, intercept, hyperparameters and fittedness, and import of another model type is rejected without changes.", "quantifier": "for all weight records and all write sequences after the clone", "why_tests_cant": "Aliasing is a property of all later mutation histories.", "anchors": ["core/model/weights.go:ModelWeights.Clone", "core/model/base.go:ImportWeights", "core/model/base.go:ExportWeights"]}
{"id": "C24", "title": "Saving a model is not crash-atomic", "statement": "If the process stops at any point while a model is saved over an existing file, the file afterwards holds the old model only if the crash precedes opening the file; from the moment of opening until the last byte is written the file holds a strict prefix of the new encoding, so a later load cannot return the old model.", "quantifier": "for all old and new encodings and all crash points", "why_tests_cant": "Crash points cannot be enumerated by unit tests.", "anchors": ["core/model/persistence.go:SaveModel", "core/model/persistence.go:LoadModel"]}
{"id": "C25", "title": "scikit-learn parameter exchange round-trips and validates", "statement": "Exporting a linear model and reading it back yields the same coefficients, intercept and feature count; a document is accepted exactly when its format version is supported, the model name matches, coefficients are non-empty and the feature count agrees with the number of coefficients.", "quantifier": "for all coefficient lists and all documents", "why_tests_cant": "Unbounded documents.", "anchors": ["core/model/sklearn_import.go:LoadSKLearnModelFromReader", "core/model/sklearn_import.go:LoadLinearRegressionParams", "core/model/sklearn_import.go:ExportSKLearnModel"]}
{"id": "C26", "title": "Ordinary least squares is optimal", "statement": "If the matrix inversion routine returns a true inverse, the weights and intercept computed by Fit minimise the residual sum of squares over all weight vectors and intercepts; Predict is affine in its input.", "quantifier": "for all real design matrices, targets and candidate weights", "why_tests_cant": "A minimality claim over all candidate weights.", "anchors": ["linear/regression.go:LinearRegression.Fit", "linear/regression.go:LinearRegression.Predict"]}
{"id": "C27", "title": "A failed re-fit corrupts a linear regression", "statement": "When re-fitting a fitted linear regression on data with a different column count fails in the inversion, the model stays fitted with the old weights but the new column count, so Predict accepts inputs of the new width and applies a truncated weight vector or panics.", "quantifier": "for all fitted models and all failing re-fits", "why_tests_cant": "Needs a failure injected mid-fit for every pair of widths.", "anchors": ["linear/regression.go:LinearRegression.Fit", "linear/regression.go:LinearRegression.Predict"]}
{"id": "C28", "title": "Multinomial naive Bayes learns batch-independently", "statement": "Training on a data set in one call, in any split into successive partial fits with the full class list, or in any row order gives the same class counts, feature counts and probabilities.", "quantifier": "for all non-negative count matrices, label lists, splits into batches and permutations", "why_tests_cant": "Splits and permutations are exponential.", "anchors": ["sklearn/naive_bayes/multinomial_nb.go:MultinomialNB.Fit", "sklearn/naive_bayes/multinomial_nb.go:MultinomialNB.PartialFit"]}
{"id": "C29", "title": "Naive Bayes probabilities are distributions", "statement": "With positive smoothing every class-conditional feature distribution sums to one, predicted class probabilities are positive and sum to one, and the predicted label is the class with the largest posterior.", "quantifier": "for all training sets with non-negative features and all query rows", "why_tests_cant": "Identities over all inputs.", "anchors": ["sklearn/naive_bayes/multinomial_nb.go:updateModel", "sklearn/naive_bayes/multinomial_nb.go:PredictProba", "sklearn/naive_bayes/multinomial_nb.go:Predict"]}
{"id": "C30", "title": "A failed naive Bayes Fit destroys the previous model", "statement": "Fit with invalid input on a fitted classifier returns an error and leaves the classifier unfitted, whereas a failing PartialFit leaves the learned model as it was.", "quantifier": "for all fitted classifiers and all invalid inputs", "why_tests_cant": "Quantifies over all invalid inputs and prior states.", "anchors": ["sklearn/naive_bayes/multinomial_nb.go:MultinomialNB.Fit", "sklearn/naive_bayes/multinomial_nb.go:MultinomialNB.PartialFit"]}
{"id": "C31", "title": "Cluster prediction returns a nearest centre", "statement": "Each sample is assigned the index of a centre at minimal Euclidean distance, the lowest such index on ties; transform distances agree with the assignment.", "quantifier": "for all centre lists and samples", "why_tests_cant": "Unbounded dimensions and centres.", "anchors": ["sklearn/cluster/minibatch_kmeans.go:findNearestCluster", "sklearn/cluster/minibatch_kmeans.go:Predict"]}
{"id": "C32", "title": "Incremental k-means centres are running means", "statement": "After any sequence of PartialFit batches every centre that has received samples is the arithmetic mean of exactly the samples assigned to it (at the time of their assignment), counts equal the numbers assigned, and other centres are unchanged; calling PartialFit after Fit panics.", "quantifier": "for all batch sequences of any length", "why_tests_cant": "Unbounded histories.", "anchors": ["sklearn/cluster/minibatch_kmeans.go:PartialFit", "sklearn/cluster/minibatch_kmeans.go:Fit"]}
{"id": "C33", "title": "Decision trees respect their growth limits", "statement": "Tree building terminates; with min-samples-leaf at least one Fit succeeds and the tree's depth never exceeds a positive max depth; every leaf holds at least min-samples-leaf training samples whenever the root does; every internal node split at least min-samples-split samples.", "quantifier": "for all training sets and parameter values", "why_tests_cant": "Data-dependent recursion over all data sets.", "anchors": ["sklearn/tree/tree.go:buildTree", "sklearn/tree/tree.go:shouldStop", "sklearn/tree/tree.go:findBestSplit"]}
{"id": "C34", "title": "Decision trees route training samples to the leaf that counted them", "statement": "Every training sample reaches by prediction the leaf whose statistics included it, leaf sample counts add up to the training size, predictions are training classes, and predicted probabilities are non-negative and sum to one.", "quantifier": "for all training sets and all fitted trees", "why_tests_cant": "All data sets, all trees.", "anchors": ["sklearn/tree/tree.go:Predict", "sklearn/tree/tree.go:PredictProba", "sklearn/tree/tree.go:splitData"]}
{"id": "C35", "title": "K-fold splitting is a partition", "statement": "The test folds of K-fold cross validation partition the sample indices, fold sizes differ by at most one, each training set is exactly the complement of its test set, with or without shuffling; with more folds than samples some test fold is empty and cross validation panics.", "quantifier": "for all sample counts, fold counts and shuffles", "why_tests_cant": "All sizes and permutations.", "anchors": ["sklearn/lightgbm/cross_validation.go:KFold.Split"]}
{"id": "C36", "title": "Stratified splitting balances every class", "statement": "Stratified folds partition the indices, each class's counts differ by at most one between folds, independently of map iteration order; total fold sizes may differ by up to the number of classes.", "quantifier": "for all label vectors, fold counts, class iteration orders and shuffles", "why_tests_cant": "All labelings and orders.", "anchors": ["sklearn/lightgbm/cross_validation.go:StratifiedKFold.Split"]}
{"id": "C37", "title": "Early stopping tracks the true best and stops on time", "statement": "After any score sequence the best score is the minimum (or maximum) of the scores seen, the best iteration is the first one attaining it, and stopping is requested exactly when the last `rounds` scores all failed to improve.", "quantifier": "for all score sequences of any length including NaN", "why_tests_cant": "History-dependent over unbounded sequences.", "anchors": ["sklearn/lightgbm/early_stopping.go:EarlyStopping.Update", "sklearn/lightgbm/early_stopping.go:ShouldStop"]}
{"id": "C38", "title": "Callback early stopping counts each round twice", "statement": "Because callbacks run before and after each iteration on the same evaluation results, every run, also a strictly improving one, is stopped after its first tree when the patience is one; with patience r >= 2 a run that stops improving at its b-th tree ends floor(r/2) trees later instead of r; recorded evaluation histories contain every value but the last twice; a metric other than the training loss never stops the run.", "quantifier": "for all patience values and score sequences", "why_tests_cant": "Interaction of callback list and training loop over all histories.", "anchors": ["sklearn/lightgbm/callbacks.go:CallbackList.BeforeIteration", "sklearn/lightgbm/callbacks.go:EarlyStoppingCallback", "sklearn/lightgbm/callbacks.go:RecordEvaluation"]}
{"id": "C39", "title": "Training API with early stopping never returns a model", "statement": "Train with early stopping enabled, m validation sets and more than m times the patience rounds always ends with the early-stop error and no model, because all trees are built in the first iteration so that later scores never improve; fewer rounds than the patience return the model of that first iteration, and without early stopping the requested round count has no influence.", "quantifier": "for all data sets, objectives and round counts larger than the patience", "why_tests_cant": "Universal over data; tests that print and ignore the result miss it.", "anchors": ["sklearn/lightgbm/api/train.go:Train", "sklearn/lightgbm/api/callbacks.go:EarlyStoppingCallback.AfterIteration"]}
{"id": "C40", "title": "Parallel tree prediction equals sequential prediction", "statement": "Predicting a matrix with any number of threads and any interleaving gives the matrix obtained by predicting the rows one after another.", "quantifier": "for all thread counts, row counts, per-row predictors and interleavings", "why_tests_cant": "All schedules.", "anchors": ["sklearn/lightgbm/predictor.go:predictParallel", "sklearn/lightgbm/predictor.go:predictSequential"]}
{"id": "C41", "title": "The compact right-child-next tree layout preserves predictions", "statement": "Loading a text-format tree given as arrays of split features, thresholds and child references into the compact layout (right child stored next to its parent) gives the same leaf for every sample as walking the original arrays.", "quantifier": "for all well-formed binary trees of any size and shape and all samples", "why_tests_cant": "All tree shapes.", "anchors": ["sklearn/lightgbm/leaves_loader.go:readLeavesTree", "sklearn/lightgbm/leaves_tree.go:LeavesTree.Predict"]}
{"id": "C42", "title": "The JSON loader of the compact layout misroutes samples", "statement": "A JSON tree converted to the compact layout predicts correctly for every sample when no node has two internal children, and there are trees with a node with two internal children for which a sample that should go right is answered from the left subtree.", "quantifier": "for all JSON trees; existence of misrouted samples", "why_tests_cant": "All tree shapes.", "anchors": ["sklearn/lightgbm/json_loader.go:convertJSONTree", "sklearn/lightgbm/leaves_tree.go:LeavesTree.Predict"]}
{"id": "C43", "title": "JSON dump and reload preserve each tree but lose the initial score", "statement": "Writing a model of numeric trees to the JSON node structure and flattening it back yields trees with identical outputs on every sample; the initial score is not written, so models with a non-zero initial score predict differently after reload.", "quantifier": "for all well-formed trees and samples", "why_tests_cant": "All trees and inputs.", "anchors": ["sklearn/lightgbm/loader.go:treeToNodeJSON", "sklearn/lightgbm/loader.go:flattenTree", "sklearn/lightgbm/loader.go:toLightGBMJSON"]}
{"id": "C44", "title": "Histograms conserve mass and every value has one bin", "statement": "For strictly increasing bin boundaries both binary searches return the unique bin containing the value (end bins absorbing out-of-range values), so bin counts, gradient and hessian sums are those of the node's samples and add up to its totals, and for common boundaries subtracting one child's histogram from the parent's gives exactly the other child's. Boundaries computed from values are increasing with at most MaxBin bins, and at most MaxBin different values more than 1e-10 apart get a bin each. Exceptions found: binary64 values from 2^20 on can share a bin; one NaN sends the smallest value to the last bin; and since every node computes its own boundaries, subtracting the histograms the library builds panics or gives a wrong histogram.", "quantifier": "for all boundary lists, samples, gradients and splits; existence for the exceptions", "why_tests_cant": "All sizes.", "anchors": ["sklearn/lightgbm/histogram_optimization.go:findBinBoundaries", "sklearn/lightgbm/histogram_optimization.go:findBinIndex", "sklearn/lightgbm/histogram_optimization.go:buildContinuousHistogram", "sklearn/lightgbm/histogram_optimization.go:HistogramSubtraction"]}
{"id": "C45", "title": "Regularised leaf values are optimal", "statement": "The leaf output computed from gradient sum, hessian sum and L1/L2 penalties is the unique minimiser of the penalised second-order objective (with 1e-10 added to the hessian), and the regulariser's split gain is the decrease of the minimal objective.", "quantifier": "for all gradient sums, positive hessian sums and non-negative penalties", "why_tests_cant": "Minimality over all real candidates.", "anchors": ["sklearn/lightgbm/trainer_params.go:ApplyLeafRegularization"]}
{"id": "C46", "title": "Objective gradients are derivatives of their losses", "statement": "For the L2, Huber, Fair, Poisson, Gamma, Tweedie, quantile and multiclass objectives the gradient routine is the derivative of the loss routine, and the hessian that of the gradient, inside the clamping range of the scores (+-700, minimum hessian 1e-16); hessians are always positive. The binary gradient belongs to the log loss, but the reported binary loss differs from it for non-negative scores: for a positive sample it grows as the score improves. The adapter used for multiclass training reports squared error with logistic gradients; the Poisson gradient above 700 and the L1 gradient within 1e-7 of the target are not slopes of the loss.", "quantifier": "for all predictions, targets and objective parameters", "why_tests_cant": "A statement about derivatives at every point.", "anchors": ["sklearn/lightgbm/objectives.go:L2Objective", "sklearn/lightgbm/objectives.go:HuberObjective", "sklearn/lightgbm/objectives.go:BinaryLogLoss"]}
{"id": "C47", "title": "The quantile objective is mirrored", "statement": "The constant predictions minimising the total quantile loss for level alpha are exactly the (1-alpha)-quantiles of the targets, while the initial score is the interpolated alpha-quantile.", "quantifier": "for all target lists and levels", "why_tests_cant": "Minimality over all reals.", "anchors": ["sklearn/lightgbm/objectives.go:QuantileObjective"]}
{"id": "C48", "title": "Boosted-tree growth limits", "statement": "Trees built by the trainer never exceed a positive maximum depth; the configured maximum number of leaves can be exceeded, by at most the height of the tree minus one.", "quantifier": "for all data sets and split decisions", "why_tests_cant": "All data-dependent recursions.", "anchors": ["sklearn/lightgbm/trainer.go:buildNode"]}
{"id": "C49", "title": "Feature bundling keeps bundles disjoint and decodes exclusive values", "statement": "Greedy bundling produces disjoint bundles of at least two features whose pairwise conflict rates are within the limit; bundling and unbundling a row with at most one non-zero member per bundle and values that are 0 or in (1e-10,1000) is the identity over exact numbers, in particular for the bundles created with conflict limit 0; other values move to other columns or vanish as determined by the offset 1000, and binary64 rounding changes values within the range. Unbundled columns always survive. With fewer than two sparse columns the returned mapping collapses the data to its last column and unbundling panics; the optimizer keeps the bundle limit of its first data set.", "quantifier": "for all conflict graphs, rows and bundles", "why_tests_cant": "All graphs and rows.", "anchors": ["sklearn/lightgbm/efb.go:greedyBundling", "sklearn/lightgbm/efb.go:createBundleValue", "sklearn/lightgbm/efb.go:unbundleValue"]}
{"id": "C50", "title": "Sampling without replacement", "statement": "Row and feature sampling return distinct in-range indices, as many as the fraction asks for (integer part, at least 1), for every random stream, and every such selection is returned for some stream. The trees dropped by DART are distinct; a drop count above the number of trees panics.", "quantifier": "for all sizes, fractions and random streams", "why_tests_cant": "All random streams.", "anchors": ["sklearn/lightgbm/trainer_params.go:SampleFeatures", "sklearn/lightgbm/trainer_params.go:SampleInstances"]}
{"id": "C51", "title": "Lock-free histogram merging", "statement": "Concurrent chunks merging bin counts and sums with compare-and-swap loops end, for every interleaving, with the sums of all chunk contributions when these are ordinary numbers; if a bin sum has become NaN, a later merge of that bin never terminates.", "quantifier": "for all chunk sets and interleavings", "why_tests_cant": "All interleavings; non-termination.", "anchors": ["sklearn/lightgbm/parallel_histogram.go:buildContinuousHistogramParallelSamples"]}
{"id": "C52", "title": "Out-of-core chunk iteration covers the data once", "statement": "Reading a range of rows of a memory-mapped data set gives exactly these rows and any other range is an error; writing a block changes exactly its rows and a float64 block is read back unchanged (other element types convert the values, an unknown type stores nothing); iterating in chunks of any positive size visits the blocks in order up to the callback's first failure, and together they are all rows once; a chunk size of zero or less is an error before any call. Near 2^63 the checks overflow: SetChunk panics instead of reporting an error, and NewMemoryMappedDataset accepts dimensions whose size overflows, so that reading panics.", "quantifier": "for all data set sizes, chunk sizes, offsets and contents", "why_tests_cant": "All sizes and offsets.", "anchors": ["performance/large_scale.go:IterateChunks", "performance/large_scale.go:GetChunk", "performance/large_scale.go:SetChunk"]}
{"id": "C53", "title": "The memory budget is never exceeded", "statement": "Under any sequence of non-negative allocate/free requests from any number of goroutines that do not overflow, tracked usage stays between 0 and the limit, a request is granted exactly if it fits, and when only outstanding blocks are freed usage is their total. A request near 2^63 passes the check and makes usage negative, as does a negative request, and a limit of 2^43 MB or more refuses everything.", "quantifier": "for all request sequences and interleavings", "why_tests_cant": "Unbounded histories and 64-bit boundaries.", "anchors": ["performance/memory_optimizer.go:MemoryEfficientBatch"]}
{"id": "C54", "title": "Layout conversion is transposition", "statement": "OptimizeDataLayout moves entry (i,j) to (j,i), converting back restores the data, data that are too short panic and a tail is lost. A ZeroCopyMatrix view made by slices of slices reads and writes exactly the addressed entries of the whole matrix, refuses indices outside it and never leaves the buffer; dimensions whose product overflows pass the size check and do leave the buffer.", "quantifier": "for all dimensions and contents", "why_tests_cant": "All dimensions.", "anchors": ["performance/memory_optimizer.go:OptimizeDataLayout", "performance/memory_optimizer.go:ZeroCopyMatrix"]}
{"id": "C55", "title": "Stream training equals sequential incremental training", "statement": "Training from a channel of batches leaves the model in the state reached by applying the incremental update to the batches received, in order, until the channel closes, the context is cancelled, or an update fails, and reports the failure.", "quantifier": "for all batch streams, cancellation points and update functions", "why_tests_cant": "All interleavings of cancellation and delivery.", "anchors": ["sklearn/linear_model/sgd_regressor.go:FitStream", "sklearn/linear_model/passive_aggressive.go:FitStream"]}
{"id": "C56", "title": "Passive-aggressive steps", "statement": "A sample already within the margin or tube leaves the model unchanged; otherwise the step moves the prediction towards the target by the closed-form amount; with the intercept enabled and a large aggressiveness the step overshoots and can increase the error.", "quantifier": "for all weights, samples and parameters", "why_tests_cant": "Closed form over all reals.", "anchors": ["sklearn/linear_model/passive_aggressive.go:updateWeights"]}
{"id": "C57", "title": "Tensor shape operations", "statement": "A tensor is made exactly from two positive dimensions and data of their product; Reshape to dimensions of the same product preserves the flat data on fresh memory and leaves other tensors as they are; a slice shares the addressed block; Set changes one entry; a copy is independent of the original. Transposition panics on every tensor, Reshape panics for two negative dimensions, and products that overflow are accepted.", "quantifier": "for all shapes and data", "why_tests_cant": "All shapes.", "anchors": ["core/tensor/tensor.go:Reshape", "core/tensor/tensor.go:Slice", "core/tensor/tensor.go:T", "core/tensor/tensor.go:Copy"]}
{"id": "C58", "title": "Softmax and sigmoid outputs are probabilities", "statement": "The compact predictor's softmax is the mathematical softmax (positive, summing to one, increasing in the score) and its sigmoid is the logistic function on [-500,500]; the Predictor's versions lie in [0,1], never invert the order of two scores and differ from the mathematical values by at most (n+2)*1e-15 and 1e-15, with sum within n*1e-15 of one. The polynomial exponential used by Model's own transformation breaks this: raw score 30 gets a probability below one half while raw score 1 is above, and of two classes the one with the lower score can get the larger share. In binary64, whatever the rounding, for finite scores of any number each share and each sigmoid value is a finite number in [0,1], no class gets a larger share than one with the largest score, and the compact predictor gives the latter at least the rounded 1/n; but the shares need not add up to 1, and an infinite score gives NaN.", "quantifier": "for all score vectors, in exact arithmetic and in binary64 (there for every exponential that is in [0,1] up to 0, 1 at 0 and 0 at -Inf)", "why_tests_cant": "All reals.", "anchors": ["sklearn/lightgbm/predictor.go:stableSoftmax", "sklearn/lightgbm/predictor.go:stableSigmoid", "sklearn/lightgbm/leaves_predictor.go:leavesSoftmax", "sklearn/lightgbm/model.go:sigmoid"]}
{"id": "C59", "title": "Per-feature contributions of a prediction", "statement": "CalculateSHAP gives every feature, per tree, the distance of the reached leaf from the plain mean of all leaves, times the number of tests of that feature on the way, divided by the number of different features on the way, times the learning rate: features not tested on the way get zero, and the result does not depend on the iteration order of the map of counts. Base value and contributions of a row therefore add up to InitScore + rate * sum over the trees of (leaf - mean) * (tests per different feature). This is the raw prediction if every tree has mean zero and no way tests a feature twice; it is not in general: a stump with leaves 1 and 3 is off by its mean, a way testing one feature twice counts the distance double, a model without trees has base value 0 whatever its InitScore, and a missing value goes right although prediction follows the default direction.", "quantifier": "for all models of stored numeric trees, samples and iteration orders", "why_tests_cant": "All trees and samples; a universally quantified additivity claim.", "anchors": ["sklearn/lightgbm/shap.go:simpleTreeShap", "sklearn/lightgbm/shap.go:calculateBaseValue", "sklearn/lightgbm/shap.go:getTreePath", "sklearn/lightgbm/shap.go:getTreeBaseline"]}
{"id": "C60", "title": "Parameter aliases", "statement": "Mapping a parameter dictionary to Go names gives the same result for every iteration order exactly if no two keys give one parameter different values, and always holds exactly the given parameters with given values. Go names survive the way to Python names and back, and so do documented Python names except min_split_gain. ApplyDefaults only adds, but a parameter given under an alias can then be replaced by the default of its documented name, depending on the order. GetDefault answers the same for all names of a parameter.", "quantifier": "for all dictionaries and iteration orders", "why_tests_cant": "All orders.", "anchors": ["sklearn/lightgbm/parameter_mapping.go:MapPythonToGo", "sklearn/lightgbm/parameter_mapping.go:MapGoToPython", "sklearn/lightgbm/parameter_mapping.go:ApplyDefaults", "sklearn/lightgbm/parameter_mapping.go:GetDefault"]}
{"id": "C61", "title": "One-hot output names identify columns", "statement": "With default input names the output feature names of a fitted one-hot encoder are pairwise distinct, also for ten or more features and for categories containing underscores; with user-supplied distinct input names two columns can receive the same name.", "quantifier": "for all fitted encoders; existence of colliding names", "why_tests_cant": "All category strings and feature counts.", "anchors": ["preprocessing/encoder.go:GetFeatureNamesOut"]}
{"id": "C62", "title": "Cross-validation summary and best fold", "statement": "The best fold reported by cross validation is the first fold attaining the smallest score for loss metrics and the largest otherwise, unless the first fold's score is NaN, which sticks; because metric names that are not implemented (such as auc and r2) are evaluated as mean squared error but maximised, the fold with the largest error is then reported as best; the summary is the mean and the sample standard deviation of the fold scores.", "quantifier": "for all score lists and metric names, including NaN scores", "why_tests_cant": "All fold scores; wrong direction only shows with several folds and an unusual metric.", "anchors": ["sklearn/lightgbm/cross_validation.go:CrossValidate", "sklearn/lightgbm/cross_validation.go:evaluateMetric"]}
{"id": "C63", "title": "Validation with a maximised metric cuts improving runs", "statement": "FitWithValidation always compares the objective's loss, so with the metric set to auc, accuracy, precision, recall, f1 or r2 a run whose validation loss strictly decreases is cut down to its first tree after patience further iterations.", "quantifier": "for all boosters, iteration counts, patience values and strictly decreasing losses", "why_tests_cant": "Needs all histories; a test with the default metric sees nothing.", "anchors": ["sklearn/lightgbm/early_stopping.go:FitWithValidation", "sklearn/lightgbm/early_stopping.go:evaluateValidation"]}
{"id": "C64", "title": "Learning-rate schedules and parameter resets have no effect", "statement": "Training with any list of LearningRateSchedule (non-zero step count) and ResetParameter callbacks yields exactly the trees of training without callbacks, because the callbacks edit a fresh copy of the model.", "quantifier": "for all callback lists of these kinds, iteration counts and boosters", "why_tests_cant": "Tests only check that training succeeds.", "anchors": ["sklearn/lightgbm/callbacks.go:LearningRateSchedule", "sklearn/lightgbm/callbacks.go:ResetParameter", "sklearn/lightgbm/trainer.go:GetModel"]}
{"id": "C65", "title": "A failed k-means Fit makes a fitted model unusable", "statement": "Fit with fewer rows than clusters returns an error but still changes the expected number of features, so a fitted model then rejects the data it accepted before when the column counts differ; a failing PartialFit changes nothing.", "quantifier": "for all fitted models and all rejected inputs", "why_tests_cant": "Quantifies over all prior states and inputs.", "anchors": ["sklearn/cluster/minibatch_kmeans.go:Fit", "sklearn/cluster/minibatch_kmeans.go:PartialFit"]}
{"id": "C66", "title": "k-means Fit succeeds without centres on NaN data", "statement": "If any training value is NaN, Fit reports success and marks the model fitted, but there are no centres or labels: Predict returns cluster 0 for every row and Transform panics.", "quantifier": "for all data sets containing a NaN, all options and random streams", "why_tests_cant": "All positions of the NaN, all random choices.", "anchors": ["sklearn/cluster/minibatch_kmeans.go:Fit", "sklearn/cluster/minibatch_kmeans.go:fitSingleRun"]}
{"id": "C67", "title": "Decision-tree splits are the best available", "statement": "Every inner node of a fitted decision tree uses the feature and threshold with the largest impurity decrease among all features and all real thresholds leaving min_samples_leaf samples on both sides, and that decrease is positive and reaches min_impurity_decrease; a node stays a leaf only if a limit is reached, it is pure, or no admissible split reaches that decrease.", "quantifier": "for all data sets, labels, options and both impurity criteria (exact arithmetic)", "why_tests_cant": "All real thresholds and all data sets.", "anchors": ["sklearn/tree/tree.go:findBestSplit", "sklearn/tree/tree.go:buildTree"]}
{"id": "C68", "title": "Unlimited trees do not reproduce consistent training labels", "statement": "A user expects a tree without limits to predict every training label when no two equal rows carry different labels; this is false: when no single split lowers the impurity, as for exclusive or, the tree stays a single leaf.", "quantifier": "existence of a data set", "why_tests_cant": "A test suite with separable data sees nothing.", "anchors": ["sklearn/tree/tree.go:Fit", "sklearn/tree/tree.go:findBestSplit"]}
{"id": "C69", "title": "Decision-tree feature importances", "statement": "After Fit the feature importances are non-negative, one per feature, proportional to the total impurity decrease (weighted by samples) of the splits on that feature, and sum to one; for a tree with a single leaf they are all zero.", "quantifier": "for all data sets and options (exact arithmetic)", "why_tests_cant": "All tree shapes.", "anchors": ["sklearn/tree/tree.go:GetFeatureImportances", "sklearn/tree/tree.go:buildTree"]}
{"id": "C70", "title": "Decision-tree prediction does not check the column count", "statement": "Predict of a fitted tree never reports a dimension error: surplus columns are ignored and a missing column panics when a visited node tests it.", "quantifier": "for all fitted trees and input matrices", "why_tests_cant": "All widths and trees.", "anchors": ["sklearn/tree/tree.go:Predict"]}
{"id": "C71", "title": "Decision-tree SetParams", "statement": "A SetParams call whose entries are all known and well typed sets exactly these parameters, whatever the iteration order of the map; a refused call can leave some of its entries set, depending on that order.", "quantifier": "for all parameter maps and iteration orders", "why_tests_cant": "Map iteration order is random.", "anchors": ["sklearn/tree/tree.go:SetParams", "sklearn/tree/tree.go:GetParams"]}
{"id": "C72", "title": "Ignored decision-tree options", "statement": "max_leaf_nodes, max_features and random_state never influence the fitted tree, so max_leaf_nodes can be exceeded.", "quantifier": "for all data sets and option values", "why_tests_cant": "All option values.", "anchors": ["sklearn/tree/tree.go:NewDecisionTreeClassifier", "sklearn/tree/tree.go:Fit"]}
{"id": "C73", "title": "Model.Predict ignores the trees of a text-format file", "statement": "For a model read from a LightGBM text file by the model loader, Model.Predict's raw output is the initial score for every sample: every tree contributes 0, because leaf references are negative and the walk stops there.", "quantifier": "for all well-formed text-format models with one output and all samples (exact arithmetic)", "why_tests_cant": "A loader test that only checks shapes passes; the claim is about every model and sample.", "anchors": ["sklearn/lightgbm/loader.go:finalizeTree", "sklearn/lightgbm/model.go:Tree.Predict", "sklearn/lightgbm/model.go:PredictSingle"]}
{"id": "C74", "title": "The two predictors disagree on the same text file", "statement": "For the same text-format file LeavesPredictor returns the sum of the reached leaf values, while Predictor returns the first tree's internal value plus the reached leaf values multiplied once more by the shrinkage, treats NaN as zero, compares with tolerance 1e-15 and lets single-leaf trees contribute 0; so the two differ on ordinary files.", "quantifier": "for all well-formed text-format models with one output and all samples; existence of a differing model", "why_tests_cant": "All models and samples.", "anchors": ["sklearn/lightgbm/predictor.go:predictSingleSample", "sklearn/lightgbm/leaves_predictor.go:PredictSingle", "sklearn/lightgbm/leaves_loader.go:LoadLeavesModelFromReader"]}
{"id": "C75", "title": "Categorical tests of the compact layout always go right", "statement": "In every tree produced by the two compact-layout loaders a categorical node sends every feature value to its right child, whatever the categories in the file.", "quantifier": "for all documents, nodes and feature values", "why_tests_cant": "All files and values.", "anchors": ["sklearn/lightgbm/leaves_tree.go:categoricalDecision", "sklearn/lightgbm/leaves_loader.go:readLeavesTree", "sklearn/lightgbm/json_loader.go:convertJSONTree"]}
{"id": "C76", "title": "Malformed model files make prediction run forever", "statement": "Loading always ends, but a text file with a child reference forming a cycle is accepted, and predicting with it never ends for some samples, both in LeavesPredictor and in Predictor (whose iteration guard is not counted on the default-direction path).", "quantifier": "existence of files and samples; no number of steps suffices", "why_tests_cant": "Non-termination.", "anchors": ["sklearn/lightgbm/leaves_tree.go:Predict", "sklearn/lightgbm/predictor.go:predictTree", "sklearn/lightgbm/loader.go:finalizeTree"]}
{"id": "C77", "title": "LeavesPredictor batch and single-row prediction", "statement": "PredictBatch and Predict of the compact predictor agree on every row when the initial score is zero or there are more than two classes; with a non-zero initial score and one output they differ, because only PredictBatch adds it.", "quantifier": "for all models and rows; existence of a differing model", "why_tests_cant": "All models.", "anchors": ["sklearn/lightgbm/leaves_predictor.go:PredictBatch", "sklearn/lightgbm/leaves_predictor.go:PredictSingle"]}
{"id": "C78", "title": "Saving a text-format model as JSON loses its leaf values", "statement": "A model read from a text file, dumped to JSON and reloaded, predicts 0 from every tree on every complete sample.", "quantifier": "for all well-formed text-format trees and all samples", "why_tests_cant": "All trees and samples.", "anchors": ["sklearn/lightgbm/loader.go:treeToNodeJSON", "sklearn/lightgbm/loader.go:flattenTree"]}
{"id": "C79", "title": "The optimised histogram builder agrees with the plain one", "statement": "Its hand-written quicksort sorts every slice (permutation, in order, terminating); its boundaries are increasing, at most MaxBin bins, and cover all values; and for at most MaxBin different values more than 1e-10 apart it puts the same samples in the same bins as the plain builder, with the same counts and sums. With a NaN, or with large values, the two builders put samples in different bins.", "quantifier": "for all slices; for all data sets, gradients and bin limits (exact arithmetic for the bins); existence for the differences", "why_tests_cant": "All inputs of a recursive in-place sort; agreement of two algorithms on every data set.", "anchors": ["sklearn/lightgbm/parallel_histogram.go:quickSort", "sklearn/lightgbm/parallel_histogram.go:findBinBoundariesOptimized", "sklearn/lightgbm/parallel_histogram.go:findBinIndexOptimized", "sklearn/lightgbm/parallel_histogram.go:buildContinuousHistogramOptimized"]}
{"id": "C80", "title": "The split search finds the best split", "statement": "For each feature the search returns the split of largest regularised gain among the bin boundaries leaving min_data_in_leaf samples on both sides, the first on ties, and reports none when no gain is positive; over all features it returns the best, lowest feature first. With at most MaxBin different values no threshold at all has a larger gain, and the reported counts and sums are those of the rows at most the threshold. With more values the report is about the rows strictly below the threshold while the tree sends rows equal to it left, so min_data_in_leaf can be violated.", "quantifier": "for all data sets, gradients, hessians, regularisation constants and thresholds; existence for the violation", "why_tests_cant": "Optimality over all thresholds of all data sets.", "anchors": ["sklearn/lightgbm/histogram_optimization.go:FindBestSplitFromHistogram", "sklearn/lightgbm/histogram_optimization.go:FindBestCategoricalSplitFromHistogram", "sklearn/lightgbm/histogram_optimization.go:FindBestSplit", "sklearn/lightgbm/histogram_optimization.go:calculateGain", "sklearn/lightgbm/trainer.go:splitData"]}
{"id": "C81", "title": "A boosted tree predicts each training row's leaf output", "statement": "The rows given to tree growth are divided among the leaves, and predicting a training row with the finished tree returns the regularised output computed from the gradients and hessians of the rows in its leaf; a NaN in a numeric feature goes right in both. A NaN in a categorical feature is a category of its own in training but goes right in prediction, so the row can land in another leaf.", "quantifier": "for all data sets, gradients, parameters and training rows; existence for the difference", "why_tests_cant": "All data-dependent recursions and node-array layouts.", "anchors": ["sklearn/lightgbm/trainer.go:buildNode", "sklearn/lightgbm/trainer.go:splitData", "sklearn/lightgbm/trainer.go:calculateLeafValue", "sklearn/lightgbm/model.go:Predict"]}
{"id": "C82", "title": "Termination of tree growth", "statement": "Tree growth ends for a positive MaxDepth; without a depth limit it ends when each feature has at most MaxBin different values (more than 1e-10 apart) and MinGainToSplit is positive. It recurses forever without a depth limit whenever the split found sends all rows left: for every data set with fewer than twice MinDataInLeaf rows and no positive value in the first feature when MinGainToSplit is 0 (the trainer's default), and, with any MinGainToSplit, for features whose largest value is frequent enough to be a bin boundary.", "quantifier": "for all data sets and parameters; for the non-termination, no number of steps suffices", "why_tests_cant": "Non-termination; termination for all data sets.", "anchors": ["sklearn/lightgbm/trainer.go:buildNode", "sklearn/lightgbm/histogram_optimization.go:FindBestSplit", "sklearn/lightgbm/histogram_optimization.go:findBinBoundaries"]}
{"id": "C83", "title": "The fitted model predicts the scores reached in training", "statement": "After training, the Predictor's raw score of a training row equals the trainer's running score up to (1 + |learning rate|) 1e-15 per tree, for rows with no value in the interval of 1e-15 above a threshold. Model.PredictSingle omits the learning rate. With more than two classes the trainer learns one score while the model assigns its trees to the classes in turn; with fewer rounds than classes the last classes keep the initial score for every sample.", "quantifier": "for all data sets, objectives, parameters, numbers of rounds and rows (error bound in exact arithmetic); existence for the difference", "why_tests_cant": "All training runs.", "anchors": ["sklearn/lightgbm/trainer.go:updatePredictions", "sklearn/lightgbm/trainer.go:GetModel", "sklearn/lightgbm/predictor.go:predictSingleSample", "sklearn/lightgbm/model.go:PredictSingle"]}
{"id": "C84", "title": "Squared-error training loss never increases", "statement": "With the squared-error objective, all rows in every round, non-negative penalties and weights and a learning rate in [0, 2], each boosting round leaves the weighted training loss equal or smaller, for every split the search may choose. With a learning rate of 4 it can grow.", "quantifier": "for all data sets, weights, parameters and numbers of rounds, in exact arithmetic; existence for the increase", "why_tests_cant": "All data sets and trees.", "anchors": ["sklearn/lightgbm/trainer.go:Fit", "sklearn/lightgbm/trainer.go:calculateLoss", "sklearn/lightgbm/objectives.go:L2Objective"]}
{"id": "C85", "title": "Gradient-based one-side sampling", "statement": "GOSS returns distinct rows: those of largest absolute gradient and a selection of the others; only the chosen others have gradient and hessian multiplied, by (1 - top_rate)/other_rate. As other_rate is taken of the remaining rows, the chosen ones are given at most (1 - top_rate) of the weight of the rows they stand for.", "quantifier": "for all gradients, rates and random streams", "why_tests_cant": "All random streams and gradient vectors.", "anchors": ["sklearn/lightgbm/trainer.go:gosssampling"]}
{"id": "C86", "title": "Initial scores are best constant predictions", "statement": "The initial score of the L2, L1, Poisson (positive sum), binary (class rate in [1e-15, 1-1e-15]), Gamma and Tweedie (positive targets) objectives is a constant prediction of minimal total loss. With zero targets the Tweedie score is not, nor is the Huber score (the mean) or the Fair score (the median).", "quantifier": "for all target lists, against all real predictions; existence for the exceptions", "why_tests_cant": "Minimality over all reals and all target lists.", "anchors": ["sklearn/lightgbm/objectives.go:GetInitScore", "sklearn/lightgbm/objectives.go:calculateMedian"]}
{"id": "C87", "title": "Categorical splits choose the best category subset", "statement": "The histogram of a categorical feature has one bin per category occurring in the rows with that category's row count and gradient and hessian sums, counting every row once; the reported split describes exactly the rows whose category is in its left category list and the others; without L2 and L1 regularisation and with min_data_in_leaf at most 1 no subset of the categories whatever has a larger gain. With lambda_l2 > 0 the bins are sorted by the regularised ratio and a better subset can be missed.", "quantifier": "for all rows, categories, gradients and hessians, and all subsets of the categories", "why_tests_cant": "All category subsets (exponentially many) and all data.", "anchors": ["sklearn/lightgbm/histogram_optimization.go:FindBestCategoricalSplitFromHistogram", "sklearn/lightgbm/histogram_optimization.go:buildCategoricalHistogram"]}
{"id": "C88", "title": "Chunked processing of a stream", "statement": "Given rows, the sequential chunk processor calls the function on consecutive chunks of the chunk size, the last one possibly shorter, in order and up to the first failure, and together they are all rows. As the scanner never delivers a row, Process calls the function for no input and reports success.", "quantifier": "for all row lists, chunk sizes and functions", "why_tests_cant": "All row counts and chunk sizes.", "anchors": ["performance/large_scale.go:processSequential", "performance/large_scale.go:Process"]}
{"id": "C89", "title": "Pooled matrices are exclusive and zeroed", "statement": "Whatever the users of a MatrixPool do with the matrices they hold, Get returns a matrix that nobody holds, of the dimensions asked for and filled with zeros, and the counters agree with the matrices held and made. A matrix returned twice, or by two goroutines at once, is handed to two users; a matrix recycled from a larger one panics in ToMat.", "quantifier": "for all sequences of operations and all choices of sync.Pool", "why_tests_cant": "Unbounded histories and the pool's freedom of choice.", "anchors": ["performance/memory_optimizer.go:MatrixPool", "performance/memory_optimizer.go:PooledMatrix"]}
{"id": "C90", "title": "Aligned allocation", "statement": "For an alignment that is a multiple of 8, AlignedAlloc returns a slice of the size asked for that is aligned and lies inside the memory allocated, wherever that memory is. Other alignments are not kept, and size 0 with an alignment below 8 panics.", "quantifier": "for all addresses that are multiples of 8, sizes and alignments", "why_tests_cant": "The address of the memory is not under the control of a test.", "anchors": ["performance/memory_optimizer.go:AlignedAlloc"]}
{"id": "C91", "title": "Underdetermined linear fits never succeed", "statement": "linear.LinearRegression.Fit on at most as many rows as features never succeeds: the matrix to invert is singular, whatever the data. (Its documentation says such systems are handled.)", "quantifier": "for all data with no more rows than columns and every correct inversion routine", "why_tests_cant": "All matrices of all sizes.", "anchors": ["linear/regression.go:LinearRegression.Fit"]}
{"id": "C92", "title": "R2 scores", "statement": "A score is at most 1, and equal to 1 exactly if every prediction equals its target; the score of a fitted model on its own training data lies between 0 and 1. Constant targets are an error in exact arithmetic; in floating point the check can fail to see that the targets are constant.", "quantifier": "for all data and models; existence for the floating-point exception", "why_tests_cant": "All data sets; a rounding-error exception.", "anchors": ["linear/regression.go:Score", "sklearn/linear_model/linear_regression.go:Score"]}
{"id": "C93", "title": "linear_model.LinearRegression minimises the squared error", "statement": "With a solver that returns a least-squares solution, the fitted coefficients (and intercept if asked for) minimise the sum of squared residuals over all real coefficients. The positive option gives non-negative coefficients, but by cutting off negative ones, which is not the best non-negative fit. Fewer rows than coefficients make Fit panic.", "quantifier": "for all data sets against all coefficient vectors; existence for the exceptions", "why_tests_cant": "Minimality over all reals.", "anchors": ["sklearn/linear_model/linear_regression.go:Fit"]}
{"id": "C94", "title": "Linear regression follows its data", "statement": "Fitting to a*y + c instead of y changes every prediction p to a*p + c; the order of the training rows does not matter.", "quantifier": "for all data sets on which Fit succeeds, all a, c and permutations", "why_tests_cant": "Relates pairs of runs for all data.", "anchors": ["linear/regression.go:LinearRegression.Fit"]}
{"id": "C95", "title": "Loading a saved linear regression", "statement": "LoadModel into a new linear.LinearRegression restores the saved model and its predictions. Into a model that already has weights it panics, leaving the new state with the old weights; loading a saved unfitted model reports success and changes nothing, so a fitted model stays fitted.", "quantifier": "for all saved and all receiving models", "why_tests_cant": "All pairs of saved and receiving states.", "anchors": ["core/model/persistence.go:LoadModel", "linear/regression.go:LinearRegression"]}
{"id": "C96", "title": "Stream predictions", "statement": "PredictStream answers the inputs it takes in their order, each with the model as it was when the input was taken, and answers all of them unless cancelled; inputs that cannot be predicted are passed over, so the n-th answer need not belong to the n-th input. FitPredictStream answers each batch with the model trained on exactly the batches before it. A result nobody takes blocks the method until the context is cancelled.", "quantifier": "for all streams, interleavings of senders, receivers and cancellation", "why_tests_cant": "All interleavings and streams of any length.", "anchors": ["sklearn/linear_model/sgd_regressor.go:PredictStream", "sklearn/linear_model/sgd_regressor.go:FitPredictStream"]}
{"id": "C97", "title": "Passive-aggressive training", "statement": "PartialFit on two batches one after the other equals PartialFit on their union (for the classifier: once the class list is known; labels first seen in later batches are ignored for good); a batch of another width is refused and changes nothing; Fit without warm start forgets the old model and equals maxIter calls of PartialFit on a new one, and always reports that it did not converge; a warm start on wider data panics. A predicted class is the first of the classes with the largest score.", "quantifier": "for all models, batches and parameters", "why_tests_cant": "Relates sequences of calls of any length.", "anchors": ["sklearn/linear_model/passive_aggressive.go:Fit", "sklearn/linear_model/passive_aggressive.go:PartialFit", "sklearn/linear_model/passive_aggressive.go:Predict"]}
{"id": "C98", "title": "SGDRegressor steps follow the gradient", "statement": "In exact arithmetic the number used in an update is the slope of the named loss (squared error, Huber, epsilon-insensitive away from its corners) in the prediction, and the penalty adds the slope of its term. Every coefficient moves against that gradient by one common factor; the gradient is shortened to length 10 if longer, so the coefficients move by at most ten times the learning rate, while the intercept is not held back. For the squared error without penalty the residual of the sample is multiplied by 1 - lr(|x|^2+1), so it shrinks exactly if lr(|x|^2+1) lies between 0 and 2.", "quantifier": "for all weights, samples, targets, losses, penalties, schedules, over the reals", "why_tests_cant": "Derivatives and exact step formulas for all inputs.", "anchors": ["sklearn/linear_model/sgd_regressor.go:updateWeights"]}
{"id": "C99", "title": "Divergence of SGDRegressor", "statement": "In floating point the repair of a coefficient that became infinite or NaN never repairs it. Once a used coefficient or the intercept is not finite, no prediction is finite for any sample; PartialFit and warm-started Fit then succeed, change no weight, record a loss of zero and (Fit) report convergence. A plain Fit that diverges reports convergence with loss zero, and a second Fit on the same data differs because the lowered learning rate is kept.", "quantifier": "for all models with such weights, all samples, batches and shufflings; existence for the diverging Fit", "why_tests_cant": "All states, unbounded training.", "anchors": ["sklearn/linear_model/sgd_regressor.go:updateWeights", "sklearn/linear_model/sgd_regressor.go:Fit", "sklearn/linear_model/sgd_regressor.go:checkConvergence"]}
{"id": "C100", "title": "SGDClassifier losses, slopes and probabilities", "statement": "The recorded values are the named losses of the margin and, except for the log loss, updates use their slopes; for the log loss the slope is multiplied by e^z for samples on the wrong side (z < 0), so badly classified samples hardly count. A known label moves every class's weights against its one-against-the-rest gradient; an unknown label is skipped. Probabilities are positive, sum to one and are largest for the predicted class, in exact arithmetic; in floating point a score whose exponential overflows has probability NaN.", "quantifier": "for all weights, samples, labels, penalties", "why_tests_cant": "Derivatives and sums for all inputs; overflow.", "anchors": ["sklearn/linear_model/sgd_classifier.go:updateWeights", "sklearn/linear_model/sgd_classifier.go:PredictProba", "sklearn/linear_model/sgd_classifier.go:Predict"]}
{"id": "C101", "title": "SGD training records", "statement": "After a Fit from scratch the iteration count is the number of recorded losses and at most maxIter; reported convergence means that the last nIterNoChange losses lie within tol of each other, no convergence that all passes were made. PartialFit records one loss and one iteration for the regressor, but no iteration for the classifier. With a warm start an old convergence report survives a Fit that did not converge.", "quantifier": "for all data, parameters, shufflings and initial weights", "why_tests_cant": "All training lengths.", "anchors": ["sklearn/linear_model/sgd_regressor.go:Fit", "sklearn/linear_model/sgd_regressor.go:PartialFit", "sklearn/linear_model/sgd_classifier.go:PartialFit"]}
{"id": "C102", "title": "Reading and copying estimator parameters", "statement": "GetParams of the LightGBM regressor returns each of its twenty settings under its documented name and nothing else. SetParams never reports an error: a setting given under any of its names is stored if the value has exactly the setting's Go type, and every other setting keeps its value, whatever the iteration order, as long as the dictionary does not give one parameter two values. Passing the parameters of one regressor to another makes all settings equal, up to the canonical spelling of the objective. The classifier's SetParams copies only thirteen of the seventeen parameters its GetParams returns. A new regressor has the documented defaults except for seed and metric.", "quantifier": "for all estimators, dictionaries and iteration orders", "why_tests_cant": "All dictionaries and orders; silent loss of settings.", "anchors": ["sklearn/lightgbm/lgbm_regressor.go:GetParams", "sklearn/lightgbm/lgbm_regressor.go:SetParams", "sklearn/lightgbm/lgbm_classifier.go:SetParams"]}
{"id": "C103", "title": "Logistic regression minimises the regularised log loss", "statement": "In exact arithmetic the function given to the optimizer is the mean negative log likelihood plus half of 1/C times the squared weights (for penalty l2; intercept not penalised) wherever no probability is within 1e-15 of 0 or 1, and the gradient given to it is that objective's slope in every direction. The objective is convex: where the gradient vanishes it has its global minimum, and where no gradient entry exceeds eps no other point is better by more than eps times its distance. After a successful Fit with the default solver the stored coefficients of every class are what the optimizer returned for the one-against-the-rest objective of that class, so the bound applies to them. Beyond the clamp the function handed over is flat while its gradient is not.", "quantifier": "for all data sets, weights, directions, penalties, and all optimizers returning a point of the right length, over the reals", "why_tests_cant": "Derivatives and global optimality over all weights and data sets.", "anchors": ["sklearn/linear_model/logistic.go:fitBinaryLBFGS", "sklearn/linear_model/logistic.go:fitBinaryForClassLBFGS"]}
{"id": "C104", "title": "Predictions of logistic regression", "statement": "With two classes Predict answers the larger label exactly where intercept plus weighted features is not negative, and PredictProba the logistic function of that score and its complement; with any other number of classes the first class with the largest score is predicted and the probabilities are the softmax of the scores. Probabilities are positive, sum to 1 and are largest at the predicted label, so Predict and PredictProba never disagree. Only the columns seen in training count: extra columns are ignored silently, missing ones panic. A model that saw one class predicts that class. In binary64 too, with two classes and a score that is not NaN, both probabilities are finite and in [0,1] and Predict names the class with the larger one (the second on equality); with other numbers of classes and finite scores the probabilities are finite and in [0,1] and none exceeds that of a largest score, while an infinite score gives NaN. A row with a NaN gets the smallest label with NaN probabilities and no error. Score is the share of rows whose label equals the prediction; an unfitted model scores 0 without an error, and labels that are not integers can never match.", "quantifier": "for all trained models, which every successful Fit without warm start yields, and all data; arithmetic over the reals, and in binary64 for every exponential that is never negative or NaN on numbers (several classes: in [0,1] up to 0, 1 at 0, 0 at -Inf)", "why_tests_cant": "Agreement of two methods over all weights and rows; panics and NaN.", "anchors": ["sklearn/linear_model/logistic.go:Predict", "sklearn/linear_model/logistic.go:PredictProba", "sklearn/linear_model/logistic.go:Score"]}
{"id": "C105", "title": "Training of logistic regression", "statement": "Fit learns the distinct labels in increasing order and does not depend on map iteration order. Intercept scaling, class weights, random state and l1 ratio change nothing; all solvers but lbfgs are one gradient descent and all penalties but l2 mean none. In exact arithmetic a step moves against the slopes of the regularised negative log likelihood at rate 1/(1+i/10); n_iter is the number of steps, at most max_iter, and below it only if the last step looked at slopes under the tolerance. Gradient descent never fails, with C = 0 it even reports success with infinite coefficients where lbfgs reports an error, and its coefficients depend on chance whatever the random state. With lbfgs and two classes the result depends only on data and settings. A Fit refused because of the penalty has already replaced classes and weights and keeps the fitted flag, so the model goes on answering with random weights and the labels of the refused data. Warm start of a two-class model with three labels panics.", "quantifier": "for all data, settings, models, random generators and iteration orders; slopes over the reals", "why_tests_cant": "Independence from chance and order, all settings, state after failure.", "anchors": ["sklearn/linear_model/logistic.go:Fit", "sklearn/linear_model/logistic.go:validateSolverPenalty", "sklearn/linear_model/logistic.go:initializeWeights"]}
{"id": "C106", "title": "LGBMClassifier: labels, probabilities and state", "statement": "A successful Fit learns the different integer labels in increasing order, at least two, trains with the objective binary or multiclass accordingly, and the model depends only on the data and the settings that training reads (not on objective, metric, min_child_weight, number of threads, boosting or importance type). Predict agrees with PredictProba: with two classes the larger label exactly where its probability is at least one half, otherwise the first label of the largest probability. In exact arithmetic that is the sign, or the first of the largest, of the raw scores, and every answer is a label seen in training; in binary64 probabilities that are NaN give the label 0. A failed Fit keeps the old model but may replace classes and column count: after a Fit refused for having one class a two-class model answers only with that class, and after one that failed on data of another width no Predict succeeds. A model loaded back from its file forgets its labels and answers 0 and 1; a regression model loaded from a string makes Predict panic. DecisionFunction of two classes is a probability without the learning rate, positive also for rows predicted as the smaller class.", "quantifier": "for all data, settings, classifiers and training procedures (statements on raw scores and known labels: the modelled trainer, over the reals)", "why_tests_cant": "Agreement of methods over all models and rows; state after failures.", "anchors": ["sklearn/lightgbm/lgbm_classifier.go:Fit", "sklearn/lightgbm/lgbm_classifier.go:Predict", "sklearn/lightgbm/lgbm_classifier.go:PredictProba", "sklearn/lightgbm/lgbm_classifier.go:LoadModel", "sklearn/lightgbm/lgbm_classifier.go:DecisionFunction"]}
{"id": "C107", "title": "What LGBMClassifier can learn", "statement": "Labels are passed to training as numbers, not as class positions. With two classes whose labels are all at least 1 (for example 1 and 2) the trained classifier predicts the larger one for every row, with labels that are all at most 0 the smaller one, whatever the features. With more than two classes the trees are the ones of two-class training on the raw labels started at the mean label, and a classifier trained in fewer rounds than there are classes never answers with a class whose position is above the number of rounds.", "quantifier": "for all data, settings with non-negative regularisation, learning rate and weights, samplings and rounds, over the reals", "why_tests_cant": "Statements about all training runs and all rows.", "anchors": ["sklearn/lightgbm/lgbm_classifier.go:Fit", "sklearn/lightgbm/trainer.go:Fit", "sklearn/lightgbm/objectives.go:CreateObjectiveFunction"]}
{"id": "C108", "title": "LGBMRegressor: training, judging, quantiles and loading", "statement": "A successful Fit stores the model that training yields for the settings and data; boosting type, metric, min_child_weight, number of threads and importance type have no effect on Fit. FitWeighted without weights or with unit weights is Fit, whatever the boosting type other than goss. A failed Fit keeps model and settings but may replace the column count, after which no Predict succeeds. Score, GetMSE and GetMAE panic for more targets than rows and judge only the first rows for fewer. PredictQuantile answers, for a model with the quantile objective and quantiles strictly between 0 and 1, the prediction times 1+(q-1/2)/10: the order of the quantiles is kept for positive predictions and reversed for negative ones, and NaN passes the range check. Loading makes Predict answer with the loaded model.", "quantifier": "for all data, settings, regressors and training procedures", "why_tests_cant": "All settings and models; crossing quantiles.", "anchors": ["sklearn/lightgbm/lgbm_regressor.go:Fit", "sklearn/lightgbm/lgbm_regressor.go:FitWeighted", "sklearn/lightgbm/lgbm_regressor.go:PredictQuantile", "sklearn/lightgbm/lgbm_regressor.go:Score", "sklearn/lightgbm/lgbm_regressor.go:LoadModel"]}
{"id": "C109", "title": "Classification reports count labels correctly", "statement": "EvaluateClassification accepts exactly non-empty label lists of equal length (and as many probabilities, if given), never panics, and lists every label that occurs as truth or prediction once, in increasing order. Entry (a,b) of the confusion matrix is the number of samples with truth a and prediction b; rows add up to supports, columns to prediction counts, the diagonal to accuracy times the number of samples. Precision and recall of a class are the correct predictions of it among its predictions and occurrences, 0 where there are none; with two labels Precision and Recall are the ones of the larger label, otherwise means over the classes. The recalls weighted by supports average to the accuracy. F1Score is not the documented mean of the class F1 scores but the harmonic mean of mean precision and mean recall, never below the documented value.", "quantifier": "for all label lists and probabilities and every order in which the label set is visited; sums and bounds over the reals", "why_tests_cant": "Counts over all label lists; the relation of F1Score to the mean of class scores is an inequality over all data.", "anchors": ["sklearn/lightgbm/evaluation_metrics.go:NewClassificationMetrics", "sklearn/lightgbm/evaluation_metrics.go:ConfusionMatrix", "sklearn/lightgbm/evaluation_metrics.go:ClassificationReport", "sklearn/lightgbm/evaluation_metrics.go:F1Score"]}
{"id": "C110", "title": "AUC and log loss of classification reports", "statement": "For two labels and probabilities, AUC is the value of metrics.AUC for the labels encoded as 0 and 1 (the share of correctly ranked pairs, 1/2 if only one label is true) and lies in [0,1]; LogLoss is the value of metrics.BinaryLogLoss: the mean negative log of the probability of the true label, with probabilities moved to [1e-15, 1-1e-15], and lies between 0 and -ln(1e-15). A third label that occurs only among the predictions, which neither reads, makes both fail. Probabilities that are NaN give AUC 0 without an error.", "quantifier": "for all label lists and probabilities, over the reals; the failures in any arithmetic; NaN at binary64", "why_tests_cant": "Equality of two algorithms (pair counting, sort and sweep) on all inputs.", "anchors": ["sklearn/lightgbm/evaluation_metrics.go:AUC", "sklearn/lightgbm/evaluation_metrics.go:LogLoss", "metrics/classification.go:AUC", "metrics/classification.go:BinaryLogLoss"]}
{"id": "C111", "title": "EvaluateRegression agrees with the metrics package", "statement": "MSE, MAE, R2Score, MAPE and ExplainedVarianceScore of the gradient boosting package are, in any arithmetic, the functions of the metrics package. EvaluateRegression reports their values; over the reals it succeeds exactly for lists of equal length with two different targets, so a constant target has no report even for perfect predictions, and the NaN entry meant for a failed MAPE never occurs. MAPE is 100 times the mean relative error over the targets that are not 0. In a report rmse^2 = mse, mae <= rmse and r2 <= explained variance <= 1.", "quantifier": "for all vectors; values over the reals", "why_tests_cant": "Equality of two implementations on all inputs in any arithmetic; exact domain of success.", "anchors": ["sklearn/lightgbm/evaluation_metrics.go:EvaluateRegression", "sklearn/lightgbm/evaluation_metrics.go:MAPE", "metrics/regression.go:MAPE"]}
{"id": "C112", "title": "What a model saved as text predicts after loading", "statement": "Users expect Booster.SaveModel followed by LoadModel to keep predictions. It does not: after loading, every row gets the same score. Trees that are a single leaf keep their value, every tree with a split contributes 0 and the initial score is 0. So if every tree has a split all raw scores are 0, and a binary classifier answers 1/2 for every row. Every model that was trained is of the kind this applies to. Read with LoadFromFile the same file gives raw score 0 for every row, whatever the trees; a model without splits that is loaded so and saved again makes a file that cannot be loaded.", "quantifier": "for all models with trees as the trainer builds them, all feature names without line breaks, all rows, any arithmetic (binary answer and LoadFromFile: over the reals); printing and reading floats are arguments that agree on the numbers in the model", "why_tests_cant": "All trees, rows and numbers of classes; a round trip through a text format.", "anchors": ["sklearn/lightgbm/model.go:SaveToText", "sklearn/lightgbm/leaves_loader.go:LoadLeavesModelFromReader", "sklearn/lightgbm/loader.go:LoadFromReader", "sklearn/lightgbm/api/booster.go:SaveModel"]}
{"id": "C113", "title": "Loading a model that an estimator saved", "statement": "LGBMRegressor.SaveModel and LGBMClassifier.SaveModel write a file that their own LoadModel cannot use: if any tree has a split, loading panics; if none has, loading succeeds but the loaded model gives raw score 0 to every row.", "quantifier": "for all models with trees as the trainer builds them (so every trained model) and all feature names without line breaks, as long as no line exceeds the scanner's limit; zero scores over the reals", "why_tests_cant": "Statement about every trained model.", "anchors": ["sklearn/lightgbm/model.go:SaveToFile", "sklearn/lightgbm/loader.go:LoadFromFile", "sklearn/lightgbm/lgbm_regressor.go:SaveModel", "sklearn/lightgbm/lgbm_classifier.go:SaveModel"]}
{"id": "C114", "title": "The header of a text file survives a round trip", "statement": "Number of classes, number of features, objective and number of trees of a model saved as text come back unchanged. Feature names come back unchanged exactly if each is non-empty and free of white space; a name with a blank becomes two names, a name with an empty line in it makes the Booster unable to load the file.", "quantifier": "for all models with trees as the trainer builds them and all feature names without line breaks", "why_tests_cant": "Equivalence over all lists of names.", "anchors": ["sklearn/lightgbm/model.go:SaveToText", "sklearn/lightgbm/leaves_loader.go:readParamsUntilBlank", "sklearn/lightgbm/loader.go:LoadFromReader"]}
{"id": "C115", "title": "Leaf numbers name the leaf a prediction comes from", "statement": "PredictLeaf gives, for every tree and row, the left-to-right number of the leaf whose value Tree.Predict returns (rows with NaN included), and the raw score of a row is the accumulation of the values of the leaves named; rows with equal leaf numbers have equal raw scores. PredictLeafIndex gives the leaf whose value the tree walk of the Predictor returns, made finite. The two agree if every value equals its threshold or is at least 1e-15 away and categories are whole numbers; otherwise they can differ (a value 1e-16 above a threshold, a category 2.7). For rows with NaN PredictLeafIndex does not name the leaf that Predict uses, because Predict replaces NaN by 0. LeavesModel.PredictLeaf gives the same number to different leaves.", "quantifier": "for all stored trees (every trained tree is one) and all rows, any arithmetic; the distance condition over the reals", "why_tests_cant": "Agreement of three tree walks and two numberings over all trees and rows.", "anchors": ["sklearn/lightgbm/predictor_extended.go:PredictLeaf", "sklearn/lightgbm/predictor_extended.go:predictTreeLeaf", "sklearn/lightgbm/predictor.go:PredictLeafIndex", "sklearn/lightgbm/predictor_extended.go:predictLeavesTreeLeaf"]}
{"id": "C116", "title": "Feature importances are shares of splits or gain", "statement": "GetFeatureImportance(\"split\") is the share of all splits made on the feature and adds up to 1 unless the model has no split, when it is all 0. \"gain\" is the share of the total gain and adds up to 1 if the total is positive; otherwise the sums of gains are returned as they are. Features without a split get 0; nothing is negative if no gain is. Any other type gives 0 for every feature without an error. A split on a feature beyond NumFeatures panics.", "quantifier": "for all models with stored trees; shares over the reals, the exact sums in any arithmetic", "why_tests_cant": "Sums over all trees of all models.", "anchors": ["sklearn/lightgbm/model.go:GetFeatureImportance", "sklearn/lightgbm/api/booster.go:FeatureImportance"]}
{"id": "C117", "title": "What a Booster answers after any history of calls", "statement": "After any sequence of InitFromModel, SetModel, loading a file, Clone, Update, SetBestIteration, AddEvalResult, SetFeatureNames and FeatureImportance a Booster predicts with the file loaded last, unless it was cloned since; else with the model given last; else it returns an error. So SetModel has no effect on the predictions of a loaded booster, and the clone of a loaded booster cannot predict. No prediction option has an effect: WithNumIteration(0) uses all trees. A loaded booster returns transformed values as raw scores, no leaf numbers, 0 trees, importance 0 for all features; saved and loaded again it gives every row the same answer. Importances are computed once and returned for ever, even after another model was given. Evaluation results are, for every key, the values added in order, but different (dataset, metric) pairs can share a key. Clone shares the model, so names set on the copy are written when the original is saved.", "quantifier": "for all histories, models, files and matrices, any arithmetic", "why_tests_cant": "Invariants over call sequences of any length.", "anchors": ["sklearn/lightgbm/api/booster.go:Predict", "sklearn/lightgbm/api/booster.go:SetModel", "sklearn/lightgbm/api/booster.go:Clone", "sklearn/lightgbm/api/booster.go:FeatureImportance", "sklearn/lightgbm/api/booster.go:LoadModel"]}
{"id": "C118", "title": "Datasets keep and select rows, labels and weights together", "statement": "GetField returns what the last successful SetField stored and no other field changes; setting \"data\", \"n_samples\" or \"n_features\" reports success and changes nothing that can be read. A label with a wrong number of rows is reported as an error but is the label of the dataset afterwards. GetSubset of a dataset with labels and weights for all rows succeeds exactly for a non-empty list of existing row numbers, reports an error otherwise, and its rows, labels and weights are those at the given positions in the given order; a subset of a subset is the subset at the composed positions. CreateValidDatasets keeps the datasets that are not nil in order, named by their parameter \"name\" or their position. Users would expect more: a refused label or weights of a wrong length (never checked) make a later GetSubset panic.", "quantifier": "for all datasets, field names, values and index lists", "why_tests_cant": "All index lists and all sequences of two selections; equivalences, not examples.", "anchors": ["sklearn/lightgbm/api/dataset.go:NewDataset", "sklearn/lightgbm/api/dataset.go:GetSubset", "sklearn/lightgbm/api/dataset.go:SetField", "sklearn/lightgbm/api/dataset.go:CreateValidDatasets"]}
{"id": "C119", "title": "What Train makes of its arguments", "statement": "Without early stopping and callbacks, Train with at least one round returns the model that one run of the trainer makes of parameters, data and first label column: its number of trees is the parameter num_iterations (100 if absent, 0 or not an int, none if negative), whatever numBoostRound is; numBoostRound is only reported as current and best iteration, and the same scores of the finished model are recorded once per round under \"name-metric\". With no round Train succeeds and the booster cannot predict. Weights, categorical features and parameters of datasets and an initial model have no effect, nor have parameters under other names or of another Go type. Every recognised parameter sets the training parameter of its name; the others have LightGBM's usual values (random_state is the seed if no seed is given). The score recorded as binary_logloss or multi_logloss is the share of rows with label 1 and prediction above 1/2 or label 0 and not: between 0 and 1, 1 exactly if all rows are correct, 0 if all labels are of further classes; a validation set with a wrong number of columns scores 0.", "quantifier": "for all parameter maps, datasets, numbers of rounds, validation sets and names, any arithmetic (shares over the reals); the trainer is an argument, and Trainer.Fit as modelled for the number of trees", "why_tests_cant": "Independence from arguments and scores for every model and dataset cannot be shown by examples.", "anchors": ["sklearn/lightgbm/api/train.go:Train", "sklearn/lightgbm/api/train.go:parseParams", "sklearn/lightgbm/api/train.go:trainOneIteration", "sklearn/lightgbm/api/train.go:evaluateDataset", "sklearn/lightgbm/api/train.go:calculateAccuracy"]}
{"id": "C120", "title": "Which objective QuickTrain chooses", "statement": "QuickTrain keeps an objective that is given. Otherwise it is binary exactly if the labels are one column of zeros and ones with at least eight rows, or at least four rows that are all the same; multiclass exactly if the labels have three or more columns, of which only the first is then learned; and regression in all other cases, so for fewer zeros and ones and for class numbers in one column. The choice is written into the caller's map, so a map used again keeps the first choice. num_iterations is 100 if absent; not an int it is a panic; below one QuickTrain succeeds without a model. Without labels it panics.", "quantifier": "for all matrices, parameter maps and maps used before, over the reals and binary64 including NaN labels", "why_tests_cant": "An equivalence over all label columns.", "anchors": ["sklearn/lightgbm/api/train.go:QuickTrain", "sklearn/lightgbm/api/dataset.go:detectBinaryClassification", "sklearn/lightgbm/api/dataset.go:validateLabel"]}
{"id": "C121", "title": "What SimplePredictor computes", "statement": "For a trained tree SimplePredictor finds the leaf whose value Tree.Predict returns and multiplies that value by the shrinkage rate if this is positive; NaN, and features that a short sample does not have, follow the default direction. For a tree read from a text file it does the same, except that the result is 0 when a missing value decides the last test. The raw score of a class is the initial score plus the outputs of all trees of the class, whatever the best iteration. A wrong number of columns is an error; otherwise every row is predicted alone. The outputs are the raw scores, or the logistic function of the score up to 1e-15 for binary and cross_entropy, or the softmax of the scores, positive and with sum 1, for three or more classes. Users would expect the answers of the other predictors, and these differ: leaf values in a file contain the shrinkage already and are multiplied a second time, a missing value can give 0, and categorical tests are read as numeric ones.", "quantifier": "for all stored trees, all well-formed tree sections of text files, all models and rows, any arithmetic; probabilities over the reals", "why_tests_cant": "Agreement and disagreement of tree walks over all trees and rows.", "anchors": ["sklearn/lightgbm/simple_predictor.go:predictTree", "sklearn/lightgbm/simple_predictor.go:PredictSingle", "sklearn/lightgbm/simple_predictor.go:Predict"]}
{"id": "C122", "title": "What lightgbm.QuickTrain returns", "statement": "The labels are treated as classes exactly when they are integers with at most 19 different values and there are at least four times as many rows as different values. The result is the estimator with 31 leaves, learning rate 0.1 and 100 trees fitted to the data, with its training score; or, if Fit fails, a result with score 0 that refuses every prediction as not fitted. QuickTrain never returns an error: different numbers of rows, several label columns and labels of one class are only noticed at the first prediction. PredictProba is an error for regression. So two classes in seven rows are trained as a regression.", "quantifier": "for all matrices and every trainer, any arithmetic with ordinary comparisons (reals and binary64)", "why_tests_cant": "An equivalence over all label columns, and every way Fit can fail.", "anchors": ["sklearn/lightgbm/quick.go:QuickTrain", "sklearn/lightgbm/quick.go:detectTaskType"]}
{"id": "C123", "title": "What AutoFit returns", "statement": "AutoFit tries four fixed settings in order and returns the first estimator whose training score no other exceeds, provided that score is positive; its predictions are those of that estimator, and settings whose Fit fails are skipped without an error. If no score is positive, AutoFit succeeds with score 0 and without a model, and every prediction panics. This happens with the real trainer on small data: four rows are too few to split, so every setting scores 0.", "quantifier": "for all matrices and every trainer, any arithmetic with the laws of a strict order (reals and binary64, NaN scores included)", "why_tests_cant": "Which of the settings wins for every combination of scores and failures.", "anchors": ["sklearn/lightgbm/quick.go:AutoFit"]}
{"id": "C124", "title": "QuickCrossValidate reports the training score", "statement": "Every fold of QuickCrossValidate is trained and scored on all rows, so for any number of folds the mean is the training score of the default estimator (0 if Fit fails) and the deviation returned is 0, exactly so in exact arithmetic; fewer than two folds are five. At binary64 the results are the mean and the variance, not the standard deviation, of equal scores.", "quantifier": "for all matrices, numbers of folds and every trainer", "why_tests_cant": "The independence from the number of folds and from held-out data is a statement about all inputs.", "anchors": ["sklearn/lightgbm/quick.go:QuickCrossValidate"]}
{"id": "C125", "title": "Callbacks of StateManager.WithState and WithStateMut", "statement": "As long as callbacks do not use the manager, somebody can always continue, and if fields are changed only by setters and in callbacks of WithStateMut, then whoever changes them holds the write lock and nobody is inside a getter or WithState. A callback of WithStateMut that calls any method of the manager never returns, and from then on no goroutine ever gets the lock; a callback of WithState that calls a setter never returns either. Getters inside callbacks of WithState are safe, however deeply nested, only if nobody uses a setter: with a single concurrent setter both goroutines can block each other forever.", "quantifier": "for all numbers of goroutines, all programs, all callbacks including nested ones, and all interleavings", "why_tests_cant": "Deadlocks depend on the schedule; a test that hangs only sometimes, or never on the machine of the tester, says nothing about the others.", "anchors": ["core/model/state_manager.go:WithState", "core/model/state_manager.go:WithStateMut", "core/model/state_manager.go:SetFitted"]}
{"id": "C126", "title": "Warnings reach the handler exactly once", "statement": "As long as handlers do not use the warnings themselves and no nil handler is set, every warning of a goroutine is given to a handler exactly once and in the order in which the goroutine raised them; handlers run one at a time, the zerolog function takes precedence, and there is no deadlock. A handler that itself calls Warn or sets a handler is called once in the life of the program: that call never returns, and no other warning is ever given and no handler ever replaced.", "quantifier": "for all numbers of goroutines, all programs and handlers, all interleavings", "why_tests_cant": "Exactly-once delivery and deadlock are statements about all schedules.", "anchors": ["pkg/errors/errors.go:Warn", "pkg/errors/errors.go:SetWarningHandler", "pkg/errors/errors.go:SetZerologWarnFunc"]}
{"id": "C127", "title": "Class weights of the lightgbm trainer", "statement": "Training with class weights gives the same trees, scores and initial score as training with the sample weights multiplied by the weight of the class of each row, and classes without an entry have weight 1. \"balanced\" gives every class the same total weight, the number of rows divided by the number of classes. Any other string or type, names that are not integers and values that are not numbers are refused before any round. With names that stand for different integers every entry is found; two names of one class, such as 1 and 01, give a weight that depends on the order in which Go visits the map. The reported training loss ignores class weights.", "quantifier": "for all data, weights, parameters, objectives and rounds; sample weights and totals over the reals, the rest for any arithmetic", "why_tests_cant": "An equality between two training runs for all data; the order of map iteration is not reproducible in a test.", "anchors": ["sklearn/lightgbm/trainer.go:computeClassWeights", "sklearn/lightgbm/trainer.go:calculateLoss"]}
{"id": "C128", "title": "Calling Fit again on a trainer", "statement": "A second Fit on the same data continues the training: the two calls leave the trainer that one call with all the rounds leaves. A second Fit with more rows panics. Users would expect a second Fit on other targets to start afresh; instead it keeps the trees and goes on from the scores of the first call, while the model takes the initial score of the new targets, so predictions are off by the difference of the initial scores: with targets 0, 0 and then 10, 10 training ends at scores of about 10 and the Predictor says about 20.", "quantifier": "for all data, parameters, numbers of rounds and bags, any arithmetic", "why_tests_cant": "Relates two successive runs of the whole training loop for all inputs.", "anchors": ["sklearn/lightgbm/trainer.go:Fit", "sklearn/lightgbm/trainer.go:initialize", "sklearn/lightgbm/trainer.go:GetModel"]}
{"id": "C129", "title": "MonotoneConstraints have no effect on training", "statement": "Users would expect predictions to be monotone in a feature that MonotoneConstraints declares increasing. Instead every training run leaves the same trainer whatever the constraints: the check exists but only a split search that nothing calls uses it. Two rows with targets 1 and -1 give decreasing predictions for a feature declared increasing.", "quantifier": "for all data, parameters, constraints and rounds, any arithmetic", "why_tests_cant": "Independence of an argument is a statement about all training runs.", "anchors": ["sklearn/lightgbm/trainer.go:satisfiesMonotoneConstraint"]}
{"id": "C130", "title": "Interaction values are symmetric but do not decompose the contributions", "statement": "CalculateInteractions returns for every row a square symmetric matrix with the contributions of CalculateSHAP on the diagonal. Off the diagonal the entry of two features is a tenth of the learning rate times the sum, over the trees that test both features anywhere, of the distances between the values of the two sides at the tests of either feature on the way of the sample. So no entry is negative, and a row sums to the contribution of its feature, as interaction values should, only if all its other entries are zero; a tree that is the sum of a function of each feature gets interaction 0.6 where there is none. A sample without a feature that a tree tests gets contributions from CalculateSHAP, but CalculateInteractions panics; so it does for a matrix without columns.", "quantifier": "for all models and matrices; values over the reals for trees with numeric tests of any shape", "why_tests_cant": "An algebraic identity over all trees and samples, and the failure of the identity users rely on.", "anchors": ["sklearn/lightgbm/shap.go:CalculateInteractions", "sklearn/lightgbm/shap.go:calculatePairwiseInteraction", "sklearn/lightgbm/shap.go:treeInteractionContribution"]}
{"id": "C131", "title": "The streaming pipeline delivers and counts every element once", "statement": "For any number of calls of Run on one pipeline at the same time: each caller receives exactly the elements that the stages, applied one after the other, make of its input, in their order, and all of them once the channel is closed and empty; as long as the caller goes on receiving there is no deadlock, and no execution is infinite. The metrics count over all calls, modulo 2^64, the rows and bytes of what was received or is on the way to a caller; a call is never more than the buffer size plus one ahead of its caller, and when all calls are through the metrics are the totals. The check for overflow is incomplete: a matrix of 2^31 rows and 2^30 columns counts as no bytes.", "quantifier": "for all numbers of calls, stages, buffer sizes and inputs, all interleavings; stages that send for each element any list of elements", "why_tests_cant": "Order, loss, deadlock and counting depend on the schedule of the goroutines.", "anchors": ["performance/large_scale.go:Run", "performance/large_scale.go:updateMetrics", "performance/large_scale.go:GetMetrics"]}
{"id": "C132", "title": "The GC optimizer limits its collections and stops, but only in part", "statement": "Whoever calls ForceGC and however many goroutines monitor the heap: a collection begins more than maxPause after the end of the one before, a call collects exactly if there was none or more than maxPause has passed, and gc_count is the number of collections modulo 2^32. Every Start before the first Stop begins one more monitoring goroutine; after Stop they all end, each after at most three more steps, and Start never does anything again. Stop resets the GC percentage to 100, but the memory limit of 1 GB stays for the rest of the program, and a goroutine already past its check still collects after Stop.", "quantifier": "for all programs, numbers of goroutines, times and durations, all interleavings", "why_tests_cant": "Rate limits and the end of goroutines are statements about all schedules and all clocks.", "anchors": ["performance/memory_optimizer.go:Start", "performance/memory_optimizer.go:Stop", "performance/memory_optimizer.go:ForceGC", "performance/memory_optimizer.go:monitor"]}
{"id": "C133", "title": "Setting and reading parameters of linear models, scalers and pipelines", "statement": "LogisticRegression: if all entries are known and of the right type, SetParams succeeds, GetParams then reports these values and the old ones of all others, the seed follows random_state, and so the parameters of one model can be given to another; with any other entry it fails or panics, and each parameter is then the old or the given one, depending on the iteration order of the map. LinearRegression takes exactly the entries of its five parameters that have the right type and ignores the rest silently. Pipeline.GetParams reports under name__key the parameters of every step with GetParams() if the names differ, contain no two underscores in a row and do not end in one; otherwise a step can hide the parameter of another. Steps whose GetParams takes an argument, as LinearRegression, are left out. Users would expect SetParams of a pipeline to set name__key and that of StandardScaler to set with_mean: both report success and change nothing that is used.", "quantifier": "for all parameter maps, iteration orders, estimators, names and steps", "why_tests_cant": "Map iteration order is random, and the injectivity of the joined names is a statement about all strings.", "anchors": ["sklearn/linear_model/logistic.go:SetParams", "sklearn/linear_model/linear_regression.go:SetParams", "sklearn/pipeline/pipeline.go:GetParams", "sklearn/pipeline/pipeline.go:SetParams", "core/model/base.go:SetParams", "preprocessing/scaler.go:GetParams"]}
{"id": "C134", "title": "What a dump of a booster says about its predictions", "statement": "From DumpModel of a trained model of numeric trees anyone can compute its raw scores: for every sample the values read off the trees - NaN follows default_left, other values go left when at most the threshold - added up from the initial score to the classes in turn are the scores of the model, and the numbers of classes, features and leaves and the rates are those of the model. But the dump contains neither the initial score nor the kind of a split, so models with the same dump can give different scores; the dump of a tree read from a text file has no leaf values at all; and for a node that refers to itself DumpModel never returns.", "quantifier": "for all models, tree shapes and samples, any arithmetic", "why_tests_cant": "An equality between two ways of computing predictions for all trees and samples.", "anchors": ["sklearn/lightgbm/api/booster.go:DumpModel", "sklearn/lightgbm/api/booster.go:dumpTreeStructure", "sklearn/lightgbm/api/booster.go:dumpNode"]}
{"id": "C135", "title": "What ModelCheckpoint leaves in its files", "statement": "Without saveOnlyImproved, as long as saving succeeds, training ends as it would without the callback, and there is a file exactly for each round that is a multiple of the period, with the trees up to and including that round. With saveOnlyImproved the callback runs before each round with the loss of the round before and again after it: the file of a round due holds all trees up to that round if its loss is below all losses looked at so far, otherwise only the trees before the round if the loss of the round before was, otherwise there is none; with period 1 there is a file exactly for the rounds whose loss is below those of all rounds before. Users would expect a file of a round to hold the model of that round: with period 2 and losses 5, 3, 4 it does not, and a first loss of NaN leaves a file without trees. If a save fails, training ends with that error at the first round due at which one does, and the files of the rounds before are as without failures. A period of 0 panics.", "quantifier": "for all numbers of rounds, periods, losses including NaN and infinities, and all boosters", "why_tests_cant": "A statement about all sequences of losses; a test sees a few, mostly decreasing ones.", "anchors": ["sklearn/lightgbm/callbacks.go:ModelCheckpoint", "sklearn/lightgbm/callbacks.go:BeforeIteration", "sklearn/lightgbm/callbacks.go:AfterIteration"]}
{"id": "C136", "title": "What cross-validation of the lightgbm estimators measures", "statement": "Without early stopping, CrossValidateRegressor trains every fold as Fit would with the default quantile, Huber, Fair and Tweedie parameters and without a least gain, so the regressor's own such parameters have no effect; a fold is scored on the initial score plus the whole leaf values, without the learning rate and without the exponential of poisson, gamma and tweedie. CrossValidateClassifier trains for the classifier's current objective and number of classes, before Fit always for two classes, with the categorical features that Fit ignores; with more than two classes its default score is at most the share of test rows labelled 0 or 1. Since the least gain is 0, a fold without depth limit whose training rows number at least MinChildSamples and fewer than twice that, with no positive first feature, recurses forever, where Fit ends. Users would expect cross-validation to estimate the error of the fitted estimator: with rate 1/2 and two rounds it reports 4 for 1, and for a Poisson regression that is exact 1 for 0.", "quantifier": "for all estimators, data sets, folds and scorings, any arithmetic (defaults and share over the reals); for the non-termination, no number of steps suffices", "why_tests_cant": "Independence from parameters, bounds for all folds and non-termination cannot be shown by running examples.", "anchors": ["sklearn/lightgbm/cross_validation.go:CrossValidateRegressor", "sklearn/lightgbm/cross_validation.go:CrossValidateClassifier", "sklearn/lightgbm/cross_validation.go:CrossValidate", "sklearn/lightgbm/cross_validation.go:evaluateMetric", "sklearn/lightgbm/model.go:Predict"]}
{"id": "C137", "title": "What callbacks can do to Train of the api package", "statement": "Printing, recording and resetting callbacks, in any number, order and nesting of CallbackLists, leave booster, scores, error or panic of Train as without them; a CallbackList does what its callbacks do one after the other. A callback that sets ShouldStop after a round makes the result that of asking for so many rounds. The recorder ends with every score of every round under set and metric, for set names that are not empty. Printing shows the rounds 1, 1+p, 1+2p, ... of period p. Users would expect more, which fails: early stopping, by option or callback, makes Train return ErrEarlyStop instead of the booster; ErrEarlyStop from BeforeIteration does not end training; ResetParameterCallback changes the caller's map but not the training, and panics without a map; the last round is not always printed, or under the number of the round before; and the same early stopping callback in a second, identical training counts on, so that this fails although the first succeeded.", "quantifier": "for all data sets, parameters, validation sets, numbers of rounds, callbacks (also the user's own, with any state) and iteration orders of the map of scores; any arithmetic, binary64 for the reuse of a callback", "why_tests_cant": "Callbacks are arbitrary code; only a proof covers all of their combinations and all iteration orders.", "anchors": ["sklearn/lightgbm/api/callbacks.go:AfterIteration", "sklearn/lightgbm/api/callbacks.go:BeforeIteration", "sklearn/lightgbm/api/callbacks.go:Finalize", "sklearn/lightgbm/api/callbacks.go:CallbackList", "sklearn/lightgbm/api/train.go:Train"]}
{"id": "C138", "title": "What callbacks can do to Fit of a lightgbm Trainer", "statement": "With any callbacks Fit of a Trainer leaves the trees of some number of rounds without callbacks: of all rounds asked for unless a callback stopped or failed. A TimeLimit among callbacks that leave the training alone looks at the clock before and after every round, counted from the making of the callback, and when look d (from 0) is the first above the limit training ends with (d+1)/2 more trees; without such a look all rounds are trained. PrintEvaluation prints the rounds that are multiples of its period twice, before the round with the loss of the round before (the first time without a loss) and after it with its own; period 0 panics before the first tree. No callback of the package takes a stop back, so once a Trainer with callbacks has been stopped each later Fit of it adds no tree and returns nil, where users would expect it to train again, as with new callbacks it does.", "quantifier": "for all callbacks (also the user's own, with any state), numbers of iterations, clocks, limits and periods, and any way of growing the next tree; any arithmetic", "why_tests_cant": "Clocks and callbacks are arbitrary; a test runs a few of them and a fast training never meets its time limit.", "anchors": ["sklearn/lightgbm/callbacks.go:TimeLimit", "sklearn/lightgbm/callbacks.go:PrintEvaluation", "sklearn/lightgbm/callbacks.go:BeforeIteration", "sklearn/lightgbm/callbacks.go:AfterIteration", "sklearn/lightgbm/trainer.go:Fit", "sklearn/lightgbm/trainer.go:WithCallbacks"]}
{"id": "C139", "title": "What parallel chunk processing hands to the function", "statement": "The scanner of the file is a placeholder that delivers no rows, so that today the function is never called and Process returns nil; the rest is about what the goroutines do with the rows of a scanner that delivers some. Process of a parallel ChunkedProcessor always returns, after at most 5n + workers + 2 steps of its goroutines for n delivered rows. It returns nil exactly when no call of the function failed, and otherwise the error of a failed call; without failure the function was called once for each chunk, the short last one included, and never twice for one. A call for a chunk gets as many rows as the chunk has, but as all chunks share one buffer it sees at each place the row of its chunk or that of a later one; only the last chunk is sure to be seen as it is. Users would expect each chunk to be seen: for any two full chunks there is an execution without error in which the second is seen twice and the first never. They would also expect the goroutines to end: if the function fails in every worker and there are at least (workers + buffer + 1) full chunks, Process may return while the reading goroutine stays blocked in its send for ever.", "quantifier": "for all rows delivered by the scanner, chunk sizes from 1, numbers of workers from 1, buffer sizes (from 1 for the absence of deadlock), outcomes of the function and all interleavings of the goroutines", "why_tests_cant": "The wrong rows and the blocked goroutine depend on scheduling; a test sees a few schedules.", "anchors": ["performance/large_scale.go:Process", "performance/large_scale.go:processParallel", "performance/large_scale.go:processSequential", "performance/large_scale.go:NewChunkedProcessor"]}
{"id": "C140", "title": "Levels and fields of the loggers", "statement": "SetupLogger with one of the names debug, info, warn, warning, error (fatal, panic, disabled) makes the loggers of the package write the messages from that level on (nothing), and panics for other names; without it they write all but debug messages, and loggers of a provider made by NewZerologProvider those from its level on. SetLevel of a zerolog provider, however, takes the package's level numbers for zerolog's and numbers outside of -1 to 7 for info: loggers got after SetLevel(LevelDebug) or SetLevel(LevelError) write info, warnings and errors, after SetLevel(LevelInfo) also debug messages, and after SetLevel(LevelWarn) nothing at all. A logger got earlier never writes more for it, and only what the new level also allows. What a logger writes it reports as enabled; the converse holds for loggers got since the level was set, but an older one reports as enabled what it no longer writes. With returns a logger that writes exactly what the one it was made from writes: the fields are lost. Fields of a call appear in pairs under their key, an unpaired last one is left out, and an error appears under 'error' instead of its key; an error given first to Error is taken by itself.", "quantifier": "for all sequences of operations on providers and loggers, all levels, fields and messages", "why_tests_cant": "The state spans process-wide and per-logger levels; tests look at one logger and never at what a later level change or a lost field does.", "anchors": ["pkg/log/logger.go:SetLevel", "pkg/log/logger.go:With", "pkg/log/logger.go:Enabled", "pkg/log/logger.go:SetupLogger", "pkg/log/logger.go:ToLogLevel", "pkg/log/logger.go:addFields", "pkg/log/logger.go:addFieldsToContext", "pkg/log/logger.go:Error", "pkg/log/logger.go:GetLoggerWithName"]}
{"id": "C141", "title": "What the logger for tests records", "statement": "After any calls of a TestLogger and of loggers made from it by With, GetLogEntries has in order and since the last Clear one entry for each call that is not below its logger's level and whose fields can be written as JSON; a key has the value given for it last, in the call, else in With, else the level and message. ContainsField finds strings, booleans and floats that an entry has for the key. Users would expect more, which fails: ContainsField never finds an int, whatever was logged; a NaN, infinity, channel or function among the fields loses the whole entry, and given to With every entry of that logger unless the key is given again; an error given first to Error, as the interface documents, is dropped or becomes the key of the next field; and fields named level or message replace those of the call.", "quantifier": "for all sequences of calls, levels and fields (strings, ints, floats, booleans, nil, errors and values JSON refuses)", "why_tests_cant": "Assertions made with this logger are themselves the tests; what they miss only shows over all values.", "anchors": ["pkg/log/testing.go:writeLog", "pkg/log/testing.go:With", "pkg/log/testing.go:GetLogEntries", "pkg/log/testing.go:ContainsField", "pkg/log/testing.go:Clear", "pkg/log/testing.go:SetLevel"]}
{"id": "C142", "title": "Metrics of matrices", "statement": "MSEMatrix answers exactly for two matrices of one column and equally many rows, at least one, with the mean squared error of the columns; when only the numbers of columns differ its dimension error names the two equal numbers of rows. AUCMatrix and NDCGMatrix are AUC and NDCG of the first columns, whatever the further columns hold and without complaint about them. Users who hand AUCMatrix the two class probabilities of each row, as PredictProba returns them, would expect the AUC of the classifier; they get one minus it, so that a perfect ranking gets 0. A nil matrix is an error for AUCMatrix and NDCGMatrix but makes MSEMatrix panic.", "quantifier": "for all matrices, columns and sorting algorithms; the statement about probabilities over the real numbers, the others for any arithmetic", "why_tests_cant": "Tests pass single columns; that further columns are ignored and that probabilities invert the result shows only for every shape.", "anchors": ["metrics/regression.go:MSEMatrix", "metrics/classification.go:AUCMatrix", "metrics/ranking.go:NDCGMatrix"]}
{"id": "C143", "title": "What IsEFBBeneficial says about bundling", "statement": "IsEFBBeneficial depends only on the shape of the data and the number of entries below 1e-10. If it answers yes there are at least ten columns, and at least one of them is sparse enough for CreateBundles; it answers yes whenever there are ten columns and all are sparse enough. Users would expect the answer to tell whether bundling helps. It does not: with the default ratio there are data for which it answers yes while CreateBundles finds no bundle, and the data bundled with that answer consist of their last column; and there are data, with less than ten columns and with more, for which it answers no while CreateBundles puts nine columns into one bundle.", "quantifier": "for all matrices with at least one row and all sparsity ratios; the implications over the real numbers, the counterexamples in binary64", "why_tests_cant": "Tests use one clearly sparse and one dense matrix; the relation to the bundles actually made needs a counting argument over all matrices.", "anchors": ["sklearn/lightgbm/efb.go:IsEFBBeneficial", "sklearn/lightgbm/efb.go:CreateBundles", "sklearn/lightgbm/efb.go:BundleFeatures", "sklearn/lightgbm/efb.go:WithSparsityRatio"]}
{"id": "C144", "title": "Finding errors again", "statement": "However often the error of one of the package's constructors is passed on by WithStack, Wrap, NewModelError or a Recover that adds a panic to it, As finds its struct by the struct's type and nothing by the type of another struct, Is finds the error, and its text is part of the final text; for ModelError As finds the outermost one. A type assertion to the struct's type, which users may try instead of As, never succeeds. Wrap and WithStack keep nil, NewModelError of nil is an error. A panic in SafeExecute is found as a PanicError also outside of further SafeExecutes. Users would also expect that an error given to panic is found after SafeExecute, and that every recovered panic is found as a PanicError: the first is never the case, and the second is not when an error had been set before the panic, in which case As finds only what it finds in that error.", "quantifier": "for all errors, all sequences of ways of passing them on, all panic values and nestings", "why_tests_cant": "The ways in which an error is passed on compose without bound; tests look at one or two levels.", "anchors": ["pkg/errors/errors.go:As", "pkg/errors/errors.go:Is", "pkg/errors/errors.go:Wrap", "pkg/errors/errors.go:WithStack", "pkg/errors/errors.go:NewModelError", "pkg/errors/errors.go:NewDimensionError", "pkg/errors/errors.go:NewNotFittedError", "pkg/errors/errors.go:NewValueError", "pkg/errors/recovery.go:Recover", "pkg/errors/recovery.go:SafeExecute", "pkg/errors/recovery.go:Unwrap"]}
{"id": "C145", "title": "Which files the lightgbm model loaders open", "statement": "Cleaning a path never changes the file that is meant: where the path of a caller leads somewhere (links aside), the cleaned path leads to the same place; cleaning twice is cleaning once. LoadLeavesModelFromFile takes exactly the paths made of names without two dots in a row, with single slashes between them and perhaps one in front (or '.' or '/'); LoadJSONModelFromFile those that are such after cleaning; LoadModelAutoDetect takes the former whatever is in the file. The file opened for a relative path by either of the first two is below the working directory. Users would expect more, which fails: './model.txt' is refused for a text model but not for a JSON one, so that LoadModelAutoDetect takes or refuses it depending on the content; 'model..v2.txt' is refused as a traversal; LoadFromFile, whose cleaning is said to prevent path traversal, opens '../../secret'; and 'missing/../model.txt' is opened although no such directory exists.", "quantifier": "for all paths, working directories and trees of directories", "why_tests_cant": "A statement about all paths; tests load one or two files by plain names.", "anchors": ["sklearn/lightgbm/leaves_loader.go:LoadLeavesModelFromFile", "sklearn/lightgbm/json_loader.go:LoadJSONModelFromFile", "sklearn/lightgbm/json_loader.go:LoadModelAutoDetect", "sklearn/lightgbm/json_loader.go:IsJSONModel", "sklearn/lightgbm/loader.go:LoadFromFile", "sklearn/lightgbm/loader.go:LoadFromJSONFile"]}
{"id": "C146", "title": "The score on validation data by which training stops", "statement": "Without weights, or with weights of 1, FitWithValidation compares the mean loss of the validation rows. With weights w each loss is multiplied with the weight of its row and with those of all later rows, so that users who expect a weighted mean, for which only the ratios of weights matter, are wrong: the same weight 2 for two rows changes the number of trees kept. A row of weight 0 takes itself and all rows before it out of the score; if it is the last one, training with patience below the number of iterations ends with a single tree, whatever the data. The same happens, without any error, with validation data of another number of columns than the training data.", "quantifier": "for all validation data, losses, weights, boosters, metrics and patiences below the number of iterations, over the reals; binary64 for the wrong number of columns", "why_tests_cant": "The effect of a weight on all rows before it, for all data, is not visible in a test that trains one model with or without weights.", "anchors": ["sklearn/lightgbm/early_stopping.go:evaluateValidation", "sklearn/lightgbm/early_stopping.go:FitWithValidation", "sklearn/lightgbm/model.go:Predict"]}
{"id": "C147", "title": "What is logged of errors and warnings", "statement": "LogError writes one line with the text of the error when the last name that SetupLogger accepted allows errors, otherwise and before SetupLogger nothing; LogWarningWithDetails likewise for warnings, with the details of a convergence or data conversion warning and of no other. The details of an error are written exactly when it is a NotFittedError, DimensionError or ValidationError struct with nothing wrapped around it. Users would expect them for the errors of the package, as LogError is documented, but its constructors add a stack: for an error of a constructor, however it was passed on, the details are never written, although errors.As finds the struct.", "quantifier": "for all sequences of SetupLogger calls, errors, ways of passing them on, warnings and texts", "why_tests_cant": "That a field is never written for any error the package can make is not something examples show.", "anchors": ["pkg/log/logger.go:LogError", "pkg/log/logger.go:LogWarningWithDetails", "pkg/log/logger.go:SetupLogger", "pkg/errors/errors.go:MarshalZerologObject", "pkg/errors/errors.go:NewNotFittedError", "pkg/errors/errors.go:NewDimensionError", "pkg/errors/errors.go:NewValidationError", "pkg/errors/errors.go:NewConvergenceWarning"]}
{"id": "C148", "title": "Node histograms of the trainer account for every row, subtract, and yield the best threshold", "statement": "Over the real numbers, with at least one training row and max_bin at least 1: buildHistograms gives every feature at most max_bin bins with strictly increasing boundaries, every training value lies strictly inside a bin, and when a feature has at most max_bin different values no two of them share a bin. For any list of training rows, buildNodeHistogram returns, per feature and bin, exactly the number of rows with values in the bin and their gradient and hessian sums; the bins of a feature add up to the node's row count, gradient and hessian totals. subtractHistogram of a parent and one child is the histogram of the other child, for every division of the parent's rows. findBestSplitForFeatureWithHistogram (non-negative penalties and hessians) either finds nothing (gain -1e10), or a threshold that leaves min_data_in_leaf rows on both sides and respects the monotone constraint, and the recorded counts, sums and gain are those of the rows at most the threshold and of the others; when the feature has at most max_bin values, no admissible threshold has a larger gain. A feature number beyond the data finds nothing and is reported back. A negative max_bin is not rejected: building the bins panics on all data. In binary64, with rounded boundaries, finite data of any size lose no row: in every node the counts of a feature's bins add up to the node's rows. But an infinite value can lose a row (the column -Inf, +Inf has a NaN boundary); a NaN in a column removes its own row and the rows with the smallest value from the bins while the node still counts them; for neighbouring float values the recorded counts differ from the division the threshold makes; and the 'Kahan' sums drop the compensation (1 + 2^-53 + 2^-53 gives 1).", "quantifier": "for all data, gradients, hessians, sorting functions meeting sort.Float64s' contract, row lists, divisions of a node's rows, penalties, monotone constraints and min_data_in_leaf; witnesses for the binary64 failures", "why_tests_cant": "Tests check that the histogram pool is non-nil and that one split has positive gain (the subtraction test is skipped); they cannot compare every threshold on every data set, nor meet the midpoint, NaN and compensation cases.", "anchors": ["sklearn/lightgbm/trainer.go:608-801", "sklearn/lightgbm/trainer.go:1198-1263"]}
