# Formal model of scigo in Rocq (Coq 8.16.1)

This directory holds a machine-checked model of the Go library in `/repo`
(module `github.com/YuminosukeSato/scigo`). `properties.jsonl` states the
properties in English, `MANIFEST.json` maps them to theorems.

## Layout of `rocq/theories`

| directory | contents |
|-----------|----------|
| `Base/`   | number interface (`Num.v`), Go outcomes (`GoRes.v`), list lemmas |
| `Model/`  | executable Gallina models of the Go code, one file per Go area; every definition cites file and lines in `/repo` |
| `Spec/`   | small independent specifications, readable without the model |
| `Proofs/` | lemmas and proofs |
| `Props/`  | property theorems only (`Theorem … Proof. exact lemma. Qed. Print Assumptions …`) and the `Example`s showing that the hypotheses are satisfiable |

## Numbers

The Go code computes with IEEE doubles. The models are written once over a
law-free record `Num` (carrier, arithmetic, comparisons, sqrt/exp/log) and are
instantiated at

* any `Num` – theorems about control flow, state, errors, shapes hold for every
  arithmetic, in particular for IEEE doubles;
* `FNum` – Flocq's `binary64` (`BinarySingleNaN`, round to nearest even), used for
  NaN/infinity handling, comparisons and concrete floating point witnesses;
  `exp`/`log` are parameters there;
* `RNum` – Coq's real numbers, used for algebraic identities (the statement is
  then about exact arithmetic; rounding is *not* covered and this is said in the
  theorem's comment).

Go `int` is modelled by `nat` or unbounded `Z`, except where a property is about
overflow: there 64-bit wrap-around is explicit.

## Outcomes

`res A := Ok a | Err e | Panic`. A Go `(value, error)` return becomes `Ok`/`Err`,
a run-time panic `Panic`. Mutating methods return the new state in every case,
also after errors, because several properties are about what a failed call leaves
behind.

## Concurrency

Goroutines are lists of atomic steps; an execution is any interleaving
(`Interleave`). Locks are explicit state (readers count / writer flag). Channels
are explicit queues. The Go memory model, goroutine scheduling fairness and
data races on non-atomic accesses outside of the modelled locks are not modelled.

## Trusted base

* Coq 8.16.1 kernel (`coqc`, re-checked with `coqchk`).
* The axioms listed by `Print Assumptions` under every theorem in `Props/`:
  either none ("Closed under the global context") or those of Coq's standard
  library reals: `ClassicalDedekindReals.sig_forall_dec`,
  `ClassicalDedekindReals.sig_not_dec`,
  `FunctionalExtensionality.functional_extensionality_dep`, and (through
  Coquelicot/Flocq reals lemmas only where listed)
  `Classical_Prop.classic`. No axiom, parameter or section-less variable is
  declared in this development.
* The reading of the Go source: models were transcribed by hand, each definition
  cites the lines it models.
* gonum's `mat.Dense` (modelled as list of rows; `NewDense` panics on zero or
  negative dimensions, `At`/`Set` panic out of range), `sort.Slice`
  (some permutation sorted w.r.t. the comparison), `math/rand` (arbitrary stream),
  Go map iteration (arbitrary order), `encoding/json`/`gob` (an arbitrary
  encode/decode pair, assumptions stated per theorem), goroutines and channels
  (steps over sequentially consistent memory), `zerolog` (a message is written when
  its level is below neither its logger's nor the global level; the methods of its
  `Context` return a new value; the zero Logger writes nothing), `cockroachdb/errors` (`WithStack` and `Wrap` keep nil
  and otherwise wrap, `As` takes the first error of the type along `Unwrap`),
  `filepath.Clean` (the rules of its documentation, on Unix).

## Plan per property

* **C01 Parallel loops visit every item exactly once** – chunk arithmetic of Parallelize over nat; ranges partition `seq 0 n`; interleaving semantics of slot-writing workers, induction over interleavings.
* **C02 Fitted-state bookkeeping is linearizable** – state machine with RW lock, per-thread program counters; linearization point = critical section; invariant + refinement to an atomic spec.
* **C03 Unfitted estimators refuse to answer** – models of scaler state; per-history induction.
* **C04 NaN and infinity detection is exact** – Flocq binary64 lists and matrices.
* **C05 Clipping keeps values and gradients in bounds** – ClipValue over Flocq binary64; ClipGradient over R.
* **C06 Guarded calls never let a panic escape** – deferred-recover semantics as a function on outcomes; induction over nesting.
* **C07 Log-sum-exp is exact and shift-invariant** – R model of LogSumExp; ln/exp algebra, exp arguments recorded.
* **C08 AUC is the Mann-Whitney probability** – trapezoid loop over any sorted-descending arrangement; induction over tie groups; equality with pair counting.
* **C09 AUC lies in [0,1] and is antisymmetric** – corollaries of the pair-counting characterisation.
* **C10 Accuracy and error rate are complementary and count matches** – counting loops over R division. In binary64: rounding is monotone and 2^-53, 1 - 2^-53 are doubles, so the ends are attained exactly.
* **C11 Regression errors vanish exactly on perfect predictions** – sums of squares over R; Cauchy-Schwarz for MAE<=RMSE. In binary64 (Proofs/MetricsFP.v): sign and NaN analysis of each rounded operation, symmetry from round(-x) = -round(x).
* **C12 R2 score is at most one** – algebra over R sums. In binary64: 1 minus a non-negative double rounds to at most 1; the constant target by a witness.
* **C13 NDCG is normalised and attained by the ideal ranking** – rearrangement inequality for DCG.
* **C14 Average precision is in [0,1] and perfect on perfect rankings** – prefix precision sums.
* **C15 Standardised columns have mean zero and unit variance** – column statistics over R; algebra. In binary64: order by monotone rounding of the difference and the quotient; the constant column by a computed witness.
* **C16 Min-max scaling hits the requested range exactly** – min/max fold lemmas over R; for binary64 and [0, 1] (Proofs/ScalerFP.v) each operation is replaced by Flocq's correctly rounded result, monotonicity of rounding keeps results in range, and d/d = 1 exactly; witnesses for other ranges, overflow and the inverse.
* **C17 One-hot rows have exactly one 1 per known category** – string tables; sorted distinct categories; map order as arbitrary permutation.
* **C18 One-hot encoding of ragged or empty tables** – case analysis of row widths in the same model.
* **C19 A fitted pipeline is function composition** – pipeline over abstract step state machines; induction over steps.
* **C20 FitTransform is not Fit followed by Transform** – same model with step kinds; witnesses.
* **C21 DDM statistics and thresholds** – DDM step machine over R and any Num; invariants over op lists.
* **C22 ADWIN keeps an exact summary of a suffix of the stream** – ADWIN bucket list with ghost history; invariant.
* **C23 Model weights clone is deep and import/export round-trips** – heap model with locations for slices/maps; frame property.
* **C24 Saving a model is not crash-atomic** – file-system trace model; crash = prefix of the trace.
* **C25 scikit-learn parameter exchange round-trips and validates** – document validation model, round trip.
* **C26 Ordinary least squares is optimal** – normal equations over R; matrix inverse as oracle with its specification as hypothesis.
* **C27 A failed re-fit corrupts a linear regression** – state-machine model of Fit/Predict with inversion oracle failing.
* **C28 Multinomial naive Bayes learns batch-independently** – count tables as sums over samples; permutation/append homomorphism.
* **C29 Naive Bayes probabilities are distributions** – R identities with ln/exp.
* **C30 A failed naive Bayes Fit destroys the previous model** – state machine with error branches.
* **C31 Cluster prediction returns a nearest centre** – argmin fold.
* **C32 Incremental k-means centres are running means** – ghost assignment history invariant over R.
* **C33 Decision trees respect their growth limits** – recursive builder with fuel shown sufficient; invariants by induction on the tree.
* **C34 Decision trees route training samples to the leaf that counted them** – same model, routing lemma.
* **C35 K-fold splitting is a partition** – list partition arithmetic; shuffle = arbitrary permutation.
* **C36 Stratified splitting balances every class** – same, per class.
* **C37 Early stopping tracks the true best and stops on time** – fold over score list; characterisation by minimum and first index.
* **C38 Callback early stopping counts each round twice** – training loop with callback list as state machine.
* **C39 Training API with early stopping never returns a model** – API training loop model.
* **C40 Parallel tree prediction equals sequential prediction** – interleaving model of C01 with predictor chunk arithmetic.
* **C41 The compact right-child-next tree layout preserves predictions** – array trees as refinements of inductive trees; DFS stack machine invariant.
* **C42 The JSON loader of the compact layout misroutes samples** – same for JSON builder; witness by computation.
* **C43 JSON dump and reload preserve each tree but lose the initial score** – flatten/unflatten over inductive trees.
* **C44 Histograms conserve mass and every value has one bin** – binary search invariant; sums over bins; exact subtraction over R.
* **C45 Regularised leaf values are optimal** – soft-threshold minimiser over R.
* **C46 Objective gradients are derivatives of their losses** – derivable_pt_lim / is_derive proofs over R.
* **C47 The quantile objective is mirrored** – pinball loss sums over R.
* **C48 Boosted-tree growth limits** – recursive builder with arbitrary split oracle; witness oracle for leaf overflow.
* **C49 Feature bundling keeps bundles disjoint and decodes exclusive values** – Model the greedy bundling, the mapping and both directions of the encoding (Efb.v) at any arithmetic; prove the bundles disjoint, within the conflict limit and maximal for every sort order by an invariant of the loop; prove the decoding inverse over R under the stated conditions, its exact effect on every other value, and the failures by binary64 witnesses.
* **C50 Sampling without replacement** – Fisher-Yates over arbitrary random streams; permutation invariant.
* **C51 Lock-free histogram merging** – CAS state machine; ghost sum invariant; NaN livelock over Flocq NaN equality.
* **C52 Out-of-core chunk iteration covers the data once** – chunk arithmetic + byte-array frame model.
* **C53 The memory budget is never exceeded** – op list invariant; explicit int64 wrap for the overflow witness.
* **C54 Layout conversion is transposition** – index arithmetic over nat.
* **C55 Stream training equals sequential incremental training** – channel/cancel state machine.
* **C56 Passive-aggressive steps** – R algebra.
* **C57 Tensor shape operations** – tensor model with int64 products.
* **C58 Softmax and sigmoid outputs are probabilities** – R exp inequalities; exact rational Taylor polynomial witness; in binary64 monotone rounding of the running sum and of the quotients (Flocq), with math.Exp as an argument restricted by `exp_like`.
* **C59 Per-feature contributions of a prediction** – path and count model of shap.go for array trees; over the reals the values are characterised as shares of (leaf - mean leaf) and their sum is computed exactly; additivity holds exactly when no feature is repeated on a path and the base values fit; witnesses where it fails.
* **C60 Parameter aliases** – Model: addMapping and the full table, defaults and the four dictionary functions; a range loop visits any permutation of the entries. Spec: an independent list of parameters with their names. Proof: the last visited entry of a parameter wins (induction), finite tables compared by computation.
* **C61 One-hot output names identify columns** – name lists over strings; decimal rendering injective.
* **C62 Cross-validation summary and best fold** – fold over fold scores with comparison laws for R and IEEE doubles.
* **C63 Validation with a maximised metric cuts improving runs** – corollary of the C37 characterisation of FitWithValidation.
* **C64 Learning-rate schedules and parameter resets have no effect** – callback loop; callbacks that keep stop flag and results leave the trees alone.
* **C65 A failed k-means Fit makes a fitted model unusable** – state machine with error branches; direct case analysis.
* **C66 k-means Fit succeeds without centres on NaN data** – NaN absorption of the IEEE operations through the distance and inertia loops; invariant of the runs of Fit.
* **C67 Decision-tree splits are the best available** – loop invariant of the threshold scan over sorted values; every real threshold is equivalent to a midpoint.
* **C68 Unlimited trees do not reproduce consistent training labels** – witness (exclusive or) evaluated on the model.
* **C69 Decision-tree feature importances** – induction over the builder with the specification total_gain.
* **C70 Decision-tree prediction does not check the column count** – induction over the tree for any input width.
* **C71 Decision-tree SetParams** – association lists; permutation invariance; witness for the refused call.
* **C72 Ignored decision-tree options** – the builder does not read the options; witness.
* **C73 Model.Predict ignores the trees of a text-format file** – Model/LgbTree.v finalize, gwalk, model_raw; induction over the document relation: every walk ends at a negative reference with output 0.
* **C74 The two predictors disagree on the same text file** – Both loaders and both predictors of Model/LgbTree.v on one document list; results expressed by evaluating the abstract tree; a concrete file refutes agreement.
* **C75 Categorical tests of the compact layout always go right** – Invariant of the loader loops: the one-hot flag is never set; cat_decision then always answers false.
* **C76 Malformed model files make prediction run forever** – read_tree never runs out of fuel (measure: unvisited nodes and stack); cyclic witness documents where every fuel is exhausted.
* **C77 LeavesPredictor batch and single-row prediction** – leaves_batch_row and leaves_single compared for every model; witness with non-zero initial score.
* **C78 Saving a text-format model as JSON loses its leaf values** – dump_node, reread, flatten on the tree built by finalize; every path of the reloaded tree ends with 0.
* **C79 The optimised histogram builder agrees with the plain one** – Model/LgbHist.v quick_sort, boundaries_opt, find_bin_opt, opt_hist. The in-place partition is followed through list splits; sortedness and termination by induction on the length under order laws valid for binary64 with NaN; boundaries and agreement over R with truncation as hypothesis on int(float).
* **C80 The split search finds the best split** – Model/LgbHist.v scan, num_split, cat_split, find_best_split. Loop invariant: the best cut so far among all bins (any number type with order laws); over R the bin sums are translated to sums over rows below a boundary, and with one value per bin every threshold corresponds to a boundary.
* **C81 A boosted tree predicts each training row's leaf output** – growth of the node array (build_node) shown to lay out a division tree whose leaves partition the rows; walk of Tree.Predict on it by induction; any number type with the NaN comparison laws; binary64 witness for categorical NaN.
* **C82 Termination of tree growth** – fuel recursion: fuel MaxDepth+1, resp. number of rows+1, suffices (both sides of an accepted split are non-empty by the theorems on the split search over R); for splits sending all rows left None for every fuel, proved by induction; general theorem for few rows and binary64 witnesses.
* **C83 The fitted model predicts the scores reached in training** – invariant of the boosting loop (fold over rounds), predictor walk on grown trees, error bound of the rounding-to-zero of the Predictor over R; witness in binary64 for the missing learning rate; multiclass from the accumulator.
* **C84 Squared-error training loss never increases** – per-leaf inequality for the step (learning rate times regularised output) on the quadratic loss, summed over the partition of rows, induction over rounds; over R.
* **C85 Gradient-based one-side sampling** – partial Fisher-Yates as a permutation; sort specification; weight bound over R; witnesses in binary64.
* **C86 Initial scores are best constant predictions** – subgradient inequalities for each loss summed over the targets; the partial exchange sort of calculateMedian proved to place the order statistics; median via the quantile characterisation with level 1/2; witnesses for the exceptions.
* **C87 Categorical splits choose the best category subset** – Modelled in Model/LgbHist.v (cat_hist, cat_split). The histogram theorem holds for any number type; row theorems over the real numbers by grouping the sums by category; optimality by the exchange argument of Fisher: for the slopes of any division some cut of the categories sorted by G/H is at least as good. The failure under lambda_l2 > 0 is a binary64 witness.
* **C88 Chunked processing of a stream** – chunk lists by induction over the rows; the scanner modelled as delivering nothing
* **C89 Pooled matrices are exclusive and zeroed** – pool as objects + bag; invariant over all sequences of operations; sequential and interleaved double release as witnesses
* **C90 Aligned allocation** – arithmetic modulo the alignment
* **C91 Underdetermined linear fits never succeed** – vector in the kernel of a wide matrix (induction on the number of columns); an inverse of the normal matrix would make it zero.
* **C92 R2 scores** – sums of squares over the reals; normal equations for the training score; computed binary64 witness.
* **C93 linear_model.LinearRegression minimises the squared error** – normal equations imply optimality (Pythagoras over lists); computed rational witnesses.
* **C94 Linear regression follows its data** – uniqueness of the solution of the normal equations; permutation invariance of Gram sums.
* **C95 Loading a saved linear regression** – field-by-field model of gob's rule that zero fields are not sent; case analysis.
* **C96 Stream predictions** – State machine for the goroutine with its input and output channels (Model/Stream.v); invariants by induction over executions.
* **C97 Passive-aggressive training** – Fit/PartialFit/Predict of both passive-aggressive models function by function; batches as concatenated sample lists, induction over passes.
* **C98 SGDRegressor steps follow the gradient** – Model/Sgd.v reg_loss, with_penalty, rate, descend, reg_update (Numerical.clip_gradient); Spec/Sgd.v penalty terms. Slopes over R with derivable_pt_lim, pieces glued; the clip as a factor in (0,1]; the step as a statement per coordinate.
* **C99 Divergence of SGDRegressor** – Same model at binary64: sums and products with an infinite or NaN operand stay so (case analysis of Flocq's Bplus/Bmult), hence 'dead' weights are invariant under every pass; the zero losses meet the convergence check. Witness runs by computation.
* **C100 SGDClassifier losses, slopes and probabilities** – class_loss, class_step, cls_update, soft, cls_proba, cls_predict; slopes over R including the joints of the squared pieces; softmax facts by monotonicity of exp; NaN entry at binary64 for an arbitrary exp oracle.
* **C101 SGD training records** – reg_epochs / reg_partial / cls_partial by induction over passes; check_conv over R as 'all recent losses within tol'.
* **C102 Reading and copying estimator parameters** – Model: GetParams/SetParams switch statements over the twenty settings. Proof: every field is determined by the lookup of one key (generic fold lemma), composed with the mapping theorems of C60.
* **C103 Logistic regression minimises the regularised log loss** – model of logistic.go with the optimizer as an argument; over the reals Func and Grad are identified with the risk and its slopes, convexity through the tangent inequality of ln(1+e^z), Fit by induction over the classes; witness for the clamp.
* **C104 Predictions of logistic regression** – predictions characterised for every model satisfying `trained` (established by Fit), over the reals through the order of logistic and exp; NaN propagation in binary64 for any exp that keeps NaN; ranges and agreement of the two methods in binary64 by monotone rounding (Flocq), for any exp meeting stated bounds; column independence at any number type.
* **C105 Training of logistic regression** – extensionality of Fit in its settings, gradient descent unrolled by induction into the iterates of one step, the step identified with the slopes of C103; state after failure by frame lemmas; computed binary64 witnesses for chance and C = 0.
* **C106 LGBMClassifier: labels, probabilities and state** – Model/LgbEstimator.v follows lgbm_classifier.go function by function over any numbers and any training procedure; the class set of Fit goes through an arbitrary order of the map. Proved by case analysis of Fit, correspondence of rows of Predict and PredictProba, and over the reals by the monotonicity of the logistic and softmax functions applied to models built by the modelled trainer (invariant: one tree per round, outputs count as the objective demands).
* **C107 What LGBMClassifier can learn** – Over the reals: invariant of the boosting loop that all leaf values have the sign of minus the gradients they average (labels at least 1 push up, labels at most 0 push down), so scores never cross zero; for multiclass the trainer is shown to be the two-class loop, and the round-robin sum of trees over classes leaves positions above the number of rounds at the starting score.
* **C108 LGBMRegressor: training, judging, quantiles and loading** – Model/LgbEstimator.v follows lgbm_regressor.go over any numbers and any training procedure; unit weights by equality of the gradient computation; quantiles over the reals; NaN under the comparison laws that binary64 satisfies.
* **C109 Classification reports count labels correctly** – the constructor, counters, loops over classes, confusion matrix and report of evaluation_metrics.go over any number type; counts characterised by induction over the samples for any order of the label set, sums over classes over the reals, super-additivity of the harmonic mean for the F1 bound.
* **C110 AUC and log loss of classification reports** – the pair loops of AUC and the log loss loop; both proved equal over the reals to the metrics-package functions of C08 and C10 on encoded labels; failures by case analysis on the class list; a binary64 witness for NaN.
* **C111 EvaluateRegression agrees with the metrics package** – the repeated regression functions and EvaluateRegression; equality with the metrics package for any number type, domain and values over the reals from C11 and C12.
* **C112 What a model saved as text predicts after loading** – the writer (SaveToText) and both readers as functions on text, printing and parsing of floats as arguments; trees of the trainer are preorder arrays of decision trees (induction on buildNode); line-by-line simulation of the readers on the written file, then induction on the loaded arrays: the walk from the root always ends in a missing leaf value.
* **C113 Loading a model that an estimator saved** – SaveToFile and LoadFromReader on text; the repeated keys of a tree overwrite each other, so the arrays have one entry while num_leaves says more, and finalizeTree indexes out of range: induction on trees and lines.
* **C114 The header of a text file survives a round trip** – same simulation for the header; Fields (Join names) = names exactly for lists of words.
* **C115 Leaf numbers name the leaf a prediction comes from** – Model/LgbLeaf.v follows buildLeafMap, the three walks and the counting loop. A stored tree is the preorder array of a binary tree (Spec/LgbLeaf.v). Proved by induction on the tree: the walk ends at the position of the leaf, the map numbers positions from left to right, and the number indexes the values of the leaves. Trees from the trainer are stored trees. Disagreements are witnesses over Q and binary64.
* **C116 Feature importances are shares of splits or gain** – Model/LgbLeaf.v: the fold over all nodes. Proved: the fold computes the sum over the splits on each feature; over the reals the sums by feature add up to the sum over all splits.
* **C117 What a Booster answers after any history of calls** – Model/LgbBooster.v: booster state over a heap of models. Spec/LgbBooster.v: histories, what was given and loaded last. Proved by induction on the history; witnesses over Q; saving uses the round trip of C112.
* **C118 Datasets keep and select rows, labels and weights together** – Model/LgbApi.v (dataset part); fields by cases over the names; subsets through the relation `rows_at` between positions, whole and part, composed by induction; two `_refuted` witnesses for refused labels and unchecked weights.
* **C119 What Train makes of its arguments** – Model/LgbApi.v (train part) on top of the booster of C117; the loop by induction over rounds with the invariant that model, predictor and names stay; scores described by `scored`/`measured` in Spec/LgbApi.v; parameters by `typed`; trees through the trainer of C106.
* **C120 Which objective QuickTrain chooses** – Model/LgbApi.v; the keys of the float map are pairwise different, so at most two of them are 0 or 1, proved from the comparison laws for reals and binary64.
* **C121 What SimplePredictor computes** – Model/LgbSimple.v has the tree walk, the sum over trees and the transformation of SimplePredictor. The walk is compared with the leaf of an inductive tree by induction over the tree, for stored trees and for tree sections of text files; the three disagreements are witnesses at binary64.
* **C122 What lightgbm.QuickTrain returns** – Model/LgbQuick.v has QuickTrain on top of the estimators of Model/LgbEstimator.v, with the trainer as an argument. The task detection is shown equivalent to a statement about labels; the result is a case distinction on what Fit returns.
* **C123 What AutoFit returns** – The loop over the four settings is shown to give the first maximum by induction over the list of outcomes; the case without a model has a witness that runs the modelled trainer.
* **C124 QuickCrossValidate reports the training score** – All folds are the same computation, so the list of scores is a constant list; its mean and variance are computed over the reals.
* **C125 Callbacks of StateManager.WithState and WithStateMut** – Model/Callbacks.v: goroutines as lists of instructions on a sync.RWMutex with writer preference, callbacks as nested programs. Invariant over all reachable configurations: what is left of each program, classified by lock holding; deadlock as absence of steps.
* **C126 Warnings reach the handler exactly once** – Model/Callbacks.v: Warn under a mutex, handlers as programs run in place. Invariant: given ++ coming = raised; for reentering handlers an invariant that the lock stays.
* **C127 Class weights of the lightgbm trainer** – Model/LgbTrainer.v: the trainer object and its Fit. Over R the gradients of the two runs are equal, hence so are the trees; sums over classes by induction over the rows.
* **C128 Calling Fit again on a trainer** – Model/LgbTrainer.v: the loop over rounds as a fold on the trainer state, so two calls compose; Fit keeps the fields that initialize does not reset; witness at binary64.
* **C129 MonotoneConstraints have no effect on training** – Model/LgbTrainer.v carries the constraints through the parameters; training with any two of them is equal; witness at binary64.
* **C130 Interaction values are symmetric but do not decompose the contributions** – Model/ShapInter.v: the two loops over pairs as folds on a matrix, the recursions on stored trees. Fold invariants for shape and entries; induction over decision trees with node values (Spec/ShapInter.v) for the values; witnesses over R and at binary64.
* **C131 The streaming pipeline delivers and counts every element once** – Model/Streaming.v: bounded and unbuffered channels and one goroutine per stage as a transition system. Invariant: received ++ what is still to come = composition of the stages; closing order; the metrics are a fold over what was taken, independent of order; a decreasing measure for termination.
* **C132 The GC optimizer limits its collections and stops, but only in part** – Model/GcOpt.v: methods as atomic steps (each holds the lock), goroutines with four positions, a clock that only goes forward, and a ghost list of collections. Invariant: lastGC is the end of the latest collection and the list is spaced; counting of starts along labelled executions; a weight per goroutine that decreases after Stop.
* **C133 Setting and reading parameters of linear models, scalers and pipelines** – Model/EstParams.v: the cases of the switches as tables of names and types, maps as lists of entries in the order of iteration. Induction over the entries; injectivity of name__key for names without ambiguity; positions of a put in a fold.
* **C134 What a dump of a booster says about its predictions** – Model/LgbDump.v: dumpNode with fuel on the array layout of C43. Induction over the stored tree: reading the dump is evaluating the tree; accumulation by class rewritten as a fold per class; induction over the described tree for text files.
* **C135 What ModelCheckpoint leaves in its files** – Model/Checkpoint.v: the callback and the training loop of C37, with files as a log of writes. Invariant: the captured best score is the first lowest countable loss looked at (laws of < that hold for IEEE doubles); files of rounds done are final.
* **C136 What cross-validation of the lightgbm estimators measures** – the parameters, training, prediction and scoring of a fold on top of the trainer of LgbEstimator.v; equalities of training runs by unfolding, rates of trees from the invariant of boosting, non-termination from C82, witnesses computed in binary64.
* **C137 What callbacks can do to Train of the api package** – Model/ApiCallbacks.v: the loop of Train over a world (environment, booster, models in memory, printed lines, memory of the user) that callbacks transform; the built-in ones are modelled with their fields, the user's are arbitrary functions of the world. The order of every range loop over the scores is an argument. Proved by induction on the rounds against Train without callbacks (Model/LgbApi.v).
* **C138 What callbacks can do to Fit of a lightgbm Trainer** – Model/TrainerCallbacks.v: the loop of Fit with the callback list kept between calls, over an arbitrary way of growing the next tree and an arbitrary state of the callbacks; the clock is an arbitrary sequence of readings. Proved by induction on the rounds, the two looks per round giving the (d+1)/2; the second Fit is a consequence of an invariant (the stop flag is kept).
* **C139 What parallel chunk processing hands to the function** – Model/ChunkPar.v: the reading goroutine, the workers and the channel as a state machine whose chunks are lengths into one shared array. Proved by an invariant over all executions (which rows the array holds, which chunk numbers were sent, queued, held, called), a decreasing measure, and explicit executions for the overwritten chunk and the blocked goroutine. That the scanner of this file never delivers a row is C88; here the rows are those delivered.
* **C140 Levels and fields of the loggers** – Model/Log.v: the process as a state (zerolog's global level, the providers, the loggers handed out, the entries written) and the functions of logger.go as operations on it; zerolog's own behaviour, a message is written when its level is below neither its logger's nor the global level and Context methods do not change their receiver, is part of the trusted base. Proved by showing which operations keep levels and loggers, for any operations in between.
* **C141 What the logger for tests records** – Model/TestLog.v: the lines of the buffer as JSON objects or empty lines. Proved as a refinement: a specification machine that only keeps lists of pairs in the order given, related to the maps by the value of each key.
* **C142 Metrics of matrices** – The wrappers as functions of optional matrices (Model/MetricsMat.v); MSEMatrix characterised by its shapes, AUCMatrix and NDCGMatrix by their dependence on the first columns only, and the inversion for class probabilities from the monotone and negation theorems of C09 with a refutation witness.
* **C143 What IsEFBBeneficial says about bundling** – IsEFBBeneficial as a count over rows (Model/EfbUse.v), rewritten as a sum over columns by exchanging the two sums; the implications by comparing the sum with the bound per column, the counterexamples computed in binary64 with the CreateBundles of C49.
* **C144 Finding errors again** – Errors as a tree of structs and wrappers with Unwrap as a chain (Model/ErrChain.v); the ways of passing on as a list of layers, and the statements by induction over it from a lemma for one layer.
* **C145 Which files the lightgbm model loaders open** – Model/Paths.v: filepath.Clean after its documentation, the checks of each loader; Spec: following the elements of a path through directories, simple paths. Induction over the elements with the invariant that the kept ones lead to the place reached.
* **C146 The score on validation data by which training stops** – Model/EvalValid.v: the sum of losses with its weights; closed form by induction over the rows; training with a constant score by induction over the rounds of Model/EarlyStop.v.
* **C147 What is logged of errors and warnings** – Model/ErrLog.v over the error chains of C144 and the levels of C140; histories of SetupLogger by induction, layers by induction.
* **C148 Node histograms of the trainer account for every row, subtract, and yield the best threshold** – Model/NodeHist.v transcribes the trainer's own bin boundaries, linear bin search, node histograms, subtraction and split loop; over the reals the linear search is shown equal to the binary search of Model/LgbHist.v on values strictly between the boundaries, so its histogram lemmas carry over; the loop is handled by an invariant over the bins passed; boundaries are midpoints of distinct neighbouring values, hence never training values; binary64 failures by computed witnesses. In binary64 (Proofs/NodeHistFP.v) finite data lose no row: the search is covered by the comparison laws, the ends by monotone rounding.

<!-- generated below -->

## Modelled code

Everything of a listed Go file that is not named in the second column is not modelled.

| model file | Go code modelled | left out or simplified |
|---|---|---|
| `Model/ApiCallbacks.v` | sklearn/lightgbm/api/callbacks.go (all callbacks), api/train.go Train with callbacks, WithVerboseEval and WithEarlyStopping | the text printed; verbose output of EarlyStoppingCallback; one callback object given twice in a call; InitModel with callbacks (LgbApi.v has it without) |
| `Model/Callbacks.v` | core/model/state_manager.go lines 28-116 as programs on a sync.RWMutex with writer preference; pkg/errors/errors.go Warn, SetWarningHandler, SetZerologWarnFunc | callbacks and handlers that panic; what the default handler prints |
| `Model/Checkpoint.v` | sklearn/lightgbm/callbacks.go ModelCheckpoint within the loop of trainer.go Fit | other callbacks at the same time; the text of the files (Model/LgbTree.v) |
| `Model/ChunkPar.v` | performance/large_scale.go processParallel, with the loop of processSequential as its producer | the scanner (the rows are those it delivers) and its error, which the code drops; a function that reads its chunk while it is being overwritten; panics of the function; chunk sizes below 1 |
| `Model/CrossVal.v` | sklearn/lightgbm/cross_validation.go: KFold, StratifiedKFold, row extraction, fold loop, summary and best fold | training inside a fold is an argument; shuffle = arbitrary rearrangement; goroutine-free |
| `Model/Dataset.v` | performance/large_scale.go: MemoryMappedDataset (New, GetChunk, SetChunk, IterateChunks, readElement, writeElement), ChunkedProcessor.processSequential, dataScanner | locking, Flush/Close, failures of system calls other than by size, number conversions (arguments); processParallel is in ChunkPar.v |
| `Model/Drift.v` | sklearn/drift/ddm.go: DDM and ADWIN | mutexes make methods atomic; printing not modelled |
| `Model/EarlyStop.v` | sklearn/lightgbm/early_stopping.go, callbacks.go; api/train.go and api/callbacks.go training loops; trainer.go GetModel | the booster step is an argument; logging not modelled |
| `Model/Efb.v` | sklearn/lightgbm/efb.go: CreateBundles, BundleFeatures, UnbundleFeatures and their helpers, the column count of GetBundlingInfo | IsEFBBeneficial is in EfbUse.v; the compression ratio, bundle indices below zero, a negative MaxBundles; the order chosen by sort.Slice among equal degrees is any permutation |
| `Model/EfbUse.v` | sklearn/lightgbm/efb.go IsEFBBeneficial | overflow of rows * cols |
| `Model/ErrChain.v` | pkg/errors/errors.go: the error constructors, ModelError, Is, As, Wrap, WithStack; recovery.go: PanicError, Recover, SafeExecute | the texts of the structs are an argument; Wrapf and Newf with their formats; joined errors |
| `Model/ErrLog.v` | pkg/log/logger.go LogError, LogWarningWithDetails and the effect of SetupLogger on them; which structs of pkg/errors have MarshalZerologObject | nil errors, the contents of the details, LogWarn, LogInfo, LogDebug (one line each); stack traces are an argument |
| `Model/EstParams.v` | GetParams and SetParams of LogisticRegression, LinearRegression (sklearn/linear_model), Pipeline, StandardScaler and BaseEstimator (deep) | BaseEstimator.GetParams(false), which returns the live map; GetParams of estimators without SetParams |
| `Model/EvalMetrics.v` | sklearn/lightgbm/evaluation_metrics.go: NewClassificationMetrics, Accuracy, Precision, Recall, F1Score, AUC, LogLoss, ConfusionMatrix, ClassificationReport, EvaluateClassification, MSE, MAE, R2Score, MAPE, ExplainedVarianceScore, EvaluateRegression; the order of the label set is an argument | the unread sorted list in AUC; the keys and formatting of the report maps |
| `Model/EvalValid.v` | sklearn/lightgbm/early_stopping.go evaluateValidation | X and Y of the validation data with different numbers of rows (more in Y panics); predictions and losses are any functions |
| `Model/GcOpt.v` | performance/memory_optimizer.go GCOptimizer: NewGCOptimizer, Start, Stop, ForceGC, monitor | GetStats; the effect of the settings on the Go runtime; changes of the settings by others |
| `Model/KMeans.v` | sklearn/cluster/minibatch_kmeans.go: options, Fit, PartialFit, Predict, Transform, Score, getters | random generator = arbitrary state machine; FitStream is in Stream.v |
| `Model/LgbApi.v` | sklearn/lightgbm/api/dataset.go: NewDataset and its options, validateLabel, detectBinaryClassification, GetField, SetField, GetSubset, CreateValidDatasets; api/train.go: Train, parseParams, trainOneIteration, evaluateDataset, getMetricName, getVecDense, calculateAccuracy, QuickTrain | Reference and bin mappers of a dataset, ConstructFromFile, callbacks and early stopping (Model/EarlyStop.v), printing |
| `Model/LgbBooster.v` | sklearn/lightgbm/api/booster.go: state, prediction methods, SaveModel as text, LoadModel, counts, importance cache, names, evaluation results, Clone; leaves_predictor.go Predict | DumpModel is in LgbDump.v; params, changes a caller makes to slices or maps it shares with the booster |
| `Model/LgbCv.v` | sklearn/lightgbm/cross_validation.go CrossValidateRegressor, CrossValidateClassifier and one fold of CrossValidate; model.go Predict | early stopping inside a fold (Model/EarlyStop.v), scores on training rows, times; combining folds is in CrossVal.v |
| `Model/LgbDump.v` | sklearn/lightgbm/api/booster.go DumpModel, dumpTreeStructure, dumpNode | num_nodes, leaf_count, internal_count, names, params, importances; a nil model (nil is returned) |
| `Model/LgbEstimator.v` | sklearn/lightgbm/lgbm_classifier.go (Fit, FitWeighted, FitWithInit, extractClasses, Predict, PredictProba, PredictLogProba, Score, DecisionFunction, LoadModel*), lgbm_regressor.go (Fit, FitWeighted, FitWithInit, Predict, Score, PredictQuantile, GetResiduals, GetMSE/MAE/RMSE, LoadModel*), NewTrainer defaults and the loop of Trainer.Fit, Predictor.Predict and PredictProba | loggers and progress bars; early stopping rounds (inactive without validation data); the parser behind LoadModel is an argument; class weights; the random generator behind sampling is an argument |
| `Model/LgbHist.v` | sklearn/lightgbm/histogram_optimization.go (boundaries, histograms, split search, subtraction), parallel_histogram.go (sort, boundaries, search, sequential builder) | caching, worker pools, the Missing bin (never filled); goroutines writing distinct slots are a map; int(float) and sort functions are arguments |
| `Model/LgbLeaf.v` | sklearn/lightgbm/predictor_extended.go (PredictLeaf, PredictRawScore, predictTreeLeaf, predictLeavesTreeLeaf), predictor.go PredictLeafIndex/getLeafIndices/traverseToLeaf, model.go GetFeatureImportance | storing leaf numbers as floats; int(v), int(math.Round(v)) and uint32(v) are arguments |
| `Model/LgbMerge.v` | `sklearn/lightgbm/parallel_histogram.go:164-264` (buildContinuousHistogramParallelSamples): the goroutines, their atomic additions and compare-and-swap loops, as an interleaving state machine | the chunk-local sums are computed beforehand (they touch no shared data); goroutines all exist from the start; a compare-and-swap may also fail when the value is equal but was written since it was read |
| `Model/LgbObjective.v` | sklearn/lightgbm/objectives.go | LambdaRank's group data (unused by its functions); the goroutines of the multiclass gradients (distinct slots); math.Pow, Floor, Ceil are arguments |
| `Model/LgbQuick.v` | sklearn/lightgbm/quick.go: QuickResult (Predict, PredictProba, Score), QuickTrain, AutoFit, QuickCrossValidate, detectTaskType, feature names | printing and times, QuickLoadAndPredict, QuickBenchmark, SaveModel of the result |
| `Model/LgbSimple.v` | sklearn/lightgbm/simple_predictor.go: predictTree, PredictSingle, Predict and the transformation of scores | nothing else of the file |
| `Model/LgbText.v` | sklearn/lightgbm/model.go SaveToText and SaveToFile, leaves_loader.go (LoadLeavesModelFromReader, readLeavesTree, readParamsUntilBlank, slices), loader.go (LoadFromReader, finalizeTree, arrays) on the text of the file; printing integers, Atoi, ParseInt, Fields, TrimSpace, SplitN | %g, %f and ParseFloat are arguments; Unicode white space; file system errors |
| `Model/LgbTrain.v` | sklearn/lightgbm/trainer_params.go (sampling, regularisation), trainer.go (tree growth, GOSS, boosting loop), categorical.go splitCategoricalData | callbacks (Checkpoint.v, TrainerCallbacks.v), logging, class weights (LgbTrainer.v), native multiclass, the unused trainer histograms; random generator and int(float) are arguments |
| `Model/LgbTrainer.v` | sklearn/lightgbm/trainer.go: NewTrainer, computeClassWeights, satisfiesMonotoneConstraint, Fit, initialize, SetSampleWeight, SetInitScore, calculateLoss, GetModel as one object that keeps its fields between calls; the rounds are those of Model/LgbTrain.v | goss, native multiclass training, callbacks, early stopping and logging inside Fit |
| `Model/LgbTransform.v` | sklearn/lightgbm predictor.go, leaves_predictor.go, model.go: sigmoid, softmax and exponential helpers | math.Exp is the carrier's exponential; the constant 1e308 is an argument |
| `Model/LgbTree.v` | sklearn/lightgbm model.go (Tree.Predict, PredictSingle), loader.go (finalizeTree, JSON dump and reload), predictor.go (predictTree, predictSingleSample), leaves_tree.go, leaves_loader.go, leaves_predictor.go, json_loader.go | parsing of the text is not modelled: functions start from the parsed key/value arrays or JSON nodes; SaveToText is in LgbText.v, feature importance in LgbLeaf.v; int32 overflow of indices not modelled; int conversions are arguments |
| `Model/Linear.v` | linear/regression.go (Fit, Predict, Score, accessors), sklearn/linear_model/linear_regression.go (Fit, Predict, Score) | matrix inversion and QR solving are arguments; logging, the parallel loop of Predict (distinct slots), String |
| `Model/Log.v` | pkg/log/logger.go (levels, providers, loggers, With, Enabled, the fields of an entry) and the levels of pkg/log/interface.go | zerolog itself (contract in the file), the text of values, timestamp and caller; GlobalLogger (LogError is in ErrLog.v) |
| `Model/Logistic.v` | sklearn/linear_model/logistic.go: Fit with both solvers, Func and Grad given to the optimizer, gradient descent, Predict, PredictProba, Score; gonum's optimize.Minimize, the draws of crypto/rand, the order of the label set, int(float64) and -MaxFloat64 are arguments | Verbose, GetParams/SetParams, the option functions, the formula of cryptoNormalFloat64 |
| `Model/Memory.v` | performance/memory_optimizer.go: MatrixPool, PooledMatrix, ZeroCopyMatrix, MemoryEfficientBatch, OptimizeDataLayout, AlignedAlloc | GCOptimizer (GcOpt.v), GetStats, overflow of the pool's counters, alignments of zero or less |
| `Model/Metrics.v` | metrics/classification.go, ranking.go, regression.go (vector versions) | the *Matrix wrappers are in MetricsMat.v; sort = any sorted permutation |
| `Model/MetricsMat.v` | metrics/regression.go MSEMatrix, metrics/classification.go AUCMatrix, metrics/ranking.go NDCGMatrix | the texts of the errors |
| `Model/NaiveBayes.v` | sklearn/naive_bayes/multinomial_nb.go | int(float) conversion is an argument; FitStream/PredictStream are in Stream.v |
| `Model/NodeHist.v` | sklearn/lightgbm/trainer.go: buildHistograms, findOptimalBinBoundaries, findQuantileBinBoundaries, findBinIndex, kahanAdd, buildNodeHistogram, subtractHistogram, findBestSplitForFeatureWithHistogram | the parallel driver findBestSplitWithHistogram, which no training path calls |
| `Model/Numerical.v` | pkg/errors/numerical.go, pkg/errors/recovery.go | error texts and stack traces reduced to kinds |
| `Model/OneHot.v` | preprocessing/encoder.go | strings are byte strings; map iteration = arbitrary permutation |
| `Model/Parallel.v` | core/parallel/parallel.go; predictor.go worker pool | goroutines = interleavings of atomic slot writes |
| `Model/ParamMap.v` | sklearn/lightgbm/parameter_mapping.go lines 9-350: the mapping table, defaults, MapPythonToGo, MapGoToPython, GetDefault, ApplyDefaults, ValidateObjective, ValidateBoostingType, toSnakeCase; GetParams and SetParams of lgbm_regressor.go (537-662) and lgbm_classifier.go (656-737). Range loops over maps visit an arbitrary permutation | non-ASCII letters in strings.ToLower; values of other dynamic types are one constructor |
| `Model/PassiveAgg.v` | sklearn/linear_model/passive_aggressive.go: both estimators (Fit, PartialFit, updateWeights, Predict, class extraction) | averaging (cannot be switched on), options nothing reads, GetParams/SetParams, logging; int(float) is an argument |
| `Model/Paths.v` | the paths opened by sklearn/lightgbm/loader.go LoadFromFile and LoadFromJSONFile, leaves_loader.go LoadLeavesModelFromFile, json_loader.go LoadJSONModelFromFile, IsJSONModel, LoadModelAutoDetect | symbolic links, other systems than Unix, what is in the files (LgbText.v, LgbTree.v), a file that changes between two readings |
| `Model/Persist.v` | core/model/persistence.go (SaveModel, LoadModel) and the effect of encoding/gob on the fields of linear.LinearRegression | the byte format of gob (an encode/decode pair under a stated contract); models whose State is nil; partial writes reported as errors by the disk |
| `Model/Pipeline.v` | sklearn/pipeline/pipeline.go | estimators are arbitrary state machines; logging not modelled |
| `Model/Scaler.v` | preprocessing/scaler.go: StandardScaler and MinMaxScaler | printing (String) not modelled |
| `Model/Sgd.v` | sklearn/linear_model/sgd_regressor.go and sgd_classifier.go: Fit, PartialFit, updateWeights, learning rates, convergence check, Predict, PredictProba, GetLoss | averaging (cannot be switched on), warnings and printing, GetParams/SetParams, DecisionFunction, GetBestLoss; math.Pow, the random generator and int(float) are arguments |
| `Model/Shap.v` | sklearn/lightgbm/shap.go: CalculateSHAP, calculateBaseValue, getTreeBaseline, collectLeafValues, calculateSampleSHAP, simpleTreeShap, getTreePath; the order of the map of counts and int(float64) are arguments | InteractionSHAP (ShapInter.v), the summaries and rankings of feature importance |
| `Model/ShapInter.v` | sklearn/lightgbm/shap.go InteractionSHAP: CalculateInteractions, calculateSampleInteractions, calculatePairwiseInteraction, treeUsesFeatures, checkSubtreeFeatures, treeInteractionContribution, getNodeValue | int(v) is an argument |
| `Model/SkJson.v` | core/model/sklearn_import.go, linear/regression.go LoadFromSKLearn*/ExportToSKLearn* | JSON text is taken as parsed trees; the reading of numbers as integers is part of the tree; files and writers |
| `Model/StateManager.v` | core/model/state_manager.go | WithState/WithStateMut callbacks are in Callbacks.v |
| `Model/Stream.v` | sklearn/linear_model/sgd_regressor.go FitStream, PredictStream, FitPredictStream and the same methods of the other estimators, as state machines | channels are queues; the buffer size is not modelled (a send may always happen); logging of a failed update |
| `Model/Streaming.v` | performance/large_scale.go StreamingPipeline: Run, updateMetrics, GetMetrics (a copy under the lock); channels and goroutines as steps | stages are of the kind: receive one element, send a list; a negative buffer size (make panics) |
| `Model/Tensor.v` | core/tensor/tensor.go: all operations | aliasing of the caller's shape slice; gonum's Dense is a window of a buffer |
| `Model/TestLog.v` | pkg/log/testing.go TestLogger, TestLoggerProvider.SetLevel | ContainsMessage, the text of the buffer, values other than strings, ints, floats, booleans, nil and errors, concurrent use |
| `Model/TrainerCallbacks.v` | sklearn/lightgbm/callbacks.go TimeLimit, PrintEvaluation; trainer.go Fit and WithCallbacks with callbacks kept between calls | the text printed; the trees themselves (any way of growing the next one) |
| `Model/Tree.v` | sklearn/tree/tree.go | int(float), Log2 and sort.Slice are arguments; export/print functions not modelled |
| `Model/Weights.v` | core/model/weights.go, core/model/base.go:53-68,210-309, sklearn/linear_model/linear_regression.go:272-418 | the SHA-256 sum of the coefficients is an argument; loggers; GetWeightHash |

## Code that is not modelled

The demo, benchmark and command-line programs (examples/, benchmarks/, cmd/, sklearn/debug/, tests/), the SVG/print helpers, and every Go file or function not named in the table above. gonum, encoding/json, encoding/gob, math, sort, os and sync are not modelled as code; their contracts appear as stated in the trusted base or as theorem hypotheses.

## Assumptions per theorem

As printed by `Print Assumptions` (grouped by result).

* **none** (closed under the global context): C137_quiet, C137_callback_list, C137_reset, C137_nil, C137_recorded, C137_should_stop, C137_before_ignored, C137_printed, C137_again, C137_twice, C137_early_error_refuted, C137_before_refuted, C137_reset_refuted, C137_printed_refuted, C137_recorded_refuted, C125_quiet_no_deadlock, C125_exclusive, C125_mut_callback_never_returns, C125_mut_callback_blocks_all, C125_read_callback_writing_never_returns, C125_nested_reads, C125_nested_read_refuted, C126_exactly_once, C126_one_at_a_time, C126_no_deadlock, C126_handler_reenters, C135_every, C135_improved, C135_period_one, C135_zero, C135_unsaved, C139_all_called, C139_once, C139_contents, C139_last, C139_result, C139_errors_fit, C139_progress, C139_bounded, C139_placeholder, C139_overwritten, C139_chunks_refuted, C139_leak, C139_ends_refuted, C35_partition, C35_unshuffled, C35_constructor, C35_extraction, C35_empty_fold, C35_cross_validate_crashes, C36_stratified, C36_sizes, C36_balanced_sizes_refuted, C62_best_fold, C62_nan_first_fold, C52_open, C52_read, C52_write, C52_stored, C52_round_trip, C52_iterate, C52_cover, C52_nonpositive, C52_write_overflow_refuted, C52_open_overflow_refuted, C88_chunks, C88_nothing_read_refuted, C22_suffix, C37_tracks, C37_update_answer, C37_disabled, C37_fit, C37_fit_plain, C63_improving_run_cut, C38_patience_one, C38_half_patience, C38_improving, C38_other_metric, C38_history_doubled, C64_no_effect, C39_never_returns, C39_short_runs, C39_rounds_ignored, C49_bundles, C49_mapping, C49_unbundled_columns, C49_dense, C143_share, C144_found, C144_model_found, C144_is, C144_text, C144_nil, C144_assertion, C144_panic, C144_panic_set, C144_nested, C144_panic_value_refuted, C144_panic_found_refuted, C147_written, C147_details, C147_constructors, C147_warnings, C147_details_refuted, C147_setup_refuted, C133_logistic_set, C133_logistic_copy, C133_logistic_fails, C133_order_refuted, C133_linear_set, C133_linear_copy, C133_scaler_set, C133_scaler_refuted, C133_pipeline_get, C133_pipeline_own, C133_pipeline_set, C133_nested_refuted, C133_names_refuted, C109_constructor, C109_confusion, C109_accuracy, C109_class, C109_two, C109_report, C109_refused, C110_stray_label, C111_same_metrics, C111_entries, C146_scale_refuted, C132_spaced, C132_forces, C132_goroutines, C132_no_restart, C132_stopped, C132_ends, C132_goes_on, C132_stop_refuted, C31_predict, C31_transform, C31_fit, C32_partial_fit_after_fit_panics, C65_failed_fit, C65_failed_partial_fit, C118_set_get, C118_read_only, C118_bad_label, C118_subset, C118_subset_subset, C118_new_complete, C118_valid_sets, C118_refused_label_refuted, C118_weights_refuted, C119_trained, C119_rounds, C119_no_rounds, C119_ignored, C119_parameters, C119_settings, C119_panics, C119_wrong_width, C119_trees, C119_first_column, C119_rounds_refuted, C120_objective, C120_iterations, C120_shared_map, C120_no_label, C120_one_hot, C120_small_binary_refuted, C117_answers, C117_reported, C117_options_ignored, C117_recorded, C117_importance_frozen, C117_loaded_importance, C117_resaved, C117_names_shared, C117_keys, C117_keys_refuted, C117_num_iteration_refuted, C117_set_model_refuted, C117_clone_refuted, C117_loaded_counts_refuted, C117_importance_refuted, C136_parameters, C136_unscaled, C136_classifier, C136_new_classifier, C136_endless, C134_scores, C134_values_lost, C106_fit, C106_two, C106_many, C106_failed_fit, C106_one_class_refit, C106_width, C106_settings, C106_reload, C106_load_text_panics, C106_load_regression, C106_score_rows, C108_fit, C108_failed_fit, C108_settings, C108_width, C108_weighted_nil, C108_unit_weights, C108_quantile_nan, C108_more_targets, C108_fewer_targets, C108_load, C106_decision, C44_bin_search, C44_search_ends, C44_bins_are_sums, C79_quicksort, C80_best_cut, C80_best_categories, C80_best_feature, C115_leaf_of_prediction, C115_index_of_prediction, C115_score_of_leaves, C115_same_leaves, C115_same_numbers, C115_trained, C115_close_refuted, C115_category_refuted, C115_loaded_refuted, C116_out_of_range, C116_any_number, C51_result, C51_progress, C51_ends, C51_nan_never_ends, C51_two_nans, C122_task, C122_result, C122_silent, C122_hidden, C122_one_class, C122_proba, C123_best, C123_silent, C124_folds, C124_few, C122_small_classes_refuted, C121_tree, C121_same_leaf, C121_text, C121_constant, C121_scores, C121_columns, C121_rows, C121_plain, C112_text, C112_all_zero, C112_trained, C113_panics, C113_trained, C114_header, C114_names, C112_text_refuted, C112_again_refuted, C113_panics_refuted, C113_constant_refuted, C114_names_refuted, C114_line_refuted, C50_dart, C85_rows, C48_depth, C48_leaves, C81_prediction, C82_depth_limit, C82_all_left, C82_few_rows, C83_scores, C83_multiclass_ignored, C127_refused, C127_names, C127_loss, C128_continues, C128_more_rows, C128_other_targets, C129_ignored, C41_compact_layout, C41_loading_ends, C42_json_layout, C42_chain_trees, C43_trees, C74_leaves_predictor, C74_predictor, C75_categorical_goes_right, C77_batch_is_single, C77_classes, C78_leaf_values_lost, C26_outcome, C26_unfitted, C93_few_rows_refuted, C27_failed_fit, C27_predict, C27_sk_predict, C27_history_refuted, C140_set_level, C140_named_levels, C140_setup, C140_setup_names, C140_other_names, C140_provider, C140_unconfigured, C140_old_loggers, C140_enabled, C140_enabled_after_set, C140_with, C140_fields, C140_error_first, C140_component, C140_set_level_refuted, C140_with_refuted, C140_enabled_refuted, C140_error_key_refuted, C104_fit, C104_columns, C104_narrow, C104_single, C104_score_unfitted, C105_classes, C105_ignored, C105_names, C105_iterations, C105_gd_succeeds, C105_deterministic, C105_failed, C105_rejected, C105_warm, C105_C_zero, C53_limit, C53_bounds, C53_granted, C53_outstanding, C53_overflow_refuted, C53_negative_refuted, C53_limit_refuted, C54_layout, C54_back, C54_tail_lost_refuted, C54_at, C54_set, C54_made, C54_overflow_refuted, C89_exclusive, C89_get, C89_set, C89_release_twice, C89_double_release_refuted, C89_race_refuted, C89_to_mat, C89_to_mat_refuted, C90_aligned, C90_unaligned_refuted, C90_empty_refuted, C142_mse, C142_mse_columns, C142_nil, C142_first_columns, C142_vectors, C08_auc_rejects, C10_error_counts, C10_rejects, C11_rejects, C13_k, C14_map_error, C28_batches, C28_fit_is_batches, C28_classes, C30_failed_fit, C30_failed_partial_fit, C30_partial_fit_fails, C148_unknown_feature, C148_negative, C04_matrix_report, C06_no_panic_escapes, C06_safe_execute, C06_deferred_recover, C06_nested, C17_encoding, C17_block, C17_order_independent, C17_decodable, C18_ragged, C03_one_hot, C61_default_names_distinct, C61_custom_names_distinct_refuted, C01_ranges_partition, C01_threshold_partition, C01_schedule_independent, C01_terminates, C40_parallel_eq_sequential, C60_order, C60_values, C60_round_trip, C60_documented, C60_defaults, C60_defaults_mapped, C60_alias_overridden, C60_get_default, C60_get_default_unlisted, C60_order_refuted, C60_defaults_refuted, C60_documented_refuted, C60_field_refuted, C102_get, C102_set, C102_copy, C102_objective, C102_objective_names, C102_boosting_names, C102_classifier, C102_classifier_refuted, C102_types_refuted, C102_constructor, C56_unknown, C97_partial_fit, C97_batches, C97_fit, C97_never_converged, C97_warm_width, C97_class_batches, C97_classes_fixed, C97_class_member, C97_later_labels_refuted, C145_same_file, C145_clean_once, C145_text, C145_json, C145_below, C145_auto, C145_dot_refuted, C145_dots_refuted, C145_traversal_refuted, C145_missing_refuted, C24_file, C24_load, C24_save, C24_atomic_refuted, C95_fresh, C95_used, C95_unfitted, C95_used_refuted, C19_fit, C19_predict, C19_transform, C19_first_failure, C19_final_failure, C19_predict_failure, C19_composition, C19_inverse_undoes, C20_fit_excludes_transform, C20_fit_transform_excludes_fit, C20_fit_transform_then_transform, C20_fitted_forever, C03_standard_scaler, C03_minmax_scaler, C100_unknown_label, C101_partial_fit, C101_class_partial_fit, C130_shape, C59_order, C25_accepts, C25_rejects, C25_round_trip, C25_inconsistent_refuted, C25_not_finite, C25_unfitted, C02_linearizable, C02_no_deadlock, C55_stream, C55_terminates, C55_cancel_refuted, C96_predict_stream, C96_test_then_train, C96_blocked, C96_positions_refuted, C131_order, C131_progress, C131_terminates, C131_metrics, C131_ahead, C131_totals, C131_bytes_refuted, C57_new, C57_new_errors, C57_filled, C57_reshape, C57_reshape_other, C57_reshape_negative_refuted, C57_reshape_overflow_refuted, C57_slice, C57_set, C57_copy, C57_transpose_refuted, C57_overflow_refuted, C141_entries, C141_contains, C141_contains_int, C141_lost, C141_with_lost, C141_with, C141_contains_refuted, C141_recorded_refuted, C141_error_first_refuted, C141_message_refuted, C138_prefix, C138_stopped_for_good, C138_library_keeps, C138_time_limit, C138_time_left, C138_printed, C138_print_zero, C138_new_list, C138_calm, C138_second_fit_refuted, C33_terminates, C33_growth, C33_depth_leaves, C34_routing, C34_predict, C34_proba, C70_width_unchecked, C71_set_params, C72_ignored_options, C23_clone_equal, C23_clone_independent, C23_params_copy, C23_base_clone, C23_base_import, C23_base_round_trip, C23_base_export_invalid, C23_validate, C23_json_round_trip, C23_memory_round_trip, C23_clone_unusable, C23_import_rejects, C23_checksum, C23_deep_refuted, C23_params_shared_refuted, C23_round_trip_refuted, C23_rejected_import_refuted, C23_unvalidated_refuted.
* `ClassicalDedekindReals.sig_forall_dec`, `FunctionalExtensionality.functional_extensionality_dep`: C87_histogram, C85_underweighted.
* `ClassicalDedekindReals.sig_forall_dec`, `ClassicalDedekindReals.sig_not_dec`, `Classical_Prop.classic`, `FunctionalExtensionality.functional_extensionality_dep`: C137_twice_float, C135_stale_refuted, C135_nan_refuted, C62_auc_reports_worst_fold, C62_summary, C21_update, C21_statistics, C21_no_early_alarm, C21_drift_resets, C21_minimum_decreases, C21_drift_implies_warning, C21_first_error_is_drift, C22_refines, C37_minimum, C49_round_trip, C49_created_round_trip, C49_value, C49_range_refuted, C49_rounding_refuted, C49_conflict_refuted, C49_dense_refuted, C49_memory_refuted, C143_sparse_column, C143_all_sparse, C143_worthwhile_refuted, C143_not_worthwhile_refuted, C109_totals, C109_weighted_recall, C109_means, C109_f1_bound, C109_f1_class, C110_auc, C110_auc_value, C110_log_loss, C111_mape, C111_success, C111_values, C109_f1_macro_refuted, C110_nan_refuted, C111_constant_refuted, C146_unweighted, C146_weighted, C146_ones, C146_zero, C146_last_zero, C146_columns, C146_weights_refuted, C31_means, C31_more_runs, C32_running_means, C32_stale_counts, C66_nan_fit, C119_third_class, C119_all_correct, C87_rows, C87_best_subset, C87_regularised_refuted, C136_regressor, C136_accuracy, C136_rate_refuted, C136_poisson_refuted, C136_quantile_refuted, C136_classes_refuted, C136_categorical_refuted, C136_endless_refuted, C134_cycle_refuted, C134_initial_refuted, C134_categorical_refuted, C106_two_scores, C106_many_scores, C106_labels_known, C107_multiclass_is_binary, C107_reach, C107_large_labels, C107_small_labels, C108_quantiles, C108_quantile_order, C106_decision_refuted, C107_labels_refuted, C106_nan_refuted, C106_one_class_refuted, C106_reload_refuted, C108_quantiles_refuted, C44_mass, C44_subtraction, C44_boundaries, C44_one_value_per_bin, C44_large_values_refuted, C44_missing_refuted, C44_subtraction_refuted, C79_boundaries, C79_same_bins, C79_differences_refuted, C80_best_threshold, C80_any_binning, C80_min_data_refuted, C115_same_numbers_apart, C115_nan_refuted, C116_split, C116_gain, C116_unused, C116_nonnegative, C116_other_type, C51_sequential, C51_ends_R, C51_nan_refuted, C46_l2, C46_huber, C46_fair, C46_poisson, C46_poisson_refuted, C46_gamma, C46_tweedie, C46_l1, C46_quantile, C46_binary, C46_binary_refuted, C46_hessian_positive, C46_multiclass, C46_adapter_refuted, C46_l1_refuted, C47_minimisers, C47_initial, C47_refuted, C86_l2, C86_l1, C86_poisson, C86_binary, C86_gamma, C86_tweedie, C86_tweedie_refuted, C86_huber_refuted, C86_fair_refuted, C124_training_score, C123_model_refuted, C121_binary, C121_classes, C121_shrunk_twice_refuted, C121_missing_refuted, C121_categories_refuted, C112_binary, C112_reader, C113_constant, C45_optimal, C45_gain, C50_features, C50_rows, C50_every_selection, C85_underweighted_refuted, C48_leaves_refuted, C81_categorical_nan_refuted, C82_few_values, C82_default_refuted, C82_capped_refuted, C83_predictor, C83_model_refuted, C84_round, C84_training, C84_rate_refuted, C127_sample_weights, C127_balanced, C127_names_refuted, C128_refit_refuted, C129_increasing_refuted, C58_leaves_softmax, C58_softmax_probabilities, C58_stable_softmax, C58_logistic, C58_leaves_sigmoid, C58_stable_sigmoid, C58_polynomial_exponential_refuted, C42_misrouted_refuted, C43_model, C43_initial_score_refuted, C73_trees_ignored, C74_predictors_disagree_refuted, C76_leaves_runs_forever_refuted, C76_predictor_runs_forever_refuted, C77_batch_differs_refuted, C26_optimal, C26_unique, C91_underdetermined, C92_training, C94_target, C94_rows, C26_predict, C26_affine, C92_at_most_one, C92_constant, C92_constant_refuted, C93_optimal, C93_nonnegative, C93_positive_refuted, C104_float_binary, C104_float_multi, C104_float_infinite_refuted, C103_func, C103_grad, C103_minimum, C103_fit, C103_clamp_refuted, C104_binary, C104_multi, C104_label, C104_nan, C104_score, C104_score_fractional, C105_step, C105_chance_refuted, C105_C_zero_refuted, C10_float, C10_float_refuted, C11_float_sign, C11_float_finite, C12_float, C12_float_perfect, C11_float_zero_refuted, C12_float_constant_refuted, C142_probabilities, C142_probabilities_refuted, C08_auc_mann_whitney, C08_auc_one_class, C09_auc_range, C09_auc_negated_scores, C09_auc_monotone_invariant, C10_complementary, C11_mse, C11_rmse, C11_mae, C11_mae_le_rmse, C12_r2, C12_values, C12_mean_prediction, C12_constant_target, C13_value, C13_range, C13_ideal_ranking, C13_no_relevant, C14_value, C14_range, C14_perfect_iff_separated, C14_ties_order_independent_refuted, C14_map_is_mean, C28_counts, C28_row_order, C29_conditional, C29_posterior, C29_distribution, C29_predict, C148_bins, C148_node, C148_subtraction, C148_split, C148_missing_refuted, C148_no_row_lost, C148_infinite_refuted, C148_neighbours_refuted, C148_compensation_refuted, C04_stability_iff_finite, C04_scalar_iff_finite, C04_matrix_iff_finite, C05_clip_value_in_range, C05_clip_value_identity, C05_clip_value_nan, C05_clip_gradient_norm, C05_clip_gradient_identity, C05_clip_gradient_direction, C07_log_sum_exp, C07_bounds, C07_exp_arguments_nonpositive, C07_shift, C56_passive, C56_step, C56_towards, C56_overshoot, C56_overshoot_refuted, C56_optimal, C56_losses, C56_class_step, C97_class_best, C95_restores, C19_scalers_roundtrip, C20_equivalence_refuted, C20_failed_refit_mixes_refuted, C15_float_order, C15_float_constant_refuted, C16_unit_float, C16_upper_end_refuted, C16_overflow_refuted, C16_inverse_refuted, C15_standardised, C15_inverse, C15_without_mean, C15_without_mean_unit_variance_refuted, C16_range, C16_inverse, C98_loss_slopes, C98_loss_values, C98_penalty, C98_update, C98_bounded, C98_residual, C98_intercept_unbounded, C99_rollback, C99_predict, C99_partial_fit, C99_fit, C99_diverged_refuted, C99_refit_refuted, C100_loss_values, C100_slopes, C100_log_slope, C100_log_slope_refuted, C100_update, C100_proba, C100_proba_overflow_refuted, C101_fit, C101_class_fit, C101_warm_refuted, C130_values, C130_rows, C130_additive_refuted, C130_narrow_refuted, C59_values, C59_sum, C59_unused, C59_prediction, C59_additive, C59_gap, C59_additive_refuted, C59_repeated_refuted, C59_base_refuted, C59_missing_refuted, C58_leaves_softmax_float, C58_apply_softmax_float, C58_stable_softmax_float, C58_sigmoids_float, C58_float_sum_refuted, C58_float_infinite_refuted, C34_proba_sums, C67_best_splits, C69_importances, C71_refused_call_changes_refuted, C72_max_leaf_nodes_refuted, C33_zero_min_leaf_refuted, C68_consistent_data_refuted, C70_wrong_width_accepted_refuted.
