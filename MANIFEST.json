{
 "claims": [
  {
   "property": "C01",
   "status": "proved",
   "theorems": [
    "C01_ranges_partition",
    "C01_threshold_partition",
    "C01_schedule_independent",
    "C01_terminates"
   ],
   "note": "Chunk ranges of Parallelize/ParallelizeWithThreshold partition the items for every item and worker count; any interleaving of slot-writing workers ends in the sequential result. Data races inside a worker body are outside the model."
  },
  {
   "property": "C02",
   "status": "proved",
   "theorems": [
    "C02_linearizable",
    "C02_no_deadlock"
   ],
   "note": "Every history of any number of goroutines calling the locked methods is a history of the atomic object; no deadlock. WithState/WithStateMut (caller code under the lock) are not part of this model."
  },
  {
   "property": "C03",
   "status": "proved",
   "theorems": [
    "C03_one_hot",
    "C03_standard_scaler",
    "C03_minmax_scaler"
   ],
   "note": "StandardScaler, MinMaxScaler and OneHotEncoder over all call histories, any arithmetic; wrong column count is a dimension error, a zero-row matrix a recovered panic. Other estimators: see C27, C30 and the claims of their packages."
  },
  {
   "property": "C04",
   "status": "proved",
   "theorems": [
    "C04_stability_iff_finite",
    "C04_scalar_iff_finite",
    "C04_matrix_iff_finite",
    "C04_matrix_report"
   ],
   "note": "Flocq binary64; exact for every list, scalar and matrix."
  },
  {
   "property": "C05",
   "status": "proved",
   "theorems": [
    "C05_clip_value_in_range",
    "C05_clip_value_identity",
    "C05_clip_value_nan",
    "C05_clip_gradient_norm",
    "C05_clip_gradient_identity",
    "C05_clip_gradient_direction"
   ],
   "note": "ClipValue over binary64 (incl. NaN behaviour); ClipGradient over the reals (rounding not covered)."
  },
  {
   "property": "C06",
   "status": "proved",
   "theorems": [
    "C06_no_panic_escapes",
    "C06_safe_execute",
    "C06_deferred_recover",
    "C06_nested"
   ],
   "note": "Deferred-recover semantics on outcomes, arbitrary nesting."
  },
  {
   "property": "C07",
   "status": "proved",
   "theorems": [
    "C07_log_sum_exp",
    "C07_bounds",
    "C07_exp_arguments_nonpositive",
    "C07_shift"
   ],
   "note": "Over the reals; also shows that every exponential is taken at a non-positive argument, so none overflows."
  },
  {
   "property": "C08",
   "status": "proved",
   "theorems": [
    "C08_auc_mann_whitney",
    "C08_auc_one_class",
    "C08_auc_rejects"
   ],
   "note": "Exact arithmetic over the reals (float64 rounding not covered); holds for every sort result allowed by sort.Slice. Rejection of bad inputs holds for every arithmetic."
  },
  {
   "property": "C09",
   "status": "proved",
   "theorems": [
    "C09_auc_range",
    "C09_auc_negated_scores",
    "C09_auc_monotone_invariant"
   ],
   "note": "Exact arithmetic over the reals."
  },
  {
   "property": "C10",
   "status": "proved",
   "theorems": [
    "C10_float",
    "C10_float_refuted",
    "C10_error_counts",
    "C10_rejects",
    "C10_complementary"
   ],
   "note": "Counting characterisation for every arithmetic including doubles; complement and range over the reals; C10_float in binary64 with rounding."
  },
  {
   "property": "C11",
   "status": "proved",
   "theorems": [
    "C11_float_sign",
    "C11_float_finite",
    "C11_float_zero_refuted",
    "C11_mse",
    "C11_rmse",
    "C11_mae",
    "C11_mae_le_rmse",
    "C11_rejects"
   ],
   "note": "C11_mse, _rmse, _mae, _mae_le_rmse in exact arithmetic; argument checks for every arithmetic; C11_float_* in binary64 with rounding, for all doubles."
  },
  {
   "property": "C12",
   "status": "proved",
   "theorems": [
    "C12_float",
    "C12_float_perfect",
    "C12_float_constant_refuted",
    "C12_r2",
    "C12_values",
    "C12_mean_prediction",
    "C12_constant_target"
   ],
   "note": "C12_r2, _values, _mean_prediction, _constant_target in exact arithmetic (a constant target is an error); C12_float and C12_float_perfect in binary64; C12_float_constant_refuted shows a constant target that is not recognised."
  },
  {
   "property": "C13",
   "status": "proved",
   "theorems": [
    "C13_value",
    "C13_range",
    "C13_ideal_ranking",
    "C13_no_relevant",
    "C13_k"
   ],
   "note": "Exact arithmetic over the reals, log2 taken as ln x / ln 2; treatment of k and negative relevances for every arithmetic."
  },
  {
   "property": "C14",
   "status": "proved",
   "theorems": [
    "C14_value",
    "C14_range",
    "C14_perfect_iff_separated",
    "C14_ties_order_independent_refuted",
    "C14_map_is_mean",
    "C14_map_error"
   ],
   "note": "Exact arithmetic over the reals; order dependence under ties shown by a witness."
  },
  {
   "property": "C15",
   "status": "proved",
   "theorems": [
    "C15_float_order",
    "C15_float_constant_refuted",
    "C15_standardised",
    "C15_inverse",
    "C15_without_mean",
    "C15_without_mean_unit_variance_refuted"
   ],
   "note": "Exact arithmetic over the reals for C15_standardised, _inverse and _without_mean; C15_float_order in binary64. Without centring the divisor is the root mean square, so the documented unit variance fails (witness); C15_float_constant_refuted is the constant column that becomes -1."
  },
  {
   "property": "C16",
   "status": "proved",
   "theorems": [
    "C16_unit_float",
    "C16_upper_end_refuted",
    "C16_overflow_refuted",
    "C16_inverse_refuted",
    "C16_range",
    "C16_inverse"
   ],
   "note": "C16_range and C16_inverse in exact arithmetic; C16_unit_float in binary64 for the range [0, 1] with rounding (Flocq), the _refuted theorems for other ranges, overflowing spreads and the inverse. A column whose range is below 1e-8 stays in range but need not reach the upper end."
  },
  {
   "property": "C17",
   "status": "proved",
   "theorems": [
    "C17_encoding",
    "C17_block",
    "C17_order_independent",
    "C17_decodable"
   ],
   "note": "All tables, all map iteration orders, any implementation of sort.Strings."
  },
  {
   "property": "C18",
   "status": "proved",
   "theorems": [
    "C18_ragged"
   ],
   "note": "Complete case analysis of the first row's width and the other rows' widths."
  },
  {
   "property": "C19",
   "status": "proved",
   "theorems": [
    "C19_fit",
    "C19_predict",
    "C19_transform",
    "C19_first_failure",
    "C19_final_failure",
    "C19_predict_failure",
    "C19_composition",
    "C19_inverse_undoes",
    "C19_scalers_roundtrip"
   ],
   "note": "Pipeline over arbitrary step state machines acting on an arbitrary shared world; success, first-failure and composition theorems, and the StandardScaler+MinMaxScaler round trip over the reals."
  },
  {
   "property": "C20",
   "status": "proved",
   "theorems": [
    "C20_fit_excludes_transform",
    "C20_fit_transform_excludes_fit",
    "C20_equivalence_refuted",
    "C20_fit_transform_then_transform",
    "C20_fitted_forever",
    "C20_failed_refit_mixes_refuted"
   ],
   "note": "The documented equivalence is refuted (Fit and Transform/FitTransform exclude each other on every non-empty pipeline); FitTransform-then-Transform consistency proved for steps owning their state; fitted flag characterised over all histories; mixed state after a failed re-fit exhibited."
  },
  {
   "property": "C21",
   "status": "proved",
   "theorems": [
    "C21_update",
    "C21_statistics",
    "C21_no_early_alarm",
    "C21_drift_resets",
    "C21_minimum_decreases",
    "C21_drift_implies_warning",
    "C21_first_error_is_drift"
   ],
   "note": "DDM as a transition system over R with reachable states indexed by the outcome history; the +Inf reference is modelled by None. Ints unbounded."
  },
  {
   "property": "C22",
   "status": "proved",
   "theorems": [
    "C22_suffix",
    "C22_refines"
   ],
   "note": "Suffix/width/bound for any arithmetic; full refinement of a plain-window machine in exact arithmetic."
  },
  {
   "property": "C23",
   "status": "proved",
   "theorems": [
    "C23_clone_equal",
    "C23_clone_independent",
    "C23_params_copy",
    "C23_base_clone",
    "C23_base_import",
    "C23_base_round_trip",
    "C23_base_export_invalid",
    "C23_validate",
    "C23_json_round_trip",
    "C23_memory_round_trip",
    "C23_clone_unusable",
    "C23_import_rejects",
    "C23_checksum",
    "C23_deep_refuted",
    "C23_params_shared_refuted",
    "C23_round_trip_refuted",
    "C23_rejected_import_refuted",
    "C23_unvalidated_refuted"
   ],
   "note": "Proved for clones and for every later write sequence; export/import characterised completely. The parts of the English claim that fail (nested slices shared, n_jobs lost via JSON, feature count lost in memory so that Clone cannot predict, rejected checksum after overwriting, no validation) have _refuted witnesses. The SHA-256 sum is an arbitrary function."
  },
  {
   "property": "C24",
   "status": "proved",
   "theorems": [
    "C24_file",
    "C24_load",
    "C24_save",
    "C24_atomic_refuted"
   ],
   "note": "gob's contract (decodes its own output, refuses strict prefixes) is a hypothesis, met by an example codec. os.Create empties the file when it opens it."
  },
  {
   "property": "C25",
   "status": "proved",
   "theorems": [
    "C25_accepts",
    "C25_rejects",
    "C25_round_trip",
    "C25_inconsistent_refuted",
    "C25_not_finite",
    "C25_unfitted"
   ],
   "note": "JSON documents are parsed trees; each number carries its reading as an integer where Go accepts one."
  },
  {
   "property": "C26",
   "status": "proved",
   "theorems": [
    "C26_outcome",
    "C26_optimal",
    "C26_unique",
    "C26_predict",
    "C26_unfitted",
    "C26_affine"
   ],
   "note": "Over the reals, for any inversion routine that returns inverses; optimal and unique among all coefficient vectors."
  },
  {
   "property": "C27",
   "status": "proved",
   "theorems": [
    "C27_failed_fit",
    "C27_predict",
    "C27_sk_predict",
    "C27_history_refuted"
   ],
   "note": "Failed fits and dimension errors characterised; the dependence on earlier fits has a witness."
  },
  {
   "property": "C28",
   "status": "proved",
   "theorems": [
    "C28_batches",
    "C28_fit_is_batches",
    "C28_classes",
    "C28_counts",
    "C28_row_order"
   ],
   "note": "Batch independence bit for bit in any arithmetic; counts and row order over the reals; any map iteration order."
  },
  {
   "property": "C29",
   "status": "proved",
   "theorems": [
    "C29_conditional",
    "C29_posterior",
    "C29_distribution",
    "C29_predict"
   ],
   "note": "Exact arithmetic; posterior stated through smoothed frequencies and products of powers."
  },
  {
   "property": "C30",
   "status": "proved",
   "theorems": [
    "C30_failed_fit",
    "C30_failed_partial_fit",
    "C30_partial_fit_fails"
   ],
   "note": "Any arithmetic, prior state and invalid input."
  },
  {
   "property": "C31",
   "status": "proved",
   "theorems": [
    "C31_predict",
    "C31_transform",
    "C31_fit",
    "C31_means",
    "C31_more_runs"
   ],
   "note": "Closest-centre rule for R and IEEE doubles including NaN; means and inertia monotonicity over R; arbitrary random generator."
  },
  {
   "property": "C32",
   "status": "proved",
   "theorems": [
    "C32_running_means",
    "C32_partial_fit_after_fit_panics",
    "C32_stale_counts"
   ],
   "note": "Running means over R for any batch sequence; the panic after Fit for any arithmetic."
  },
  {
   "property": "C33",
   "status": "proved",
   "theorems": [
    "C33_terminates",
    "C33_growth",
    "C33_depth_leaves",
    "C33_zero_min_leaf_refuted"
   ],
   "note": "Any arithmetic and any sorting function; min_samples_leaf >= 1 (with 0 Fit can panic: C33_zero_min_leaf_refuted)."
  },
  {
   "property": "C34",
   "status": "proved",
   "theorems": [
    "C34_routing",
    "C34_predict",
    "C34_proba",
    "C34_proba_sums"
   ],
   "note": "Any arithmetic; the sum of the probabilities over R."
  },
  {
   "property": "C35",
   "status": "proved",
   "theorems": [
    "C35_partition",
    "C35_unshuffled",
    "C35_constructor",
    "C35_extraction",
    "C35_empty_fold",
    "C35_cross_validate_crashes"
   ],
   "note": "Any shuffle, any fold count > 0; extraction of rows; empty folds when k > n make CrossValidate panic."
  },
  {
   "property": "C36",
   "status": "proved",
   "theorems": [
    "C36_stratified",
    "C36_sizes",
    "C36_balanced_sizes_refuted"
   ],
   "note": "Any shuffles and class order, labels compared with float ==, for R and IEEE doubles; sizes differ by at most the number of classes; expectation 'sizes differ by at most one' refuted."
  },
  {
   "property": "C37",
   "status": "proved",
   "theorems": [
    "C37_tracks",
    "C37_update_answer",
    "C37_minimum",
    "C37_disabled",
    "C37_fit",
    "C37_fit_plain"
   ],
   "note": "For any arithmetic with the comparison laws (proved for R and IEEE doubles incl. NaN); FitWithValidation characterised for arbitrary boosters."
  },
  {
   "property": "C38",
   "status": "proved",
   "theorems": [
    "C38_patience_one",
    "C38_half_patience",
    "C38_improving",
    "C38_other_metric",
    "C38_history_doubled"
   ],
   "note": "Exact tree counts for the callback, arbitrary boosters and losses."
  },
  {
   "property": "C39",
   "status": "proved",
   "theorems": [
    "C39_never_returns",
    "C39_short_runs",
    "C39_rounds_ignored"
   ],
   "note": "Arbitrary fit result, evaluation function, validation-set keys and map order."
  },
  {
   "property": "C40",
   "status": "proved",
   "theorems": [
    "C40_parallel_eq_sequential"
   ],
   "note": "Predictor chunking reuses the interleaving model: any schedule gives the sequential predictions."
  },
  {
   "property": "C41",
   "status": "proved",
   "theorems": [
    "C41_compact_layout",
    "C41_loading_ends"
   ],
   "note": "Any arithmetic; samples lacking a tested feature panic in both views. C41_loading_ends covers arbitrary documents."
  },
  {
   "property": "C42",
   "status": "proved",
   "theorems": [
    "C42_json_layout",
    "C42_chain_trees",
    "C42_misrouted_refuted"
   ],
   "note": "Full characterisation (right child replaced by the left one where both are inner) plus witness."
  },
  {
   "property": "C43",
   "status": "proved",
   "theorems": [
    "C43_trees",
    "C43_model",
    "C43_initial_score_refuted"
   ],
   "note": "Trees: any arithmetic, up to the sign of zero leaves. Models: reals, equal to the original with initial score 0; witness in binary64."
  },
  {
   "property": "C44",
   "status": "proved",
   "theorems": [
    "C44_bin_search",
    "C44_search_ends",
    "C44_bins_are_sums",
    "C44_mass",
    "C44_subtraction",
    "C44_boundaries",
    "C44_one_value_per_bin",
    "C44_large_values_refuted",
    "C44_missing_refuted",
    "C44_subtraction_refuted"
   ],
   "note": "Search, histogram and counts for any number type with order laws (R and binary64 instances proved); sums, subtraction and boundaries over R; exceptions as binary64 witnesses."
  },
  {
   "property": "C45",
   "status": "proved",
   "theorems": [
    "C45_optimal",
    "C45_gain"
   ],
   "note": "Over R. split_gain is the regulariser's CalculateSplitGain; the split search uses another gain function (C80)."
  },
  {
   "property": "C46",
   "status": "proved",
   "theorems": [
    "C46_l2",
    "C46_huber",
    "C46_fair",
    "C46_poisson",
    "C46_poisson_refuted",
    "C46_gamma",
    "C46_tweedie",
    "C46_l1",
    "C46_quantile",
    "C46_binary",
    "C46_binary_refuted",
    "C46_hessian_positive",
    "C46_multiclass",
    "C46_adapter_refuted",
    "C46_l1_refuted"
   ],
   "note": "Derivatives over R in the sense of derivable_pt_lim; math.Pow specified as Rpower on positive bases. Refuted parts: Poisson above the cap, reported binary loss, adapter, L1 near zero."
  },
  {
   "property": "C47",
   "status": "proved",
   "theorems": [
    "C47_minimisers",
    "C47_initial",
    "C47_refuted"
   ],
   "note": "Full characterisation of the minimisers for every list; math.Floor/Ceil specified."
  },
  {
   "property": "C48",
   "status": "proved",
   "theorems": [
    "C48_depth",
    "C48_leaves",
    "C48_leaves_refuted"
   ],
   "note": "C48_leaves gives the exact bound with the height; C48_leaves_refuted shows the configured limit exceeded."
  },
  {
   "property": "C49",
   "status": "proved",
   "theorems": [
    "C49_bundles",
    "C49_mapping",
    "C49_unbundled_columns",
    "C49_round_trip",
    "C49_created_round_trip",
    "C49_value",
    "C49_dense",
    "C49_range_refuted",
    "C49_rounding_refuted",
    "C49_conflict_refuted",
    "C49_dense_refuted",
    "C49_memory_refuted"
   ],
   "note": "Bundles: any arithmetic and any sort order. Round trip over R; rounding, conflicts, out-of-range values, dense data and the remembered limit are refuted by binary64 witnesses."
  },
  {
   "property": "C50",
   "status": "proved",
   "theorems": [
    "C50_features",
    "C50_rows",
    "C50_every_selection",
    "C50_dart"
   ],
   "note": "Any generator state; int(float64) specified as truncation over R. The goroutine-safety of the generator is not modelled."
  },
  {
   "property": "C51",
   "status": "proved",
   "theorems": [
    "C51_result",
    "C51_sequential",
    "C51_progress",
    "C51_ends",
    "C51_ends_R",
    "C51_nan_never_ends",
    "C51_two_nans",
    "C51_nan_refuted"
   ],
   "note": "Atomic operations interleave arbitrarily. Result and progress hold for any number type; termination for executions without NaN sums (bound on the number of steps of all executions, whatever the scheduler does); two NaN contributions to one bin: no execution ends."
  },
  {
   "property": "C52",
   "status": "proved",
   "theorems": [
    "C52_open",
    "C52_read",
    "C52_write",
    "C52_stored",
    "C52_round_trip",
    "C52_iterate",
    "C52_cover",
    "C52_nonpositive",
    "C52_write_overflow_refuted",
    "C52_open_overflow_refuted"
   ],
   "note": "Byte-level model with 64-bit wrapping; calls are taken one at a time (the RWMutex). C52_stored says what each element type does to a value; conversions are arguments."
  },
  {
   "property": "C53",
   "status": "proved",
   "theorems": [
    "C53_limit",
    "C53_bounds",
    "C53_granted",
    "C53_outstanding",
    "C53_overflow_refuted",
    "C53_negative_refuted",
    "C53_limit_refuted"
   ],
   "note": "Requests in the order of the mutex; overflow cases are refuted by witnesses."
  },
  {
   "property": "C54",
   "status": "proved",
   "theorems": [
    "C54_layout",
    "C54_back",
    "C54_tail_lost_refuted",
    "C54_at",
    "C54_set",
    "C54_made",
    "C54_overflow_refuted"
   ],
   "note": "Element type arbitrary; view theorems for matrices of up to 2^60 entries; addresses modulo 2^64."
  },
  {
   "property": "C55",
   "status": "proved",
   "theorems": [
    "C55_stream",
    "C55_terminates",
    "C55_cancel_refuted"
   ],
   "note": "State machine of the select loop; any update function. The refutation shows that cancelling need not stop the next batch from being used."
  },
  {
   "property": "C56",
   "status": "proved",
   "theorems": [
    "C56_passive",
    "C56_step",
    "C56_towards",
    "C56_overshoot",
    "C56_overshoot_refuted",
    "C56_optimal",
    "C56_losses",
    "C56_class_step",
    "C56_unknown"
   ],
   "note": "Over the reals. The overshoot with intercept is characterised exactly and witnessed; without intercept the step is the minimiser of the passive-aggressive objective."
  },
  {
   "property": "C57",
   "status": "proved",
   "theorems": [
    "C57_new",
    "C57_new_errors",
    "C57_filled",
    "C57_reshape",
    "C57_reshape_other",
    "C57_reshape_negative_refuted",
    "C57_reshape_overflow_refuted",
    "C57_slice",
    "C57_set",
    "C57_copy",
    "C57_transpose_refuted",
    "C57_overflow_refuted"
   ],
   "note": "Heap of buffers, element type arbitrary; overflow, negative shapes and transposition are refuted by witnesses."
  },
  {
   "property": "C58",
   "status": "proved",
   "theorems": [
    "C58_leaves_softmax",
    "C58_softmax_probabilities",
    "C58_stable_softmax",
    "C58_logistic",
    "C58_leaves_sigmoid",
    "C58_stable_sigmoid",
    "C58_polynomial_exponential_refuted",
    "C58_leaves_softmax_float",
    "C58_apply_softmax_float",
    "C58_stable_softmax_float",
    "C58_sigmoids_float",
    "C58_float_sum_refuted",
    "C58_float_infinite_refuted"
   ],
   "note": "Exact arithmetic, and binary64 for every exponential meeting exp_like (in [0,1] on finite arguments up to 0, 1 at both zeros, 0 at -Inf); math.Exp itself is not modelled. The polynomial exponential is refuted for every value of the overflow constant."
  },
  {
   "property": "C59",
   "status": "proved",
   "theorems": [
    "C59_order",
    "C59_values",
    "C59_sum",
    "C59_unused",
    "C59_prediction",
    "C59_additive",
    "C59_gap",
    "C59_additive_refuted",
    "C59_repeated_refuted",
    "C59_base_refuted",
    "C59_missing_refuted"
   ],
   "note": "Full characterisation: what the values are (C59_values), their sum (C59_sum, C59_gap), when they add up to the prediction (C59_additive) and witnesses where they do not. Numeric splits; categorical ones follow the same model without a theorem."
  },
  {
   "property": "C60",
   "status": "proved",
   "theorems": [
    "C60_order",
    "C60_values",
    "C60_round_trip",
    "C60_documented",
    "C60_defaults",
    "C60_defaults_mapped",
    "C60_alias_overridden",
    "C60_get_default",
    "C60_get_default_unlisted",
    "C60_order_refuted",
    "C60_defaults_refuted",
    "C60_documented_refuted",
    "C60_field_refuted"
   ],
   "note": "C60_order is an equivalence: order independence iff no parameter gets two values. C60_order_refuted, C60_defaults_refuted, C60_documented_refuted and C60_field_refuted are the exceptions, with witnesses; C60_alias_overridden shows that every alias of a parameter with a default can lose against it."
  },
  {
   "property": "C61",
   "status": "proved",
   "theorems": [
    "C61_default_names_distinct",
    "C61_custom_names_distinct_refuted"
   ],
   "note": "Default names are distinct; user-supplied names can collide (witness)."
  },
  {
   "property": "C62",
   "status": "proved",
   "theorems": [
    "C62_best_fold",
    "C62_auc_reports_worst_fold",
    "C62_nan_first_fold",
    "C62_summary"
   ],
   "note": "Best fold for R and IEEE doubles; summary over R."
  },
  {
   "property": "C63",
   "status": "proved",
   "theorems": [
    "C63_improving_run_cut"
   ],
   "note": "For R and IEEE doubles."
  },
  {
   "property": "C64",
   "status": "proved",
   "theorems": [
    "C64_no_effect"
   ],
   "note": "Any list of such callbacks."
  },
  {
   "property": "C65",
   "status": "proved",
   "theorems": [
    "C65_failed_fit",
    "C65_failed_partial_fit"
   ],
   "note": "Any arithmetic and prior state."
  },
  {
   "property": "C66",
   "status": "proved",
   "theorems": [
    "C66_nan_fit"
   ],
   "note": "IEEE doubles, arbitrary random generator."
  },
  {
   "property": "C67",
   "status": "proved",
   "theorems": [
    "C67_best_splits"
   ],
   "note": "Exact arithmetic (R)."
  },
  {
   "property": "C68",
   "status": "proved",
   "theorems": [
    "C68_consistent_data_refuted"
   ],
   "note": "The expected statement is refuted by a witness."
  },
  {
   "property": "C69",
   "status": "proved",
   "theorems": [
    "C69_importances"
   ],
   "note": "Exact arithmetic (R)."
  },
  {
   "property": "C70",
   "status": "proved",
   "theorems": [
    "C70_width_unchecked",
    "C70_wrong_width_accepted_refuted"
   ],
   "note": "Any arithmetic."
  },
  {
   "property": "C71",
   "status": "proved",
   "theorems": [
    "C71_set_params",
    "C71_refused_call_changes_refuted"
   ],
   "note": "Any arithmetic; map order = any permutation; partial update after a refused call by witness."
  },
  {
   "property": "C72",
   "status": "proved",
   "theorems": [
    "C72_ignored_options",
    "C72_max_leaf_nodes_refuted"
   ],
   "note": "Any arithmetic; exceeding max_leaf_nodes by witness."
  },
  {
   "property": "C73",
   "status": "proved",
   "theorems": [
    "C73_trees_ignored"
   ],
   "note": "One output (num_class <= 2), reals."
  },
  {
   "property": "C74",
   "status": "proved",
   "theorems": [
    "C74_leaves_predictor",
    "C74_predictor",
    "C74_predictors_disagree_refuted"
   ],
   "note": "Exact expressions for both predictors in any arithmetic, plus a binary64 witness of disagreement."
  },
  {
   "property": "C75",
   "status": "proved",
   "theorems": [
    "C75_categorical_goes_right"
   ],
   "note": "Any arithmetic; the two compact loaders of json_loader.go and leaves_loader.go as in Model/LgbTree.v."
  },
  {
   "property": "C76",
   "status": "proved",
   "theorems": [
    "C76_leaves_runs_forever_refuted",
    "C76_predictor_runs_forever_refuted"
   ],
   "note": "Witnesses in binary64; well-formed documents always end (C41)."
  },
  {
   "property": "C77",
   "status": "proved",
   "theorems": [
    "C77_batch_is_single",
    "C77_batch_differs_refuted",
    "C77_classes"
   ],
   "note": "Any arithmetic for the agreement; the differing model is in binary64."
  },
  {
   "property": "C78",
   "status": "proved",
   "theorems": [
    "C78_leaf_values_lost"
   ],
   "note": "Starts from the parsed arrays of the text format; JSON values are carried over exactly."
  },
  {
   "property": "C79",
   "status": "proved",
   "theorems": [
    "C79_quicksort",
    "C79_boundaries",
    "C79_same_bins",
    "C79_differences_refuted"
   ],
   "note": "Sort for any number type with order laws, boundaries and agreement over R; differences as binary64 witnesses."
  },
  {
   "property": "C80",
   "status": "proved",
   "theorems": [
    "C80_best_cut",
    "C80_best_categories",
    "C80_best_feature",
    "C80_best_threshold",
    "C80_any_binning",
    "C80_min_data_refuted"
   ],
   "note": "Bin-level optimality for any number type with order laws; row-level optimality over R; violation as a binary64 witness."
  },
  {
   "property": "C81",
   "status": "proved",
   "theorems": [
    "C81_prediction",
    "C81_categorical_nan_refuted"
   ],
   "note": "Any number type with the NaN comparison laws (R, binary64). Categorical NaN is refuted by a witness."
  },
  {
   "property": "C82",
   "status": "proved",
   "theorems": [
    "C82_depth_limit",
    "C82_few_values",
    "C82_all_left",
    "C82_few_rows",
    "C82_default_refuted",
    "C82_capped_refuted"
   ],
   "note": "C82_all_left and C82_few_rows are general non-termination theorems; the two refuted theorems are concrete data. Go's recursion overflows the stack."
  },
  {
   "property": "C83",
   "status": "proved",
   "theorems": [
    "C83_scores",
    "C83_predictor",
    "C83_model_refuted",
    "C83_multiclass_ignored"
   ],
   "note": "C83_scores for every number type; the bound over R. Numeric features without NaN."
  },
  {
   "property": "C84",
   "status": "proved",
   "theorems": [
    "C84_round",
    "C84_training",
    "C84_rate_refuted"
   ],
   "note": "Over R; every sort and int(float) function; rate 4 refuted in binary64."
  },
  {
   "property": "C85",
   "status": "proved",
   "theorems": [
    "C85_rows",
    "C85_underweighted",
    "C85_underweighted_refuted"
   ],
   "note": "C85_rows for every number type; other_rate > 0."
  },
  {
   "property": "C86",
   "status": "proved",
   "theorems": [
    "C86_l2",
    "C86_l1",
    "C86_poisson",
    "C86_binary",
    "C86_gamma",
    "C86_tweedie",
    "C86_tweedie_refuted",
    "C86_huber_refuted",
    "C86_fair_refuted"
   ],
   "note": "Against the textbook losses of Spec/LgbObjective.v, which C46 relates to the loss routines."
  },
  {
   "property": "C87",
   "status": "proved",
   "theorems": [
    "C87_histogram",
    "C87_rows",
    "C87_best_subset",
    "C87_regularised_refuted"
   ],
   "note": "Row theorems over the real numbers with int(float) exact on integers and an arbitrary correct sort; the regularised case is refuted by a binary64 witness."
  },
  {
   "property": "C88",
   "status": "proved",
   "theorems": [
    "C88_chunks",
    "C88_nothing_read_refuted"
   ],
   "note": "C88_chunks is about processSequential fed with rows; the shipped scanner delivers none (C88_nothing_read_refuted)."
  },
  {
   "property": "C89",
   "status": "proved",
   "theorems": [
    "C89_exclusive",
    "C89_get",
    "C89_set",
    "C89_release_twice",
    "C89_double_release_refuted",
    "C89_race_refuted",
    "C89_to_mat",
    "C89_to_mat_refuted"
   ],
   "note": "The pool state machine with any number of users; release twice without a Get in between is ignored, with one in between it hands a matrix to two users; concurrent double release too."
  },
  {
   "property": "C90",
   "status": "proved",
   "theorems": [
    "C90_aligned",
    "C90_unaligned_refuted",
    "C90_empty_refuted"
   ],
   "note": "The address is arbitrary."
  },
  {
   "property": "C91",
   "status": "proved",
   "theorems": [
    "C91_underdetermined"
   ],
   "note": "Any routine that only returns true inverses; over the reals."
  },
  {
   "property": "C92",
   "status": "proved",
   "theorems": [
    "C92_training",
    "C92_at_most_one",
    "C92_constant",
    "C92_constant_refuted"
   ],
   "note": "Over the reals; the floating-point exception is computed in binary64 (0.1 three times)."
  },
  {
   "property": "C93",
   "status": "proved",
   "theorems": [
    "C93_optimal",
    "C93_nonnegative",
    "C93_positive_refuted",
    "C93_few_rows_refuted"
   ],
   "note": "The QR solver is an argument assumed to return a solution of the normal equations."
  },
  {
   "property": "C94",
   "status": "proved",
   "theorems": [
    "C94_target",
    "C94_rows"
   ],
   "note": "Over the reals, for successful fits."
  },
  {
   "property": "C95",
   "status": "proved",
   "theorems": [
    "C95_fresh",
    "C95_used",
    "C95_unfitted",
    "C95_restores",
    "C95_used_refuted"
   ],
   "note": "gob's rules (zero fields not sent, only sent fields written, panic of VecDense.UnmarshalBinary not recovered) are the model; State is taken as non-nil."
  },
  {
   "property": "C96",
   "status": "proved",
   "theorems": [
    "C96_predict_stream",
    "C96_test_then_train",
    "C96_blocked",
    "C96_positions_refuted"
   ],
   "note": "State machine with input and output channels; the refutation shows that answers can lose their position."
  },
  {
   "property": "C97",
   "status": "proved",
   "theorems": [
    "C97_partial_fit",
    "C97_batches",
    "C97_fit",
    "C97_never_converged",
    "C97_warm_width",
    "C97_class_batches",
    "C97_classes_fixed",
    "C97_class_member",
    "C97_class_best",
    "C97_later_labels_refuted"
   ],
   "note": "At every number type; the best-score statement over the reals."
  },
  {
   "property": "C98",
   "status": "proved",
   "theorems": [
    "C98_loss_slopes",
    "C98_loss_values",
    "C98_penalty",
    "C98_update",
    "C98_bounded",
    "C98_residual",
    "C98_intercept_unbounded"
   ],
   "note": "Exact arithmetic; corners of the epsilon-insensitive loss and of the absolute value excluded. The intercept is not clipped (C98_intercept_unbounded)."
  },
  {
   "property": "C99",
   "status": "proved",
   "theorems": [
    "C99_rollback",
    "C99_predict",
    "C99_partial_fit",
    "C99_fit",
    "C99_diverged_refuted",
    "C99_refit_refuted"
   ],
   "note": "Finding: divergence is reported as convergence with loss 0 and permanently lowers eta0. Binary64 with arbitrary exp, log, pow, generator."
  },
  {
   "property": "C100",
   "status": "proved",
   "theorems": [
    "C100_loss_values",
    "C100_slopes",
    "C100_log_slope",
    "C100_log_slope_refuted",
    "C100_update",
    "C100_unknown_label",
    "C100_proba",
    "C100_proba_overflow_refuted"
   ],
   "note": "Finding: log-loss slope wrong for misclassified samples; PredictProba overflows to NaN. math.Exp is an arbitrary function in the overflow theorem."
  },
  {
   "property": "C101",
   "status": "proved",
   "theorems": [
    "C101_fit",
    "C101_partial_fit",
    "C101_class_partial_fit",
    "C101_class_fit",
    "C101_warm_refuted"
   ],
   "note": "Finding: classifier PartialFit does not count iterations; warm start keeps an old convergence report."
  },
  {
   "property": "C102",
   "status": "proved",
   "theorems": [
    "C102_get",
    "C102_set",
    "C102_copy",
    "C102_objective",
    "C102_objective_names",
    "C102_boosting_names",
    "C102_classifier",
    "C102_classifier_refuted",
    "C102_types_refuted",
    "C102_constructor"
   ],
   "note": "For every map iteration order. C102_types_refuted: an int learning rate is dropped silently and alpha cannot be set; C102_classifier_refuted: verbosity is lost by the classifier."
  },
  {
   "property": "C103",
   "status": "proved",
   "theorems": [
    "C103_func",
    "C103_grad",
    "C103_minimum",
    "C103_fit",
    "C103_clamp_refuted"
   ],
   "note": "The optimizer is an argument; its only assumed property is that the returned point has the length of the start. C103_clamp_refuted is the exception stated in the property."
  },
  {
   "property": "C104",
   "status": "proved",
   "theorems": [
    "C104_float_binary",
    "C104_float_multi",
    "C104_float_infinite_refuted",
    "C104_fit",
    "C104_binary",
    "C104_multi",
    "C104_label",
    "C104_columns",
    "C104_narrow",
    "C104_single",
    "C104_nan",
    "C104_score",
    "C104_score_unfitted",
    "C104_score_fractional"
   ],
   "note": "Predict and PredictProba over the reals for all trained models; in binary64 NaN rows, and ranges and agreement of the two methods for every exponential meeting the bounds stated in the theorems (math.Exp itself is not modelled)."
  },
  {
   "property": "C105",
   "status": "proved",
   "theorems": [
    "C105_classes",
    "C105_ignored",
    "C105_names",
    "C105_step",
    "C105_iterations",
    "C105_gd_succeeds",
    "C105_deterministic",
    "C105_failed",
    "C105_rejected",
    "C105_warm",
    "C105_C_zero",
    "C105_chance_refuted",
    "C105_C_zero_refuted"
   ],
   "note": "Findings: random state and class weights ignored, a rejected Fit leaves a fitted model with random weights, C = 0 reports success under gradient descent (refuted witnesses)."
  },
  {
   "property": "C106",
   "status": "proved",
   "theorems": [
    "C106_fit",
    "C106_two",
    "C106_many",
    "C106_failed_fit",
    "C106_one_class_refit",
    "C106_width",
    "C106_settings",
    "C106_reload",
    "C106_load_text_panics",
    "C106_load_regression",
    "C106_score_rows",
    "C106_two_scores",
    "C106_many_scores",
    "C106_labels_known",
    "C106_decision",
    "C106_decision_refuted",
    "C106_nan_refuted",
    "C106_one_class_refuted",
    "C106_reload_refuted"
   ],
   "note": "Holds as stated; C106_nan_refuted, C106_one_class_refuted, C106_reload_refuted and C106_decision_refuted are the witnesses for the surprising parts. C106_many_scores and C106_labels_known assume at most 10^15 classes (the guard for tiny sums in softmax)."
  },
  {
   "property": "C107",
   "status": "proved",
   "theorems": [
    "C107_multiclass_is_binary",
    "C107_reach",
    "C107_large_labels",
    "C107_small_labels",
    "C107_labels_refuted"
   ],
   "note": "C107_labels_refuted: two training rows with labels 1 and 2 told apart by their feature are both predicted as 2."
  },
  {
   "property": "C108",
   "status": "proved",
   "theorems": [
    "C108_fit",
    "C108_failed_fit",
    "C108_settings",
    "C108_width",
    "C108_weighted_nil",
    "C108_unit_weights",
    "C108_quantile_nan",
    "C108_more_targets",
    "C108_fewer_targets",
    "C108_load",
    "C108_quantiles",
    "C108_quantile_order",
    "C108_quantiles_refuted"
   ],
   "note": "C108_quantiles_refuted: for the prediction -1 the quantile 9/10 lies below the quantile 1/10. C108_unit_weights and C108_weighted_nil are for the modelled trainer with any boosting type other than goss."
  },
  {
   "property": "C109",
   "status": "proved",
   "theorems": [
    "C109_constructor",
    "C109_confusion",
    "C109_accuracy",
    "C109_class",
    "C109_two",
    "C109_report",
    "C109_refused",
    "C109_totals",
    "C109_weighted_recall",
    "C109_means",
    "C109_f1_bound",
    "C109_f1_class",
    "C109_f1_macro_refuted"
   ],
   "note": "Counts, precision, recall, support, accuracy and totality in any arithmetic; totals, means and F1 relations over the reals. C109_f1_macro_refuted shows that F1Score is not the documented macro average."
  },
  {
   "property": "C110",
   "status": "proved",
   "theorems": [
    "C110_stray_label",
    "C110_auc",
    "C110_auc_value",
    "C110_log_loss",
    "C110_nan_refuted"
   ],
   "note": "Equality with the metrics package over the reals; C110_stray_label in any arithmetic; C110_nan_refuted is a binary64 witness."
  },
  {
   "property": "C111",
   "status": "proved",
   "theorems": [
    "C111_same_metrics",
    "C111_entries",
    "C111_mape",
    "C111_success",
    "C111_values",
    "C111_constant_refuted"
   ],
   "note": "C111_same_metrics and C111_entries in any arithmetic, the rest over the reals; C111_constant_refuted: no report for a perfectly predicted constant target."
  },
  {
   "property": "C112",
   "status": "proved",
   "theorems": [
    "C112_text",
    "C112_all_zero",
    "C112_trained",
    "C112_binary",
    "C112_reader",
    "C112_text_refuted",
    "C112_again_refuted"
   ],
   "note": "Full characterisation of what survives; the expectation that predictions are kept is refuted by C112_text_refuted. The trees are those of the trainer (C112_trained). %g and ParseFloat are arguments: output is a word, \"0\" reads as 0, and the numbers of the model are read back exactly."
  },
  {
   "property": "C113",
   "status": "proved",
   "theorems": [
    "C113_panics",
    "C113_trained",
    "C113_constant",
    "C113_panics_refuted",
    "C113_constant_refuted"
   ],
   "note": "Full characterisation; the expectation is refuted by C113_panics_refuted and C113_constant_refuted. Hypothesis short_lines: no line above bufio.Scanner's limit."
  },
  {
   "property": "C114",
   "status": "proved",
   "theorems": [
    "C114_header",
    "C114_names",
    "C114_names_refuted",
    "C114_line_refuted"
   ],
   "note": "The expectation for arbitrary names is refuted by C114_names_refuted and C114_line_refuted."
  },
  {
   "property": "C115",
   "status": "proved",
   "theorems": [
    "C115_leaf_of_prediction",
    "C115_index_of_prediction",
    "C115_score_of_leaves",
    "C115_same_leaves",
    "C115_same_numbers",
    "C115_trained",
    "C115_same_numbers_apart",
    "C115_nan_refuted",
    "C115_close_refuted",
    "C115_category_refuted",
    "C115_loaded_refuted"
   ],
   "note": "All trained models are covered (C115_trained). Refuted: agreement for NaN rows, near thresholds, fractional categories, and LeavesModel.PredictLeaf."
  },
  {
   "property": "C116",
   "status": "proved",
   "theorems": [
    "C116_split",
    "C116_gain",
    "C116_unused",
    "C116_nonnegative",
    "C116_other_type",
    "C116_out_of_range",
    "C116_any_number"
   ],
   "note": "Exact values; conditions for the sum to be 1; panic for features out of range."
  },
  {
   "property": "C117",
   "status": "proved",
   "theorems": [
    "C117_answers",
    "C117_reported",
    "C117_options_ignored",
    "C117_recorded",
    "C117_importance_frozen",
    "C117_loaded_importance",
    "C117_resaved",
    "C117_names_shared",
    "C117_keys",
    "C117_keys_refuted",
    "C117_num_iteration_refuted",
    "C117_set_model_refuted",
    "C117_clone_refuted",
    "C117_loaded_counts_refuted",
    "C117_importance_refuted"
   ],
   "note": "Full characterisation over all histories; refuted: WithNumIteration, SetModel and Clone of a loaded booster, counts of a loaded booster, stale importances, key collisions."
  },
  {
   "property": "C118",
   "status": "proved",
   "theorems": [
    "C118_set_get",
    "C118_read_only",
    "C118_bad_label",
    "C118_subset",
    "C118_subset_subset",
    "C118_new_complete",
    "C118_valid_sets",
    "C118_refused_label_refuted",
    "C118_weights_refuted"
   ],
   "note": "Findings: a refused label stays in the dataset and weights are never checked (both make GetSubset panic); data and counts cannot be set although SetField reports success."
  },
  {
   "property": "C119",
   "status": "proved",
   "theorems": [
    "C119_trained",
    "C119_rounds",
    "C119_no_rounds",
    "C119_ignored",
    "C119_parameters",
    "C119_settings",
    "C119_panics",
    "C119_wrong_width",
    "C119_third_class",
    "C119_all_correct",
    "C119_trees",
    "C119_first_column",
    "C119_rounds_refuted"
   ],
   "note": "Findings: numBoostRound does not decide the number of trees, zero rounds is success without a model, weights and the initial model are ignored, log-loss keys hold accuracies, an unusable validation set scores 0. Early stopping and callbacks are C39."
  },
  {
   "property": "C120",
   "status": "proved",
   "theorems": [
    "C120_objective",
    "C120_iterations",
    "C120_shared_map",
    "C120_no_label",
    "C120_one_hot",
    "C120_small_binary_refuted"
   ],
   "note": "Findings: fewer than eight zeros and ones, and class numbers in one column, are trained as regression; one-hot labels are learned from their first column only; the caller's map is changed."
  },
  {
   "property": "C121",
   "status": "proved",
   "theorems": [
    "C121_tree",
    "C121_same_leaf",
    "C121_text",
    "C121_constant",
    "C121_scores",
    "C121_columns",
    "C121_rows",
    "C121_plain",
    "C121_binary",
    "C121_classes",
    "C121_shrunk_twice_refuted",
    "C121_missing_refuted",
    "C121_categories_refuted"
   ],
   "note": "The three disagreements with the other predictors are refuted witnesses (shrinkage applied twice, missing value gives 0, categorical nodes)."
  },
  {
   "property": "C122",
   "status": "proved",
   "theorems": [
    "C122_task",
    "C122_result",
    "C122_silent",
    "C122_hidden",
    "C122_one_class",
    "C122_proba",
    "C122_small_classes_refuted"
   ],
   "note": "C122_small_classes_refuted shows two classes in seven rows; C122_hidden and C122_one_class show that errors of Fit are not reported."
  },
  {
   "property": "C123",
   "status": "proved",
   "theorems": [
    "C123_best",
    "C123_silent",
    "C123_model_refuted"
   ],
   "note": "C123_model_refuted runs the modelled trainer at binary64."
  },
  {
   "property": "C124",
   "status": "proved",
   "theorems": [
    "C124_folds",
    "C124_few",
    "C124_training_score"
   ],
   "note": "C124_folds holds in any arithmetic, C124_training_score over the reals."
  },
  {
   "property": "C125",
   "status": "proved",
   "theorems": [
    "C125_quiet_no_deadlock",
    "C125_exclusive",
    "C125_mut_callback_never_returns",
    "C125_mut_callback_blocks_all",
    "C125_read_callback_writing_never_returns",
    "C125_nested_reads",
    "C125_nested_read_refuted"
   ],
   "note": "Callbacks as programs over the lock; a panicking callback is not modelled. C125_nested_read_refuted shows a two-goroutine deadlock of a nested getter."
  },
  {
   "property": "C126",
   "status": "proved",
   "theorems": [
    "C126_exactly_once",
    "C126_one_at_a_time",
    "C126_no_deadlock",
    "C126_handler_reenters"
   ],
   "note": "Handlers as programs; the harmless case and the reentering case are both characterised."
  },
  {
   "property": "C127",
   "status": "proved",
   "theorems": [
    "C127_sample_weights",
    "C127_balanced",
    "C127_refused",
    "C127_names",
    "C127_names_refuted",
    "C127_loss"
   ],
   "note": "C127_sample_weights and C127_balanced over the reals; refusal, names and loss for any arithmetic; C127_names_refuted: order of map iteration visible."
  },
  {
   "property": "C128",
   "status": "proved",
   "theorems": [
    "C128_continues",
    "C128_more_rows",
    "C128_other_targets",
    "C128_refit_refuted"
   ],
   "note": "Full behaviour of a second Fit; the expectation of a fresh start is refuted by C128_refit_refuted at binary64."
  },
  {
   "property": "C129",
   "status": "proved",
   "theorems": [
    "C129_ignored",
    "C129_increasing_refuted"
   ],
   "note": "Characterises what the code does (no effect); the user expectation is refuted by C129_increasing_refuted."
  },
  {
   "property": "C130",
   "status": "proved",
   "theorems": [
    "C130_shape",
    "C130_values",
    "C130_rows",
    "C130_additive_refuted",
    "C130_narrow_refuted"
   ],
   "note": "C130_shape for any arithmetic; C130_values and C130_rows over the reals for numeric tests; C130_additive_refuted and C130_narrow_refuted are the findings."
  },
  {
   "property": "C131",
   "status": "proved",
   "theorems": [
    "C131_order",
    "C131_progress",
    "C131_terminates",
    "C131_metrics",
    "C131_ahead",
    "C131_totals",
    "C131_bytes_refuted"
   ],
   "note": "Stages of users are assumed to receive one element, send finitely many and close their channel at the end; the goroutine of Run is the last stage. Compression, Throughput and Latency are fields that nothing uses."
  },
  {
   "property": "C132",
   "status": "proved",
   "theorems": [
    "C132_spaced",
    "C132_forces",
    "C132_goroutines",
    "C132_no_restart",
    "C132_stopped",
    "C132_ends",
    "C132_goes_on",
    "C132_stop_refuted"
   ],
   "note": "The clock does not go back (Go uses the monotonic reading). totalPause is never written, so avg_pause in GetStats is always 0; this is not a theorem."
  },
  {
   "property": "C133",
   "status": "proved",
   "theorems": [
    "C133_logistic_set",
    "C133_logistic_copy",
    "C133_logistic_fails",
    "C133_order_refuted",
    "C133_linear_set",
    "C133_linear_copy",
    "C133_scaler_set",
    "C133_scaler_refuted",
    "C133_pipeline_get",
    "C133_pipeline_own",
    "C133_pipeline_set",
    "C133_nested_refuted",
    "C133_names_refuted"
   ],
   "note": "Decision trees are C71, LightGBM estimators C102. That Fit of StandardScaler reads the fields WithMean and WithStd and not the map is in Model/Scaler.v."
  },
  {
   "property": "C134",
   "status": "proved",
   "theorems": [
    "C134_scores",
    "C134_values_lost",
    "C134_cycle_refuted",
    "C134_initial_refuted",
    "C134_categorical_refuted"
   ],
   "note": "Counts, names, parameters and importances in the dump are not modelled."
  },
  {
   "property": "C135",
   "status": "proved",
   "theorems": [
    "C135_every",
    "C135_improved",
    "C135_period_one",
    "C135_stale_refuted",
    "C135_nan_refuted",
    "C135_zero",
    "C135_unsaved"
   ],
   "note": "ModelCheckpoint is taken as the only callback. EvalResults has at most the entry training_loss, so the order of map iteration does not matter."
  },
  {
   "property": "C136",
   "status": "proved",
   "theorems": [
    "C136_parameters",
    "C136_unscaled",
    "C136_classifier",
    "C136_new_classifier",
    "C136_regressor",
    "C136_accuracy",
    "C136_endless",
    "C136_rate_refuted",
    "C136_poisson_refuted",
    "C136_quantile_refuted",
    "C136_classes_refuted",
    "C136_categorical_refuted",
    "C136_endless_refuted"
   ],
   "note": "EarlyStopping is taken as 0 (with it folds are trained by FitWithValidation, C63)."
  },
  {
   "property": "C137",
   "status": "proved",
   "theorems": [
    "C137_quiet",
    "C137_callback_list",
    "C137_reset",
    "C137_nil",
    "C137_recorded",
    "C137_should_stop",
    "C137_before_ignored",
    "C137_printed",
    "C137_again",
    "C137_twice",
    "C137_twice_float",
    "C137_early_error_refuted",
    "C137_before_refuted",
    "C137_reset_refuted",
    "C137_printed_refuted",
    "C137_recorded_refuted"
   ],
   "note": "The theorems characterise what callbacks do; the five _refuted theorems are the expectations that fail. The reuse of an early stopping callback is C137_again in general, C137_twice and C137_twice_float for the same training twice. Not modelled: the text of the lines, verbose output of the early stopping callback, and one callback object passed twice in the same call."
  },
  {
   "property": "C138",
   "status": "proved",
   "theorems": [
    "C138_prefix",
    "C138_stopped_for_good",
    "C138_library_keeps",
    "C138_time_limit",
    "C138_time_left",
    "C138_printed",
    "C138_print_zero",
    "C138_new_list",
    "C138_calm",
    "C138_second_fit_refuted"
   ],
   "note": "The theorems say what any callbacks, the time limit and the printing do to Fit; C138_second_fit_refuted is the expectation that fails. C138_new_list ties the model to the one of C37, where the list is new for each Fit. Not modelled: the text of the lines."
  },
  {
   "property": "C139",
   "status": "proved",
   "theorems": [
    "C139_all_called",
    "C139_once",
    "C139_contents",
    "C139_last",
    "C139_result",
    "C139_errors_fit",
    "C139_progress",
    "C139_bounded",
    "C139_placeholder",
    "C139_overwritten",
    "C139_chunks_refuted",
    "C139_leak",
    "C139_ends_refuted"
   ],
   "note": "Proved over all interleavings. C139_overwritten and C139_leak are executions for all inputs of the given sizes, the two _refuted theorems instances of them. Assumes sequentially consistent memory and a function that reads its chunk at one moment; the code has a data race, so Go allows even more."
  },
  {
   "property": "C140",
   "status": "proved",
   "theorems": [
    "C140_set_level",
    "C140_named_levels",
    "C140_setup",
    "C140_setup_names",
    "C140_other_names",
    "C140_provider",
    "C140_unconfigured",
    "C140_old_loggers",
    "C140_enabled",
    "C140_enabled_after_set",
    "C140_with",
    "C140_fields",
    "C140_error_first",
    "C140_component",
    "C140_set_level_refuted",
    "C140_with_refuted",
    "C140_enabled_refuted",
    "C140_error_key_refuted"
   ],
   "note": "The theorems say what each operation does for all runs; the four _refuted theorems are the expectations that fail. zerolog is not code of the repository: its filtering by level and the value semantics of its Context are taken from its documentation. Not modelled: timestamps, callers, the text of the lines, GlobalLogger and the Log... functions."
  },
  {
   "property": "C141",
   "status": "proved",
   "theorems": [
    "C141_entries",
    "C141_contains",
    "C141_contains_int",
    "C141_lost",
    "C141_with_lost",
    "C141_with",
    "C141_contains_refuted",
    "C141_recorded_refuted",
    "C141_error_first_refuted",
    "C141_message_refuted"
   ],
   "note": "Full characterisation with four _refuted expectations. Not modelled: ContainsMessage (a search in the text), values of other kinds, invalid UTF-8, and concurrent calls (loggers made by With share the buffer but not the mutex)."
  },
  {
   "property": "C142",
   "status": "proved",
   "theorems": [
    "C142_mse",
    "C142_mse_columns",
    "C142_nil",
    "C142_first_columns",
    "C142_vectors",
    "C142_probabilities",
    "C142_probabilities_refuted"
   ],
   "note": "Metrics of matrices. C142_probabilities is over the reals, as C09; a 0-row matrix is modelled as in Base/Mat.v."
  },
  {
   "property": "C143",
   "status": "proved",
   "theorems": [
    "C143_sparse_column",
    "C143_all_sparse",
    "C143_share",
    "C143_worthwhile_refuted",
    "C143_not_worthwhile_refuted"
   ],
   "note": "C143_sparse_column and C143_all_sparse are over the reals; the counterexamples in binary64 with the identity as the order of sort.Slice."
  },
  {
   "property": "C144",
   "status": "proved",
   "theorems": [
    "C144_found",
    "C144_model_found",
    "C144_is",
    "C144_text",
    "C144_nil",
    "C144_assertion",
    "C144_panic",
    "C144_panic_set",
    "C144_nested",
    "C144_panic_value_refuted",
    "C144_panic_found_refuted"
   ],
   "note": "The contract of cockroachdb/errors for WithStack, Wrap and As is part of the trusted base; what Is finds besides identical errors is an argument."
  },
  {
   "property": "C145",
   "status": "proved",
   "theorems": [
    "C145_same_file",
    "C145_clean_once",
    "C145_text",
    "C145_json",
    "C145_below",
    "C145_auto",
    "C145_dot_refuted",
    "C145_dots_refuted",
    "C145_traversal_refuted",
    "C145_missing_refuted"
   ],
   "note": "Findings: a path with ./ in front is refused for text models only, names with two dots are refused, LoadFromFile follows .. upwards although its comment says otherwise, and cleaning can open a file that the path itself does not name. filepath.Clean is written down after its documentation (trusted base)."
  },
  {
   "property": "C146",
   "status": "proved",
   "theorems": [
    "C146_unweighted",
    "C146_weighted",
    "C146_ones",
    "C146_zero",
    "C146_last_zero",
    "C146_columns",
    "C146_weights_refuted",
    "C146_scale_refuted"
   ],
   "note": "Finding: the running sum instead of the loss of the row is multiplied with the weight, so weights compound; a last weight of 0 or validation data of the wrong width silently give a model of one tree."
  },
  {
   "property": "C147",
   "status": "proved",
   "theorems": [
    "C147_written",
    "C147_details",
    "C147_constructors",
    "C147_warnings",
    "C147_details_refuted",
    "C147_setup_refuted"
   ],
   "note": "Finding: LogError asserts the type of the outermost error, which is always the stack wrapper for errors of the package, so that its structured details are never written."
  },
  {
   "property": "C148",
   "status": "proved",
   "theorems": [
    "C148_bins",
    "C148_node",
    "C148_subtraction",
    "C148_split",
    "C148_unknown_feature",
    "C148_negative",
    "C148_missing_refuted",
    "C148_no_row_lost",
    "C148_infinite_refuted",
    "C148_neighbours_refuted",
    "C148_compensation_refuted"
   ],
   "note": "Exact arithmetic for C148_bins, _node, _subtraction and _split; C148_negative holds for every number type; C148_no_row_lost is in binary64 with rounded boundaries. The other binary64 deviations are the _refuted witnesses. Fit builds these histograms for every node but chooses its splits with another search (C80)."
  }
 ]
}