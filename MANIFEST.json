{
 "claims": [
  {
   "property": "C01",
   "status": "proved",
   "theorems": [
    "C01_random_numbers_in_range"
   ],
   "note": "Exact 32-bit model of the generator."
  },
  {
   "property": "C02",
   "status": "proved",
   "theorems": [
    "C02_full_period",
    "C02_no_early_repetition",
    "C02_every_value_is_drawn"
   ],
   "note": "Values at distance of 2^31 or more from the lower bound of the range are excluded, because the code draws 31 bits only."
  },
  {
   "property": "C03",
   "status": "proved",
   "theorems": [
    "C03_index_sampling",
    "C03_output_sampling"
   ],
   "note": "Termination: 2^32 redraws per sample suffice for every generator state."
  },
  {
   "property": "C04",
   "status": "proved",
   "theorems": [
    "C04_random_permutation"
   ],
   "note": ""
  },
  {
   "property": "C05",
   "status": "proved",
   "theorems": [
    "C05_weights_without_replacement"
   ],
   "note": ""
  },
  {
   "property": "C06",
   "status": "proved",
   "theorems": [
    "C06_weights_with_replacement"
   ],
   "note": ""
  },
  {
   "property": "C07",
   "status": "proved",
   "theorems": [
    "C07_random_holdout"
   ],
   "note": ""
  },
  {
   "property": "C08",
   "status": "proved",
   "theorems": [
    "C08_stratified_weights",
    "C08_stratified_holdout",
    "C08_holdout_share"
   ],
   "note": "Exact arithmetic; the holdout theorem holds for every rounding of the share that never exceeds the size of the stratum."
  },
  {
   "property": "C09",
   "status": "proved",
   "theorems": [
    "C09_stratified_holdout",
    "C09_stratified_weights"
   ],
   "note": "Includes the construction of the stratification matrix."
  },
  {
   "property": "C10",
   "status": "proved",
   "theorems": [
    "C10_feature_sampling"
   ],
   "note": "For numbers of samples k with k + r <= number of features."
  },
  {
   "property": "C11",
   "status": "proved",
   "theorems": [
    "C11_round_robin"
   ],
   "note": ""
  },
  {
   "property": "C12",
   "status": "proved",
   "theorems": [
    "C12_bounded_fraction"
   ],
   "note": "Exact arithmetic instead of single precision."
  },
  {
   "property": "C13",
   "status": "proved",
   "theorems": [
    "C13_bit_vector"
   ],
   "note": ""
  },
  {
   "property": "C14",
   "status": "proved",
   "theorems": [
    "C14_ring_buffer"
   ],
   "note": "For capacities of at least 1."
  },
  {
   "property": "C15",
   "status": "proved",
   "theorems": [
    "C15_sparse_set"
   ],
   "note": ""
  },
  {
   "property": "C16",
   "status": "proved",
   "theorems": [
    "C16_sparse_iteration",
    "C16_binary_iteration",
    "C16_non_zero_iteration"
   ],
   "note": ""
  },
  {
   "property": "C17",
   "status": "proved",
   "theorems": [
    "C17_sparse_prediction_conversion"
   ],
   "note": ""
  },
  {
   "property": "C18",
   "status": "proved",
   "theorems": [
    "C18_label_vector_set",
    "C18_storage_independent"
   ],
   "note": ""
  },
  {
   "property": "C19",
   "status": "proved",
   "theorems": [
    "C19_covers_iff_all_conditions_hold",
    "C19_sparse_equals_dense"
   ],
   "note": "Conditions on nominal and ordinal features require values that can be cast to a 32-bit integer; sparse rows: fewer than 2^32 rules."
  },
  {
   "property": "C20",
   "status": "proved",
   "theorems": [
    "C20_condition_list_to_body"
   ],
   "note": ""
  },
  {
   "property": "C21",
   "status": "partial",
   "theorems": [
    "C21_copied_condition_list_refuted",
    "C21_copied_condition_list_uninitialised_refuted",
    "C21_copied_condition_list_partial"
   ],
   "note": "REFUTED: the copy constructor copies the counter of == conditions twice and never that of != conditions. The partial theorem covers lists with equally many of both."
  },
  {
   "property": "C22",
   "status": "proved",
   "theorems": [
    "C22_rule_list_iteration"
   ],
   "note": "For numbers of used rules that do not exceed the number of rules."
  },
  {
   "property": "C23",
   "status": "proved",
   "theorems": [
    "C23_combined_criteria"
   ],
   "note": "For arbitrary criteria with internal state."
  },
  {
   "property": "C24",
   "status": "proved",
   "theorems": [
    "C24_at_most_max_rules",
    "C24_exactly_max_rules"
   ],
   "note": "For the actual loop of sequential assemblage, with arbitrary other criteria."
  },
  {
   "property": "C25",
   "status": "proved",
   "theorems": [
    "C25_post_pruning",
    "C25_training_with_post_pruning",
    "C25_evaluation_is_the_mean"
   ],
   "note": "Exact rational arithmetic instead of float64; the quality measure is arbitrary."
  },
  {
   "property": "C26",
   "status": "proved",
   "theorems": [
    "C26_pre_pruning"
   ],
   "note": "Exact rational arithmetic instead of float64; intervals and window sizes must be at least one, see C73. Stated for the value of removeUnusedRules the criterion receives, see C72."
  },
  {
   "property": "C27",
   "status": "proved",
   "theorems": [
    "C27_fitted_bins",
    "C27_pooling",
    "C27_calibration"
   ],
   "note": "Exact rational arithmetic instead of float64; for all results std::sort may have. A probability of zero is treated by C75."
  },
  {
   "property": "C28",
   "status": "partial",
   "theorems": [
    "C28_duplicate_thresholds_refuted",
    "C28_duplicate_thresholds_partial"
   ],
   "note": "REFUTED: line 32 stores the last of the sorted bins instead of the average of the last group. The partial theorem covers inputs whose greatest threshold is not shared."
  },
  {
   "property": "C29",
   "status": "proved",
   "theorems": [
    "C29_best_refinement",
    "C29_best_over_features"
   ],
   "note": "NaN qualities are not modelled."
  },
  {
   "property": "C30",
   "status": "proved",
   "theorems": [
    "C30_parallel_search",
    "C30_parallel_beam"
   ],
   "note": "Distinct features; the caches contain an entry per feature before the parallel loop starts."
  },
  {
   "property": "C31",
   "status": "partial",
   "theorems": [
    "C31_beam_candidates_refuted",
    "C31_beam_candidates_partial",
    "C31_merge_partial"
   ],
   "note": "REFUTED: once a refinement has been found, the comparator only accepts refinements that are better than the worst one kept so far, even if fewer than k have been found. Proved instead: what is kept is sorted, genuine, and its front is the best refinement; merging two sorted lists keeps the k best."
  },
  {
   "property": "C32",
   "status": "proved",
   "theorems": [
    "C32_nominal_search",
    "C32_binary_search"
   ],
   "note": "Each value covered by at least the minimum number of examples is considered, and only these."
  },
  {
   "property": "C33",
   "status": "partial",
   "theorems": [
    "C33_ordinal_search_partial",
    "C33_first_bin_refuted",
    "C33_last_bin_refuted"
   ],
   "note": "REFUTED: if all examples in the first (last) bin have zero weight, the remaining bins below (above) the majority value are skipped and the examples they contain are treated like the majority value. Proved if the outermost bins contain an example with non-zero weight."
  },
  {
   "property": "C34",
   "status": "partial",
   "theorems": [
    "C34_numerical_search_partial",
    "C34_threshold_missed_refuted",
    "C34_dense_refuted",
    "C34_sparse_refuted",
    "C34_negative_refuted",
    "C34_hidden_threshold_refuted"
   ],
   "note": "REFUTED: the smallest value that is not less than the sparse value is left out of the descending traversal, conditions that separate the sparse values may be wrong if there are none, and examples with zero weight may hide thresholds. Proved for all conditions that do not touch this boundary."
  },
  {
   "property": "C35",
   "status": "partial",
   "theorems": [
    "C35_separates_partial",
    "C35_between_partial",
    "C35_sparse_value_positive_partial",
    "C35_sparse_value_negative_partial",
    "C35_order_of_arguments_partial",
    "C35_overflow_refuted",
    "C35_neighbours_refuted"
   ],
   "note": "REFUTED: the threshold is infinite if the difference of the values exceeds the range of single-precision values, and it is equal to the larger value for some neighbouring values, e.g., for the negative value closest to zero and zero. Proved with IEEE 754 rounding for all finite values that are not considered to be equal, if their difference is finite, and for zero as the sparse value with a single exception."
  },
  {
   "property": "C36",
   "status": "proved",
   "theorems": [
    "C36_remaining_interval",
    "C36_ordinal_intervals",
    "C36_numerical_intervals",
    "C36_binned_intervals"
   ],
   "note": "The helper is exact for the first and the last positions of a vector; the searches only produce such intervals."
  },
  {
   "property": "C37",
   "status": "partial",
   "theorems": [
    "C37_conditions_partial",
    "C37_categorical_partial",
    "C37_progress_partial",
    "C37_numerical_refuted",
    "C37_missing_values_refuted"
   ],
   "note": "REFUTED for conditions found by the numerical search (see C34) and for nominal features with missing values. Proved end to end for nominal, binary and ordinal features without missing values, and for all features, if all examples are stored in the bins of binned ones, if the positions of each condition are those of the examples satisfying it; in these cases adding a condition does not fail either."
  },
  {
   "property": "C38",
   "status": "partial",
   "theorems": [
    "C38_bins_partial",
    "C38_safe_partial",
    "C38_out_of_bounds_refuted",
    "C38_tolerance_refuted"
   ],
   "note": "REFUTED: the arrays are too small if a sparse value divides the other values unevenly, and the tolerance of float comparisons puts values into a bin whose threshold they exceed. Proved for exact comparisons if no access is out of bounds, which is proved for dense vectors and for sparse ones with few explicit values."
  },
  {
   "property": "C39",
   "status": "partial",
   "theorems": [
    "C39_bins_partial",
    "C39_safe_partial",
    "C39_threshold_refuted",
    "C39_boundary_refuted",
    "C39_out_of_bounds_refuted",
    "C39_dense_refuted",
    "C39_sparse_refuted"
   ],
   "note": "REFUTED: thresholds of the remaining bins are too small once empty bins are removed; values at a boundary are in the upper bin but satisfy the condition of the lower one; one threshold too many is written if no bin is empty; negative numbers or NaN are converted into indices. Proved: bins are ordered, complete, at most as wide as intended, and no value is below the lower end of its bin; no undefined behaviour if zero is between the smallest and largest value, which are different, and a bin is left empty."
  },
  {
   "property": "C40",
   "status": "proved",
   "theorems": [
    "C40_irep",
    "C40_irep_single_condition"
   ],
   "note": "The evaluation on the holdout set is an arbitrary function of the coverage mask."
  },
  {
   "property": "C41",
   "status": "proved",
   "theorems": [
    "C41_greedy_growth",
    "C41_greedy_terminates"
   ],
   "note": "Termination is proved for searches that only find refinements covering fewer examples than the rule."
  },
  {
   "property": "C42",
   "status": "proved",
   "theorems": [
    "C42_sequential_assemblage"
   ],
   "note": "For arbitrary stopping criteria and arbitrary rule induction; the loop takes fuel as training need not terminate."
  },
  {
   "property": "C43",
   "status": "proved",
   "theorems": [
    "C43_unused_rule_removal"
   ],
   "note": "For numbers of used rules that do not exceed the number of rules."
  },
  {
   "property": "C44",
   "status": "proved",
   "theorems": [
    "C44_parallel_prediction",
    "C44_parallel_scores"
   ],
   "note": "Arbitrary assignment of examples to threads and arbitrary interleaving of the steps zero/accumulate/transform/count; each step on a thread's own buffer or an example's own output row is atomic."
  },
  {
   "property": "C45",
   "status": "proved",
   "theorems": [
    "C45_incremental_prediction"
   ],
   "note": ""
  },
  {
   "property": "C46",
   "status": "partial",
   "theorems": [
    "C46_majority_partial",
    "C46_agree_partial",
    "C46_default_rule_partial",
    "C46_default_rule_refuted",
    "C46_out_of_bounds_refuted"
   ],
   "note": "REFUTED: the majority labels and the initial sum are exact for all label matrices and agree for dense and sparse ones (C46_majority_partial, C46_agree_partial), but the statistics created for learning the default rule allocate one confusion matrix per example instead of per label, which exceeds the coverage matrix whenever there are more examples than labels (C46_out_of_bounds_refuted). With at most as many examples as labels the default rule predicts exactly the majority labels (C46_default_rule_partial)."
  },
  {
   "property": "C47",
   "status": "partial",
   "theorems": [
    "C47_weighted_partial",
    "C47_unweighted_refuted"
   ],
   "note": "REFUTED: proved for the statistics used for learning rules, for all label matrices, coverage states, weights and histories (C47_weighted_partial); the unweighted statistics used for the default rule lack matrices for some labels if there are fewer examples than labels (C47_unweighted_refuted)."
  },
  {
   "property": "C48",
   "status": "proved",
   "theorems": [
    "C48_cancel"
   ],
   "note": "Reverting cancels applying, in both orders and with arbitrary other applications and reverts in between."
  },
  {
   "property": "C49",
   "status": "partial",
   "theorems": [
    "C49_sum_partial",
    "C49_sum_refuted"
   ],
   "note": "REFUTED: newly covered labels are subtracted even if the default rule predicts them correctly, so that the coverage stopping criterion may stop although deviating labels are uncovered. The value that is actually computed is characterized exactly by C49_sum_partial."
  },
  {
   "property": "C50",
   "status": "partial",
   "theorems": [
    "C50_range_partial",
    "C50_defined_partial",
    "C50_wra_range_partial",
    "C50_textbook_partial",
    "C50_accuracy_positive_partial",
    "C50_f_measure_limit_partial",
    "C50_m_estimate_limit_partial",
    "C50_accuracy_refuted",
    "C50_accuracy_constant_partial",
    "C50_wra_refuted"
   ],
   "note": "REFUTED: the accuracy is wrong (and constant) for rules that predict a label as irrelevant; the weighted relative accuracy is in [-1/4, 1/4]. All other claims are proved for all non-negative weights, using exact arithmetic."
  },
  {
   "property": "C51",
   "status": "partial",
   "theorems": [
    "C51_no_lift_partial",
    "C51_kln_partial",
    "C51_peak_partial",
    "C51_bound_refuted",
    "C51_increase_refuted",
    "C51_nan_partial",
    "C51_out_of_bounds_partial",
    "C51_pruning_refuted"
   ],
   "note": "REFUTED for the peak lift function: beyond the peak, the lift is less than one and increases, is not bounded by the maximum lift and may be NaN, and an array is accessed beyond its end. Proved for the KLN lift function, and for the peak lift function with the default curvature if heuristics are not negative."
  },
  {
   "property": "C52",
   "status": "proved",
   "theorems": [
    "C52_best_head",
    "C52_kln",
    "C52_peak"
   ],
   "note": "Admissible are all lift functions that start at one, are never less than one and whose maximum lift is an upper bound; weaker requirements suffice for non-negative qualities. The selected head is the best among all heads, not only among prefixes. Exact arithmetic."
  },
  {
   "property": "C53",
   "status": "partial",
   "theorems": [
    "C53_dense_partial",
    "C53_sparse_partial",
    "C53_agree_partial",
    "C53_sparse_refuted",
    "C53_unsorted_refuted"
   ],
   "note": "REFUTED for sparse predictions: a label is predicted as relevant if any covering rule, including the default rule, predicts it as relevant, and it may be contained twice if the labels of heads are not in ascending order. Dense predictions are right for all models and feature matrices."
  },
  {
   "property": "C54",
   "status": "partial",
   "theorems": [
    "C54_optimal_partial",
    "C54_quality_partial",
    "C54_never_optimal_partial",
    "C54_scores_refuted",
    "C54_positive_refuted"
   ],
   "note": "REFUTED if L1 regularisation is used: the weight is added with the wrong sign, such that scores are never optimal and qualities may be positive. Proved without L1 regularisation; the quality always is the value of the objective for the predicted scores. Exact arithmetic."
  },
  {
   "property": "C55",
   "status": "proved",
   "theorems": [
    "C55_fixed_heads"
   ],
   "note": "For every outcome of std::partial_sort. Exact arithmetic."
  },
  {
   "property": "C56",
   "status": "proved",
   "theorems": [
    "C56_dynamic_heads",
    "C56_monotone"
   ],
   "note": "The gain of an output is its absolute score, relative to the smallest and the largest one. Exact arithmetic; pow is the real power function."
  },
  {
   "property": "C57",
   "status": "partial",
   "theorems": [
    "C57_same_statistics_partial",
    "C57_squared_hinge_partial",
    "C57_squared_hinge_refuted",
    "C57_small_weights_refuted"
   ],
   "note": "REFUTED: gradients of up to 2^-52 are not stored and weights of up to 2^-52 are ignored in case of sparse statistics. Proved: the same statistics are aggregated to the same vectors in both formats; for the squared hinge loss, Hessians are equal and the error of gradients is bounded by 2^-52 times the sum of the weights, given that scores are stored in increasing order of the outputs. Real numbers, no rounding."
  },
  {
   "property": "C58",
   "status": "proved",
   "theorems": [
    "C58_dense_scores",
    "C58_dense_scores_restored",
    "C58_sparse_scores",
    "C58_sparse_scores_restored",
    "C58_unaffected_scores",
    "C58_sparse_and_dense_scores"
   ],
   "note": "Real numbers, no rounding."
  },
  {
   "property": "C59",
   "status": "proved",
   "theorems": [
    "C59_dense",
    "C59_sparse",
    "C59_non_decomposable",
    "C59_seco"
   ],
   "note": "Decomposable statistics in dense and sparse format, non-decomposable statistics (outputs in any order) and separate-and-conquer algorithms. Sparse statistics: weights that are considered to be zero count as zero. Non-decomposable statistics: the total is a fixed value for each pair of outputs; it is the weighted sum over examples, if outputs are in increasing order (see C103 for other orders)."
  },
  {
   "property": "C60",
   "status": "proved",
   "theorems": [
    "C60_gfm_optimal"
   ],
   "note": "Rational numbers, no rounding. The probabilities are arbitrary; the known label vectors are distinct."
  },
  {
   "property": "C61",
   "status": "proved",
   "theorems": [
    "C61_marginal_probabilities"
   ],
   "note": "Rational numbers, no rounding."
  },
  {
   "property": "C62",
   "status": "proved",
   "theorems": [
    "C62_closest_label_vector",
    "C62_most_probable_label_vector"
   ],
   "note": "For any distance measure; at least one label vector must be known (otherwise, no predictor is created)."
  },
  {
   "property": "C63",
   "status": "proved",
   "theorems": [
    "C63_chain_rule",
    "C63_chain_rule_sparse",
    "C63_normalisation"
   ],
   "note": "Rational numbers, no rounding. The marginal probability function and the calibration of joint probabilities are arguments; the sum over all label vectors is one if joint probabilities are not calibrated."
  },
  {
   "property": "C64",
   "status": "proved",
   "theorems": [
    "C64_logistic_function"
   ],
   "note": "Real numbers. Proved for any implementation of the exponential function that is correct for arguments that are not positive, i.e., no overflow can occur."
  },
  {
   "property": "C65",
   "status": "partial",
   "theorems": [
    "C65_logistic_partial",
    "C65_squared_hinge_partial",
    "C65_squared_error_partial",
    "C65_evaluation_partial",
    "C65_complete_update_partial",
    "C65_non_decomposable_logistic_partial",
    "C65_non_decomposable_logistic_diagonal_partial",
    "C65_non_decomposable_squared_hinge_partial",
    "C65_non_decomposable_squared_hinge_diagonal_partial",
    "C65_non_decomposable_squared_error_partial",
    "C65_non_decomposable_squared_error_diagonal_partial",
    "C65_squared_hinge_gradient_refuted",
    "C65_squared_hinge_hessian_refuted",
    "C65_squared_error_gradient_refuted",
    "C65_non_decomposable_squared_hinge_refuted"
   ],
   "note": "REFUTED: gradients and Hessians of the decomposable squared hinge loss and squared error are half of the derivatives; the Hessian of squared hinge losses is one for scores that satisfy the margin. Proved: the (decomposable and non-decomposable) logistic losses; the decomposable squared hinge loss and squared error up to the factor of two; the gradients of the non-decomposable squared hinge loss, its Hessians of scores that violate the margin and those of pairs of outputs (unless a gradient is positive but not larger than the machine epsilon); the non-decomposable squared error of classification problems. The losses that are square roots are required to be positive. Real numbers, no rounding."
  },
  {
   "property": "C66",
   "status": "partial",
   "theorems": [
    "C66_bins_partial",
    "C66_conversion_refuted"
   ],
   "note": "REFUTED if conversions are taken to be undefined as in the C++ standard: the conversion of NaN into an integer is undefined, which happens if all negative or all positive criteria are the same. Otherwise proved, for any outcome of this conversion. Exact arithmetic."
  },
  {
   "property": "C67",
   "status": "partial",
   "theorems": [
    "C67_stratified_sample_size_refuted"
   ],
   "note": "REFUTED: shares are rounded per stratum and minSamples/maxSamples only influence tie-breaking."
  },
  {
   "property": "C68",
   "status": "partial",
   "theorems": [
    "C68_strata_storage_independent_refuted"
   ],
   "note": "REFUTED: BinaryCsrView::operator[] uses the number of columns as length of each row."
  },
  {
   "property": "C69",
   "status": "proved",
   "theorems": [
    "C69_csr_to_csc"
   ],
   "note": ""
  },
  {
   "property": "C70",
   "status": "partial",
   "theorems": [
    "C70_missing_values_refuted",
    "C70_missing_values_partial"
   ],
   "note": "REFUTED: conditions using <= are satisfied by NaN. The partial theorem covers conditions using >."
  },
  {
   "property": "C71",
   "status": "proved",
   "theorems": [
    "C71_time_limit"
   ],
   "note": "Clock values are integers (nanoseconds)."
  },
  {
   "property": "C72",
   "status": "partial",
   "theorems": [
    "C72_pre_pruning_ends_training_refuted"
   ],
   "note": "REFUTED: the constructor of PrePruningFactory does not initialise removeUnusedRules_. The behaviour for the value the criterion actually receives is C26."
  },
  {
   "property": "C73",
   "status": "partial",
   "theorems": [
    "C73_pre_pruning_configurations_refuted",
    "C73_configurations_partial",
    "C73_stop_interval_partial",
    "C73_multiple_refuted"
   ],
   "note": "REFUTED: a stop interval of 0 is accepted and causes a modulo by zero. For all other configurations that can be set up by calling the setters, there is no undefined behaviour and all values are in the documented ranges, except that the stop interval may not be a multiple of the update interval if the latter is set afterwards."
  },
  {
   "property": "C74",
   "status": "partial",
   "theorems": [
    "C74_least_squares_refuted"
   ],
   "note": "REFUTED: pools are averaged without weighting them by their sizes; C27_pooling states what is computed instead."
  },
  {
   "property": "C75",
   "status": "partial",
   "theorems": [
    "C75_calibrating_zero_refuted",
    "C75_calibrating_zero_partial"
   ],
   "note": "REFUTED: 0/0 if the smallest threshold is zero. The partial theorem covers positive smallest thresholds."
  },
  {
   "property": "C76",
   "status": "partial",
   "theorems": [
    "C76_label_vector_equality_refuted",
    "C76_label_vector_equality_partial"
   ],
   "note": "REFUTED: the label vector is only required to be a prefix of the relevant labels."
  },
  {
   "property": "C77",
   "status": "partial",
   "theorems": [
    "C77_beam_loses_best_refuted",
    "C77_beam_not_sorted_refuted",
    "C77_beam_overwrites_refuted"
   ],
   "note": "REFUTED: three independent counterexamples."
  },
  {
   "property": "C78",
   "status": "proved",
   "theorems": [
    "C78_beam_search",
    "C78_beam_terminates"
   ],
   "note": "Termination is proved for searches that only find refinements covering fewer examples than the rule."
  },
  {
   "property": "C79",
   "status": "partial",
   "theorems": [
    "C79_induce_rule_refuted",
    "C79_induce_rule_partial",
    "C79_recalculation_partial"
   ],
   "note": "REFUTED if IREP is used and the rule has several conditions; proved otherwise. The recalculation of the head uses the right examples in all cases."
  },
  {
   "property": "C80",
   "status": "partial",
   "theorems": [
    "C80_post_optimization_refuted",
    "C80_post_optimization_partial"
   ],
   "note": "REFUTED if no new rule can be induced; proved if each induction succeeds and applies its predictions to the examples covered by the rule."
  },
  {
   "property": "C81",
   "status": "partial",
   "theorems": [
    "C81_missing_values_refuted"
   ],
   "note": "REFUTED: missing values are included in the number of examples that negated conditions are reported to cover."
  },
  {
   "property": "C82",
   "status": "partial",
   "theorems": [
    "C82_binned_search_partial",
    "C82_negated_condition_refuted",
    "C82_last_bin_refuted"
   ],
   "note": "REFUTED: the negated condition at the sparse bin is evaluated with the statistics of its complement; a threshold beyond the end is read if the sparse bin is the last one. Proved for all other conditions."
  },
  {
   "property": "C83",
   "status": "proved",
   "theorems": [
    "C83_minimum_coverage"
   ],
   "note": "Concerns the reported number of covered examples; see C33, C34, C81 and C82 for the cases where it is not exact."
  },
  {
   "property": "C84",
   "status": "partial",
   "theorems": [
    "C84_filtered_vectors_partial",
    "C84_binned_interval_partial",
    "C84_binned_sparse_bin_partial",
    "C84_binned_refuted",
    "C84_missing_values_refuted"
   ],
   "note": "REFUTED: filtering a binned vector makes the last non-empty bin the sparse bin; nominal vectors keep missing values that are no longer covered. Proved for numerical, ordinal and binary features, for nominal ones without missing values and for binned ones if all examples are stored in a bin. Filtering by a condition on a binned feature itself is exact, even if some examples are not stored."
  },
  {
   "property": "C85",
   "status": "partial",
   "theorems": [
    "C85_equal_values_partial",
    "C85_nominal_refuted",
    "C85_numerical_refuted"
   ],
   "note": "REFUTED: a condition excluding the majority value drops the feature although several values remain, and the check for numerical intervals compares the wrong elements. Proved for filtering by a coverage mask, for binned features if all examples are stored in a bin."
  },
  {
   "property": "C86",
   "status": "partial",
   "theorems": [
    "C86_positions_partial",
    "C86_exception_refuted",
    "C86_binned_refuted"
   ],
   "note": "REFUTED: a condition found after a subspace has been copied may fail if it is replayed without copying. Proved as far as positions are concerned if the feature has not been dropped and, if it is binned, all examples are stored in a bin."
  },
  {
   "property": "C87",
   "status": "partial",
   "theorems": [
    "C87_reset_partial",
    "C87_statistics_refuted"
   ],
   "note": "REFUTED: the statistics are not reset. Proved for the remaining state."
  },
  {
   "property": "C88",
   "status": "partial",
   "theorems": [
    "C88_even_bins_partial",
    "C88_missing_refuted"
   ],
   "note": "REFUTED for sparse vectors: missing values are counted as if they had the sparse value, which results in empty bins. Proved for dense vectors."
  },
  {
   "property": "C89",
   "status": "partial",
   "theorems": [
    "C89_sampling_refuted",
    "C89_head_refuted",
    "C89_ascending_partial"
   ],
   "note": "REFUTED: iterators can not be advanced backwards, hence unsorted labels cause undefined behavior (C89_ascending_partial); sampled labels and the heads found by a beam search are unsorted. For ascending labels, see C47 to C49."
  },
  {
   "property": "C90",
   "status": "proved",
   "theorems": [
    "C90_complete",
    "C90_single"
   ],
   "note": "Complete heads: for labels in ascending order (see C89). Exact arithmetic."
  },
  {
   "property": "C91",
   "status": "partial",
   "theorems": [
    "C91_single_partial",
    "C91_fixed_partial",
    "C91_single_refuted"
   ],
   "note": "REFUTED: outputs are selected by their absolute scores, which ignores that the gain also depends on the Hessians. Proved if all Hessians are the same and there is no L1 regularisation."
  },
  {
   "property": "C92",
   "status": "partial",
   "theorems": [
    "C92_refuted",
    "C92_inflated_partial",
    "C92_l2_partial"
   ],
   "note": "REFUTED for L1 regularisation: whenever the gradient exceeds the weight, the absolute score is larger than without regularisation, for all statistics and weights. L2 regularisation works as documented (C92_l2_partial)."
  },
  {
   "property": "C93",
   "status": "partial",
   "theorems": [
    "C93_refuted"
   ],
   "note": "REFUTED: the smallest absolute score is subtracted from q and q_best. See C56 for the criterion that is actually used."
  },
  {
   "property": "C94",
   "status": "partial",
   "theorems": [
    "C94_complete_partial",
    "C94_partial_heads_refuted"
   ],
   "note": "REFUTED for partial heads: the statistics at the positions 0, ..., k-1 are used instead of those of the k selected outputs. Proved for complete heads. Exact arithmetic."
  },
  {
   "property": "C95",
   "status": "partial",
   "theorems": [
    "C95_default_partial",
    "C95_maximum_partial",
    "C95_minimum_refuted"
   ],
   "note": "REFUTED: memory is allocated for f(n) + 1 bins, but f(n-) + f(n+) bins are used, where f is clamped to the minimum and the maximum number of bins. For every configuration with a maximum of at least two bins there are statistics that result in an access beyond the end of an array (C95_maximum_partial). Proved for the default values of the minimum and the maximum."
  },
  {
   "property": "C96",
   "status": "partial",
   "theorems": [
    "C96_complete_partial",
    "C96_l1_partial",
    "C96_l1_refuted"
   ],
   "note": "REFUTED if L1 regularisation is used: gradients that do not exceed the weight are left unchanged instead of resulting in a score of zero. Proved without L1 regularisation, and with it if all gradients exceed the weight and no score changes its sign. The quality always is the objective of the predicted scores. LAPACK's DSYSV is an arbitrary function that returns solutions or fails; exact arithmetic."
  },
  {
   "property": "C97",
   "status": "partial",
   "theorems": [
    "C97_agree_partial",
    "C97_agree_refuted"
   ],
   "note": "REFUTED if L1 regularisation is used: the weight has opposite signs in both implementations. Proved without L1 regularisation. Exact arithmetic."
  },
  {
   "property": "C98",
   "status": "partial",
   "theorems": [
    "C98_dynamic_partial",
    "C98_fixed_partial",
    "C98_quality_refuted",
    "C98_scores_refuted"
   ],
   "note": "REFUTED: the quality is calculated from the gradients and Hessians of the first k outputs instead of the k selected ones (exactly characterised by both _partial theorems); if a fixed number of outputs is selected, they are not sorted, such that Hessians of unrelated outputs are used. Proved: which outputs are selected, and that the scores are optimal if the selected outputs are in ascending order (always the case for dynamic heads) and there is no L1 regularisation. Exact arithmetic."
  },
  {
   "property": "C99",
   "status": "partial",
   "theorems": [
    "C99_update_partial",
    "C99_evaluation_refuted",
    "C99_gradient_refuted",
    "C99_gradient_sign_refuted"
   ],
   "note": "REFUTED: the ground truth is converted into a boolean when losses are evaluated and when only the diagonal of the Hessian matrix is used; otherwise, the squared ground truth is assumed to be one. Proved for targets that are 1 or -1 when the full Hessian matrix is used."
  },
  {
   "property": "C100",
   "status": "partial",
   "theorems": [
    "C100_partial_update_partial",
    "C100_regression_refuted"
   ],
   "note": "REFUTED for regression problems: the given indices are ignored and the first outputs are updated. Proved for classification problems with dense label matrices. Sparse label matrices are not modelled."
  },
  {
   "property": "C101",
   "status": "partial",
   "theorems": [
    "C101_underflow_refuted"
   ],
   "note": "REFUTED: if exponentials below -746 are rounded to zero, Hessians of pairs of outputs become zero for scores of large absolute value. The other results (C65) hold for exact exponentials."
  },
  {
   "property": "C102",
   "status": "proved",
   "theorems": [
    "C102_minimal_loss",
    "C102_strictly_smaller_loss",
    "C102_probabilities_and_scores",
    "C102_sparse_and_dense_predictions"
   ],
   "note": "Real numbers, no rounding."
  },
  {
   "property": "C103",
   "status": "partial",
   "theorems": [
    "C103_dense",
    "C103_sparse",
    "C103_non_decomposable_partial",
    "C103_non_decomposable_refuted"
   ],
   "note": "REFUTED: non-decomposable statistics of outputs that are not in increasing order, e.g., those sampled without replacement, involve the Hessians of wrong pairs of outputs. Proved in all other cases. Real numbers, no rounding."
  },
  {
   "property": "C104",
   "status": "partial",
   "theorems": [
    "C104_evaluation_partial",
    "C104_update_partial",
    "C104_sorted_scores_partial",
    "C104_evaluation_refuted",
    "C104_update_refuted"
   ],
   "note": "REFUTED: scores are stored in the order in which rules have predicted for outputs, but they are merged with the labels as if they were sorted. Proved for sorted scores, in particular if the first rule that applies to an example predicts for all outputs. Real numbers, no rounding."
  },
  {
   "property": "C105",
   "status": "partial",
   "theorems": [
    "C105_sparse_statistics",
    "C105_sparse_statistics_and_labels_partial",
    "C105_dense_statistics_and_sparse_labels_partial",
    "C105_sparse_labels_refuted"
   ],
   "note": "REFUTED: if labels are stored in a sparse format and the outputs of a head are not in increasing order, statistics of relevant labels are computed as if they were irrelevant. Proved for increasing order and for labels in dense format (see also C65 for dense statistics and labels)."
  },
  {
   "property": "C106",
   "status": "partial",
   "theorems": [
    "C106_sorted_partial",
    "C106_sorted_refuted"
   ],
   "note": "REFUTED: heads that result from complete rule evaluations are marked as sorted, even if they predict for a random sample of outputs. Proved for heads that are not marked as sorted."
  },
  {
   "property": "C107",
   "status": "partial",
   "theorems": [
    "C107_range",
    "C107_accuracy_partial",
    "C107_accuracy_refuted",
    "C107_all_elements_refuted",
    "C107_undefined_refuted"
   ],
   "note": "REFUTED: for more than 2^24 elements, the result differs from the exact fraction by more than 60; if the fraction is one, it may exceed the number of elements and, for at least 2^32 - 128 elements, the conversion to an integer is undefined. Proved with IEEE 754 rounding: the bounds are respected for all fractions less than one, and the error is less than one for up to 2^24 elements."
  },
  {
   "property": "C108",
   "status": "partial",
   "theorems": [
    "C108_training_set",
    "C108_holdout_set_partial",
    "C108_holdout_set_refuted"
   ],
   "note": "REFUTED: holdout sets are empty if the product of the fraction and the number of examples is less than one. Proved with IEEE 754 rounding: training sets are never empty and the sizes add up; holdout sets are not empty if the product is at least one, for up to 2^24 examples."
  },
  {
   "property": "C109",
   "status": "partial",
   "theorems": [
    "C109_dense",
    "C109_majority",
    "C109_sparse_partial",
    "C109_uninitialised_refuted",
    "C109_wrong_refuted"
   ],
   "note": "REFUTED for sparse matrices that store sparse values (e.g., zeros) explicitly: the number of distinct values is overestimated, which results in the use of uninitialised memory or in a vector that distinguishes examples with equal values. Proved for all dense columns, and for all sparse ones without explicitly stored sparse values, including that binary vectors are used if and only if there are two distinct values."
  },
  {
   "property": "C110",
   "status": "proved",
   "theorems": [
    "C110_dense",
    "C110_sparse"
   ],
   "note": "All columns, including missing values. Values are only compared; isEqual is arbitrary (reflexive on the sparse value)."
  },
  {
   "property": "C111",
   "status": "partial",
   "theorems": [
    "C111_complete_partial",
    "C111_interactions_refuted",
    "C111_l1_refuted",
    "C111_partial_heads_refuted"
   ],
   "note": "REFUTED: the Hessians of different outputs in the same bin are ignored, hence the loss may increase although a negative quality is reported; with L1 regularisation, the sign of scores may be wrong; partial heads use the statistics of other outputs. Proved for complete heads: shared scores, the exact difference between the quality and the objective, optimality if outputs in the same bin do not interact and no L1 regularisation is used, memory safety and reusability."
  },
  {
   "property": "C112",
   "status": "partial",
   "theorems": [
    "C112_default_rule_auto_partial",
    "C112_non_decomposable_refuted",
    "C112_complete_heads_refuted"
   ],
   "note": "REFUTED: non-decomposable losses report that they support sparse statistics, so that the default rule is omitted if they are used with partial heads and more than 120 sparse labels, or if a sparse format is requested; it is also omitted if a sparse format is requested together with complete heads. Proved: sparse statistics and an automatic default rule exclude each other, and the default rule is kept in all other cases."
  },
  {
   "property": "C113",
   "status": "partial",
   "theorems": [
    "C113_default_rule_complete_partial",
    "C113_single_output_refuted"
   ],
   "note": "REFUTED: if a default rule and a sparse format are requested explicitly and the squared hinge loss is used, the default rule is evaluated like a regular rule and predicts for a subset of the outputs. Proved for all other configurations."
  },
  {
   "property": "C114",
   "status": "partial",
   "theorems": [
    "C114_binning_partial",
    "C114_complete_heads_refuted"
   ],
   "note": "REFUTED: if a decomposable loss is used with complete heads, the requested label binning is only used for the default rule. Proved in all other cases."
  },
  {
   "property": "C115",
   "status": "proved",
   "theorems": [
    "C115_head_types"
   ],
   "note": "All configurations and ground truths."
  },
  {
   "property": "C116",
   "status": "partial",
   "theorems": [
    "C116_format_partial",
    "C116_complete_heads_refuted"
   ],
   "note": "REFUTED: if a sparse format is requested, a dense one is used for complete heads, although the loss supports sparse statistics. Proved in all other cases."
  },
  {
   "property": "C117",
   "status": "partial",
   "theorems": [
    "C117_no_pruning_partial",
    "C117_dropped_partial",
    "C117_dropped_optimized_partial",
    "C117_unused_rules_refuted"
   ],
   "note": "REFUTED: rules that are dropped by global pruning are removed from the model (or are not used), but their predictions are never removed from the scores to which the calibration models are fitted. Proved: the scores agree if no rule is dropped, otherwise they differ by the predictions of the dropped rules."
  },
  {
   "property": "C118",
   "status": "partial",
   "theorems": [
    "C118_single_partial",
    "C118_holdout_partial",
    "C118_holdout_refuted"
   ],
   "note": "REFUTED: with a holdout set, pruning is carried out without any examples to prune on, so that every rule is reduced to its first condition (proved for all rules and data). Proved: no pruning without a holdout set."
  },
  {
   "property": "C119",
   "status": "proved",
   "theorems": [
    "C119_label_vectors_available",
    "C119_predictors_available",
    "C119_label_vectors_needed"
   ],
   "note": "All configurations of the boosting algorithm."
  },
  {
   "property": "C120",
   "status": "partial",
   "theorems": [
    "C120_available_partial",
    "C120_logistic_partial",
    "C120_unused_refuted"
   ],
   "note": "REFUTED: if isotonic calibration is requested, a holdout set is created even if the loss does not support probabilities and no calibrator is created. Proved: a holdout set is created whenever it is used; the reverse holds for logistic losses."
  },
  {
   "property": "C121",
   "status": "partial",
   "theorems": [
    "C121_values_partial",
    "C121_effects_partial",
    "C121_minimum_partial",
    "C121_maximum_set_last_partial",
    "C121_minimum_not_set_partial",
    "C121_order_refuted",
    "C121_default_maximum_refuted",
    "C121_default_minimum_refuted"
   ],
   "note": "REFUTED: if the maximum is set before a greater minimum, no exception is thrown and the maximum is ignored; the default sample size of features ignores minimum and maximum. Proved: minima are always respected if a fraction is used, maxima are respected if they are set last or if the minimum is not set."
  },
  {
   "property": "C122",
   "status": "partial",
   "theorems": [
    "C122_floats_partial",
    "C122_integers_partial",
    "C122_near_zero_partial",
    "C122_nan_partial",
    "C122_nan_refuted",
    "C122_infinite_refuted",
    "C122_one_rejected_refuted",
    "C122_one_accepted_refuted"
   ],
   "note": "REFUTED: NaN is accepted for six parameters, infinity and tiny negative values for two, a documented bound is rejected, an undocumented one is accepted. Proved: acceptance agrees with the documentation for all integers, and for all floating point values other than NaN in case of 18 parameters; the accepted values of the other parameters are characterized."
  },
  {
   "property": "C123",
   "status": "proved",
   "theorems": [
    "C123_restored",
    "C123_predictions",
    "C123_errors",
    "C123_versions",
    "C123_label_vectors",
    "C123_calibration"
   ],
   "note": "Restoring the state of a model, set of label vectors or calibration model yields an equivalent object. Pickling fails with an exception if and only if the head of a rule is empty."
  },
  {
   "property": "C124",
   "status": "partial",
   "theorems": [
    "C124_enough_partial",
    "C124_too_many_partial",
    "C124_refuted"
   ],
   "note": "REFUTED: numbers that are greater than the number of rules are not checked and result in undefined behaviour whenever rules are used. Proved: if the number, limited by the maximum number of rules, is not greater than the number of rules, exactly the expected rules are used."
  },
  {
   "property": "C125",
   "status": "proved",
   "theorems": [
    "C125_marginal",
    "C125_marginal_csr",
    "C125_joint",
    "C125_joint_csr"
   ],
   "note": "Both representations of labels result in exactly one bin per example and label (or label vector), in the order of the examples. The comparison of label vectors is the one of C76, which accepts prefixes. For marginal probabilities, scores are dense, see C126 for sparse scores."
  },
  {
   "property": "C126",
   "status": "partial",
   "theorems": [
    "C126_dense_labels_partial",
    "C126_csr_labels_partial",
    "C126_scores_refuted",
    "C126_labels_refuted"
   ],
   "note": "REFUTED: missing scores are assigned the threshold 0 instead of the probability that results from a score of zero, and if no scores are missing, a superfluous bin is added, whose probability is 0 for dense labels and NaN for labels in the CSR format. Proved: the bins are characterized for both representations of labels."
  },
  {
   "property": "C127",
   "status": "partial",
   "theorems": [
    "C127_marginal_partial",
    "C127_joint_partial",
    "C127_refuted"
   ],
   "note": "REFUTED: if the holdout set is empty, which is possible for small data sets, fitting a model accesses the first element of an empty vector. Proved: with at least one calibration example, the model is fitted without undefined behaviour and predicts probabilities in [0, 1] for all probabilities in (0, 1]."
  },
  {
   "property": "C128",
   "status": "proved",
   "theorems": [
    "C128_batch",
    "C128_incremental",
    "C128_without_transformation",
    "C128_output_wise",
    "C128_example_wise",
    "C128_gfm"
   ],
   "note": "The iterations of the parallel loop are executed atomically in an arbitrary order by arbitrary threads, interleavings of their steps are considered in C44. Sparse predictions contain less than 2^32 relevant labels, as the number of elements is summed up in 32 bits."
  },
  {
   "property": "C129",
   "status": "proved",
   "theorems": [
    "C129_batch",
    "C129_incremental",
    "C129_without_transformation",
    "C129_output_wise",
    "C129_marginalized"
   ],
   "note": "Scores and probabilities are stored in a single memory with addresses, such that in-place transformations are covered. The marginal probability function is arbitrary, calibration is considered in C27. Values are exact."
  },
  {
   "property": "C130",
   "status": "partial",
   "theorems": [
    "C130_multi_threaded_partial",
    "C130_threads_partial",
    "C130_single_threaded_refuted",
    "C130_always_undefined_refuted"
   ],
   "note": "REFUTED: without support for multi-threading, the index of the only thread is 1, but the matrix that stores scores has a single row; every binary prediction accesses memory out of bounds. Proved: with support for multi-threading, predictions are correct for any number of threads."
  },
  {
   "property": "C131",
   "status": "proved",
   "theorems": [
    "C131_fixed",
    "C131_dynamic",
    "C131_fixed_non_decomposable",
    "C131_dynamic_non_decomposable"
   ],
   "note": "The solver of non-decomposable problems is an arbitrary valid one. Assumes that the criteria fit into the bins that have been allocated (see the findings about label binning)."
  },
  {
   "property": "C132",
   "status": "partial",
   "theorems": [
    "C132_squared_error_partial",
    "C132_squared_hinge_partial",
    "C132_squared_error_regression_partial",
    "C132_logistic_partial",
    "C132_regression_refuted",
    "C132_logistic_refuted"
   ],
   "note": "REFUTED: Rules for regression problems that predict for some of the outputs may increase the loss, as the statistics of the wrong outputs are updated. Moreover, a step may increase the logistic loss if it is not regularized. Proved for the squared error and squared hinge loss in classification problems (any heads, L1 and L2 regularization weights) and the squared error in regression problems (rules that predict for all outputs). Proved for the logistic loss if the product of the shrinkage parameter and the sum of the weights of the covered examples is at most four times the L2 regularization weight. Decomposable loss functions, dense statistics, without label binning, exact arithmetic."
  },
  {
   "property": "C133",
   "status": "partial",
   "theorems": [
    "C133_scores_partial",
    "C133_squared_error_partial",
    "C133_squared_hinge_partial",
    "C133_squared_error_regression_partial",
    "C133_logistic_partial",
    "C133_missing_refuted"
   ],
   "note": "REFUTED: If feature values are missing, the conditions of rules are treated differently when training and predicting, i.e., the predictions for training examples differ from the scores used for training and their loss may increase. Proved that the scores and the scores used for training are the same if no values are missing, and that the loss does not increase under the conditions of C132. Dense feature matrices, decomposable loss functions, exact arithmetic."
  },
  {
   "property": "C134",
   "status": "partial",
   "theorems": [
    "C134_predictions_partial",
    "C134_sparse_refuted",
    "C134_missing_refuted"
   ],
   "note": "REFUTED: If predictions are obtained in the sparse format, labels that are relevant to most of the training examples are predicted as relevant even if rules predict otherwise. If feature values are missing, rules are applied to training examples they have not been considered to cover. Proved for dense predictions and any prefix of a decision list that is used for prediction if no values are missing, including the number of errors, which is the sum of uncovered weights plus twice the number of covered labels that are predicted incorrectly. Heads predict the opposite of the default rule (see C52 and C90)."
  },
  {
   "property": "C135",
   "status": "partial",
   "theorems": [
    "C135_greedy_partial",
    "C135_beam_partial",
    "C135_beam_refuted"
   ],
   "note": "REFUTED: Beam search adds a second condition to rules that already cover the minimum number of examples. Proved for greedy search and for all but the first condition found by beam search."
  },
  {
   "property": "C136",
   "status": "partial",
   "theorems": [
    "C136_training_partial",
    "C136_libraries_refuted",
    "C136_libraries_always_refuted",
    "C136_automatic_refuted",
    "C136_automatic_always_refuted",
    "C136_predictions_partial",
    "C136_predictions_refuted",
    "C136_predictions_always_refuted"
   ],
   "note": "REFUTED: The macro MULTI_THREADING_SUPPORT_ENABLED is not defined when compiling the libraries boosting and seco. Hence, automatic configurations always use a single thread, predictions are never obtained in parallel, and memory is accessed out of bounds if a single thread is configured. Proved for the tasks that are part of the common library and for predictions if more than one thread is configured. The directories that are searched by the compiler are taken from the build files (no build has been performed)."
  },
  {
   "property": "C137",
   "status": "partial",
   "theorems": [
    "C137_switch_partial",
    "C137_logistic_partial",
    "C137_squared_hinge_partial",
    "C137_squared_error_partial",
    "C137_derivatives_partial",
    "C137_regression_refuted",
    "C137_regression_always_refuted"
   ],
   "note": "REFUTED: On regression problems, the gradients of the non-decomposable squared error loss differ once a rule has been applied after the conversion, unless the ground truth is one. Proved for all classification losses and any history of switching, applying and reverting rules, and for the conversion itself for any loss."
  },
  {
   "property": "C138",
   "status": "partial",
   "theorems": [
    "C138_fraction_partial",
    "C138_logarithmic_partial",
    "C138_valid_partial",
    "C138_single_feature_refuted",
    "C138_single_remaining_refuted",
    "C138_all_retained_refuted",
    "C138_bounds_refuted"
   ],
   "note": "REFUTED: With the default configuration, the number of sampled features is undefined if there is a single feature that is not retained, 32 features that may not exist are sampled if there is none, and the minimum and maximum are ignored if no fraction is given. Proved in all other cases (exact arithmetic)."
  },
  {
   "property": "C139",
   "status": "partial",
   "theorems": [
    "C139_entries_partial",
    "C139_scores_partial",
    "C139_uncovered_partial",
    "C139_accumulated_partial",
    "C139_revert_refuted",
    "C139_sign_refuted"
   ],
   "note": "REFUTED: Removing a prediction does not restore the previous score, which may be lost entirely, and sums of positive Hessians of uncovered examples may be negative. Proved that no result is infinite and that the absolute error is at most 2^-54 times the magnitude (a power of two that is at least twice the sum of the absolute values) for each rounded operation."
  },
  {
   "property": "C140",
   "status": "partial",
   "theorems": [
    "C140_boosting_partial",
    "C140_coverage_partial",
    "C140_single_thread_partial",
    "C140_lost_refuted",
    "C140_any_lost_refuted"
   ],
   "note": "REFUTED: The sum of the uncovered weights is modified by several threads without synchronization. Updates may be lost whenever labels of examples, which are assigned to different threads, are covered for the first time. Proved that the number of rules covering each label is correct in any case, that the sum is always between its original and its correct value, and that the statistics of boosting algorithms do not depend on the threads."
  },
  {
   "property": "C141",
   "status": "partial",
   "theorems": [
    "C141_no_pruning_partial",
    "C141_pruning_partial",
    "C141_dropped_refuted"
   ],
   "note": "REFUTED: Rules that have been dropped by global pruning are removed from the model before it is optimized, but their predictions remain part of the scores. Hence, post-optimization may spoil a perfect model. Proved if global pruning is not used, and proved that the dropped rules are the only difference otherwise. Every rule is assumed to be replaced (see C80)."
  },
  {
   "property": "C142",
   "status": "partial",
   "theorems": [
    "C142_minimum_partial",
    "C142_categorical_partial",
    "C142_exact_partial",
    "C142_too_few_partial",
    "C142_missing_refuted",
    "C142_rounded_refuted"
   ],
   "note": "REFUTED if feature values are missing: examples with missing values are counted as covered (see C81), so that a rule that must cover three quarters of the examples may cover a quarter of them. Due to rounding, the support may fall short of the configured fraction by a factor of at most 1 - 2^-23. Proved, up to this factor, for nominal, binary and ordinal features without missing values, and for other features if each condition covers the examples it has been evaluated with. The fraction refers to all training examples, including those in the holdout set, which are never counted as covered."
  },
  {
   "property": "C143",
   "status": "partial",
   "theorems": [
    "C143_categorical_partial",
    "C143_nominal_refuted",
    "C143_ordinal_refuted",
    "C143_numerical_refuted"
   ],
   "note": "REFUTED for rules with several conditions that use the same nominal feature (see C36), and for numerical features, where the conditions that can be learned from a dense and a sparse matrix select different training examples. Thresholds of ordinal features may differ as well, such that rules cover the same training examples, but different unseen ones. Proved for nominal, binary and ordinal features without missing values, where each nominal or binary feature is used at most once and all weights are non-zero if there are ordinal features: for each rule that can be learned from one representation, a rule that covers the same training examples can be learned from the other one, for all orders of iterating hash maps. Which of several equally good rules is selected may differ, because conditions are evaluated in a different order."
  },
  {
   "property": "C144",
   "status": "partial",
   "theorems": [
    "C144_rows_partial",
    "C144_columns_partial",
    "C144_initialized_partial",
    "C144_ranges_partial",
    "C144_provided_partial",
    "C144_hessians_partial",
    "C144_allocated_refuted",
    "C144_features_refuted",
    "C144_outputs_refuted",
    "C144_hessians_refuted"
   ],
   "note": "REFUTED for matrices with 2^32 or more elements, because numbers of elements and positions are calculated with unsigned 32-bit integers. It is proved that matrices that are allocated by the library are correct if and only if they have less than 2^32 elements, and that arrays that are provided by a caller are read correctly if and only if the first element of the last row (or column) is at a position less than 2^32. Hessians are proved to be stored correctly if there are less than 2^16 outputs and less than 2^32 Hessians in total."
  },
  {
   "property": "C145",
   "status": "partial",
   "theorems": [
    "C145_index_partial",
    "C145_binned_partial",
    "C145_diagonal_partial",
    "C145_sparse_partial",
    "C145_decrement_refuted",
    "C145_subscript_refuted",
    "C145_binned_subscript_refuted",
    "C145_diagonal_subscript_refuted",
    "C145_postfix_refuted",
    "C145_diagonal_end_refuted"
   ],
   "note": "REFUTED for the postfix decrement of index iterators (which increments), the results of all postfix operators, array access of index, binned and diagonal iterators that have been incremented, and the end of the diagonal of Hessian vectors. All other operators are proved to be correct, as well as that loops visit all elements in order. The operator for dereferencing binned iterators cannot be compiled and is not modelled."
  },
  {
   "property": "C146",
   "status": "proved",
   "theorems": [
    "C146_last",
    "C146_unaffected",
    "C146_order",
    "C146_adjacent",
    "C146_completes",
    "C146_classifier",
    "C146_regressor"
   ],
   "note": "The parameters of a component are assumed to be set before the component is replaced. Functions of other components that are only used under certain conditions are considered as being used."
  },
  {
   "property": "C147",
   "status": "partial",
   "theorems": [
    "C147_boosting_partial",
    "C147_seco_partial",
    "C147_values_partial",
    "C147_binning_refuted",
    "C147_pruning_refuted",
    "C147_sampling_refuted",
    "C147_rules_refuted",
    "C147_values_refuted"
   ],
   "note": "REFUTED for feature binning (BOOMER), for holdout sets, rule pruning, the sampling of features and examples, the maximum number of rules and the recalculation of predictions (SeCo), and for the options beta, aggregation, as well as the sample size of sampling with replacement. The documented default settings are proved to be used for all other components and parameters, regardless of how other components are configured."
  },
  {
   "property": "C148",
   "status": "proved",
   "theorems": [
    "C148_notation",
    "C148_options",
    "C148_written",
    "C148_unique",
    "C148_ambiguity_refuted",
    "C148_parameters"
   ],
   "note": "The theorems hold if no allowed value is a prefix of another one (C148_ambiguity_refuted shows that this is necessary), which is the case for all parameters of the available rule learners (C148_parameters). Characters are restricted to code points up to 255."
  },
  {
   "property": "C149",
   "status": "partial",
   "theorems": [
    "C149_values_partial",
    "C149_rejected",
    "C149_learners_partial",
    "C149_values_refuted",
    "C149_automatic_refuted",
    "C149_predictor_refuted",
    "C149_holdout_refuted",
    "C149_default_rule_refuted"
   ],
   "note": "REFUTED for the value 'auto' of the parameters holdout, head_type, parallel_rule_refinement, parallel_statistic_update (rejected) and binary_predictor (a different component is used), as well as for the parameter default_rule of SeCoClassifier. Proved for all other documented values. The setters of components are represented by an arbitrary function that accepts or rejects values."
  },
  {
   "property": "C150",
   "status": "partial",
   "theorems": [
    "C150_numbers_partial",
    "C150_seed_refuted",
    "C150_numbers_refuted"
   ],
   "note": "REFUTED for the parameter random_state of BoomerRegressor, which is ignored. Proved for all other numerical parameters of the available rule learners. Conversions of Python values are represented by arbitrary functions."
  },
  {
   "property": "C151",
   "status": "partial",
   "theorems": [
    "C151_exact_partial",
    "C151_small_partial",
    "C151_changed_refuted",
    "C151_undefined_refuted",
    "C151_terminated_refuted"
   ],
   "note": "REFUTED for the classes for sampling examples and outputs: integers above 2^24 may be changed or cause undefined behavior, and some ratios that are rejected in C++ terminate the process. Proved for all other classes and, if integers do not exceed 2^24 and floating point values can be represented with single precision, for all classes. Only setters with numerical arguments and arguments of the annotated type are considered."
  },
  {
   "property": "C152",
   "status": "partial",
   "theorems": [
    "C152_ranges_partial",
    "C152_documented",
    "C152_one_refuted",
    "C152_guide_refuted",
    "C152_nan_refuted"
   ],
   "note": "REFUTED for the value one of min_support, for sample sizes of one (user guide) and for NaN. Proved for all other values that can be represented in the type of the parameter, with respect to the ranges in docstrings. Integers are assumed to be at most 2^24 for the classes for sampling examples and outputs."
  },
  {
   "property": "C153",
   "status": "partial",
   "theorems": [
    "C153_options_partial",
    "C153_output_sampling_refuted",
    "C153_pre_pruning_refuted"
   ],
   "note": "REFUTED for the options min_samples of output_sampling and update_interval of global_pruning. Proved for all other parameter values with numerical options, the values are assumed to be representable as in C152."
  },
  {
   "property": "C154",
   "status": "partial",
   "theorems": [
    "C154_features_partial",
    "C154_features_created_partial",
    "C154_regression",
    "C154_labels_partial",
    "C154_labels_created_partial",
    "C154_zeros_refuted",
    "C154_empty_refuted",
    "C154_labels_refuted"
   ],
   "note": "REFUTED for sparse matrices that explicitly store zeros or do not store any elements. Proved for all other dense and sparse matrices in a supported format."
  },
  {
   "property": "C155",
   "status": "partial",
   "theorems": [
    "C155_features",
    "C155_forced_partial",
    "C155_labels_partial",
    "C155_regression_partial",
    "C155_labels_refuted",
    "C155_regression_refuted",
    "C155_unsupported_refuted"
   ],
   "note": "REFUTED for labels, where up to three additional bytes may be needed, for regression scores, where the dense format is used too often, and for unsupported types of matrices. Proved for features; for labels and regression scores, the exact condition and one direction, respectively, are proved."
  },
  {
   "property": "C156",
   "status": "partial",
   "theorems": [
    "C156_types_partial",
    "C156_single_refuted",
    "C156_duplicates_refuted",
    "C156_overlap_refuted",
    "C156_range_refuted"
   ],
   "note": "REFUTED if only one of the lists is set, if indices are contained twice, or if they are out of range. Proved if both lists are set and contain valid, different indices."
  },
  {
   "property": "C157",
   "status": "partial",
   "theorems": [
    "C157_latest_partial",
    "C157_owned_partial",
    "C157_overwritten_refuted",
    "C157_freed_refuted",
    "C157_deleted_refuted"
   ],
   "note": "REFUTED for arrays that are obtained from predictors with native support for incremental predictions, as they are overwritten or freed, and if the estimator is deleted or fitted again. Proved for the most recent array, and for all arrays that own their memory. Sparse predictions are not modelled."
  },
  {
   "property": "C158",
   "status": "partial",
   "theorems": [
    "C158_methods_partial",
    "C158_recursion_refuted"
   ],
   "note": "REFUTED for the method predict_proba_incrementally. Proved for all other methods."
  },
  {
   "property": "C159",
   "status": "partial",
   "theorems": [
    "C159_values_partial",
    "C159_probabilities_refuted"
   ],
   "note": "REFUTED for probabilities. Proved for binary predictions and scores, unless zeros are stored explicitly (see C154)."
  },
  {
   "property": "C160",
   "status": "partial",
   "theorems": [
    "C160_sizes_partial",
    "C160_maximum_refuted"
   ],
   "note": "REFUTED if max_size is less than the number of available rules. Proved otherwise."
  },
  {
   "property": "C161",
   "status": "partial",
   "theorems": [
    "C161_loaded_partial",
    "C161_shifted_refuted",
    "C161_dropped_refuted",
    "C161_order_refuted",
    "C161_scores_refuted",
    "C161_negative_refuted"
   ],
   "note": "REFUTED for sparse files that omit the last attribute in all rows or end with an empty row, outputs that are declared in a different order than in the ARFF file, outputs that are no integers between 0 and 255 and negative numbers of outputs. Proved for all other files with distinct names of attributes, whose outputs are located at the start or the end."
  },
  {
   "property": "C162",
   "status": "proved",
   "theorems": [
    "C162_predefined",
    "C162_random"
   ],
   "note": "The splits of the class KFold of scikit-learn are modelled as documented. One-hot encoding is not modelled."
  },
  {
   "property": "C163",
   "status": "partial",
   "theorems": [
    "C163_single_partial",
    "C163_incremental_partial",
    "C163_size_refuted"
   ],
   "note": "REFUTED for incremental evaluations: the final scores of all folds except for the last one are averaged for each size. Proved if a single model is evaluated per fold."
  },
  {
   "property": "C164",
   "status": "proved",
   "theorems": [
    "C164_rows"
   ],
   "note": "The numbers of conditions and scores are given per rule. A model has at most one default rule, because only addDefaultRule creates empty bodies. The textual output that contains aggregated statistics is not modelled."
  },
  {
   "property": "C165",
   "status": "proved",
   "theorems": [
    "C165_duration"
   ],
   "note": "Durations are rational numbers. Rounding errors of floating point numbers, due to which the number of milliseconds may be too small by one, and the concatenation of strings are not modelled."
  },
  {
   "property": "C166",
   "status": "partial",
   "theorems": [
    "C166_documented_partial",
    "C166_file_partial",
    "C166_restored_partial",
    "C166_command_line_refuted"
   ],
   "note": "REFUTED for parameters that are given different values: the file takes precedence over the command line. Proved if there are no such parameters. Values are strings; their conversion is covered by other properties. Errors when accessing files are not modelled."
  },
  {
   "property": "C167",
   "status": "partial",
   "theorems": [
    "C167_names_partial",
    "C167_reused_partial",
    "C167_other_refuted"
   ],
   "note": "REFUTED if the data set, its split or the number of folds changes, because the files are identified by the name of the learner and the fold only. Proved for repeated executions of the same experiment. Pickling, errors when accessing files and learners of different types are not modelled."
  },
  {
   "property": "C168",
   "status": "partial",
   "theorems": [
    "C168_same_partial",
    "C168_values_partial",
    "C168_imbalance_partial",
    "C168_zeros_refuted"
   ],
   "note": "REFUTED for sparse matrices that explicitly store zeros. Proved for all other matrices; the number of distinct label vectors is compared for binary labels. Rounding errors are not modelled."
  },
  {
   "property": "C169",
   "status": "partial",
   "theorems": [
    "C169_round_trip_partial",
    "C169_sparse_refuted",
    "C169_relation_refuted"
   ],
   "note": "REFUTED for sparse matrices whose last output is irrelevant to all examples, and if the XML file is not saved. Proved for dense matrices, and for sparse matrices where the last output and the last example have non-zero values. Outputs are integers between 0 and 255; missing values and textual representations are not modelled."
  }
 ]
}