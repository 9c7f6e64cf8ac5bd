{"id": "C01", "title": "Random integers stay in range", "statement": "For every seed accepted by the configuration (>= 1) and every sequence of requests, a random integer requested from [min, max) with min < max lies in [min, max), the generator never reaches the all-zero state in which it would get stuck, and equal seeds yield equal sequences.", "quantifier": "all 32-bit non-zero seeds, all sequences of requested ranges min < max", "why_tests_cant": "2^32 seeds times unbounded request histories cannot be enumerated; a stuck or out-of-range state could occur only after billions of calls.", "anchors": ["cpp/subprojects/common/include/mlrl/common/random/rng.hpp: RNG", "cpp/subprojects/common/src/mlrl/common/random/rng.cpp: RNG::randomInt, RNG::randomBool"]}
{"id": "C02", "title": "Random generator has full period", "statement": "From every non-zero seed the generator's internal state runs through all 2^32-1 non-zero values before repeating, so every value of every requested range is eventually drawn, regardless of the seed; rejection-style loops that redraw until an unseen value appears therefore always finish.", "quantifier": "all non-zero 32-bit seeds and all target values of all ranges", "why_tests_cant": "Needs a statement about an orbit of length 2^32-1 for each of 2^32-1 seeds.", "anchors": ["cpp/subprojects/common/src/mlrl/common/random/rng.cpp: RNG::randomInt", "cpp/subprojects/common/src/mlrl/common/sampling/index_sampling.hpp: sampleIndicesWithoutReplacementViaTrackingSelection"]}
{"id": "C03", "title": "Index sampling without replacement", "statement": "Sampling k of n indices without replacement terminates and returns exactly k pairwise distinct indices, each smaller than n, whichever of the three internal strategies is selected by the ratio k/n.", "quantifier": "all n, all k <= n, all seeds", "why_tests_cant": "Tests can only check particular seeds and sizes; distinctness must hold for every seed and each of the three strategies, termination for every generator state.", "anchors": ["cpp/subprojects/common/src/mlrl/common/sampling/index_sampling.hpp: sampleIndicesWithoutReplacement, sampleIndicesWithoutReplacementViaTrackingSelection, sampleIndicesWithoutReplacementViaReservoirSampling, sampleIndicesWithoutReplacementViaRandomPermutation"]}
{"id": "C04", "title": "Random permutation is a permutation", "statement": "Randomly permuting (a prefix of) an index array never loses or duplicates an element: the result is a permutation of the input for every seed, array and number of swaps.", "quantifier": "all arrays, all numbers of trials, all seeds", "why_tests_cant": "A lost or duplicated element may occur only for particular random draws.", "anchors": ["cpp/subprojects/common/src/mlrl/common/sampling/index_sampling.hpp: randomPermutation"]}
{"id": "C05", "title": "Instance sampling without replacement", "statement": "Selecting k of n training examples without replacement yields n binary weights of which exactly k are set, and the reported number of examples with non-zero weight is exactly k.", "quantifier": "all n, all k <= n, all seeds", "why_tests_cant": "Counts must be exact for each seed and both internal strategies.", "anchors": ["cpp/subprojects/common/include/mlrl/common/sampling/weight_sampling.hpp: sampleWeightsWithoutReplacement", "cpp/subprojects/common/src/mlrl/common/sampling/instance_sampling_without_replacement.cpp"]}
{"id": "C06", "title": "Instance sampling with replacement", "statement": "Bagging assigns integer weights to the examples of the training set whose sum is exactly the requested number of samples, examples outside the training set keep weight zero, and the reported number of non-zero weights equals the true number.", "quantifier": "all training set sizes, sample counts, partitions and seeds", "why_tests_cant": "Exact accounting must hold for every multiset of random draws, not for sampled seeds only.", "anchors": ["cpp/subprojects/common/src/mlrl/common/sampling/instance_sampling_with_replacement.cpp"]}
{"id": "C07", "title": "Random holdout split is a partition", "statement": "Randomly splitting n examples into a training and a holdout set puts each example into exactly one of both sets, with exactly the requested set sizes.", "quantifier": "all n, all training set sizes, all seeds", "why_tests_cant": "Disjointness and coverage are required for each seed.", "anchors": ["cpp/subprojects/common/src/mlrl/common/sampling/partition_sampling_bi_random.cpp", "cpp/subprojects/common/src/mlrl/common/sampling/partition_bi.cpp"]}
{"id": "C08", "title": "Example-wise stratified sampling keeps strata proportions", "statement": "Stratified sampling by label vectors selects from each stratum either the floor or the ceiling of the requested share, selects the exact reported total, sets only binary weights; the stratified holdout split is a partition of the examples with the requested sizes.", "quantifier": "all example sets, all groupings into label vectors, all sample sizes, all seeds", "why_tests_cant": "Proportionality has to hold for all groupings and seeds simultaneously.", "anchors": ["cpp/subprojects/common/src/mlrl/common/sampling/stratified_sampling_example_wise.cpp", "cpp/subprojects/common/src/mlrl/common/sampling/stratified_sampling_common.hpp"]}
{"id": "C09", "title": "Output-wise stratified holdout split is a partition", "statement": "The stratified holdout split by individual labels assigns every example to exactly one of both sets and fills both sets to exactly the requested sizes, without ever writing past either set, for every label matrix.", "quantifier": "all label matrices, all set sizes, all seeds", "why_tests_cant": "Whether every example is visited exactly once depends on the whole label matrix and on all random tie breaks.", "anchors": ["cpp/subprojects/common/src/mlrl/common/sampling/stratified_sampling_output_wise.cpp"]}
{"id": "C10", "title": "Feature sampling honours retained features", "statement": "Sampling k features of which r are to be retained always returns exactly k pairwise distinct valid feature indices containing all r retained features (the last r ones).", "quantifier": "all numbers of features, all k, all r, all seeds", "why_tests_cant": "Must hold for each random draw.", "anchors": ["cpp/subprojects/common/src/mlrl/common/sampling/feature_sampling_without_replacement.cpp"]}
{"id": "C11", "title": "Round-robin output sampling is fair", "statement": "Any window of as many consecutive requests as there are outputs selects every output exactly once, in cyclic order.", "quantifier": "all numbers of outputs, all positions in an unbounded request history", "why_tests_cant": "Unbounded history; wrap-around must be right forever.", "anchors": ["cpp/subprojects/common/src/mlrl/common/sampling/output_sampling_round_robin.cpp"]}
{"id": "C12", "title": "Fractional sizes respect their bounds", "statement": "Turning a fraction in (0,1] of n into an absolute number never yields less than min(minimum, n) nor more than the maximum if one is set (maximum >= minimum), and never more than n if no bound intervenes.", "quantifier": "all fractions, all n, all minima and maxima (exact arithmetic)", "why_tests_cant": "Bounds interact; only a proof covers all combinations.", "anchors": ["cpp/subprojects/common/include/mlrl/common/util/math.hpp: util::calculateBoundedFraction"]}
{"id": "C13", "title": "Bit vector behaves as a set", "statement": "After any sequence of set, clear and read operations the bit vector returns for each position the value most recently written to it, and positions are independent of each other across word boundaries.", "quantifier": "all sizes, all operation histories", "why_tests_cant": "Word boundary arithmetic for all positions and histories.", "anchors": ["cpp/subprojects/common/src/mlrl/common/data/vector_bit.cpp", "cpp/subprojects/common/include/mlrl/common/data/vector_bit.hpp"]}
{"id": "C14", "title": "Ring buffer keeps the most recent values", "statement": "After any number of insertions a ring buffer of capacity n > 0 contains exactly the last n inserted values, is reported full exactly from the n-th insertion on, and each insertion reports exactly the value it evicts.", "quantifier": "all capacities > 0, all insertion histories", "why_tests_cant": "Unbounded histories with wrap-around.", "anchors": ["cpp/subprojects/common/include/mlrl/common/data/ring_buffer.hpp"]}
{"id": "C15", "title": "Sparse set rows behave as finite maps", "statement": "After any sequence of insertions, overwrites, in-place updates, erasures and clearings, a lookup in a row of the list-of-lists set returns exactly the value last stored for the index or nothing, and no index is stored twice.", "quantifier": "all operation histories over all indices", "why_tests_cant": "The back-pointers must stay consistent under swap-with-last erasure for every history.", "anchors": ["cpp/subprojects/common/include/mlrl/common/data/view_vector_sparse_set.hpp", "cpp/subprojects/common/include/mlrl/common/data/view_matrix_sparse_set.hpp"]}
{"id": "C16", "title": "Sparse iteration equals dense iteration", "statement": "Iterating a sparse row through the library's forward iterators yields, position by position, the same values as the dense row with unspecified positions filled by the sparse value, for numerical as well as binary sparse rows.", "quantifier": "all sorted sparse rows and all widths", "why_tests_cant": "The merge of explicit and implicit positions depends on all gap patterns.", "anchors": ["cpp/subprojects/common/include/mlrl/common/iterator/iterator_forward_sparse.hpp", "cpp/subprojects/common/include/mlrl/common/iterator/iterator_forward_sparse_binary.hpp", "cpp/subprojects/common/include/mlrl/common/iterator/iterator_forward_non_zero_index.hpp"]}
{"id": "C17", "title": "Sparse predictions survive conversion", "statement": "Converting list-of-lists binary predictions into compressed sparse rows preserves exactly the set of predicted labels of each example, and row pointers delimit consecutive segments that together cover all entries.", "quantifier": "all prediction matrices", "why_tests_cant": "All shapes including empty rows.", "anchors": ["cpp/subprojects/common/src/mlrl/common/prediction/prediction_matrix_sparse_binary.cpp"]}
{"id": "C18", "title": "Label vector set counts exactly", "statement": "Collecting the label vectors of a training set yields pairwise distinct label vectors, contains exactly those that occur, and reports for each the exact number of occurrences; the result does not depend on whether labels are stored densely or sparsely.", "quantifier": "all label matrices", "why_tests_cant": "Counts must be exact for all matrices and orders of insertion.", "anchors": ["cpp/subprojects/common/src/mlrl/common/prediction/label_vector_set.cpp", "cpp/subprojects/common/src/mlrl/common/input/label_matrix_c_contiguous.cpp", "cpp/subprojects/common/src/mlrl/common/input/label_matrix_csr.cpp"]}
{"id": "C19", "title": "A rule covers an example iff all conditions hold", "statement": "A conjunctive rule covers an example exactly if each of its conditions is satisfied by the example's feature values; evaluating the same example in dense or sparse representation gives the same answer, and the scratch buffers reused across examples never leak values of another example.", "quantifier": "all rules, all examples, all sequences of examples sharing scratch memory", "why_tests_cant": "Dense/sparse agreement must hold for all examples and all histories of scratch memory.", "anchors": ["cpp/subprojects/common/src/mlrl/common/model/body_conjunctive.cpp", "cpp/subprojects/common/include/mlrl/common/prediction/predictor_common.hpp", "cpp/subprojects/common/src/mlrl/common/model/condition_list.cpp"]}
{"id": "C20", "title": "Condition lists convert losslessly to bodies", "statement": "Converting a list of learned conditions into a rule body yields a body with exactly these conditions grouped by comparator, after any sequence of additions and removals of the last condition.", "quantifier": "all histories of adding/removing conditions", "why_tests_cant": "Per-comparator counters must agree with the list for every history.", "anchors": ["cpp/subprojects/common/src/mlrl/common/model/condition_list.cpp"]}
{"id": "C21", "title": "Copying a condition list preserves it", "statement": "A copied condition list converts to the same body as the original.", "quantifier": "all condition lists", "why_tests_cant": "Only lists with particular comparator combinations expose a discrepancy.", "anchors": ["cpp/subprojects/common/src/mlrl/common/model/condition_list.cpp: ConditionList copy constructor"]}
{"id": "C22", "title": "Rule list iteration", "statement": "Iterating a rule list visits the default rule first or last as configured (if there is one) and all rules in insertion order; iterating over the used rules visits exactly `numUsedRules` rules, the default rule in its configured position plus the first other rules in insertion order, and reported counts agree with what is visited.", "quantifier": "all build histories, both default rule positions, all numbers of used rules", "why_tests_cant": "Off-by-one at the default rule position depends on all combinations.", "anchors": ["cpp/subprojects/common/src/mlrl/common/model/rule_list.cpp", "cpp/subprojects/boosting/src/mlrl/boosting/model/rule_list_builder.cpp", "cpp/subprojects/seco/src/mlrl/seco/model/decision_list_builder.cpp"]}
{"id": "C23", "title": "Combined stopping criteria", "statement": "Testing a list of stopping criteria requests a stop iff at least one criterion does, every criterion is tested exactly once, and the number of rules to be used is the non-zero one that is reported by the last criterion in the list reporting any.", "quantifier": "all lists of criteria and results", "why_tests_cant": "Combinations of forced and store-only stops.", "anchors": ["cpp/subprojects/common/src/mlrl/common/stopping/stopping_criterion_list.cpp"]}
{"id": "C24", "title": "Size-based stopping", "statement": "With a maximum of m rules, training stops exactly when m rules have been induced, so that a model never has more than m rules.", "quantifier": "all maxima and all numbers of rules", "why_tests_cant": "Unbounded counts.", "anchors": ["cpp/subprojects/common/src/mlrl/common/stopping/stopping_criterion_size.cpp", "cpp/subprojects/common/src/mlrl/common/rule_model_assemblage/rule_model_assemblage_sequential.cpp"]}
{"id": "C25", "title": "Post-pruning selects the best prefix", "statement": "Global post-pruning keeps the number of rules at which the evaluated quality was best among all evaluated iterations (earliest one on ties), considering only models with at least the minimum number of rules and each interval-th model.", "quantifier": "all evaluation histories, all intervals and minima", "why_tests_cant": "Unbounded history of scores.", "anchors": ["cpp/subprojects/common/src/mlrl/common/stopping/global_pruning_post.cpp"]}
{"id": "C26", "title": "Pre-pruning semantics", "statement": "Global pre-pruning signals a stop only after the minimum number of rules, only when both windows of past and recent scores are full, and as soon as the relative improvement between the aggregated windows is below the required one; the number of rules to be used is the earliest one with the best score among all models that have been assessed with full windows.", "quantifier": "all score histories and all parameter settings accepted by the configuration", "why_tests_cant": "Depends on window contents over unbounded history.", "anchors": ["cpp/subprojects/common/src/mlrl/common/stopping/global_pruning_pre.cpp", "cpp/subprojects/common/src/mlrl/common/stopping/aggregation_function_common.hpp"]}
{"id": "C27", "title": "Isotonic calibration is monotone and stays within the observed range", "statement": "After fitting, the calibration thresholds are strictly increasing, the calibrated values are non-decreasing, and calibrating a positive probability interpolates linearly between the fitted bins, is monotone and yields a probability.", "quantifier": "all sets of bins and all probabilities", "why_tests_cant": "All data sets and all real inputs.", "anchors": ["cpp/subprojects/common/src/mlrl/common/prediction/probability_calibration_isotonic.cpp"]}
{"id": "C28", "title": "Duplicate thresholds are averaged before isotonic fitting", "statement": "Bins that share a threshold are merged into a single bin holding their mean probability before the isotonic fit.", "quantifier": "all multisets of bins", "why_tests_cant": "Only inputs with runs of duplicates of particular positions are affected.", "anchors": ["cpp/subprojects/common/src/mlrl/common/prediction/probability_calibration_isotonic.cpp: sortByThresholdsAndEliminateDuplicates"]}
{"id": "C29", "title": "The best refinement is kept", "statement": "Feeding any sequence of candidate refinements to the single-refinement comparator leaves the best one, the earliest among equally good ones, and reports an improvement iff one was found.", "quantifier": "all sequences of candidates", "why_tests_cant": "Arbitrary order and ties.", "anchors": ["cpp/subprojects/common/src/mlrl/common/rule_refinement/refinement_comparator_single.cpp"]}
{"id": "C30", "title": "Parallel search over features is schedule independent", "statement": "The refinement found by searching all sampled features in parallel is the same as the one found sequentially, for every number of threads and every interleaving.", "quantifier": "all schedules, all numbers of threads, all candidates", "why_tests_cant": "Interleavings cannot be enumerated by tests.", "anchors": ["cpp/subprojects/common/src/mlrl/common/rule_refinement/rule_refinement_statistics_based.cpp"]}
{"id": "C31", "title": "Beam keeps the k best refinements", "statement": "Merging the candidates of several features into a beam of width k keeps the k best refinements in order.", "quantifier": "all candidate sequences, all k", "why_tests_cant": "Arbitrary sequences and ties.", "anchors": ["cpp/subprojects/common/src/mlrl/common/rule_refinement/refinement_comparator_fixed.cpp"]}
{"id": "C32", "title": "Nominal conditions match what they cover", "statement": "For each candidate `feature == v` or `feature != v` evaluated on a nominal feature, the statistics used to score it are those of exactly the covered examples satisfying the condition, the reported number of covered examples is exact, and each value of the feature is considered.", "quantifier": "all nominal feature vectors, weights and coverage states without missing values", "why_tests_cant": "All data sets.", "anchors": ["cpp/subprojects/common/src/mlrl/common/input/feature_based_search_nominal.hpp", "cpp/subprojects/common/include/mlrl/common/input/feature_vector_nominal.hpp"]}
{"id": "C33", "title": "Ordinal conditions match what they cover", "statement": "For each candidate `feature <= v` or `feature > v` evaluated on an ordinal feature, the statistics and number of covered examples are those of exactly the examples satisfying the condition, and all separating thresholds are considered.", "quantifier": "all ordinal feature vectors, weights and coverage states without missing values", "why_tests_cant": "All data sets and positions of the sparse value.", "anchors": ["cpp/subprojects/common/src/mlrl/common/input/feature_based_search_ordinal.hpp"]}
{"id": "C34", "title": "Numerical conditions match what they cover", "statement": "For each candidate `feature <= t` or `feature > t` evaluated on a numerical feature, the statistics and reported number of covered examples are those of exactly the examples satisfying the condition, and all separating thresholds are considered.", "quantifier": "all numerical feature vectors, weights and coverage states", "why_tests_cant": "Only particular sign patterns expose errors.", "anchors": ["cpp/subprojects/common/src/mlrl/common/input/feature_based_search_numerical.hpp"]}
{"id": "C35", "title": "Thresholds separate neighbouring values", "statement": "The threshold chosen between two distinct neighbouring feature values separates them: the smaller satisfies `<=` and the larger `>`.", "quantifier": "all pairs of distinct single-precision values", "why_tests_cant": "2^64 pairs; only adjacent values with particular mantissa parity are critical.", "anchors": ["cpp/subprojects/common/include/mlrl/common/util/math.hpp: util::arithmeticMean"]}
{"id": "C36", "title": "Candidate interval computation", "statement": "The interval of sorted positions that remains covered after a numerical or ordinal condition (or its negation) has been chosen is exactly the one the search evaluated.", "quantifier": "all intervals, both directions", "why_tests_cant": "Case analysis over all boundaries.", "anchors": ["cpp/subprojects/common/include/mlrl/common/input/interval.hpp: getStartAndEndOfOpenInterval"]}
{"id": "C37", "title": "Incremental training-set filtering is exact", "statement": "After adding any sequence of conditions to a rule, the coverage mask marks exactly the examples that satisfy all of the conditions.", "quantifier": "all sequences of refinements over all data sets", "why_tests_cant": "Unbounded sequences of conditions with reused mask markers.", "anchors": ["cpp/subprojects/common/src/mlrl/common/rule_refinement/feature_space_tabular.cpp", "cpp/subprojects/common/src/mlrl/common/rule_refinement/coverage_mask.cpp"]}
{"id": "C38", "title": "Equal-frequency binning assigns every value to the right bin", "statement": "Equal-frequency binning puts equal values into the same bin, keeps bins ordered by value, and never produces more bins than requested.", "quantifier": "all sorted value sequences, all numbers of bins", "why_tests_cant": "Runs of ties of all shapes.", "anchors": ["cpp/subprojects/common/src/mlrl/common/input/feature_binning_equal_frequency.cpp"]}
{"id": "C39", "title": "Equal-width binning thresholds match the bins", "statement": "A value is assigned to the bin whose interval between two thresholds contains it.", "quantifier": "all value sequences, all numbers of bins", "why_tests_cant": "Only inputs that leave bins empty expose errors.", "anchors": ["cpp/subprojects/common/src/mlrl/common/input/feature_binning_equal_width.cpp"]}
{"id": "C40", "title": "Rule pruning never makes a rule worse", "statement": "Incremental reduced error pruning removes a (possibly empty) suffix of a rule's conditions, at least one condition remains, no other non-empty prefix of the original rule is better on the holdout set, and all shorter ones are strictly worse. Rules with a single condition are left unchanged.", "quantifier": "all rules and all holdout evaluations", "why_tests_cant": "All sequences of conditions and scores.", "anchors": ["cpp/subprojects/common/src/mlrl/common/rule_pruning/rule_pruning_irep.cpp"]}
{"id": "C41", "title": "Greedy rule growth", "statement": "Greedy top-down induction adds conditions only as long as each addition strictly improves the rule, respects the maximum number of conditions and the minimum coverage, and terminates.", "quantifier": "all candidate streams", "why_tests_cant": "Unbounded training runs.", "anchors": ["cpp/subprojects/common/src/mlrl/common/rule_induction/rule_induction_top_down_greedy.cpp"]}
{"id": "C42", "title": "Sequential assemblage counts rules correctly", "statement": "Sequential training passes the exact number of rules learned so far to the stopping criteria, stops at the first stop request, at the first failed induction, and records the number of used rules exactly when a criterion asked for it.", "quantifier": "all sequences of induction outcomes and stop results", "why_tests_cant": "Unbounded runs.", "anchors": ["cpp/subprojects/common/src/mlrl/common/rule_model_assemblage/rule_model_assemblage_sequential.cpp"]}
{"id": "C43", "title": "Unused rule removal", "statement": "Removing unused rules leaves exactly the used prefix of the learned rules.", "quantifier": "all models and numbers of used rules", "why_tests_cant": "All counts.", "anchors": ["cpp/subprojects/common/src/mlrl/common/post_optimization/post_optimization_unused_rule_removal.cpp", "cpp/subprojects/common/src/mlrl/common/post_optimization/model_builder_intermediate.cpp"]}
{"id": "C44", "title": "Parallel prediction is schedule independent", "statement": "Predicting for a set of examples with several threads yields for each example the same prediction as a sequential run, independent of the number of threads and interleaving.", "quantifier": "all schedules", "why_tests_cant": "Interleavings cannot be enumerated.", "anchors": ["cpp/subprojects/common/include/mlrl/common/prediction/predictor_common.hpp"]}
{"id": "C45", "title": "Incremental prediction", "statement": "Applying rules step-wise through the incremental predictor, in steps of arbitrary sizes, ends up with the same predictions as predicting with all rules at once, and never uses more rules than exist.", "quantifier": "all step size sequences and models", "why_tests_cant": "All splits of the rule sequence.", "anchors": ["cpp/subprojects/common/include/mlrl/common/prediction/predictor_common.hpp: AbstractIncrementalPredictor"]}
{"id": "C46", "title": "Majority labels are exact", "statement": "A label is predicted by the default rule of a separate-and-conquer model iff it is relevant to more than half of the training examples; dense and sparse label matrices yield the same result, and the reported number of initially uncovered labels is the number of labels deviating from the majority.", "quantifier": "all label matrices", "why_tests_cant": "All matrices incl. exact halves.", "anchors": ["cpp/subprojects/seco/src/mlrl/seco/statistics/statistics_provider_decomposable_dense.cpp"]}
{"id": "C47", "title": "Confusion matrices are exact", "statement": "The confusion matrices used for scoring a rule hold, per label, the summed weights of the covered and not yet covered labels by (true label, majority label), after any sequence of additions and removals; the uncovered matrices are total minus covered.", "quantifier": "all label matrices, coverage states, weights and add/remove histories", "why_tests_cant": "Unbounded histories.", "anchors": ["cpp/subprojects/seco/src/mlrl/seco/data/vector_confusion_matrix_dense.cpp", "cpp/subprojects/seco/include/mlrl/seco/data/confusion_matrix.hpp"]}
{"id": "C48", "title": "Applying and reverting a rule cancel out", "statement": "Applying a rule's prediction to an example's coverage and reverting it restores the coverage counts and the number of uncovered labels exactly.", "quantifier": "all coverage states, heads and histories", "why_tests_cant": "All histories.", "anchors": ["cpp/subprojects/seco/src/mlrl/seco/data/matrix_coverage_dense.cpp"]}
{"id": "C49", "title": "The sum of uncovered labels is exact", "statement": "At any time the sum compared with the coverage threshold is the number of training labels deviating from the majority that no rule has covered.", "quantifier": "all training histories", "why_tests_cant": "Depends on the interplay of all rules learned so far.", "anchors": ["cpp/subprojects/seco/src/mlrl/seco/data/matrix_coverage_dense.cpp", "cpp/subprojects/seco/src/mlrl/seco/statistics/statistics_provider_decomposable_dense.cpp", "cpp/subprojects/seco/src/mlrl/seco/stopping/stopping_criterion_coverage.cpp"]}
{"id": "C50", "title": "Heuristics are bounded and well defined", "statement": "Each rule learning heuristic (accuracy, precision, recall, Laplace, WRA, F-measure, m-estimate) returns a value in [0,1] for all non-negative confusion matrices, never divides by zero, and coincides with its textbook formula whenever that is defined.", "quantifier": "all non-negative confusion matrices, all parameters", "why_tests_cant": "Continuous domain.", "anchors": ["cpp/subprojects/seco/src/mlrl/seco/heuristics/heuristic_common.hpp", "cpp/subprojects/seco/src/mlrl/seco/heuristics"]}
{"id": "C51", "title": "Lift functions reward larger heads correctly", "statement": "The reported maximum lift for heads with at least k labels bounds the lift of every such head, so that pruning by it never discards the best head.", "quantifier": "all numbers of labels, peaks, exponents", "why_tests_cant": "Continuous parameters.", "anchors": ["cpp/subprojects/seco/src/mlrl/seco/lift_functions"]}
{"id": "C52", "title": "Partial head search finds the best prefix", "statement": "The partial head selected for a rule is the best, by lifted quality, among all heads made of the k individually best labels.", "quantifier": "all label qualities and admissible lift functions", "why_tests_cant": "All quality vectors.", "anchors": ["cpp/subprojects/seco/src/mlrl/seco/rule_evaluation/rule_evaluation_decomposable_partial.cpp"]}
{"id": "C53", "title": "Decision list semantics", "statement": "The prediction for a label is that of the first rule in the decision list that covers the example and predicts the label, else of the default rule; dense and sparse prediction agree.", "quantifier": "all decision lists and examples", "why_tests_cant": "All rule interactions.", "anchors": ["cpp/subprojects/seco/src/mlrl/seco/prediction/predictor_binary_output_wise.cpp"]}
{"id": "C54", "title": "Optimal scores under regularisation", "statement": "The score predicted for an output minimises the L1/L2-regularised second-order objective, and the reported quality is that objective's value, never positive.", "quantifier": "all gradients, positive regularised Hessians and regularisation weights", "why_tests_cant": "Continuous domain.", "anchors": ["cpp/subprojects/boosting/src/mlrl/boosting/rule_evaluation/rule_evaluation_decomposable_common.hpp"]}
{"id": "C55", "title": "Fixed partial heads predict for the strongest outputs", "statement": "A partial head of fixed size k predicts for exactly k distinct outputs such that no omitted output has a larger absolute score.", "quantifier": "all score vectors, all k", "why_tests_cant": "All vectors and ties.", "anchors": ["cpp/subprojects/boosting/src/mlrl/boosting/rule_evaluation/rule_evaluation_decomposable_partial_fixed_common.hpp"]}
{"id": "C56", "title": "Dynamic partial heads predict exactly the outputs above threshold", "statement": "A dynamic partial head contains exactly the outputs whose normalised gain reaches the threshold, in particular it is never empty.", "quantifier": "all statistics, thresholds and exponents", "why_tests_cant": "Continuous domain.", "anchors": ["cpp/subprojects/boosting/src/mlrl/boosting/rule_evaluation/rule_evaluation_decomposable_partial_dynamic_common.hpp"]}
{"id": "C57", "title": "Sparse and dense statistics agree", "statement": "Aggregating gradients and Hessians of the squared hinge loss via sparse statistics gives the same result as via dense ones for every history of adding and removing weighted examples.", "quantifier": "all score/label matrices, all histories", "why_tests_cant": "Unbounded histories.", "anchors": ["cpp/subprojects/boosting/src/mlrl/boosting/data/vector_statistic_decomposable_sparse.cpp"]}
{"id": "C58", "title": "Applying and reverting boosted rules cancel out", "statement": "Adding a rule's scores to the current predictions and reverting them restores the predictions, for complete and partial heads; only predicted outputs change.", "quantifier": "all score matrices and heads (exact arithmetic)", "why_tests_cant": "All histories.", "anchors": ["cpp/subprojects/boosting/src/mlrl/boosting/data/matrix_c_contiguous_numeric.cpp", "cpp/subprojects/boosting/src/mlrl/boosting/data/matrix_sparse_set_numeric.cpp"]}
{"id": "C59", "title": "Covered plus uncovered statistics equal the total", "statement": "While searching for conditions, the statistics of covered and uncovered examples always add up to the total, also after accumulation across resets.", "quantifier": "all sequences of add/reset operations", "why_tests_cant": "Unbounded histories.", "anchors": ["cpp/subprojects/boosting/src/mlrl/boosting/statistics/statistics_common.hpp", "cpp/subprojects/seco/src/mlrl/seco/statistics/statistics_common.hpp"]}
{"id": "C60", "title": "GFM maximises the expected example-wise F1-measure", "statement": "The F-measure maximiser predicts a label set whose expected F1-measure under the estimated joint distribution is maximal among all label sets.", "quantifier": "all distributions over known label vectors, all label sets", "why_tests_cant": "Exponential number of label sets over continuous probabilities.", "anchors": ["cpp/subprojects/boosting/src/mlrl/boosting/prediction/transformation_binary_gfm.cpp"]}
{"id": "C61", "title": "Marginal probabilities are sums over label vectors", "statement": "Marginalised probability estimates equal the sum of the joint probabilities of all label vectors containing the label.", "quantifier": "all label vector sets and joint probabilities", "why_tests_cant": "All inputs.", "anchors": ["cpp/subprojects/boosting/src/mlrl/boosting/prediction/transformation_probability_marginalized.cpp"]}
{"id": "C62", "title": "Example-wise prediction returns a known label vector of minimal distance", "statement": "Example-wise binary prediction returns a known label vector whose distance is minimal, ties resolved in favour of the more frequent one.", "quantifier": "all label vector sets and scores", "why_tests_cant": "All ties.", "anchors": ["cpp/subprojects/boosting/src/mlrl/boosting/prediction/transformation_binary_example_wise.cpp"]}
{"id": "C63", "title": "Joint probabilities via chain rule form a distribution", "statement": "The chain rule estimate of a label vector's joint probability is the product of the marginal (complementary) probabilities, and sums to one over all label vectors.", "quantifier": "all scores, all numbers of labels", "why_tests_cant": "Exponential sum.", "anchors": ["cpp/subprojects/boosting/src/mlrl/boosting/prediction/probability_function_chain_rule.cpp"]}
{"id": "C64", "title": "Logistic function is a proper probability", "statement": "The numerically stabilised logistic function equals 1/(1+exp(-x)), lies in (0,1), is monotone and symmetric.", "quantifier": "all real inputs", "why_tests_cant": "Continuous domain.", "anchors": ["cpp/subprojects/boosting/include/mlrl/boosting/util/math.hpp: logisticFunction"]}
{"id": "C65", "title": "Loss gradients and Hessians are the derivatives of the loss", "statement": "The gradients and Hessians reported for the logistic and squared hinge losses are the first and second derivatives of the evaluated loss with respect to the scores.", "quantifier": "all real scores and labels", "why_tests_cant": "Continuous domain.", "anchors": ["cpp/subprojects/boosting/src/mlrl/boosting/losses"]}
{"id": "C66", "title": "Label binning assigns valid bins", "statement": "Each label with non-zero criterion is assigned to a bin below the reported number of bins, negative and positive criteria never share a bin, and smaller criteria never get larger bins within a sign.", "quantifier": "all criteria vectors and bin settings", "why_tests_cant": "Continuous domain.", "anchors": ["cpp/subprojects/boosting/src/mlrl/boosting/binning/label_binning_equal_width.cpp"]}
{"id": "C67", "title": "Stratified sampling selects the requested number of examples", "statement": "The number of examples selected by stratified sampling equals the requested sample size, including the configured minimum and maximum numbers of samples.", "quantifier": "all example sets, groupings, sample sizes, bounds and seeds", "why_tests_cant": "Rounding per stratum accumulates over all strata.", "anchors": ["cpp/subprojects/common/src/mlrl/common/sampling/stratified_sampling_example_wise.cpp"]}
{"id": "C68", "title": "Strata do not depend on the storage of labels", "statement": "Stratification by label vectors forms the same strata, without reading out of bounds, whether the label matrix is stored densely or sparsely.", "quantifier": "all label matrices", "why_tests_cant": "Requires arbitrary matrices in both formats.", "anchors": ["cpp/subprojects/common/include/mlrl/common/data/view_matrix_csr_binary.hpp", "cpp/subprojects/common/src/mlrl/common/sampling/stratified_sampling_example_wise.cpp"]}
{"id": "C69", "title": "Column-wise view of a sparse label matrix", "statement": "Converting a sparse row-wise label matrix to column-wise format yields, for each label, exactly the requested examples having this label, in the requested order.", "quantifier": "all sparse label matrices, all lists of examples", "why_tests_cant": "In-place counting sort with shared arrays; needs an invariant for all shapes.", "anchors": ["cpp/subprojects/common/src/mlrl/common/sampling/stratified_sampling_output_wise.cpp"]}
{"id": "C70", "title": "Rules do not cover examples with missing values", "statement": "A rule never covers an example if the value of one of the features used by its conditions is missing (NaN), as assumed during training, where such examples are removed from the covered ones.", "quantifier": "all rules, all examples with missing values", "why_tests_cant": "Needs agreement of training and prediction for all rules.", "anchors": ["cpp/subprojects/common/include/mlrl/common/model/body_conjunctive.hpp", "cpp/subprojects/common/src/mlrl/common/model/body_conjunctive.cpp", "cpp/subprojects/common/src/mlrl/common/input/feature_vector_decorator.hpp"]}
{"id": "C71", "title": "Time limit", "statement": "The time-based stopping criterion requests a stop iff at least the configured number of seconds has elapsed since it has been tested for the first time, and it never asks for a limited number of used rules.", "quantifier": "all limits, all monotone clocks, all numbers of tests", "why_tests_cant": "Depends on the clock.", "anchors": ["cpp/subprojects/common/src/mlrl/common/stopping/stopping_criterion_time.cpp"]}
{"id": "C72", "title": "Pre-pruning ends training if unused rules should be removed", "statement": "If global pre-pruning is configured to remove unused rules, training ends as soon as the criterion has determined the number of rules to be used.", "quantifier": "all configurations, all sequences of scores", "why_tests_cant": "The value in question is uninitialised memory, a test may pass by chance.", "anchors": ["cpp/subprojects/common/src/mlrl/common/stopping/global_pruning_pre.cpp:167-177"]}
{"id": "C73", "title": "Accepted pre-pruning configurations are safe", "statement": "Whenever the setters of the pre-pruning configuration accept the given values, training does not run into undefined behaviour.", "quantifier": "all accepted configurations", "why_tests_cant": "Needs all configurations and histories of scores.", "anchors": ["cpp/subprojects/common/src/mlrl/common/stopping/global_pruning_pre.cpp:239-253", "cpp/subprojects/common/include/mlrl/common/util/validation.hpp:85-90"]}
{"id": "C74", "title": "Isotonic calibration minimises the squared error", "statement": "The probabilities that are assigned to the given bins by isotonic calibration minimise the sum of squared errors among all non-decreasing assignments, i.e., they are an isotonic regression.", "quantifier": "all sets of bins", "why_tests_cant": "A test would need to compare against all non-decreasing assignments.", "anchors": ["cpp/subprojects/common/src/mlrl/common/prediction/probability_calibration_isotonic.cpp:37-102"]}
{"id": "C75", "title": "Every probability can be calibrated", "statement": "Each probability in [0, 1], including zero, is calibrated to a probability.", "quantifier": "all sets of bins and all probabilities", "why_tests_cant": "Only a single boundary value is affected.", "anchors": ["cpp/subprojects/common/src/mlrl/common/prediction/probability_calibration_isotonic.cpp:104-132"]}
{"id": "C76", "title": "Occurrences of label vectors", "statement": "When fitting an isotonic model for joint probabilities, an example counts as an occurrence of a label vector iff its relevant labels are exactly those of the label vector.", "quantifier": "all label vectors and examples", "why_tests_cant": "Only label vectors that are prefixes of others are affected.", "anchors": ["cpp/subprojects/boosting/src/mlrl/boosting/prediction/probability_calibration_isotonic.cpp:335-350"]}
{"id": "C77", "title": "Beam search returns the best rule it found", "statement": "The rule returned by beam search is at least as good as every rule it found during the search.", "quantifier": "all data sets, beam widths and numbers of conditions", "why_tests_cant": "Needs searches in which a good rule is followed by worse refinements.", "anchors": ["cpp/subprojects/common/src/mlrl/common/rule_induction/rule_induction_top_down_beam_search.cpp"]}
{"id": "C78", "title": "Beam search returns a valid rule", "statement": "The rule returned by beam search has at least one and at most the allowed number of conditions, each of its conditions is a refinement found for the rule consisting of the previous conditions, its quality is that of its last refinement and better than that of no rule at all; no rule is returned only if the first search finds none. The search terminates.", "quantifier": "all data sets, beam widths and numbers of conditions", "why_tests_cant": "Unbounded searches.", "anchors": ["cpp/subprojects/common/src/mlrl/common/rule_induction/rule_induction_top_down_beam_search.cpp"]}
{"id": "C79", "title": "Statistics are updated for the covered examples", "statement": "When a rule is added to the model, its predictions are applied to exactly the training examples it covers, also if it has been pruned, and its head is recalculated from exactly these examples.", "quantifier": "all rules, all holdout sets, with and without pruning", "why_tests_cant": "Depends on the rule before and after pruning.", "anchors": ["cpp/subprojects/common/src/mlrl/common/rule_induction/rule_induction_common.hpp", "cpp/subprojects/common/src/mlrl/common/rule_pruning/rule_pruning_irep.cpp", "cpp/subprojects/common/src/mlrl/common/rule_refinement/feature_space_tabular.cpp"]}
{"id": "C80", "title": "Sequential post-optimization keeps the statistics up to date", "statement": "After each iteration of sequential post-optimization the current predictions for the training examples are those of the rules in the model.", "quantifier": "all models, numbers of iterations and outcomes of rule induction", "why_tests_cant": "Needs an unsuccessful induction during post-optimization.", "anchors": ["cpp/subprojects/common/src/mlrl/common/post_optimization/post_optimization_sequential.cpp"]}
{"id": "C81", "title": "Missing values are not counted as covered", "statement": "Examples that lack a value of a feature contribute neither to the scores nor to the reported number of covered examples of a condition that uses the feature, as they do not satisfy any such condition.", "quantifier": "all feature vectors, weights and sets of examples with missing values", "why_tests_cant": "Needs the combination of missing values with the minimum coverage.", "anchors": ["cpp/subprojects/common/src/mlrl/common/input/feature_based_search_nominal.hpp", "cpp/subprojects/common/src/mlrl/common/input/feature_vector_decorator.hpp"]}
{"id": "C82", "title": "Binned conditions match what they cover", "statement": "For each candidate `feature <= t` or `feature > t` evaluated on a binned numerical feature, the statistics and the reported number of covered examples are those of exactly the examples satisfying the condition, and no memory outside of the feature vector is accessed.", "quantifier": "all binned feature vectors, weights, coverage states and positions of the sparse bin", "why_tests_cant": "Only particular positions of the sparse bin expose errors.", "anchors": ["cpp/subprojects/common/src/mlrl/common/input/feature_based_search_binned.hpp"]}
{"id": "C83", "title": "Conditions respect the minimum coverage", "statement": "Each condition evaluated for a nominal, binary, ordinal, numerical or binned feature covers at least the required minimum number of examples according to the reported number of covered examples.", "quantifier": "all feature vectors, weights, coverage states and minimum coverages", "why_tests_cant": "All data sets.", "anchors": ["cpp/subprojects/common/src/mlrl/common/input/feature_based_search_nominal.hpp", "cpp/subprojects/common/src/mlrl/common/input/feature_based_search_ordinal.hpp", "cpp/subprojects/common/src/mlrl/common/input/feature_based_search_numerical.hpp", "cpp/subprojects/common/src/mlrl/common/input/feature_based_search_binned.hpp"]}
{"id": "C84", "title": "Filtered feature vectors describe the covered examples", "statement": "After any sequence of conditions, the feature vector used to search for the next condition on a feature describes exactly the values of the examples that are still covered: their positions are ordered by value, examples that are not stored have the majority or sparse value, and exactly the covered examples without a value are listed as missing.", "quantifier": "all data sets, all sequences of conditions, searches and copies", "why_tests_cant": "Needs vectors that have been filtered repeatedly, by masks and by intervals.", "anchors": ["cpp/subprojects/common/src/mlrl/common/input/feature_vector_decorator_numerical.hpp", "cpp/subprojects/common/src/mlrl/common/input/feature_vector_decorator_nominal.hpp", "cpp/subprojects/common/src/mlrl/common/input/feature_vector_decorator_ordinal.hpp", "cpp/subprojects/common/src/mlrl/common/input/feature_vector_decorator_binned.hpp"]}
{"id": "C85", "title": "Features are only dropped if they are useless", "statement": "A feature is excluded from the search for further conditions only if all covered examples have the same value.", "quantifier": "all data sets and sequences of conditions", "why_tests_cant": "An omitted feature merely leads to a different rule.", "anchors": ["cpp/subprojects/common/src/mlrl/common/input/feature_vector_decorator_numerical.hpp", "cpp/subprojects/common/src/mlrl/common/input/feature_vector_decorator_nominal.hpp", "cpp/subprojects/common/src/mlrl/common/input/feature_vector_equal.cpp"]}
{"id": "C86", "title": "Conditions can be replayed", "statement": "The positions stored in the conditions of a rule identify the same examples whenever the conditions are applied to an unfiltered subspace in the same order, as done by rule pruning and post-optimization, regardless of the copies and searches that took place when the rule was induced.", "quantifier": "all rules and histories of their induction", "why_tests_cant": "Depends on the history of cached feature vectors.", "anchors": ["cpp/subprojects/common/src/mlrl/common/rule_refinement/feature_space_tabular.cpp", "cpp/subprojects/common/src/mlrl/common/rule_pruning/rule_pruning_irep.cpp", "cpp/subprojects/common/src/mlrl/common/post_optimization/post_optimization_sequential.cpp"]}
{"id": "C87", "title": "Resetting a subspace reverts all conditions", "statement": "After a subspace has been reset, it is in the same state as a new subspace.", "quantifier": "all sequences of conditions", "why_tests_cant": "All histories.", "anchors": ["cpp/subprojects/common/include/mlrl/common/rule_refinement/feature_subspace.hpp", "cpp/subprojects/common/src/mlrl/common/rule_refinement/feature_space_tabular.cpp"]}
{"id": "C88", "title": "Equal-frequency bins are evenly filled", "statement": "Equal-frequency binning closes a bin as soon as it holds the intended number of examples (and the next value differs), such that no bin but the last holds fewer, no bin is larger than needed to keep equal values together, and no bin is empty.", "quantifier": "all value sequences, all numbers of bins, all sparse values and missing values", "why_tests_cant": "Uneven bins are still valid bins; only the distribution reveals that examples are counted incorrectly.", "anchors": ["cpp/subprojects/common/src/mlrl/common/input/feature_binning_equal_frequency.cpp:8-115"]}
{"id": "C89", "title": "Labels can be considered in any order", "statement": "Sampling a subset of the labels and predicting for several labels at once are supported by separate-and-conquer algorithms: confusion matrices can be determined for any set of labels that may be sampled, and rules can be applied regardless of the order in which their labels are given.", "quantifier": "all label subsets, orders of labels, label matrices and random states", "why_tests_cant": "The order depends on the random state, respectively the quality of labels.", "anchors": ["cpp/subprojects/seco/src/mlrl/seco/data/vector_confusion_matrix_dense.cpp", "cpp/subprojects/seco/src/mlrl/seco/data/matrix_coverage_dense.cpp", "cpp/subprojects/common/src/mlrl/common/sampling/output_sampling_without_replacement.cpp"]}
{"id": "C90", "title": "Heads are scored by the qualities of their labels", "statement": "A separate-and-conquer rule predicts, for each label of its head, the opposite of the default rule. Its quality is the mean of the heuristic's values for these labels, each of them computed from the label's confusion matrices of covered and uncovered examples, times the lift. Single-label heads predict the first label with the best value.", "quantifier": "all heuristics, lift functions, confusion matrices, label subsets and default rules", "why_tests_cant": "All heuristics and all matrices.", "anchors": ["cpp/subprojects/seco/src/mlrl/seco/rule_evaluation/rule_evaluation_decomposable_partial.cpp", "cpp/subprojects/seco/src/mlrl/seco/rule_evaluation/rule_evaluation_decomposable_single.cpp", "cpp/subprojects/seco/src/mlrl/seco/rule_evaluation/rule_evaluation_decomposable_common.hpp"]}
{"id": "C91", "title": "Partial heads have the best quality", "statement": "Among all heads that predict for a single output (or for a given number of outputs), the one selected by a boosting algorithm has the best quality, i.e., no other choice of outputs and scores results in a smaller regularised objective.", "quantifier": "all statistics, weights and numbers of outputs", "why_tests_cant": "The best head depends on all gradients and Hessians.", "anchors": ["cpp/subprojects/boosting/src/mlrl/boosting/rule_evaluation/rule_evaluation_decomposable_single.cpp", "cpp/subprojects/boosting/src/mlrl/boosting/rule_evaluation/rule_evaluation_decomposable_partial_fixed.cpp"]}
{"id": "C92", "title": "Regularisation makes rules more conservative", "statement": "Increasing the weight of the L1 or L2 regularisation never increases the absolute score that is predicted for an output (the documentation: increasing the value causes the model to become more conservative).", "quantifier": "all gradients, Hessians and weights", "why_tests_cant": "Quantifies over all gradients and weights.", "anchors": ["cpp/subprojects/boosting/src/mlrl/boosting/rule_evaluation/rule_evaluation_decomposable_common.hpp", "doc/user_guide/boosting/parameters.md"]}
{"id": "C93", "title": "The documented criterion selects the outputs of dynamic heads", "statement": "A dynamic partial head predicts for an output if its quality q satisfies the documented condition q^exponent > q_best^exponent * (1 - threshold).", "quantifier": "all statistics, thresholds and exponents", "why_tests_cant": "All qualities.", "anchors": ["cpp/subprojects/boosting/include/mlrl/boosting/rule_evaluation/head_type_partial_dynamic.hpp:34-46", "cpp/subprojects/boosting/src/mlrl/boosting/rule_evaluation/rule_evaluation_decomposable_partial_dynamic_common.hpp"]}
{"id": "C94", "title": "Label binning results in optimal shared predictions", "statement": "If gradient-based label binning is used, all outputs in a bin are assigned the same score, the quality of a rule is the regularised objective of the scores it predicts, and (without L1 regularisation) no other assignment of scores to bins results in a better quality.", "quantifier": "all statistics, weights, bin settings, types of heads and previous evaluations", "why_tests_cant": "Depends on all gradients, Hessians and the assignment of outputs to bins.", "anchors": ["cpp/subprojects/boosting/src/mlrl/boosting/rule_evaluation/rule_evaluation_decomposable_binned_common.hpp", "cpp/subprojects/boosting/src/mlrl/boosting/rule_evaluation/rule_evaluation_decomposable_partial_fixed_binned.cpp"]}
{"id": "C95", "title": "Bins do not exceed the memory allocated for them", "statement": "For every configuration that is accepted by the setters, the number of bins that are used for the labels of a data set does not exceed the number of bins memory is allocated for.", "quantifier": "all bin ratios, minimum and maximum numbers of bins, all criteria", "why_tests_cant": "Heap overflows are often not noticed, and the number of bins depends on the signs of all scores.", "anchors": ["cpp/subprojects/boosting/src/mlrl/boosting/binning/label_binning_equal_width.cpp:40-93"]}
{"id": "C96", "title": "Scores of complete heads minimise a non-decomposable loss", "statement": "If a rule predicts for all outputs and a non-decomposable loss function is used, no other scores result in a smaller value of the regularised second-order approximation of the loss (including the Hessians of pairs of outputs), and the quality of the rule is this value, which is at most zero.", "quantifier": "all gradients, Hessians, regularisation weights and numbers of outputs", "why_tests_cant": "Quantifies over all alternative score vectors and all (positive semi-definite) Hessian matrices.", "anchors": ["cpp/subprojects/boosting/src/mlrl/boosting/rule_evaluation/rule_evaluation_non_decomposable_complete.cpp", "cpp/subprojects/boosting/src/mlrl/boosting/rule_evaluation/rule_evaluation_non_decomposable_complete_common.hpp", "cpp/subprojects/boosting/src/mlrl/boosting/rule_evaluation/rule_evaluation_non_decomposable_common.hpp"]}
{"id": "C97", "title": "Decomposable and non-decomposable rule evaluation agree", "statement": "If the Hessians of different outputs are zero, a boosting algorithm predicts the same scores with the same quality, regardless of whether the loss function is treated as decomposable or as non-decomposable.", "quantifier": "all diagonal Hessian matrices, gradients and regularisation weights", "why_tests_cant": "Two implementations must agree on all inputs.", "anchors": ["cpp/subprojects/boosting/src/mlrl/boosting/rule_evaluation/rule_evaluation_decomposable_common.hpp", "cpp/subprojects/boosting/src/mlrl/boosting/rule_evaluation/rule_evaluation_non_decomposable_complete_common.hpp"]}
{"id": "C98", "title": "Scores of partial heads minimise a non-decomposable loss", "statement": "If a rule predicts for a fixed or dynamic subset of the outputs and a non-decomposable loss function is used, the predicted scores minimise the regularised second-order approximation of the loss with respect to the selected outputs, and the quality of the rule is this value.", "quantifier": "all gradients, Hessians, weights, thresholds and selections of outputs", "why_tests_cant": "Depends on the order in which outputs are selected and on all Hessians.", "anchors": ["cpp/subprojects/boosting/src/mlrl/boosting/rule_evaluation/rule_evaluation_non_decomposable_partial_fixed.cpp", "cpp/subprojects/boosting/src/mlrl/boosting/rule_evaluation/rule_evaluation_non_decomposable_partial_dynamic.cpp", "cpp/subprojects/boosting/src/mlrl/boosting/rule_evaluation/rule_evaluation_non_decomposable_partial_common.hpp"]}
{"id": "C99", "title": "The non-decomposable squared error measures the distance to the ground truth", "statement": "For regression problems, the non-decomposable squared error loss is the Euclidean distance between scores and ground truth, it is zero for perfect predictions, and its gradients and Hessians are the derivatives of this distance.", "quantifier": "all regression targets and scores", "why_tests_cant": "Continuous domain; targets other than the ones used in tests matter.", "anchors": ["cpp/subprojects/boosting/src/mlrl/boosting/losses/loss_non_decomposable_squared_error.cpp"]}
{"id": "C100", "title": "Updating the statistics of a subset of the outputs affects exactly these outputs", "statement": "If gradients and Hessians of a decomposable loss function are updated for a given set of outputs, they afterwards correspond to the predicted scores of these outputs, and the statistics of other outputs are left unchanged.", "quantifier": "all sets of outputs, scores and ground truths", "why_tests_cant": "Quantifies over all subsets of outputs.", "anchors": ["cpp/subprojects/boosting/src/mlrl/boosting/losses/loss_decomposable_common.hpp: updateDecomposableStatistics"]}
{"id": "C101", "title": "Hessians of the logistic loss are correct for scores of any magnitude", "statement": "The Hessians of the non-decomposable logistic loss approximate the second derivatives of the loss, regardless of how large the predicted scores are.", "quantifier": "all predicted scores, including large ones", "why_tests_cant": "Continuous domain; the defect appears for scores with large absolute values only.", "anchors": ["cpp/subprojects/boosting/src/mlrl/boosting/losses/loss_non_decomposable_logistic.cpp: updateNonDecomposableStatisticsInternally"]}
{"id": "C102", "title": "Label-wise predictions minimise the loss", "statement": "The binary labels that are predicted label-wise for an example have minimal loss among all label vectors, given the aggregated scores, for each of the available classification losses; predictions in dense and sparse format agree, and predictions based on uncalibrated probabilities agree with those based on scores.", "quantifier": "all scores, all label vectors, all losses", "why_tests_cant": "Continuous domain and an exponential number of label vectors.", "anchors": ["cpp/subprojects/boosting/src/mlrl/boosting/prediction/transformation_binary_output_wise.cpp", "cpp/subprojects/boosting/src/mlrl/boosting/prediction/discretization_function_score.cpp", "cpp/subprojects/boosting/src/mlrl/boosting/prediction/discretization_function_probability.cpp"]}
{"id": "C103", "title": "Aggregated statistics are weighted sums", "statement": "The gradients and Hessians that are evaluated for a candidate rule are the exact weighted sums over the examples that it covers (or does not cover), for each of the outputs that the search is restricted to, no matter in which order they are given, after any history of updating the total sums and of adding examples to subsets.", "quantifier": "all statistics, weights, subsets of outputs and histories", "why_tests_cant": "Unbounded histories; any order of outputs.", "anchors": ["cpp/subprojects/boosting/src/mlrl/boosting/statistics/statistics_common.hpp", "cpp/subprojects/boosting/src/mlrl/boosting/data/vector_statistic_decomposable_dense.cpp", "cpp/subprojects/boosting/src/mlrl/boosting/data/vector_statistic_decomposable_sparse.cpp", "cpp/subprojects/boosting/src/mlrl/boosting/data/vector_statistic_non_decomposable_dense.cpp"]}
{"id": "C104", "title": "Sparse scores are evaluated like dense ones", "statement": "If predicted scores are stored in a sparse format, the loss of an example and its gradients and Hessians equal those obtained for the same scores in a dense format, up to the threshold below which values are considered to be zero, no matter which rules the scores result from.", "quantifier": "all labels, all histories of applying rules", "why_tests_cant": "The order of stored scores depends on the history.", "anchors": ["cpp/subprojects/boosting/src/mlrl/boosting/losses/loss_decomposable_sparse_common.hpp"]}
{"id": "C105", "title": "Only the statistics of predicted outputs are updated", "statement": "After a rule has been applied, the statistics of exactly those outputs it predicts for are replaced by the gradients and Hessians of the loss at the current scores, for dense and sparse labels and statistics.", "quantifier": "all labels, scores, statistics and heads", "why_tests_cant": "Unbounded number of outputs; any order of outputs.", "anchors": ["cpp/subprojects/boosting/src/mlrl/boosting/losses/loss_decomposable_sparse_common.hpp", "cpp/subprojects/boosting/src/mlrl/boosting/losses/loss_decomposable_common.hpp"]}
{"id": "C106", "title": "Partial heads are sorted", "statement": "The head of a rule that predicts for a subset of the outputs is sorted by the outputs before it is used, without changing what is predicted for any output.", "quantifier": "all heads, all outcomes of the sorting algorithm", "why_tests_cant": "All heads; depends on flags set elsewhere.", "anchors": ["cpp/subprojects/common/src/mlrl/common/rule_refinement/prediction_partial.cpp", "cpp/subprojects/common/src/mlrl/common/rule_refinement/score_processor.cpp", "cpp/subprojects/boosting/src/mlrl/boosting/rule_evaluation/rule_evaluation_decomposable_complete_common.hpp"]}
{"id": "C107", "title": "Sizes computed from fractions are accurate", "statement": "Turning a fraction of n elements into an absolute number with single precision never results in undefined behaviour, never yields zero or more than n elements, respects the configured minimum and maximum, and differs from the exact fraction by less than one.", "quantifier": "all 32-bit numbers of elements, all single-precision fractions in (0, 1], all bounds", "why_tests_cant": "More than 2^60 combinations; rounding errors only show up for large numbers of elements.", "anchors": ["cpp/subprojects/common/include/mlrl/common/util/math.hpp: util::calculateBoundedFraction"]}
{"id": "C108", "title": "Training and holdout sets are not empty", "statement": "Splitting at least two examples into a training and a holdout set according to a fraction in (0, 1) always results in non-empty sets whose sizes add up to the number of examples.", "quantifier": "all 32-bit numbers of examples, all single-precision fractions in (0, 1)", "why_tests_cant": "More than 2^60 combinations; depends on rounding twice.", "anchors": ["cpp/subprojects/common/src/mlrl/common/sampling/partition_sampling_bi_random.cpp", "cpp/subprojects/common/src/mlrl/common/sampling/partition_sampling_bi_stratified_example_wise.cpp", "cpp/subprojects/common/src/mlrl/common/sampling/partition_sampling_bi_stratified_output_wise.cpp"]}
{"id": "C109", "title": "Vectors for nominal and ordinal features describe the feature's values", "statement": "For a nominal or ordinal feature, the feature vector created from a column of a dense or sparse feature matrix assigns the value it has according to the matrix to each example, exactly the examples with missing values are marked as such, ordinal values are sorted, and the feature is ignored iff all examples have the same value. No uninitialised memory is used.", "quantifier": "all columns with missing values, any iteration order of the hash map, dense and sparse storage", "why_tests_cant": "Depends on the order of a hash map and on the values that happen to be stored explicitly by a sparse matrix.", "anchors": ["cpp/subprojects/common/src/mlrl/common/input/feature_type_nominal.cpp", "cpp/subprojects/common/src/mlrl/common/input/feature_type_nominal_common.hpp", "cpp/subprojects/common/src/mlrl/common/input/feature_type_ordinal.cpp"]}
{"id": "C110", "title": "Vectors for numerical features describe the feature's values", "statement": "For a numerical feature, the feature vector created from a column of a dense or sparse feature matrix contains the examples sorted by the values they have according to the matrix, exactly the examples with missing values are marked as such, and the feature is ignored only if its smallest and largest value are considered to be equal.", "quantifier": "all columns with missing values, any outcome of sorting, dense and sparse storage", "why_tests_cant": "Unbounded number of examples; std::sort is free to order ties arbitrarily.", "anchors": ["cpp/subprojects/common/src/mlrl/common/input/feature_type_numerical.cpp", "cpp/subprojects/common/src/mlrl/common/input/feature_type_numerical_common.hpp"]}
{"id": "C111", "title": "Label binning results in optimal shared predictions for non-decomposable losses", "statement": "If gradient-based label binning is used with a non-decomposable loss function, all outputs that are assigned to the same bin receive the same score, outputs without a bin receive zero, the reported quality is the value of the regularised second-order approximation of the loss for the predicted scores, and no other shared scores achieve a better one. Reusing the evaluator does not affect the result.", "quantifier": "all gradients, Hessians, regularisation weights, configurations for which the bins fit into memory, previous states of the evaluator and solutions found by LAPACK", "why_tests_cant": "Optimality quantifies over all other scores; whether the result is wrong depends on the Hessians of outputs that happen to share a bin.", "anchors": ["cpp/subprojects/boosting/src/mlrl/boosting/rule_evaluation/rule_evaluation_non_decomposable_binned_common.hpp", "cpp/subprojects/boosting/src/mlrl/boosting/rule_evaluation/rule_evaluation_non_decomposable_complete_binned.cpp", "cpp/subprojects/boosting/src/mlrl/boosting/rule_evaluation/rule_evaluation_non_decomposable_partial_fixed_binned.cpp"]}
{"id": "C112", "title": "A default rule is only omitted if it prevents sparse statistics", "statement": "If the parameter default_rule is set to 'auto', a default rule is included in a boosted model if and only if statistics would not be stored in a sparse format without it.", "quantifier": "all losses, types of heads, statistic formats, label binning strategies, classification and regression problems and ground truths", "why_tests_cant": "The decision is distributed over several components that query each other and depends on the number and density of the outputs; tests cover few of the combinations.", "anchors": ["cpp/subprojects/boosting/src/mlrl/boosting/rule_model_assemblage/default_rule_auto.cpp", "cpp/subprojects/boosting/include/mlrl/boosting/losses/loss_non_decomposable.hpp", "cpp/subprojects/boosting/include/mlrl/boosting/statistics/statistic_format.hpp", "cpp/subprojects/boosting/src/mlrl/boosting/statistics/statistic_format_auto.cpp"]}
{"id": "C113", "title": "A default rule predicts for all outputs", "statement": "Whenever a boosted model contains a default rule, the default rule predicts for all outputs, regardless of the type of heads used for the other rules.", "quantifier": "all configurations and ground truths", "why_tests_cant": "Depends on which of several rule evaluations is selected, given a combination of parameters and characteristics of the ground truth.", "anchors": ["cpp/subprojects/boosting/src/mlrl/boosting/statistics/statistics_provider_decomposable_sparse.cpp", "cpp/subprojects/boosting/src/mlrl/boosting/rule_evaluation/head_type_single.cpp", "cpp/subprojects/common/src/mlrl/common/rule_induction/rule_induction_common.hpp"]}
{"id": "C114", "title": "Label binning is used as configured", "statement": "If label binning is turned off, no rule makes use of it. If it is requested, it is used for all rules that may predict for several outputs. If it is chosen automatically, it is used if and only if the loss is non-decomposable.", "quantifier": "all configurations and ground truths", "why_tests_cant": "Whether bins are used cannot be seen from a single model; all combinations of losses, heads and formats must be considered.", "anchors": ["cpp/subprojects/boosting/src/mlrl/boosting/rule_evaluation/head_type_complete.cpp", "cpp/subprojects/boosting/src/mlrl/boosting/binning/label_binning_auto.cpp", "cpp/subprojects/boosting/src/mlrl/boosting/binning/label_binning_equal_width.cpp"]}
{"id": "C115", "title": "Rules have heads of the configured type", "statement": "All rules of a boosted model, except for the default rule, have heads of the type requested via the parameter head_type, and the same type of heads is used for pruning. If the type is chosen automatically, all of them predict for a single output, if statistics are stored in a sparse format, and for all outputs otherwise.", "quantifier": "all configurations and ground truths", "why_tests_cant": "The type of heads results from the interplay of losses, formats and head configurations.", "anchors": ["cpp/subprojects/boosting/src/mlrl/boosting/rule_evaluation/head_type_auto.cpp", "cpp/subprojects/boosting/src/mlrl/boosting/rule_evaluation/head_type_single.cpp", "cpp/subprojects/boosting/src/mlrl/boosting/rule_evaluation/head_type_partial_fixed.cpp", "cpp/subprojects/boosting/src/mlrl/boosting/rule_evaluation/head_type_partial_dynamic.cpp", "cpp/subprojects/boosting/src/mlrl/boosting/rule_evaluation/head_type_complete.cpp"]}
{"id": "C116", "title": "Statistics are stored in the configured format", "statement": "Statistics are never stored in a sparse format if the loss does not support it or a dense format is requested. If a sparse format is requested and supported by the loss, it is used. If the format is chosen automatically, a sparse format is only used for more than 120 sparse labels and in the absence of a default rule.", "quantifier": "all configurations and ground truths", "why_tests_cant": "Storage is an internal decision that depends on the interplay of several components.", "anchors": ["cpp/subprojects/boosting/src/mlrl/boosting/statistics/statistic_format_auto.cpp", "cpp/subprojects/boosting/src/mlrl/boosting/statistics/statistic_format_sparse.cpp", "cpp/subprojects/boosting/src/mlrl/boosting/losses/loss_decomposable_squared_hinge.cpp", "cpp/subprojects/boosting/src/mlrl/boosting/rule_evaluation/head_type_complete.cpp"]}
{"id": "C117", "title": "Calibration models are fitted to the scores the model predicts", "statement": "After training, the models for the calibration of probabilities have been fitted to exactly those scores that the trained model predicts for the training examples or the examples in the holdout set.", "quantifier": "all training runs: stopping criteria, rules, with or without a default rule, removal of unused rules, iterations of sequential post-optimization", "why_tests_cant": "The scores used for calibration are not visible to the user, and they may only deviate if global pruning or post-optimization changes the model after its predictions have been applied.", "anchors": ["cpp/subprojects/common/include/mlrl/common/learner_classification_common.hpp", "cpp/subprojects/common/src/mlrl/common/post_optimization/post_optimization_unused_rule_removal.cpp", "cpp/subprojects/common/src/mlrl/common/post_optimization/post_optimization_sequential.cpp", "cpp/subprojects/boosting/src/mlrl/boosting/prediction/probability_calibration_isotonic.cpp"]}
{"id": "C118", "title": "Rule pruning has no effect without instance sampling", "statement": "If no instance sampling is used, the conditions of a rule are not pruned, as stated by the documentation of the parameter rule_pruning.", "quantifier": "all rules, all data, with or without a holdout set, boosting and separate-and-conquer", "why_tests_cant": "The effect depends on the combination of a holdout set, instance sampling and rule pruning; a pruned model is a valid model.", "anchors": ["cpp/subprojects/common/src/mlrl/common/sampling/instance_sampling_no.cpp", "cpp/subprojects/common/src/mlrl/common/rule_pruning/rule_pruning_irep.cpp", "cpp/subprojects/common/src/mlrl/common/rule_refinement/feature_space_tabular.cpp", "cpp/subprojects/common/src/mlrl/common/rule_induction/rule_induction_common.hpp"]}
{"id": "C119", "title": "Label vectors are available if they are needed", "statement": "If a model has been trained with some configuration, neither fitting the calibration models nor creating a predictor according to the same configuration fails because the label vectors in the training data have not been stored.", "quantifier": "all combinations of losses, predictors and calibrators", "why_tests_cant": "The decision to store label vectors is taken before training, whereas a failure only becomes visible when predictions are requested.", "anchors": ["cpp/subprojects/common/include/mlrl/common/learner_common.hpp", "cpp/subprojects/boosting/src/mlrl/boosting/prediction/predictor_binary_auto.cpp", "cpp/subprojects/boosting/src/mlrl/boosting/prediction/predictor_probability_auto.cpp", "cpp/subprojects/boosting/src/mlrl/boosting/prediction/predictor_probability_marginalized.cpp", "cpp/subprojects/boosting/src/mlrl/boosting/prediction/probability_calibration_isotonic.cpp"]}
{"id": "C120", "title": "A holdout set is created automatically if and only if it is used", "statement": "If the parameter holdout is set to 'auto', training examples are set aside if and only if a component, i.e., global pruning or the calibration of probabilities, makes use of them.", "quantifier": "all combinations of losses, global pruning and calibrators", "why_tests_cant": "A holdout set that is not used only results in a worse model, which cannot be recognized as an error by tests.", "anchors": ["cpp/subprojects/boosting/src/mlrl/boosting/sampling/partition_sampling_auto.cpp", "cpp/subprojects/boosting/src/mlrl/boosting/prediction/probability_calibration_isotonic.cpp"]}
{"id": "C121", "title": "Minima and maxima are respected", "statement": "If the methods for configuring a number of bins, examples, features or outputs in terms of a fraction, a minimum and a maximum have been called without an exception, the number that is used is at least the minimum (unless fewer elements are available) and at most the maximum (unless it is 0).", "quantifier": "all sequences of calls, including calls that fail, all fractions, all numbers of elements, eight types of configurations", "why_tests_cant": "Tests set parameters in a fixed order. Whether a maximum is silently ignored depends on the history of calls.", "anchors": ["cpp/subprojects/common/include/mlrl/common/util/validation.hpp", "cpp/subprojects/common/include/mlrl/common/util/math.hpp", "cpp/subprojects/common/src/mlrl/common/sampling/instance_sampling_without_replacement.cpp", "cpp/subprojects/common/src/mlrl/common/sampling/feature_sampling_without_replacement.cpp", "cpp/subprojects/common/src/mlrl/common/input/feature_binning_equal_width.cpp", "cpp/subprojects/boosting/src/mlrl/boosting/rule_evaluation/head_type_partial_fixed.cpp"]}
{"id": "C122", "title": "Values of parameters are accepted if and only if they are in the documented range", "statement": "A method that sets a parameter throws an exception if the given value is not in the range given by its documentation, and does not throw an exception otherwise.", "quantifier": "21 parameters with floating point values, 18 parameters with integer values, all values, including infinite ones and values that are not a number", "why_tests_cant": "Special floating point values, tiny negative values and the bounds of ranges are hardly ever tested for each of the parameters.", "anchors": ["cpp/subprojects/common/include/mlrl/common/util/validation.hpp", "cpp/subprojects/common/include/mlrl/common/data/types.hpp", "cpp/subprojects/common/src/mlrl/common/rule_induction/rule_induction_top_down_greedy.cpp", "cpp/subprojects/common/src/mlrl/common/stopping/global_pruning_pre.cpp", "cpp/subprojects/seco/src/mlrl/seco/lift_functions/lift_function_peak.cpp"]}
{"id": "C123", "title": "A model that has been pickled can be restored", "statement": "Pickling a model and restoring it results in a model with the same rules in the same order, the same default rule, and the same number of used rules, so that all predictions are the same. The same applies to sets of label vectors and to calibration models. States of a different version are rejected.", "quantifier": "all rule lists with conjunctive bodies and complete or partial heads, all numbers of used rules, all sets of label vectors, all calibration models, any content of uninitialised memory", "why_tests_cant": "Tests compare the predictions of a few models before and after pickling; empty vectors of conditions, unused rules, default rules at different positions and label vectors without labels are special cases.", "anchors": ["python/subprojects/common/mlrl/common/cython/rule_model.pyx", "python/subprojects/common/mlrl/common/cython/output_space_info.pyx", "python/subprojects/common/mlrl/common/cython/probability_calibration.pyx", "cpp/subprojects/common/src/mlrl/common/model/rule_list.cpp", "cpp/subprojects/common/src/mlrl/common/prediction/label_vector_set.cpp"]}
{"id": "C124", "title": "The number of used rules may be set to any value", "statement": "If the number of used rules is set via the method set_num_used_rules, predictions are made with this many rules, or with all rules if there are fewer.", "quantifier": "all rule lists, all numbers of used rules, all maximum numbers of rules", "why_tests_cant": "Reading rules beyond the end of a vector does not necessarily crash.", "anchors": ["python/subprojects/common/mlrl/common/cython/rule_model.pyx", "cpp/subprojects/common/src/mlrl/common/model/rule_list.cpp"]}
{"id": "C125", "title": "Calibration models are fitted to one observation per example", "statement": "For each label, the marginal calibration model is fitted to exactly one observation for each example in the selected set, which pairs the probability resulting from the score of the label with its ground truth. For each label vector, the joint calibration model is fitted to one observation per example, which pairs the probability of the label vector with the outcome of comparing it to the labels of the example. Dense labels and labels in the CSR format result in the same observations.", "quantifier": "all label matrices of both representations, all score matrices, all sets of calibration examples, all label vectors, all probability functions", "why_tests_cant": "Mismatched labels, examples or iterators only slightly change the calibrated probabilities, for which no reference exists.", "anchors": ["cpp/subprojects/boosting/src/mlrl/boosting/prediction/probability_calibration_isotonic.cpp", "cpp/subprojects/common/include/mlrl/common/iterator/iterator_forward_sparse_binary.hpp"]}
{"id": "C126", "title": "The data calibration models are fitted to does not depend on the representation of scores", "statement": "If scores are stored in a sparse matrix, marginal calibration models are fitted to the same observations as in the case of a dense matrix that contains zeros instead of missing scores, and the representation of labels is irrelevant.", "quantifier": "all label matrices, all sparse score matrices, all sets of calibration examples, all probability functions", "why_tests_cant": "No loss function that is currently available supports both sparse scores and probabilities; the code is never executed by tests.", "anchors": ["cpp/subprojects/boosting/src/mlrl/boosting/prediction/probability_calibration_isotonic.cpp"]}
{"id": "C127", "title": "Calibration models can be fitted to any data set", "statement": "Fitting a calibration model never results in undefined behaviour, and the calibrated probabilities are in [0, 1].", "quantifier": "all data sets, sizes of the holdout set in (0, 1), all label and score matrices, all probability functions with values in [0, 1], all outcomes of sorting", "why_tests_cant": "Data sets in tests are large enough; reading and writing the first element of an empty vector does not necessarily crash.", "anchors": ["cpp/subprojects/boosting/src/mlrl/boosting/prediction/probability_calibration_isotonic.cpp", "cpp/subprojects/common/src/mlrl/common/prediction/probability_calibration_isotonic.cpp", "cpp/subprojects/common/src/mlrl/common/sampling/partition_sampling_bi_random.cpp"]}
{"id": "C128", "title": "Binary predictions do not depend on how they are obtained", "statement": "The labels that are predicted for an example are those that result from applying the transformation to the scores of the rules that are used. They do not depend on whether a dense or sparse matrix is requested, whether predictions are made at once or incrementally, with which step sizes, in which order examples are processed by which threads, and which values were stored in the memory before. If no transformation is available, no labels are predicted.", "quantifier": "all models, feature matrices, orders of examples, assignments to threads, contents of memory, sequences of step sizes, all transformations", "why_tests_cant": "Tests compare a few predictions to stored outcomes and cannot enumerate schedules, step sizes and contents of uninitialized memory.", "anchors": ["cpp/subprojects/boosting/include/mlrl/boosting/prediction/predictor_binary_common.hpp", "cpp/subprojects/boosting/src/mlrl/boosting/prediction/transformation_binary_output_wise.cpp", "cpp/subprojects/boosting/src/mlrl/boosting/prediction/transformation_binary_example_wise.cpp", "cpp/subprojects/boosting/src/mlrl/boosting/prediction/transformation_binary_gfm.cpp", "cpp/subprojects/common/include/mlrl/common/prediction/predictor_common.hpp"]}
{"id": "C129", "title": "Probabilities do not depend on how they are obtained", "statement": "The probabilities that are predicted for an example are those that result from applying the transformation to its scores, although the scores are overwritten in place unless predictions are made incrementally. They do not depend on the order in which examples are processed and the step sizes of an incremental predictor. The marginalized probability of a label is the sum of the normalized probabilities of the label vectors it is relevant to.", "quantifier": "all models, feature matrices, orders of examples, contents of memory, sequences of step sizes, all transformations", "why_tests_cant": "Reading a score after it was overwritten by a probability results in plausible values. Tests do not compare incremental to non-incremental predictions for all step sizes.", "anchors": ["cpp/subprojects/boosting/include/mlrl/boosting/prediction/predictor_probability_common.hpp", "cpp/subprojects/boosting/src/mlrl/boosting/prediction/transformation_probability_output_wise.cpp", "cpp/subprojects/boosting/src/mlrl/boosting/prediction/transformation_probability_marginalized.cpp", "cpp/subprojects/common/include/mlrl/common/prediction/predictor_common.hpp"]}
{"id": "C130", "title": "Predictions do not depend on support for multi-threading", "statement": "Binary predictions are the same regardless of whether the library was built with support for multi-threading and how many threads are used.", "quantifier": "all models, data sets, numbers of CPU cores, preferred numbers of threads, assignments of examples to threads, both build options", "why_tests_cant": "Tests are run with a single build configuration.", "anchors": ["cpp/subprojects/common/include/mlrl/common/prediction/predictor_common.hpp", "cpp/subprojects/common/include/mlrl/common/util/threads.hpp", "cpp/subprojects/boosting/include/mlrl/boosting/prediction/predictor_binary_common.hpp"]}
{"id": "C131", "title": "Label binning does not affect the outputs a rule predicts for", "statement": "If rules predict for a fixed or variable number of outputs, they predict for the same outputs, in the same order, regardless of whether label binning is used. This holds for decomposable and non-decomposable loss functions, where the outputs are selected based on the diagonal of the Hessian matrix.", "quantifier": "all statistics, regularization weights, thresholds, exponents, numbers of outputs, orders of equal scores, contents of memory", "why_tests_cant": "Tests compare the resulting models to stored ones and do not compare rules that have been learned with and without label binning.", "anchors": ["cpp/subprojects/boosting/src/mlrl/boosting/rule_evaluation/rule_evaluation_decomposable_partial_fixed_binned.cpp", "cpp/subprojects/boosting/src/mlrl/boosting/rule_evaluation/rule_evaluation_decomposable_partial_dynamic_binned.cpp", "cpp/subprojects/boosting/src/mlrl/boosting/rule_evaluation/rule_evaluation_non_decomposable_partial_fixed_binned.cpp", "cpp/subprojects/boosting/src/mlrl/boosting/rule_evaluation/rule_evaluation_non_decomposable_partial_dynamic_binned.cpp"]}
{"id": "C132", "title": "Rules do not increase the loss on the training data", "statement": "If a rule that is added to a boosted ensemble predicts scores that have been calculated from the examples it covers, the loss of the ensemble on the training data, i.e., the sum of the losses of the individual examples according to their weights, does not increase. It decreases, unless all scores predicted by the rule are zero.", "quantifier": "all training data, ensembles, covered examples, weights, heads, regularization weights, shrinkage parameters in [0, 1], contents of memory", "why_tests_cant": "Tests compare the resulting models or predictions to stored ones and do not observe the loss after each training step; it is impossible to enumerate all data sets and ensembles.", "anchors": ["cpp/subprojects/boosting/src/mlrl/boosting/rule_evaluation/rule_evaluation_decomposable_common.hpp", "cpp/subprojects/boosting/src/mlrl/boosting/losses/loss_decomposable_common.hpp", "cpp/subprojects/boosting/src/mlrl/boosting/statistics/statistics_decomposable_common.hpp", "cpp/subprojects/boosting/src/mlrl/boosting/post_processing/shrinkage_constant.cpp", "cpp/subprojects/common/src/mlrl/common/rule_induction/rule_induction_common.hpp"]}
{"id": "C133", "title": "Using more rules does not worsen the predictions for the training data", "statement": "The scores a boosted ensemble predicts for the training examples are the scores that have been used for training its rules. Hence, the loss of the predictions for the training examples is the smaller, the more rules of the ensemble are used for prediction.", "quantifier": "all training data, conditions, heads, weights, regularization weights, shrinkage parameters in [0, 1], numbers of rules used for prediction, contents of memory", "why_tests_cant": "Tests compare models and predictions to stored ones. They do not relate predictions to the state of the training algorithm and cannot enumerate all ensembles.", "anchors": ["cpp/subprojects/boosting/src/mlrl/boosting/model/rule_list_builder.cpp", "cpp/subprojects/common/src/mlrl/common/rule_induction/rule_induction_common.hpp", "cpp/subprojects/common/src/mlrl/common/rule_model_assemblage/rule_model_assemblage_sequential.cpp", "cpp/subprojects/common/src/mlrl/common/rule_refinement/prediction_complete.cpp", "cpp/subprojects/common/src/mlrl/common/rule_refinement/prediction_partial.cpp", "cpp/subprojects/boosting/include/mlrl/boosting/prediction/predictor_score_common.hpp"]}
{"id": "C134", "title": "The predictions for training examples are those that are recorded during training", "statement": "The predictions of a decision list that has been learned by a separate-and-conquer algorithm deviate from the default rule for exactly those labels of the training examples that have been covered by its rules according to the statistics used for training. This applies to any number of rules used for prediction and to all formats of predictions.", "quantifier": "all label matrices, feature values, rules, numbers of rules used for prediction, contents of memory", "why_tests_cant": "Tests compare models and predictions to stored ones. They do not relate predictions to the state of the training algorithm and cannot enumerate all decision lists.", "anchors": ["cpp/subprojects/seco/src/mlrl/seco/model/decision_list_builder.cpp", "cpp/subprojects/common/src/mlrl/common/rule_induction/rule_induction_common.hpp", "cpp/subprojects/common/src/mlrl/common/rule_model_assemblage/rule_model_assemblage_sequential.cpp", "cpp/subprojects/seco/src/mlrl/seco/data/matrix_coverage_dense.cpp", "cpp/subprojects/seco/src/mlrl/seco/statistics/statistics_common.hpp", "cpp/subprojects/seco/src/mlrl/seco/prediction/predictor_binary_output_wise.cpp"]}
{"id": "C135", "title": "Rules that cover the minimum number of examples are not refined", "statement": "Conditions are only added to a rule as long as it covers more than the minimum number of examples, because any further condition cannot decrease the number of covered examples below the minimum.", "quantifier": "all search results, minimum coverages, beam widths, numbers of conditions", "why_tests_cant": "Tests cannot enumerate all sequences of refinements.", "anchors": ["cpp/subprojects/common/src/mlrl/common/rule_induction/rule_induction_top_down_greedy.cpp", "cpp/subprojects/common/src/mlrl/common/rule_induction/rule_induction_top_down_beam_search.cpp"]}
{"id": "C136", "title": "The configured number of threads is used", "statement": "If the library has been built with support for multi-threading, refining rules, calculating and updating statistics and obtaining predictions use the configured number of threads (limited by the number of CPU cores), or a number that depends on the loss function, if it should be chosen automatically. The predictions do not depend on the number of threads.", "quantifier": "all build options, numbers of CPU cores, configurations, models, data sets", "why_tests_cant": "Tests are executed for a single build on machines with a certain number of CPU cores, and accesses to memory out of bounds may go unnoticed.", "anchors": ["cpp/subprojects/common/include/mlrl/common/util/threads.hpp", "cpp/subprojects/common/include/mlrl/common/util/openmp.hpp", "cpp/subprojects/common/include/mlrl/common/config.hpp.in", "cpp/subprojects/boosting/include/mlrl/boosting/config.hpp.in", "cpp/subprojects/common/include/mlrl/common/prediction/predictor_common.hpp", "cpp/subprojects/common/src/mlrl/common/multi_threading/multi_threading_manual.cpp", "cpp/subprojects/boosting/src/mlrl/boosting/multi_threading/parallel_rule_refinement_auto.cpp", "cpp/subprojects/boosting/src/mlrl/boosting/multi_threading/parallel_statistic_update_auto.cpp"]}
{"id": "C137", "title": "Converting statistics does not change them", "statement": "If a non-decomposable loss function is used together with single-output heads, the gradients and the diagonals of Hessian matrices are converted when switching to the evaluation of regular or pruned rules. At any point in time, the statistics are the same as if they had not been converted, i.e., those of the loss function at the scores that are predicted by the current rules, and the evaluation that has been requested most recently is used.", "quantifier": "all loss functions, data sets, sequences of applying and reverting rules and of switching, assignments of examples to threads", "why_tests_cant": "Tests compare the performance of a few models. Statistics that are wrong after a conversion result in different, but still valid models.", "anchors": ["cpp/subprojects/boosting/src/mlrl/boosting/statistics/statistics_provider_non_decomposable.hpp", "cpp/subprojects/boosting/src/mlrl/boosting/statistics/statistics_provider_non_decomposable_dense.cpp", "cpp/subprojects/boosting/include/mlrl/boosting/iterator/iterator_diagonal.hpp", "cpp/subprojects/boosting/src/mlrl/boosting/losses/loss_non_decomposable_squared_error.cpp"]}
{"id": "C138", "title": "The configured number of features is sampled", "statement": "Each sample of features consists of as many distinct features as specified by the configuration, in addition to those that are retained: the given fraction of the available features, rounded up, or log2(A - 1) + 1, where A is the number of available features, if no fraction is given. The number of sampled features is at least the given minimum, if there are enough features, and at most the given maximum.", "quantifier": "all numbers of features, fractions, minima, maxima, numbers of retained features, seeds and numbers of samples", "why_tests_cant": "The numbers of features that are not handled properly are not used by tests, and samples are random.", "anchors": ["cpp/subprojects/common/src/mlrl/common/sampling/feature_sampling_without_replacement.cpp", "cpp/subprojects/common/src/mlrl/common/sampling/index_sampling.hpp", "cpp/subprojects/common/src/mlrl/common/iterator/iterator_index.cpp"]}
{"id": "C139", "title": "Scores and sums of statistics remain accurate", "statement": "The score of a training example that is maintained while rules are added, removed and replaced is the sum of the predictions of the rules that remain, i.e., the score that is predicted for the example. The sums of the gradients and Hessians of the examples that are not covered by a refinement, which are obtained by subtracting the sums of the covered ones from the total sums, are the sums of their gradients and Hessians. In particular, the sum of positive Hessians is positive.", "quantifier": "all sequences of additions and removals, values of type float64, weights, sets of excluded and covered examples, and groups that are accumulated", "why_tests_cant": "Tests compare a few results with a tolerance. The errors depend on the order and the magnitudes of all values.", "anchors": ["cpp/subprojects/common/include/mlrl/common/util/view_functions.hpp", "cpp/subprojects/boosting/src/mlrl/boosting/statistics/statistics_common.hpp", "cpp/subprojects/boosting/src/mlrl/boosting/data/matrix_c_contiguous_numeric.cpp"]}
{"id": "C140", "title": "Updating statistics in parallel results in the same statistics", "statement": "If statistics are updated by several threads, according to the predictions of a rule, the resulting statistics are the same as if they are updated by a single thread, regardless of the assignment of examples to threads and of the order in which the threads are executed. This includes the scores, gradients and Hessians used by boosting algorithms, as well as the coverage and the sum of the weights of uncovered labels used by separate-and-conquer algorithms.", "quantifier": "all assignments of examples to threads, all interleavings of memory accesses, all rules, weights and states of the statistics", "why_tests_cant": "Tests observe only some of the possible schedules and a lost update is unlikely in each of them.", "anchors": ["cpp/subprojects/seco/src/mlrl/seco/data/matrix_coverage_dense.cpp", "cpp/subprojects/common/src/mlrl/common/rule_refinement/feature_space_tabular.cpp", "cpp/subprojects/boosting/src/mlrl/boosting/statistics/statistics_common.hpp"]}
{"id": "C141", "title": "Rules are optimized with respect to the other rules of the model", "statement": "Sequential post-optimization replaces each rule of the model, one after the other, with a rule that is learned with respect to the scores that all other rules of the model predict for the training examples. Rules that are not part of the model do not have an effect.", "quantifier": "all training runs: stopping criteria, rules, with or without a default rule, removal of unused rules, numbers of iterations", "why_tests_cant": "The scores that are used for learning are not visible to the user and they only deviate if different optional components are combined.", "anchors": ["cpp/subprojects/common/src/mlrl/common/post_optimization/post_optimization_sequential.cpp", "cpp/subprojects/common/src/mlrl/common/post_optimization/post_optimization_unused_rule_removal.cpp", "cpp/subprojects/common/include/mlrl/common/learner_common.hpp"]}
{"id": "C142", "title": "Rules have the configured minimum support", "statement": "Each rule that is learned covers at least `minCoverage` training examples (or all of them, if there are fewer) and at least the fraction `minSupport` of the training examples.", "quantifier": "all numbers of training examples, single-precision values of `minSupport`, values of `minCoverage`, weights, features and sequences of conditions", "why_tests_cant": "The fraction is rounded to single precision, and whether the count of covered examples is correct depends on the whole sequence of conditions and on missing values.", "anchors": ["cpp/subprojects/common/src/mlrl/common/rule_induction/rule_induction_top_down_greedy.cpp", "cpp/subprojects/common/src/mlrl/common/rule_induction/rule_induction_top_down_beam_search.cpp", "cpp/subprojects/common/include/mlrl/common/util/math.hpp"]}
{"id": "C143", "title": "The representation of the feature matrix does not affect which rules can be learned", "statement": "Whether the same feature values are provided by a dense or a sparse feature matrix, and in which order hash maps are iterated, does not affect which rules can be learned: for each rule that can be learned from one representation, a rule that covers the same training examples can be learned from the other one.", "quantifier": "all feature values, sparse values, orders of iterating hash maps, weights, sequences of searches and conditions, with and without copies of subspaces", "why_tests_cant": "The representations lead to different majority values, bins and thresholds; whether these differences cancel out depends on the whole sequence of conditions.", "anchors": ["cpp/subprojects/common/src/mlrl/common/input/feature_type_nominal.cpp", "cpp/subprojects/common/src/mlrl/common/input/feature_type_ordinal.cpp", "cpp/subprojects/common/src/mlrl/common/input/feature_type_numerical.cpp", "cpp/subprojects/common/src/mlrl/common/input/feature_based_search_nominal.hpp", "cpp/subprojects/common/src/mlrl/common/input/feature_based_search_ordinal.hpp", "cpp/subprojects/common/src/mlrl/common/input/feature_based_search_numerical.hpp"]}
{"id": "C144", "title": "The elements of dense matrices do not share memory", "statement": "The elements of a dense matrix can be accessed and modified independently of each other, accesses never exceed the allocated memory, and values of arrays that are provided by a caller are read from the correct positions, for all numbers of rows and columns that can be represented by the library's index type. The same applies to matrices of Hessians.", "quantifier": "all numbers of rows and columns, positions, values and initial contents of memory, rows and columns stored one after each other, all pairs of outputs", "why_tests_cant": "The numbers of elements that are affected by overflows are too large for tests; the property is about all pairs of positions.", "anchors": ["cpp/subprojects/common/include/mlrl/common/data/view_matrix_dense.hpp", "cpp/subprojects/common/include/mlrl/common/data/view_matrix_c_contiguous.hpp", "cpp/subprojects/common/include/mlrl/common/data/view_matrix_fortran_contiguous.hpp", "cpp/subprojects/common/include/mlrl/common/util/memory.hpp", "cpp/subprojects/boosting/include/mlrl/boosting/util/math.hpp", "cpp/subprojects/boosting/src/mlrl/boosting/data/view_statistic_non_decomposable_dense.cpp"]}
{"id": "C145", "title": "Random access iterators behave like pointers", "statement": "Iterators that are declared to provide random access behave like pointers to the elements of an array: incrementing and decrementing them moves to the next or previous element, postfix operators return the original iterator, array access is relative to the current position, distances and comparisons correspond to positions, and visiting all elements between the beginning and the end yields each element exactly once.", "quantifier": "all numbers of elements, positions, contents and sequences of increments, all four kinds of random access iterators", "why_tests_cant": "The operators are used by algorithms of the standard library in ways that depend on its implementation; tests cover a few positions only.", "anchors": ["cpp/subprojects/common/src/mlrl/common/iterator/iterator_index.cpp", "cpp/subprojects/common/include/mlrl/common/iterator/iterator_binned.hpp", "cpp/subprojects/boosting/include/mlrl/boosting/iterator/iterator_diagonal.hpp", "cpp/subprojects/boosting/src/mlrl/boosting/data/vector_statistic_decomposable_sparse.cpp", "cpp/subprojects/boosting/src/mlrl/boosting/data/vector_statistic_non_decomposable_dense.cpp"]}
{"id": "C146", "title": "The order in which components are configured does not matter", "statement": "The methods for configuring a rule learner may be invoked in any order and any number of times. The last method that concerns a component determines whether and how it is used, even if other components that depend on it have been configured before. Regardless of the methods that are invoked, training and predicting never access a component that does not exist, components never depend on each other infinitely, and decisions that depend on the loss function or on the format for storing statistics are based on those that are used for training.", "quantifier": "all sequences of methods, all values of parameters, all three rule learners", "why_tests_cant": "There are infinitely many sequences of methods and billions of combinations of components; tests cover a few of them, configured in one particular order.", "anchors": ["cpp/subprojects/common/include/mlrl/common/util/properties.hpp", "cpp/subprojects/common/include/mlrl/common/learner.hpp", "cpp/subprojects/boosting/include/mlrl/boosting/learner.hpp", "cpp/subprojects/boosting/include/mlrl/boosting/learner_classification.hpp", "cpp/subprojects/boosting/src/mlrl/boosting/learner_boomer_classifier.cpp", "cpp/subprojects/boosting/src/mlrl/boosting/learner_boomer_regressor.cpp", "cpp/subprojects/seco/src/mlrl/seco/learner_seco_classifier.cpp"]}
{"id": "C147", "title": "Documented default settings are used", "statement": "Unless a component is configured by the user, the component that is documented as the default setting is used. Unless a parameter of a component is set by the user, its value is the documented default value.", "quantifier": "all components and parameters with documented default settings, all sequences of methods that do not concern a component, all three rule learners", "why_tests_cant": "Tests are compared to the results of previous versions and do not take the documentation into account.", "anchors": ["doc/user_guide/boosting/parameters.md", "doc/user_guide/seco/parameters.md", "cpp/subprojects/boosting/src/mlrl/boosting/learner_boomer_classifier.cpp", "cpp/subprojects/boosting/src/mlrl/boosting/learner_boomer_regressor.cpp", "cpp/subprojects/seco/src/mlrl/seco/learner_seco_classifier.cpp"]}
{"id": "C148", "title": "Parameter values in bracket notation are understood as documented", "statement": "A parameter value may be followed by a comma-separated list of key-value pairs in curly brackets. Each text that adheres to this notation and only uses allowed values and keys yields the given value and key-value pairs, where the last pair counts if a key is given several times. All other texts are rejected with a ValueError. A text cannot be understood in two ways.", "quantifier": "all texts, all allowed values and keys", "why_tests_cant": "the number of texts is unlimited and includes arbitrary malformed ones", "anchors": ["python/subprojects/common/mlrl/common/options.py", "python/subprojects/common/mlrl/common/config.py", "doc/quickstart/testbed.md"]}
{"id": "C149", "title": "Documented values of nominal parameters are supported and others are rejected", "statement": "If a documented value, optionally with documented options, is passed to the constructor of BoomerClassifier, BoomerRegressor or SeCoClassifier, the documented component is used, the given options are passed to it and its other settings keep their default values, irrespective of other parameters. Values and options that are not documented are rejected with a ValueError.", "quantifier": "all parameters, all documented values, all options, all combinations of parameters, all orders in which parameters are processed", "why_tests_cant": "the number of combinations of parameters and options is unlimited and sets of parameters are traversed in an unspecified order", "anchors": ["python/subprojects/common/mlrl/common/config.py", "python/subprojects/common/mlrl/common/options.py", "python/subprojects/common/mlrl/common/rule_learners.py", "python/subprojects/boosting/mlrl/boosting/config.py", "python/subprojects/boosting/mlrl/boosting/boosting_learners.py", "python/subprojects/boosting/mlrl/boosting/cython/learner_boomer.pyx", "python/subprojects/seco/mlrl/seco/config.py", "python/subprojects/seco/mlrl/seco/seco_learners.py", "python/subprojects/seco/mlrl/seco/cython/learner_seco.pyx", "doc/user_guide/boosting/parameters.md", "doc/user_guide/seco/parameters.md"]}
{"id": "C150", "title": "Numerical parameters are applied as documented", "statement": "The value of a numerical parameter (e.g., random_state, shrinkage, l1_regularization_weight or max_rules) that is passed to the constructor of a rule learner is passed to the documented component. The documented neutral value turns the component off. Values that are no numbers are rejected with a ValueError.", "quantifier": "all numerical parameters, all values", "why_tests_cant": "the set of values is unlimited and parameters that are silently ignored do not cause an error", "anchors": ["python/subprojects/common/mlrl/common/config.py", "python/subprojects/boosting/mlrl/boosting/config.py", "python/subprojects/boosting/mlrl/boosting/cython/learner_boomer.pyx", "python/subprojects/seco/mlrl/seco/cython/learner_seco.pyx", "doc/user_guide/boosting/parameters.md"]}
{"id": "C151", "title": "Values that are set via Python are stored or rejected", "statement": "If a number is passed to a setter of a configuration in Python (e.g., set_max_samples), either exactly this number (rounded to single precision, if the parameter has the type float32) is returned by the corresponding getter afterwards and all other settings are unchanged, or a Python exception is raised and nothing is changed. The process is never terminated and no undefined behavior occurs.", "quantifier": "all 67 setters with numerical arguments, all values of the annotated type, all previous calls of setters", "why_tests_cant": "the number of values is unlimited and errors only occur for large integers or values close to the limits of a range", "anchors": ["python/subprojects/common/mlrl/common/cython/instance_sampling.pyx", "python/subprojects/common/mlrl/common/cython/instance_sampling.pxd", "python/subprojects/common/mlrl/common/cython/output_sampling.pyx", "python/subprojects/common/mlrl/common/cython/output_sampling.pxd", "python/subprojects/common/mlrl/common/cython/feature_sampling.pyx", "python/subprojects/common/mlrl/common/cython/rule_induction.pyx", "python/subprojects/common/mlrl/common/cython/stopping_criterion.pyx", "python/subprojects/boosting/mlrl/boosting/cython/head_type.pyx", "python/subprojects/seco/mlrl/seco/cython/heuristic.pyx", "python/subprojects/common/mlrl/common/cython/validation.py", "cpp/subprojects/common/include/mlrl/common/util/validation.hpp"]}
{"id": "C152", "title": "Setters in Python accept exactly the documented values", "statement": "A setter of a configuration in Python accepts a number if and only if it is in the documented range, which may depend on the current value of another setting.", "quantifier": "all 67 setters with numerical arguments, all values, all previous calls of setters", "why_tests_cant": "the number of values is unlimited, the range depends on the state of the configuration, and values are checked twice after different conversions", "anchors": ["python/subprojects/common/mlrl/common/cython/instance_sampling.pyx", "python/subprojects/common/mlrl/common/cython/instance_sampling.pxd", "python/subprojects/common/mlrl/common/cython/output_sampling.pyx", "python/subprojects/common/mlrl/common/cython/output_sampling.pxd", "python/subprojects/common/mlrl/common/cython/feature_sampling.pyx", "python/subprojects/common/mlrl/common/cython/rule_induction.pyx", "python/subprojects/common/mlrl/common/cython/stopping_criterion.pyx", "python/subprojects/boosting/mlrl/boosting/cython/head_type.pyx", "python/subprojects/seco/mlrl/seco/cython/heuristic.pyx", "python/subprojects/common/mlrl/common/cython/validation.py", "cpp/subprojects/common/include/mlrl/common/util/validation.hpp"]}
{"id": "C153", "title": "Options do not invalidate the default values of other options", "statement": "If some options of a parameter value are given (e.g., {min_samples=2}) and each of them is in its documented range, considering the default values of options that are not given, then they are applied and all other options keep their default values.", "quantifier": "all parameter values with numerical options, all subsets of options, all values", "why_tests_cant": "the number of combinations of options and values is unlimited", "anchors": ["python/subprojects/common/mlrl/common/config.py", "python/subprojects/boosting/mlrl/boosting/config.py", "python/subprojects/seco/mlrl/seco/config.py", "python/subprojects/common/mlrl/common/cython/output_sampling.pyx", "python/subprojects/common/mlrl/common/cython/stopping_criterion.pyx"]}
{"id": "C154", "title": "Values that are used by the algorithms do not depend on the format of matrices", "statement": "If feature values or the ground truth are given as dense or sparse matrices to fit or predict, the C++ code uses exactly the given values and the given value for sparse elements, regardless of the type of the matrix, the parameters feature_format and output_format, and whether a model is trained or predictions are obtained. No exception is raised due to the number of elements that are stored.", "quantifier": "all dense and sparse matrices, all values of sparse elements, all formats", "why_tests_cant": "the number of matrices is unlimited and matrices that are equal may be stored differently", "anchors": ["python/subprojects/common/mlrl/common/rule_learners.py", "python/subprojects/common/mlrl/common/arrays.py", "python/subprojects/common/mlrl/common/cython/feature_matrix.pyx", "python/subprojects/common/mlrl/common/cython/label_matrix.pyx", "python/subprojects/common/mlrl/common/cython/regression_matrix.pyx"]}
{"id": "C155", "title": "The format of matrices is chosen as documented", "statement": "If the parameters feature_format and output_format are set to 'auto', the format that requires less memory is used for the values that are passed to the C++ code. If they are set to 'sparse' or 'dense', sparse matrices are represented in the requested format.", "quantifier": "all sparse matrices, all formats of sparse matrices", "why_tests_cant": "the choice depends on the shape of a matrix and the number of stored elements, which are unlimited", "anchors": ["python/subprojects/common/mlrl/common/rule_learners.py", "python/subprojects/common/mlrl/common/arrays.py"]}
{"id": "C156", "title": "Features have the types that are set by the user", "statement": "If the indices of ordinal and/or nominal features are set via set_ordinal_feature_indices and set_nominal_feature_indices, exactly these features are treated as ordinal or nominal, and all others as numerical. Invalid indices are rejected.", "quantifier": "all numbers of features, all lists of indices", "why_tests_cant": "the number of features and lists is unlimited, special cases depend on the lengths of lists", "anchors": ["python/subprojects/common/mlrl/common/rule_learners.py", "python/subprojects/common/mlrl/common/mixins.py", "python/subprojects/common/mlrl/common/cython/feature_info.pyx", "cpp/subprojects/common/src/mlrl/common/input/feature_info_mixed.cpp"]}
{"id": "C157", "title": "Incremental predictions correspond to predictions of smaller models", "statement": "The k-th array that is returned by the method apply_next of an incremental predictor in Python contains, at any later time, the predictions that are returned by predict, if the number of rules is restricted to the number of rules that have been requested by the first k calls. This does not depend on whether references to the predictor or the estimator are kept, or whether the estimator is fitted again.", "quantifier": "all models, all sequences of step sizes, all maximum numbers of rules, all orders in which objects are deleted", "why_tests_cant": "the number of sequences is unlimited, and whether freed memory has been overwritten cannot be controlled in tests", "anchors": ["python/subprojects/common/mlrl/common/rule_learners.py", "python/subprojects/common/mlrl/common/cython/prediction.pyx", "python/subprojects/common/mlrl/common/cython/prediction.pxd", "python/subprojects/common/mlrl/common/cython/_arrays.pxd", "cpp/subprojects/common/include/mlrl/common/prediction/predictor_common.hpp"]}
{"id": "C158", "title": "Unsupported predictions are reported by the documented exception", "statement": "If an estimator does not support a type of prediction, the corresponding methods of the estimator raise the documented RuntimeError after a single feature matrix has been created. Otherwise, predictions are obtained.", "quantifier": "all methods, all configurations, all limits on the number of nested calls", "why_tests_cant": "the behavior depends on the recursion limit", "anchors": ["python/subprojects/common/mlrl/common/rule_learners.py", "python/subprojects/common/mlrl/common/mixins.py"]}
{"id": "C159", "title": "The value of sparse elements is used for training and evaluation", "statement": "If an experiment is run, the value of the argument --sparse-feature-value is used for sparse elements both when training a model and when obtaining predictions, i.e., feature matrices that are equal result in equal feature values.", "quantifier": "all types of predictions, all feature matrices, all formats, all values of sparse elements", "why_tests_cant": "the number of matrices and values is unlimited", "anchors": ["python/subprojects/testbed/mlrl/testbed/experiments.py", "python/subprojects/testbed/mlrl/testbed/runnables.py", "python/subprojects/common/mlrl/common/rule_learners.py"]}
{"id": "C160", "title": "Incremental evaluations report the number of rules that have been used", "statement": "If models of different sizes are evaluated (--incremental-evaluation), the sizes that are reported are the numbers of rules used for prediction. They start at min_size, increase by step_size, and the last one is max_size or the number of available rules, if it is smaller or max_size is zero.", "quantifier": "all options, all models", "why_tests_cant": "the number of options and models is unlimited", "anchors": ["python/subprojects/testbed/mlrl/testbed/experiments.py", "python/subprojects/testbed/mlrl/testbed/runnables.py", "doc/user_guide/testbed/evaluation.md"]}
{"id": "C161", "title": "The examples in ARFF files are those that are used for training and evaluation", "statement": "If a data set is loaded from an ARFF file, and optionally an XML file that lists the outputs, the feature matrix and the output matrix consist of one row per example in the file, and each element is the value of the attribute that has the name of the corresponding feature or output. The same holds for further files of the same data set, such as test sets and predefined folds.", "quantifier": "all ARFF files in dense or sparse format, all lists of outputs", "why_tests_cant": "the number of files is unlimited, and special cases depend on which values are omitted in the sparse format", "anchors": ["python/subprojects/testbed/mlrl/testbed/data.py", "python/subprojects/testbed/mlrl/testbed/data_splitting.py"]}
{"id": "C162", "title": "A cross validation uses each example for testing exactly once", "statement": "If --data-split cross-validation is given, each example is contained in the test set of exactly one fold and in the training sets of all other folds. Each fold that is performed individually (current_fold) uses the same training and test sets as in a full cross validation. The last fold of a full cross validation, and no other, is recognized as such.", "quantifier": "all data sets, all numbers of folds, all random permutations, predefined and random folds", "why_tests_cant": "the number of data sets, folds and permutations is unlimited", "anchors": ["python/subprojects/testbed/mlrl/testbed/data_splitting.py", "python/subprojects/testbed/mlrl/testbed/runnables.py"]}
{"id": "C163", "title": "Scores that are averaged across folds belong to comparable models", "statement": "After a full cross validation, the average of the scores of all folds is reported. If models of different sizes are evaluated (--incremental-evaluation), the average that is reported for a certain size is the average of the scores of the models of this size in all folds.", "quantifier": "all numbers of folds, all sizes, all scores", "why_tests_cant": "the number of folds, sizes and scores is unlimited", "anchors": ["python/subprojects/testbed/mlrl/testbed/evaluation.py", "python/subprojects/testbed/mlrl/testbed/experiments.py", "python/subprojects/testbed/mlrl/testbed/data_splitting.py"]}
{"id": "C164", "title": "Model characteristics describe the rules of a model", "statement": "The file that is written if --store-model-characteristics true is given contains a row for each rule that is used by a model, in the same order as in the model, with the number of conditions per operator and the numbers of positive and negative predictions. The default rule is marked as such, regardless of whether it is the first or the last rule.", "quantifier": "all models with at most one default rule", "why_tests_cant": "the number of models is unlimited", "anchors": ["python/subprojects/testbed/mlrl/testbed/model_characteristics.py", "cpp/subprojects/common/src/mlrl/common/model/rule_list.cpp"]}
{"id": "C165", "title": "Textual representations of durations are correct", "statement": "The components of durations that are printed sum up to the duration, rounded down to milliseconds. They are given in descending order, none of them exceeds the next larger unit, and components are omitted if they are zero, unless the duration is less than a millisecond.", "quantifier": "all non-negative durations", "why_tests_cant": "the number of durations is unlimited", "anchors": ["python/subprojects/testbed/mlrl/testbed/format.py"]}
{"id": "C166", "title": "Parameters that are given via the command line take precedence over those in files", "statement": "If --parameter-dir is given, a parameter has the value that is given via the command line, otherwise the value in the file that corresponds to the current fold, and otherwise its default value. The files that have been written by an earlier experiment restore its parameters.", "quantifier": "all parameters, all values, all files", "why_tests_cant": "the number of combinations of parameters is unlimited", "anchors": ["python/subprojects/testbed/mlrl/testbed/experiments.py", "python/subprojects/testbed/mlrl/testbed/parameters.py", "doc/user_guide/testbed/parameter_persistence.md"]}
{"id": "C167", "title": "Models that are loaded from files have been trained for the current experiment", "statement": "If --model-dir is given, the models that are trained for individual folds are stored in different files. If an experiment is repeated, the models are loaded and used for the same folds instead of training them again. In particular, a model that is evaluated has not been trained on examples in the test set.", "quantifier": "all experiments, all folds, all models that are already available", "why_tests_cant": "the number of sequences of experiments is unlimited", "anchors": ["python/subprojects/testbed/mlrl/testbed/experiments.py", "python/subprojects/testbed/mlrl/testbed/persistence.py", "python/subprojects/testbed/mlrl/testbed/io.py", "doc/user_guide/testbed/model_persistence.md"]}
{"id": "C168", "title": "Characteristics of label matrices do not depend on the format of a matrix", "statement": "The density, label cardinality, average label imbalance ratio and number of distinct label vectors that are reported for a data set are determined from the relevant labels of all examples according to their definitions, regardless of whether a dense or sparse matrix is used.", "quantifier": "all label matrices", "why_tests_cant": "the number of matrices is unlimited", "anchors": ["python/subprojects/testbed/mlrl/testbed/characteristics.py"]}
{"id": "C169", "title": "Data sets that are saved can be loaded again", "statement": "If feature values and integer outputs are saved by save_data_set_and_meta_data or save_data_set, loading the resulting files yields the same matrices and meta data.", "quantifier": "all numbers of features and outputs, all values, dense and sparse matrices", "why_tests_cant": "the number of data sets is unlimited, and special cases depend on which values are zero", "anchors": ["python/subprojects/testbed/mlrl/testbed/data.py"]}
