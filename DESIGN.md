# Design of the machine-checked model of MLRL-Boomer

Source: `/repo` (C++, `cpp/subprojects/{common,boosting,seco}`), read as text, never built or run.
Prover: Coq 8.16.1, logical root `Verif`, sources in `rocq/theories`.

## 1. Layout

| directory | content |
|---|---|
| `theories/Lib` | general lemmas (lists, permutations, arithmetic). Nothing about the code. |
| `theories/Model` | executable Gallina transcriptions of C++ functions. Each definition cites file and lines. No proofs. |
| `theories/Spec` | small specifications, written without the model's helpers. |
| `theories/Proofs` | lemmas that connect model and specification. |
| `theories/Properties` | the property theorems only: each closed by `exact`, with an `Example` that a concrete non-trivial case meets its hypotheses, and `Print Assumptions`. |

## 2. Modelling conventions

* **Unsigned 32-bit integers.** Where wrap-around or bit patterns matter (random generator, bit
  vector), numbers are `N` with explicit `mod 2^32`. Sizes, counts and indices are `nat`; the model
  then assumes that the corresponding C++ value does not exceed `2^32-1`, which holds for every
  container that fits into the 32-bit index type of the library. For products of sizes, i.e., the number of
  elements of a dense matrix, this is an additional assumption. C144 shows when it is met and what happens otherwise.
* **Arrays** are lists; reads and writes are total functions on in-range positions and yield
  `None` (undefined behaviour) out of range, wherever the range is not evident from the loop.
* **Loops** are structural recursion over a counter or the list that is traversed. A `while` loop without
  syntactic bound gets fuel; running out of fuel is a separate outcome (`None`) and theorems state
  that a sufficient amount of fuel always exists.
* **Floating point.** Values that are only compared are `Z` (a finite `float32` *is* an
  integral multiple of 2^-149, so ordered comparisons on `Z` are faithful), with NaN as a separate constructor where
  the code can see it. Values that are computed with are `Q` or `R`, i.e. rounding is *not*
  modelled; every such place is flagged "exact arithmetic" here and in the model. Where rounding is
  the point (thresholds between adjacent floats, C35; sizes computed from fractions, C107 and C108) an explicit round-to-nearest-even is modelled.
* **Templates / virtual calls** are represented by section variables or by function arguments.
* **OpenMP loops** are modelled as an arbitrary interleaving of the iterations' effects on a shared store.
* **Random generator** is modelled exactly (xorshift32).
* **Citations.** Every definition cites a file and lines. Exceptions are definitions whose comment names an operator or a function
  of C++, Python or their standard libraries, and clients, i.e., sequences of calls of modelled functions.

## 3. Trusted base

* Coq's kernel (and `vm_compute`).
* Print Assumptions: see section 6, kept up to date per theorem. No axioms of our own. Theories based on
  `Reals` inherit the standard library's axioms
  (`ClassicalDedekindReals.sig_forall_dec`, `ClassicalDedekindReals.sig_not_dec`,
  `FunctionalExtensionality.functional_extensionality_dep`, and where stated `Classical_Prop.classic`).
  Tools that inspect compiled libraries as a whole (e.g. `coqchk -o`) additionally report the components of the opaque modules
  `Coq.Reals.Rdefinitions.RbaseSymbolsImpl`, `RinvImpl` and `Coq.ssr.ssrunder.Under_rel`, which the standard library seals by module types.
* The reading of the C++ code: the correspondence between definitions and cited lines is by
  inspection only.
* Not modelled: memory allocation, the Cython/Python layers (except for those named in the plan of C123, C148 and later properties), I/O, BLAS/LAPACK routines, wall-clock
  time, IEEE rounding (except where stated), Eigen/OpenMP runtime internals.

### Reading `seeded/LOG.jsonl`

* `failed_theorems` lists the declarations at which the build of the mutated copy reported an error. These are mostly lemmas in
  `theories/Proofs`; the theorems in `theories/Properties` that depend on them are then not built at all. A failing lemma shows that its
  proof script no longer applies. It does not by itself show that the statement has become false.
* `expected_theorems` lists the property theorems that were predicted to break before the mutant was built. They have not been checked
  individually. Earlier versions of the log listed them among `failed_theorems`, which overstated what had been observed; the entries have
  been split afterwards.
* In earlier versions, a mutant counted as killed if the build printed the location of an error or a warning, and if the edited definition
  itself was rejected. One such entry, where no theorem has been tested, is marked by a `note`. A build of all unmodified files prints no warnings, so
  warnings of the original files cannot have been counted; warnings caused by an edit cannot be excluded for old entries. Mutants are now only
  logged if the build fails, with an error, outside of `theories/Model`, `theories/Spec` and `theories/Lib`.

## 4. Plan per property

| id | what is modelled | how it is proved |
|---|---|---|
| C01 | `RNG::randomInt` on `N` with `mod 2^32` | xorshift steps are injective linear maps on 32-bit words, hence non-zero stays non-zero; range by `N.mod_lt` |
| C02 | the same | the state transition is GF(2)-linear; a computed matrix power shows M^(2^32-1)=1; for each prime p of 2^32-1, M^((2^32-1)/p)+1 has a computed inverse, so each non-zero orbit has full length; pigeonhole gives transitivity |
| C03 | three strategies of `index_sampling.hpp` + dispatcher | loop invariants (NoDup, bounds); termination of the rejection loop from C02 |
| C04 | `randomPermutation` | swap is a permutation, induction over trials |
| C05 | `weight_sampling.hpp` | counting invariants |
| C06 | `instance_sampling_with_replacement.cpp` | counting invariants |
| C07 | `partition_sampling_bi_random.cpp` | invariant: first/second sets grow, union is the prefix |
| C08 | `stratified_sampling_example_wise.cpp` | arithmetic of round-up/round-down shares, permutation |
| C09 | `stratified_sampling_output_wise.cpp` bi-partition | invariant over visited examples |
| C10 | `feature_sampling_without_replacement.cpp` | from C03 |
| C11 | `output_sampling_round_robin.cpp` | arithmetic mod n |
| C12 | `calculateBoundedFraction` | exact arithmetic on `Q` |
| C13 | `vector_bit.cpp` | refinement to a function nat -> bool |
| C14 | `ring_buffer.hpp` | refinement to the list of the last n values |
| C15 | `view_vector_sparse_set.hpp` | representation invariant, refinement to finite maps |
| C16 | forward iterators | induction with the position invariant |
| C17 | LIL to CSR | induction over rows |
| C18 | `label_vector_set.cpp` | induction; equality test model as written |
| C19,C20,C21 | `body_conjunctive.cpp`, `condition_list.cpp`, predictor scratch arrays | induction; invariant on time-stamped scratch arrays; C21 by counterexample if false |
| C22 | `rule_list.cpp` iterator state machine | simulation with a list |
| C23-C26 | stopping criteria as `step` functions | invariants over histories |
| C27,C28 | isotonic calibration on `Q` (exact arithmetic) | PAVA loop invariant; counterexample for C28 |
| C29-C31 | refinement comparators, parallel search | fold invariants, commuting effects |
| C32-C34 | feature-based searches as functions from sorted vectors to candidate lists | loop invariants relating accumulated statistics to the set of examples satisfying the condition; counterexamples where the code deviates |
| C35 | `arithmeticMean` with explicit rounding | monotonicity of rounding; counterexample for adjacent values |
| C36,C37 | interval helper, coverage mask and filtering | case analysis, invariant over refinements |
| C38,C88 | `feature_binning_equal_frequency.cpp` 8-115 with its arrays (thresholds, indices, indptr) and `feature_vector_binned_allocated.hpp` 21-60; the mean of two values is any function that separates them (exact comparison) | invariant relating the arrays to a list of closed bins and a current bin; lengths of the arrays for memory safety; counterexamples |
| C39 | `feature_binning_equal_width.cpp` 10-124 with its arrays; division and thresholds are exact (thresholds are scaled by the number of bins) | counting invariants for the three loops; counterexamples |
| C40-C43 | IREP, greedy growth, assemblage, rule removal | fold invariants |
| C44,C45 | predictor loops | commuting writes; composition of steps |
| C46-C49,C89 | `Model/SecoStatistics.v`: majority labels (`statistics_provider_decomposable_dense.cpp`), `confusion_matrix.hpp`, `vector_confusion_matrix_dense.cpp`, `matrix_coverage_dense.cpp`, weighted statistics and subsets (`statistics_common.hpp`); weights are integers; sparse iterators as in the code | invariants: confusion matrices are sums over a list of signed contributions; coverage counts as commuting modular increments and decrements; counting lemma for the sum; counterexamples |
| C50 | `heuristics/*.cpp` on `Q`, `None` = division by zero | algebra on the eight elements of the confusion matrices; the textbook definitions are stated for lists of weighted labels |
| C51 | `lift_functions/*.cpp` on `R`, with the results NaN and out-of-bounds access of the peak lift function | monotonicity of the logarithm; counterexamples for the peak lift function |
| C52 | `rule_evaluation_decomposable_partial.cpp`: entries, sorting (any sorted permutation), search | the mean of the best k labels decreases with k; invariant: the best prefix so far is the best among all that have been considered, pruned ones are bounded by the maximum lift; any head is dominated by a prefix |
| C90 | `rule_evaluation_decomposable_{partial,single}.cpp` | loop invariants |
| C53 | `predictor_binary_output_wise.cpp` | induction over the rules |
| C67,C68 | the same model of stratified sampling; key of a CSR row | counterexamples computed with vm_compute |
| C69 | copyLabelMatrix for CSR matrices (counting sort), `Model/Csc.v` | invariants over the flattened nested loops; the dense variant is `cscColumn` by definition |
| C70 | `body_conjunctive.hpp` comparisons with NaN as separate constructor | counterexample; induction for `>` |
| C71-C73 | stopping criterion based on time; factory and setters of pre-pruning | induction over the number of tests; computed counterexamples |
| C74-C76 | isotonic fit, calibration of zero, comparison of label vectors | computed counterexamples, characterisation of what is computed |
| C77,C78 | `rule_induction_top_down_beam_search.cpp`, search for refinements as arbitrary function | invariant on beam entries; computed counterexamples that hold for every sorting function |
| C79,C80 | `rule_induction_common.hpp`, `post_optimization_sequential.cpp`; conditions are sets of examples, a single output | loop invariants on masks and predictions; computed counterexamples |
| C81–C83 | The searches of C32–C34 with missing values, the search over bins, and the minimum coverage. | Witness computed by `vm_compute`; loop invariants relating the accumulated subset to ranges of bins; induction over the traversals. |
| C84–C87 | `feature_vector_decorator_*.hpp`, `feature_space_tabular.cpp`, `coverage_mask.cpp`: feature vectors as lists of examples per position; in-place filtering of the arrays is represented by new lists. | Each cached vector is the original one restricted to the examples covered when it was filtered (or has been dropped); the restriction is idempotent and agrees with cutting out intervals of positions if conditions are exact. For binned vectors, the restriction is only considered up to the index of the sparse bin, which does not matter if all examples are stored in a bin; the values of the examples in each bin stay between the remaining thresholds. Counterexamples are computed. |
| C54 | scores and qualities of complete heads (decomposable loss functions); rational arithmetic | completing the square; objective in Spec/BoostEvaluation.v; false with L1 regularisation |
| C55 | sorting by absolute scores, `std::partial_sort` as a relation | loop invariant; permutation of indices |
| C56 | minimum and maximum scores, real powers, selection of outputs | loop invariants; monotonicity of real powers |
| C91 | selection of single-output and fixed partial heads | exchange argument on sums of objectives; false in general |
| C92 | dependency of scores on regularisation weights | inequalities over rationals; false for L1 |
| C93 | criterion documented in head_type_partial_dynamic.hpp | counterexample |
| C66 | createBins and getLabelInfo of EqualWidthLabelBinning; conversion of NaN is a parameter | invariant of the loop that determines minima and maxima, floor arithmetic |
| C94 | evaluation with label binning, including the arrays that are reused | loop invariant: for all scores, the objective of the processed outputs equals the objective of the aggregated statistics |
| C95 | getMaxBins and getLabelInfo | ceil(a) + ceil(b) <= ceil(a + b) + 1; general construction of overflowing statistics |
| C96 | evaluation of complete heads, including copies of gradients and Hessians, ddot and dspmv; DSYSV is a parameter | convex quadratic: expansion around a solution of the linear system, subgradient argument for L1 |
| C97 | decomposable and non-decomposable evaluation of complete heads | diagonal system, uniqueness of the solution |
| C98 | evaluation of heads with a fixed number of outputs and of dynamic heads | the system of the selected outputs is a principal submatrix, which is positive semi-definite |
| C64 | math.hpp logisticFunction over real numbers with an arbitrary exponential function that is exact for non-positive arguments | Case distinction on the sign, field reasoning and monotonicity of exp. |
| C65, C99, C100, C101 | All loss functions (decomposable and non-decomposable), their array loops with temporarily stored terms and triangular Hessians, over real numbers | Loop invariants give closed forms of all entries; a generic lemma computes first and second partial derivatives of functions phi(sum of l_i(s_i)); derivatives from the standard library's Ranalysis; uniqueness of derivatives for the refutations. |
| C60 | transformation_binary_gfm.cpp (Model/JointPrediction.v): the matrix of marginalised probabilities, the evaluation of the best k labels, the choice of k and storing the prediction in dense and sparse format. Any outcome of std::partial_sort is considered. | The rows of the matrix represent the gain of predicting a label as one out of k (loop invariant via the invariant of sparse sets); the expected F1-measure is the sum of the gains of the predicted labels; the k labels with the largest gains are optimal (comparison with the smallest gain among them). |
| C61 | transformation_probability_marginalized.cpp (Model/JointPrediction.v). | Loop invariant over the prefixes of the label vectors. |
| C62 | getClosestLabelVector in measure_distance.hpp and transformation_binary_example_wise.cpp (Model/JointPrediction.v). | Loop invariant: the chosen label vector is the best one among those visited so far. |
| C63 | probability_function_chain_rule.cpp and probability_function_joint.hpp (Model/JointPrediction.v). | The iterator of the label vector returns whether a label is relevant; the sum over all label vectors is one by induction on the number of labels. |
| C102 | transformation_binary_output_wise.cpp, discretization functions, logistic probability function, default predictions of losses (Model/OutputWise.v), evaluation of losses (Model/Losses.v). | The loss of each label is minimised by comparing the score to the default prediction; the losses of examples are monotone in the losses of labels. |
| C57 | Model/BoostStatistics.v, Model/SparseLosses.v: sparse and dense statistic vectors, the squared hinge loss | Both vectors equal weighted sums after any history; the sums are compared |
| C58 | Model/BoostStatistics.v: score matrices in dense and sparse format | The scores after a history are the initial ones plus the effects of all changes |
| C59 | Model/BoostStatistics.v, Model/SecoStatistics.v: weighted statistics and subsets | Invariant over histories: each vector contains the sums over the examples added so far |
| C103 | Model/BoostStatistics.v: three kinds of statistic vectors as instances of a record of functions | The invariant is proved once for all classes that satisfy algebraic laws, which are then proved for each class |
| C104 | Model/SparseLosses.v: merging labels and scores | The merged sequence is characterised for sorted inputs; the loops are folds over it |
| C105 | Model/SparseLosses.v: partial updates | Loop invariants; the remaining labels are a suffix that follows all labels less than the current output |
| C106 | Model/SparseLosses.v: heads and [sort], any outcome of [std::sort] | Sums over permutations |
| C107 | `calculateBoundedFraction` with explicit rounding | Error bounds of rounding; the product with a fraction less than one is strictly smaller than the number of elements |
| C108 | Computation of the sizes of holdout sets with explicit rounding | As C107 |
| C109 | Model/FeatureTypes.v: array-level creation of nominal, ordinal and binary vectors; the hash map as a list of entries in arbitrary order; uninitialised array elements | Invariants of the counting, layout and filling loops; the elements are grouped by value |
| C110 | Model/FeatureTypes.v: creation of numerical vectors; sorting as an arbitrary function that yields a sorted permutation | Permutation arguments; the first and last element are the extreme values |
| C111 | Removal of empty bins, aggregation of gradients and Hessians, regularisation, solving, quality; complete heads and heads with a fixed number of outputs | Invariants of the loops in terms of linear and quadratic forms with arbitrary scores, which relate the aggregated problem to the original one; minimum of a convex parabola |
| C112-C116 | Model/BoostConfig.v: the decisions of `AutomaticDefaultRuleConfig`, `AutomaticStatisticsConfig`, `AutomaticHeadConfig`, `AutomaticLabelBinningConfig` and their explicit counterparts, the dispatch of losses to head configurations, and the rule evaluations passed to the statistics providers. Numerical settings are left out. | Case analysis over all configurations with a symbolic ground truth (any number of outputs); a characterisation of when statistics are sparse (`sparse_storage`) is used for C112, C113 and C116. Counterexamples are computed. |
| C117 | function fit: induction of rules (Model/Stopping.v), removal of unused rules, sequential post-optimization (Model/Induction.v), built model and scores of the statistics (one output) | invariant along a training run: the scores are the sum of the predictions of all rules learned so far; then lemmas on the removal of rules and post-optimization; counterexample with post-pruning |
| C118 | weights without instance sampling, selection of out-of-sample examples, IREP | with a holdout set, the set of examples used for pruning is always empty; induction over the iterations of IREP for equal qualities |
| C119 | creation of predictors and calibrators, decision to store label vectors | case distinction over all configurations |
| C120 | automatic partition sampling, creation of calibrators | case distinction; counterexample with the squared hinge loss |
| C121 | sequences of calls of the setters of eight types of configurations, and the resulting number of elements | invariants along sequences of calls, combined with C107; counterexamples to the order of calls and to the default sample size |
| C122 | validation functions on IEEE 754 values, one case per setter; documented ranges are stated independently | case distinction; approximate equality with zero is characterized for all single-precision values; counterexamples for NaN, infinity and one |
| C123 | the states written by __reduce__ and read by __setstate__, including the loops that copy arrays and the creation of arrays from pointers | the state of a list of rules is characterized; loops that fill arrays are shown to be the identity; rules are added in the order in which they are visited |
| C124 | RuleList::setNumUsedRules and the iterators over used rules | the iterators are shown to visit the expected rules; an iterator that exceeds the number of rules reads beyond the end of the vector, whatever the position of the default rule |
| C125 | the extraction of thresholds and probabilities from label and score matrices for marginal and joint probabilities | loop invariants per label: the bins correspond to the examples processed so far; the sparse iterator yields the same labels as the dense row; label indices in both representations are equal as both are sorted |
| C126 | the extraction from sparse scores for both representations of labels, including the counters of missing scores | loop invariants per label for the bins and counters; the iterative mean is shown to be the fraction of relevant examples; counterexamples by computation |
| C127 | the extraction followed by isotonic regression | composition of C125 and C27 for arbitrary outcomes of sorting; an empty holdout set (C108) is shown to result in an access to an empty vector |
| C128 | the delegates, dispatchers and incremental predictors for binary predictions, dense and sparse, and the transformations of scores into labels | loop invariants over the examples that have been processed, induction over the steps of an incremental predictor; the transformations are shown to overwrite a row or append the indices of relevant labels, based on C60 and C62 |
| C129 | the delegate and predictors for probabilities, whose matrices are stored in a common memory, and the transformations of scores into probabilities | loop invariants over cells of the memory; the loops that marginalize are simulated by those of C61 |
| C130 | the number of available threads and the index of a thread for both build options | composition with C128; out-of-bounds access for every model by computation of the first iteration |
| C131 | the selection of outputs by the rule evaluations that use label binning, fixed or variable number of outputs, (non-)decomposable | simulation of the selection loops by those of the evaluations without binning, the indices are shown to be unaffected by the aggregation into bins |
| C132 | the training loop, given which examples and outputs are covered by rules: calculation of statistics, summation, optimal scores, shrinkage, application of predictions, update of statistics | invariant that scores and statistics of all examples are consistent; loss functions are bounded by quadratic functions (MVT for the logistic loss), the scores are compared to the minimizers of their sum |
| C133 | building a model during training: the heads and bodies of rules are created from the predictions and conditions found by the training algorithm, the model is used to obtain scores | the scores used for training are the sums of the heads of the rules that cover an example; composition of the theorems about conditions (C70), models, predictors and training (C132) |
| C134 | building a decision list during training: the coverage matrix is updated according to the heads of rules, which are added to the model; the default rule is added at the end | the number of times a label is covered is the number of rules that predict for it (C49); composition with the theorems about conditions (C20), rule lists and predictors (C53) |
| C135 | greedy and beam search (Model/Refinement.v), the search for refinements is an arbitrary function | invariant of all entries of the beam: the last condition of an entry that may be refined covers more than the minimum number of examples, unless it is the first one |
| C136 | the macro MULTI_THREADING_SUPPORT_ENABLED in the generated header files, all implementations of getSettings, the number of threads for each parallel loop and the index that is passed to predictors | case analysis of configurations; composition with C128; out-of-bounds access for every model by computation of the first iteration |
| C137 | the diagonal iterator, toDecomposableStatistics with rows in any order, the convertible provider as a state machine (switching, applying and reverting rules) and the three non-decomposable losses in both formats | invariant over histories: both formats hold the same function of the ground truth and the scores; composition with C58 and C65 |
| C138 | the configuration of feature sampling, the number of samples, and samples drawn via an index iterator that does not check bounds | bounds of fractions (C12), properties of the logarithm, composition with C10 |
| C139 | an entry of a score matrix or statistic vector that is changed by operations rounded to double precision, accumulated sums and differences | absolute error bounds by induction on the operations, starting from the error of a single rounding; counterexamples by computation |
| C140 | the memory accesses of threads that update coverage matrices or rows of statistics and their interleavings | accesses to different rows commute; atomic updates of the sum are compared to separate loads and stores; an interleaving that loses an update is constructed for any rule |
| C141 | the function `fit`, including the removal of unused rules and sequential post-optimization (Model/Training.v) | invariant: the scores are those of the current rules, the default rule and the dropped rules; comparison with a specification that replaces one rule after the other |
| C142 | `createRuleInductionFactory` of both algorithms (Model/MinCoverage.v), in addition to the search for conditions and the filtering | relative error of the rounded product; invariant on the number of covered examples that is stored by the subspace |
| C143 | creation of feature vectors, search for conditions and filtering (Model/FeatureTypes.v, Model/Search.v, Model/Filter.v), combined in Spec/FeatureFormats.v | lockstep simulation of two runs; characterization of the conditions that are found in terms of the values of covered examples, independently of the majority value |
| C144 | allocation of dense matrices and Hessian matrices, addresses of their elements in 32-bit arithmetic (Model/Addressing.v) | separation of addresses for less than 2^32 elements; explicit construction of two elements with the same address, or of an element outside of the allocated memory, otherwise |
| C145 | the operators of all random access iterators with 32-bit positions (Model/Iterators.v) | induction over the number of increments; loop invariant for visiting all elements |
| C146 | the pointers stored by configurations, all methods for configuring them, the dependencies between components, and the functions that are used for training and predicting (Model/Configuration.v) | case analysis of methods and pointers; invariant of reachable configurations; a rank function shows that dependencies are acyclic |
| C147 | the default settings of all rule learners and the initial values of parameters (Model/Configuration.v), the documentation of parameters (Spec/Configuration.v) | an unaffected pointer keeps its default setting (see C146); case analysis of components and parameters |
| C148 | the functions that parse parameter values, operating on lists of characters (Model/Options.v), a grammar of the notation (Spec/Options.v) | soundness and completeness of the parser with respect to the grammar by induction over elements |
| C149 | the tables of values and options of all parameters, the functions that configure rule learners, the sets of parameters and the classes of rule learners (Model/PyConfig.v), the documentation of parameters (Spec/PyConfig.v) | C148 for an arbitrary text; a check of the tables by computation, which is shown to imply the property for all texts, values and environments; induction over the sequence of parameters |
| C150 | numerical parameters (Model/PyConfig.v) and their documentation (Spec/PyConfig.v) | as for C149; the calls of BoomerRegressor do not depend on the seed because the parameter is skipped |
| C151 | the 67 setters with numerical arguments as data (checks in Python, declared type, handling of exceptions, type and checks in C++), conversions between Python, the declared and the actual type (Model/Setters.v) | a check of the table of setters by computation, which is shown to imply the property for all values and reachable configurations |
| C152 | as for C151; the documented ranges (Spec/Setters.v) | the ranges are compared to the table of setters by computation, generic lemmas on checks for each kind of range |
| C153 | as for C151; the initial values of configurations, the statements for applying options (Model/PyConfig.v) | a check of the order of statements by computation, induction over statements using C152 |
| C154 | the conversion of NumPy arrays and SciPy matrices into the matrices that are passed to C++ (Model/Estimators.v) | invariants of the loops that fill dense matrices, case analysis on formats |
| C155 | as for C154; the comparison of the memory that is needed | arithmetic, compared with an independent count of bytes (Spec/Estimators.v) |
| C156 | the lists of indices, the conversion of integers, the bit vectors of `MixedFeatureInfo` (Model/Estimators.v, Model/Containers.v) | invariants of the loops over indices, a counting argument for the case where all features have the same type |
| C157 | incremental predictors in Python, the memory they provide access to, the life time of models and predictors (Model/Incremental.v) | induction over programs, generalized to arbitrary states |
| C158 | the calls between the methods of estimators and mixins, with a limit on nested calls (Model/Incremental.v) | case analysis; induction over the limit for the refutation |
| C159 | the arguments that are passed from experiments to estimators (Model/Incremental.v) | a corollary of the lemmas for C154 |
| C160 | the loop of incremental evaluations and the validation of options (Model/Incremental.v) | induction over the number of rules that remain |
| C161 | Loading dense and sparse ARFF files, parsing outputs from XML files or the relation, meta data, slicing of matrices, conversion to `uint8` (Model/Testbed.v) | Columns are identified via the names of attributes (Proofs/Testbed.v); refuted by concrete files |
| C162 | Predefined and random folds, individual folds, the flag of the last fold (Model/Testbed.v) | Permutations of examples, for all data sets, numbers of folds and permutations of indices |
| C163 | Storing the results of folds and averaging them (Model/Testbed.v) | Characterisation of all averages that are written, by induction over folds and evaluations; refuted for incremental evaluations |
| C164 | The visitor that collects the characteristics of a model and the table that is created from them (Model/Testbed.v) | By induction over the rules before and after the default rule |
| C165 | The components of durations (Model/Testbed.v) | Properties of division, remainder and floor |
| C166 | Cloning the base learner, reading and writing parameters, `set_params` (Model/Experiments.v) | By induction over the parameters in a file; refuted by a parameter that is given different values |
| C167 | File names per fold, saving and loading models, training models if they are not available (Model/Experiments.v) | Injectivity of the decimal representation of folds, induction over folds; refuted by cross validations with two and three folds |
| C168 | Density, label cardinality, label imbalance ratio and distinct label vectors of dense and sparse matrices (Model/Experiments.v) | The columns stored in a row are those of non-zero elements, for all matrices; refuted by a matrix that stores a zero |
| C169 | Saving data sets and their meta data, in combination with the model for loading them (Model/Saving.v) | The rows that are loaded are those that have been saved, by the lemmas for C161; refuted by concrete data sets |

## 5. Findings (properties the code violates)
* **C67.** `C67_stratified_sample_size_refuted`: stratified instance sampling rounds the share of each stratum separately and uses `minSamples`/`maxSamples` for tie-breaking only. With ten strata of one example and one of ten examples, sample size 0.9 selects 19 instead of 18 examples; with sample size 1 and at most 3 samples it selects 20.
* **C68.** `C68_strata_storage_independent_refuted`: `BinaryCsrView::operator[]` (view_matrix_csr_binary.hpp, 58-60) returns a row view of `numCols` elements instead of the number of relevant labels. Identical sparse label vectors fall into different strata, different ones into the same stratum, and rows near the end are read out of bounds.
* **C21.** `C21_copied_condition_list_refuted`, `C21_copied_condition_list_uninitialised_refuted`: the copy constructor of `ConditionList` (condition_list.cpp, 11-20) copies the counter with index 4 twice and the counter with index 5 never. Creating a body from the copy of a list with a `!=` condition writes out of bounds; the copy of a list with a `==` condition yields a body with an uninitialised `!=` condition.
* **C70.** `C70_missing_values_refuted`: `CompareNumericalLeq` (body_conjunctive.hpp) tests `!(value > threshold)`, which is true for NaN. During training, examples with missing values are uncovered by any condition on the feature, at prediction time they are covered by `<=` conditions.
* **C22 (note).** `RuleList::setNumUsedRules` accepts numbers greater than the number of rules; iterating over the used rules then reads out of bounds (`None` in the model). C22 excludes this.
* **C72.** `PrePruningFactory` (global_pruning_pre.cpp, lines 172-177) takes the argument `removeUnusedRules`, but does not initialise its member `removeUnusedRules_`, which is then passed to `PrePruning` and decides whether training stops (line 103). With false in memory, training continues although unused rules should be removed.
* **C73.** `setStopInterval(0)` is accepted (0 is a multiple of everything, validation.hpp lines 85-90), afterwards `PrePruning::test` computes `numRules % 0`. In addition, calling `setUpdateInterval` after `setStopInterval` may leave a stop interval that is not a multiple of the update interval.
* **C23.** Note: if several criteria report a number of used rules, the last one in the list wins, even if an earlier one has requested the stop (stopping_criterion_list.cpp).
* **C28.** `sortByThresholdsAndEliminateDuplicates` (common/prediction/probability_calibration_isotonic.cpp, line 32) stores `bins[numBins - 1]` instead of `previousBin`: the bins with the greatest threshold are replaced by an arbitrary one of them instead of their average.
* **C74.** `aggregateNonIncreasingBins` averages pools as if each contained a single bin (lines 60-75). For the probabilities 0, 1, 0, 1, 0, 0 the last pool gets 5/12 instead of 2/5, hence the result is not the isotonic regression.
* **C75.** `calibrateProbability` (lines 113-131) divides 0 by 0 if the probability and the smallest threshold are both zero. If scores are sparse, there always is a bin with threshold zero (boosting/prediction/probability_calibration_isotonic.cpp, lines 60-62 and 102-104).
* **C76.** `areLabelVectorsEqual` (boosting/prediction/probability_calibration_isotonic.cpp, lines 336-350) returns true if the label vector is a proper prefix of the relevant labels of the example; in particular, each example counts as an occurrence of the empty label vector.
* **C31.** `FixedRefinementComparator` (refinement_comparator_fixed.cpp, 36-62) updates `minQuality_` to the quality of the worst refinement kept, even if there still is room. Refinements that are worse than it are rejected, so that a beam of width k may contain a single refinement per feature although better ones than those of other features were found.
* **C77.** Beam search (rule_induction_top_down_beam_search.cpp) does not keep the best rules: (1) entries that can be refined are replaced by their refinements, even if these are worse (`C77_beam_loses_best_refuted`); (2) `newOrder` is only sorted when an entry is replaced, so that the first entry, which is returned, is not necessarily the best one (`C77_beam_not_sorted_refuted`); (3) when several refinements of an entry are included into a full beam, each overwrites the last entry without comparing qualities, including refinements included before (`C77_beam_overwrites_refuted`).
* **C79.** After IREP the subspace's coverage mask is that of all conditions but the last one (rule_pruning_irep.cpp, 43-62: the loop stops before the last condition and never restores the mask). `induceRule` (rule_induction_common.hpp, 125-136) recalculates the head with the returned mask, but applies the predictions with that of the subspace, i.e. to examples that the rule does not cover or not to all examples it covers.
* **C80.** `SequentialPostOptimization::optimizeModel` (post_optimization_sequential.cpp, 75-125) reverts the predictions of a rule before relearning it. If `induceRule` returns false, the old rule remains in the model but its predictions are not applied again.
* **C33.** `feature_based_search_ordinal.hpp` only traverses the values less than (greater than) the majority value if the first (last) bin contains an example with non-zero weight. Otherwise the examples in the remaining bins on that side are handled as if they had the majority value, such that conditions are scored with the wrong examples.
* **C34.** `feature_based_search_numerical.hpp:132` stops the descending traversal at `i > firstExampleWithSparseValueOrGreater`, whereas `>=` is needed: the smallest value that is not less than the sparse value is ignored. For the dense feature values 1 and 2, no condition is found at all. For -1, 1 and 10 the condition `<= 4.5` is scored as if it covered only the first example.
* **C34.** If no stored value is greater than or equal to the sparse value, the condition separating sparse from larger values is nevertheless evaluated, using the last value seen on the other side: for the values -1 and (sparse) 0 the search evaluates `<= -0.5` with the statistics of all examples.
* **C34.** `feature_based_search_numerical.hpp:103,185`: `previousValue` is updated for examples with zero weight, too. Hence an example with zero weight that shares its value with the next example hides the threshold between the example before and the latter: for the values -3, -2 (zero weight) and -2 nothing is found.
* **C81.** `numExamplesWithNonZeroWeights - numCovered` counts examples with missing values as covered by negated conditions, although their statistics are (correctly) not used. The minimum coverage may therefore be violated.
* **C82.** `feature_based_search_binned.hpp:151` calls `calculateScores` where `calculateScoresUncovered` is needed: `feature <= t` at the sparse bin is scored with the statistics of `feature > t`.
* **C82.** If the sparse bin is the last one, `thresholdIterator[sparseBinIndex]` is read although there are only `numBins - 1` thresholds.
* **C37.** Conditions at the boundary of the sparse value found by the numerical search (see C34) refer to other positions than the examples satisfying them: with the values 1, 10 and (sparse) 0 the condition `> 5` covers the examples with the values 1 and 10 in the mask.
* **C37, C84.** `feature_vector_decorator_nominal.hpp:20-23` reuses the existing vector including the indices of examples with missing values. After a condition on another feature, two conditions `A != v` and `A != w` remove the statistics of an example with missing value of `A` twice from the sums of covered statistics (`C37_missing_values_refuted`).
* **C84.** `feature_vector_decorator_binned.hpp:66-68` sets the sparse bin to the last non-empty bin if a binned vector is filtered by a mask: examples with the sparse value are treated as if they belonged to the bin with the largest values.
* **C85.** `feature_vector_decorator_nominal.hpp:72`: a non-inverse interval always results in an `EqualFeatureVector`, although the condition `!= majority` uses a non-inverse interval that comprises several values. The feature is not considered by later refinements.
* **C85.** `feature_vector_decorator_numerical.hpp:15-32`: the check whether all remaining values are equal compares the elements `[start]` and `[numFilteredElements - 1]` instead of `[end - 1]`. With the values 0, 1, 2, 2, 3 and the condition `> 1.5` the feature is dropped although the values 2 and 3 remain.
* **C86.** As copies of a subspace (beam search) do not share the cache, a feature dropped as described for C85 may be used again after copying. Replaying the conditions without copying (IREP, sequential post-optimization) then throws in `EqualFeatureVector::updateCoverageMaskAndStatistics`. For binned features, empty sparse bins are kept by intervals but removed by masks, such that positions differ and indices beyond the end are accessed.
* **C87.** `FeatureSubspace::resetSubspace` (feature_space_tabular.cpp:229-234) is documented to revert all previous calls of `filterSubspace`, but it does not reset the sums of covered statistics.
* **C38.** `feature_binning_equal_frequency.cpp:55-60,84-107`: the number of elements per bin is derived from the explicitly stored values only, so that the sparse values may close one bin more than there is memory for: with the values -2, -1, 1, 2, two sparse zeros and 2 bins, a second threshold is written to an array of length 1 (`C38_out_of_bounds_refuted`).
* **C38.** `feature_binning_equal_frequency.cpp:36,88`: `isEqual` tolerates small differences, but `previousValue` keeps the first of several nearly equal values. The threshold computed from it may be less than values that are already in the bin (`C38_tolerance_refuted`; the model scales floats to integers, 0, 10, 15 with a tolerance of 12).
* **C88.** `feature_binning_equal_frequency.cpp:57`: `numExamples - numElements` also counts missing values, which are treated as occurrences of the sparse value: with the values 1, 2, 3, 4 and three missing values, the first bin ends at a threshold of 0 and no example belongs to it (`C88_missing_refuted`).
* **C39.** `feature_binning_equal_width.cpp:80`: the threshold of a bin is computed from `numBins + 1`, the index after empty bins have been removed, instead of `i + 1`: with the values 0, 6, 10 and 5 bins the value 6 is in the bin that ends at 4 (`C39_threshold_refuted`).
* **C39.** `feature_binning_equal_width.cpp:39`: bins include their lower and exclude their upper end, whereas the conditions `<= threshold` do the opposite (`C39_boundary_refuted`).
* **C39.** `feature_binning_equal_width.cpp:80`: `numWidths` thresholds are written if no bin is empty, but memory for `numWidths - 1` is allocated (`feature_vector_binned_allocated.hpp:21-26`). This affects all features whose values occur in each bin (`C39_out_of_bounds_refuted`).
* **C39.** `feature_binning_equal_width.cpp:54`: the bin of the sparse value is determined for dense vectors as well, whose sparse value is 0. If all values are positive, a negative float is converted into an unsigned integer, which is undefined behaviour (`C39_dense_refuted`). If the sparse value is the only value of a sparse vector, `0 / 0` is converted (`C39_sparse_refuted`).
* **C46.** `statistics_common.hpp` 556-568 (unweighted statistics, used for the default rule) creates `StatisticVector(labelMatrix.numRows)` instead of `numCols`. With more examples than labels the coverage and label matrices are read out of bounds when learning the default rule (`C46_out_of_bounds_refuted`, `C46_default_rule_refuted`).
* **C47.** The same mistake leaves labels without a confusion matrix if there are fewer examples than labels (`C47_unweighted_refuted`).
* **C49.** `matrix_coverage_dense.cpp` decreases the sum of uncovered labels for each newly covered label, regardless of whether the default rule predicts this label correctly. Hence, the sum may reach zero (or become negative) although there are deviating labels that have not been covered, and `stopping_criterion_coverage.cpp` stops too early (`C49_sum_refuted`).
* **C89.** `std::advance` is invoked with a negative distance on a `BinarySparseForwardIterator` if labels are not given in ascending order (`C89_ascending_partial`). Labels that are sampled without replacement are unsorted (`C89_sampling_refuted`), and partial heads found by a beam search are ordered by quality, as only the greedy search calls `sort` (`C89_head_refuted`).
* **C50.** `heuristics/heuristic_accuracy.cpp`, line 17, adds the elements `uin` and `uip` of uncovered examples, i.e. all irrelevant labels, instead of those classified correctly by the default rule (`uip` and `urn`). If a rule predicts a label as irrelevant, the resulting value does not depend on the examples it covers at all (`C50_accuracy_refuted`, `C50_accuracy_constant_partial`). The weighted relative accuracy, and the m-estimate with an infinite m, can be negative (`C50_wra_refuted`); the exact range is [-1/4, 1/4].
* **C51.** `lift_functions/lift_function_peak.cpp`: beyond the peak, the normalization is `(n - total) / (total - peak)`, which is negative (it should be `(total - n) / (total - peak)`). The lift is therefore less than one and increases towards one (`C51_increase_refuted`), it is not bounded by the reported maximum lift (`C51_bound_refuted`), and it is NaN if the exponent is not an integer (`C51_nan_partial`). The array of maximum lifts is computed with the curvature as the exponent (line 105) although lifts use its reciprocal. If all labels are before or at the peak, as is always the case for a single label, `getMaxLift` reads beyond the end of the array (`C51_out_of_bounds_partial`). As a consequence, the best head may be discarded if its quality is negative (`C51_pruning_refuted`).
* **C53.** `predictor_binary_output_wise.cpp`, lines 224-331: sparse predictions are the union of all labels that are predicted as relevant by any rule that covers an example (`C53_sparse_partial`). A rule that predicts a label as irrelevant has no effect, even if it comes first. As rules predict the opposite of the default rule, rules that predict a majority label as irrelevant are always ignored, unlike in case of dense predictions (`C53_sparse_refuted`). The merge assumes that the labels of a head are in ascending order. They are only sorted by `rule_induction_top_down_greedy.cpp`, line 87. The beam search does not sort them, although partial heads are ordered by quality; as a result labels may be contained twice and rows may be unsorted (`C53_unsorted_refuted`).
* **C54, C92.** `getL1RegularizationWeight` (rule_evaluation_decomposable_common.hpp, 17-25) returns `-l1` for gradients greater than `l1`, which is added to the negated gradient (40-41). The numerator of the score becomes `-(g + l1)` instead of `-(g - l1)`, i.e., L1 regularisation increases the absolute scores; in addition, gradients in [-l1, l1] are not mapped to a score of zero. For a gradient of 2, a Hessian of 1 and a weight of 1, the score is -3 with a (reported) quality of +1.5, whereas -1 is optimal with a quality of -0.5. The functions used for non-decomposable loss functions apply the same helper to the negated gradients, which results in the correct sign.
* **C91.** Heads that predict for a single output or a fixed number of outputs include the outputs with the largest absolute scores (rule_evaluation_decomposable_single.cpp, 58; rule_evaluation_decomposable_partial_fixed_common.hpp, 31) rather than the ones with the best qualities. With gradients -1 and -10 and Hessians 0.1 and 2, the first output is selected (score 10, quality -5), although the second one has a much better quality (score 5, quality -25).
* **C93.** The documentation of dynamic heads (head_type_partial_dynamic.hpp, 37-42) states that outputs are included if `q^exponent > q_best^exponent * (1 - threshold)`. The implementation subtracts the smallest absolute score from q and q_best before (rule_evaluation_decomposable_partial_dynamic_common.hpp, 57-73), such that the output with the smallest score is never included unless all scores are the same. Absolute scores of 10 and 9 and a threshold of 0.2 result in a head that only predicts for the first output.
* **C66.** If all negative (or all positive) criteria are the same, e.g., because there is only one, the width of bins is zero, and 0 / 0 = NaN is converted into an unsigned integer (label_binning_equal_width.cpp, lines 111-112 and 120-121), which is undefined according to the standard. `C66_conversion_refuted`.
* **C94.** Rules with partial heads that use label binning aggregate the statistics of the wrong outputs: the position in the array of criteria, i.e. among the selected outputs, is used as an index of all statistics (rule_evaluation_decomposable_binned_common.hpp, lines 145-149). A rule may predict -1 for an output with an optimal score of 10 and report a negative quality although the true value is 10.5. `C94_partial_heads_refuted`.
* **C95.** Memory is allocated for `calculateBoundedFraction(numLabels) + 1` bins, but negative and positive bins are limited separately. If at least three bins are required as a minimum, or at least two are allowed as a maximum, arrays are accessed beyond their end. `C95_maximum_partial`, `C95_minimum_refuted`.
* **C96.** Non-decomposable rule evaluation with L1 regularisation: if the absolute value of a gradient does not exceed the L1 weight, the weight is ignored (getL1RegularizationWeight returns 0) although the optimal score is 0 (for a single output). With a gradient of 1, a Hessian of 1 and a weight of 2 the score is -1 and the quality is 1.5. `C96_l1_refuted`.
* **C97.** The L1 regularisation weight has a different sign in decomposable (rule_evaluation_decomposable_common.hpp: added to the gradient's negation via getL1RegularizationWeight of the gradient) and non-decomposable rule evaluation. With a gradient of 2, a Hessian of 1 and a weight of 1 the former predicts -3 and the latter -1, which is optimal. `C97_agree_refuted`.
* **C98.** Qualities of partial heads are calculated from the gradients and Hessians of the first k outputs instead of those of the selected ones (rule_evaluation_non_decomposable_partial_dynamic.cpp, lines 113-115, rule_evaluation_non_decomposable_partial_fixed.cpp, lines 102-104). A rule that reduces the loss by 8 may report a quality of 12. `C98_quality_refuted`.
* **C98.** If a fixed number of outputs is selected, their indices are ordered by their scores, but copyCoefficients (rule_evaluation_non_decomposable_partial_common.hpp, lines 24-31) requires them to be sorted: the element at tri(j) + i is accessed even if i > j, which is the Hessian of another pair of outputs. The resulting scores may be worse than predicting zeros. `C98_scores_refuted`.
* **C65.** The gradients and Hessians of the decomposable squared hinge loss and squared error loss are half of the derivatives of the loss that is evaluated (harmless scaling without regularisation, but it changes the effect of regularisation weights). The Hessian of the decomposable and non-decomposable squared hinge loss is 1 for scores that satisfy the margin, although the second derivative is 0 (loss_decomposable_squared_hinge.cpp 7-24, loss_non_decomposable_squared_hinge.cpp 64, 72).
* **C99.** The non-decomposable squared error loss is wrong for regression problems: lines 29, 46 and 133 of loss_non_decomposable_squared_error.cpp convert the ground truth into a bool (scores that equal the ground truth 5 have loss 4; for the score 3, the gradient has the wrong sign), and lines 79-80 add 1 instead of the square of the ground truth (the sum may even be negative, such that its square root is NaN).
* **C100.** If regression problems with dense regression matrices are used, the overload of updateDecomposableStatistics for a PartialIndexVector ignores the indices and updates the first outputs (loss_decomposable_common.hpp 249-259). A rule that predicts for a single output other than the first one leaves the statistics of this output outdated.
* **C101.** The Hessians of pairs of outputs are normalised by exp(-(max + max2)) instead of exp(-max) per factor (loss_non_decomposable_logistic.cpp 112-148). If two labels are predicted wrongly with scores of absolute value above ca. 373, the sum of exponentials underflows, and divideOrZero yields a Hessian of zero, although the derivative is close to -1/4.
* **C57.** `loss_decomposable_sparse_common.hpp`, lines 52 and 192: statistics are not stored if the gradient is at most 2^-52, although it is not zero (`C57_squared_hinge_refuted`). `vector_statistic_decomposable_sparse.cpp`, lines 151, 165, 201 and 210: weights of at most 2^-52 are ignored, also when it comes to the Hessians of missing elements (`C57_small_weights_refuted`).
* **C103.** `vector_statistic_non_decomposable_dense.cpp`, lines 107-118, 126-138 and 149-165: the row of the lower triangle is chosen by the i-th output and the column by the j-th one with j <= i. This is only correct if the outputs are in increasing order. `OutputSamplingWithoutReplacement` returns outputs in random order, so that Hessians of wrong pairs of outputs are aggregated (`C103_non_decomposable_refuted`).
* **C104.** `loss_decomposable_sparse_common.hpp`, lines 17-135: the scores of an example are merged with its relevant labels as if both were sorted. Scores are stored in a `SparseSetView` in the order in which rules have predicted for outputs first. After two rules that predict for the second and the first of two labels, the loss of a perfectly predicted example is 1 rather than 0 (`C104_evaluation_refuted`) and complete updates result in a gradient of 1 rather than 0 (`C104_update_refuted`). Affected are `evaluatePrediction`, which is used for early stopping and pruning, and updates after complete heads, if sparse statistics are used without a default rule.
* **C105.** `loss_decomposable_common.hpp`, line 147, and `loss_decomposable_sparse_common.hpp`, line 226: the search for the next label starts at the result of the previous search. If the outputs of a head are not in increasing order (see C106), relevant labels are treated as irrelevant ones (`C105_sparse_labels_refuted`).
* **C106.** `rule_evaluation_decomposable_complete_common.hpp`, line 41 (and the corresponding lines for non-decomposable, binned and separate-and-conquer evaluations): the score vector is marked as sorted, although the output indices may come from `OutputSamplingWithoutReplacement`. As a result, `PartialPrediction::sort` does nothing (`C106_sorted_refuted`).
* **C35.** Thresholds are computed as `small + (large - small) * 0.5`. The difference overflows if it exceeds the range of single-precision values, e.g., for -2.98e38 and 2.98e38, which results in an infinite threshold, i.e., all examples satisfy the condition that uses the operator `<=`, although only some of them have been counted (`C35_overflow_refuted`). If two values are direct neighbours, the mean is possibly rounded to the larger one, which then does not satisfy `>` (`C35_neighbours_refuted`). The search checks that explicitly stored values are not (nearly) equal, which rules out the latter (`C35_separates_partial`), but this check is missing if one of the values is the sparse value (feature_based_search_numerical.hpp, lines 207, 227, 253 and 283). If the sparse value is zero, this only affects the value -2^-149 (`C35_sparse_value_negative_partial`).
* **C107.** Numbers of elements are converted to single precision before they are multiplied with a fraction. Half of 2147483775 elements are 1073741824 elements instead of 1073741888 (`C107_accuracy_refuted`). If the fraction is one, which is allowed for sampling with replacement, 16777220 out of 16777219 elements are sampled (`C107_all_elements_refuted`), and the result is undefined for 4294967295 elements (`C107_undefined_refuted`).
* **C108.** The number of holdout examples is rounded down, i.e., the holdout set is empty, if the product of its relative size and the number of examples is less than one, e.g., for the default size of 0.33 and three examples (`C108_holdout_set_refuted`).
* **C109.** `feature_type_nominal.cpp` and `feature_type_ordinal.cpp`, `createFeatureVectorInternally` for `CscView`: if not all elements of a column are stored, the number of values is `mapping.size() + 1`, even if the sparse value itself is among the explicitly stored values (e.g. explicit zeros in a SciPy matrix, which the Python code does not eliminate). With three or more values, the arrays of the vector are too large and their last elements are never initialised (`C109_uninitialised_refuted`; for ordinal features, uninitialised memory is sorted and used as a key of the hash map). If all stored values are sparse values, a binary vector whose minority value equals its majority value is created: a condition on this value covers a single training example, although all of them have that value (`C109_wrong_refuted`).
* **C111.** Label binning with non-decomposable losses. (a) `aggregateGradientsAndHessians` (rule_evaluation_non_decomposable_binned_common.hpp, lines 79-104) only adds up Hessians of outputs in different bins, those of different outputs in the same bin are dropped. As the outputs of a bin share a score, they should be added (twice) to the diagonal. Three outputs with gradients -2 and all Hessians 2 share a bin; the score 1 and the quality -3 result, but the second-order approximation of the loss increases by 3. (b) `addL1RegularizationWeight` (lines 115-122) compares the aggregated gradient to the unscaled L1 regularisation weight, but subtracts the weight times the number of outputs. Two outputs with gradient 2 and an L1 weight of 3 obtain a positive score, although both gradients are positive. (c) Like in the decomposable case (C94), partial heads select outputs, but use the gradients and Hessians at the first positions.
* **C112.** `INonDecomposableLossConfig::isSparse` (loss_non_decomposable.hpp:150-152) returns true, although none of the non-decomposable losses supports sparse statistics (their function `createClassificationStatisticsProviderFactory` ignores `preferSparseStatistics`, and there is no provider for sparse non-decomposable statistics). With `default_rule='auto'`, `AutomaticDefaultRuleConfig` therefore omits the default rule, if a non-decomposable loss is used with single-output or partial heads and there are more than 120 labels in a sparse matrix, or if `statistic_format='sparse'`, although the statistics are dense with or without a default rule (`C112_non_decomposable_refuted`). According to the documentation, the default rule is only omitted, if it prevents a sparse format from being used. The same happens, if `statistic_format='sparse'` is used with the squared hinge loss and complete heads (`C112_complete_heads_refuted`), because `CompleteHeadConfig` falls back to dense statistics.
* **C113.** The provider for sparse statistics has no separate rule evaluation for the default rule (statistics_provider_decomposable_sparse.cpp:128-144). If `default_rule='true'` and `statistic_format='sparse'` are combined with the squared hinge loss, nothing prevents the default rule from being induced; it is evaluated like any other rule and, e.g., predicts for a single output (`C113_single_output_refuted`), although default rules are documented to provide predictions for all outputs.
* **C114.** For decomposable losses, `CompleteHeadConfig` creates the rule evaluation of the default rule via the label binning configuration, but the ones of regular rules directly via `DecomposableCompleteRuleEvaluationFactory` (head_type_complete.cpp:28-33, 81-86). With `label_binning='equal-width'`, label binning is thus only used for the default rule and ignored for all other rules with complete heads (`C114_complete_heads_refuted`).
* **C116.** `statistic_format='sparse'` is documented to use a sparse format, if supported by the loss function; with complete heads (or automatic heads and a single output), a dense format is used, even if the loss supports a sparse one (`C116_complete_heads_refuted`).
* **C117.** the scores stored by the statistics (predictions of the current model) are never corrected when rules are removed from the model: UnusedRuleRemoval (post_optimization_unused_rule_removal.cpp:19-30) only removes rules from the builder, and if removal is turned off, only the number of used rules is set. The calibration models (learner_classification_common.hpp:101-118) are therefore fitted to scores that include rules which are not part of the (used) model. Sequential post-optimization, which runs after the removal of unused rules (learner_common.hpp:357-372), relearns rules based on the same stale scores. Theorem C117_unused_rules_refuted: the model predicts 1, the calibrator sees 2.
* **C118.** if a holdout set is used without instance sampling, NoInstanceSampling creates a BitWeightVector where the holdout examples have zero weight (instance_sampling_no.cpp:12-23), so that hasZeroWeights() returns true and the rule is pruned (rule_induction_common.hpp:113-119). However, the examples used for pruning are taken from the training set only (feature_space_tabular.cpp:251-256), none of which has zero weight. All qualities are the same, and IREP prefers fewer conditions in case of a tie (rule_pruning_irep.cpp:43-62). As a consequence, every rule is reduced to its first condition, regardless of the data (theorem C118_holdout_partial). The documentation says that rule_pruning does not have an effect without instance sampling.
* **C120.** AutomaticPartitionSamplingConfig (partition_sampling_auto.cpp:9-44) asks the configurations of calibrators if they want to use a holdout set. IsotonicMarginalProbabilityCalibratorConfig and its joint counterpart return true by default, even if the loss (e.g. squared hinge) does not provide probability functions, in which case no calibrator is created (probability_calibration_isotonic.cpp:322-333, 669-680). A third of the training data is set aside without being used.
* **C121.** methods that set a minimum do not take the maximum into account (e.g. instance_sampling_without_replacement.cpp:175-179, feature_binning_equal_width.cpp:243-247), whereas calculateBoundedFraction treats a maximum that is less than the minimum as no maximum (util/math.hpp:78-81). Calling setMaxSamples(10) and setMinSamples(20) succeeds, but 660 of 1000 examples are sampled. For output sampling, whose maximum is 1 by default, setMinSamples(2) alone suffices to remove the upper bound. The Python code calls the methods in the order minimum, maximum and is not affected. If the sample size of features is 0 (the default), both bounds are ignored (feature_sampling_without_replacement.cpp:152-156).
* **C122.** assertGreaterOrEqual and assertLessOrEqual (validation.hpp:36-43, 66-73) use a comparison that is false for NaN, whereas assertGreater and assertLess negate it. NaN is accepted for minImprovement, exponent, beta, m, maxLift and the threshold of the coverage stopping criterion. isEqualToZero(infinity) is true, because |a - b| = infinity <= epsilon * infinity (types.hpp:36-40), so that setMinSupport(infinity) and setOutputRatio(infinity) succeed; the conversion of the resulting number of examples to uint32 is undefined. Values in [-2^-23, 0) are accepted, too. The documentation of minSupport includes 1, which is rejected (rule_induction_top_down_greedy.hpp:51, .cpp:199), the one of InstanceSamplingWithReplacementConfig::setSampleSize excludes 1, which is accepted (instance_sampling_with_replacement.hpp:31, .cpp:199).
* **C124.** setNumUsedRules does not check its argument (rule_list.cpp:114-116), and neither does the Python method set_num_used_rules (rule_model.pyx:181-187). used_cbegin and used_cend do not limit the number to the number of available rules (rule_list.cpp:90-98), so that making predictions or visiting the used rules reads beyond the end of the vector of rules. The limit max_rules hides the problem if it is small enough.
* **C126.** in boosting/prediction/probability_calibration_isotonic.cpp, lines 55-142, missing scores are represented by a bin with the threshold 0, although the probability that results from a score of zero is, e.g., 0.5 in the case of the logistic function (lines 60-62 and 102-104). The bin is added even if there are no missing scores. Its probability is then 0 if labels are dense, i.e., an observation that does not exist, and NaN (0/0 in line 140) if labels are in the CSR format, which affects all bins it is averaged with and all comparisons in the algorithm that pools bins. The code is currently not reachable, because the only sparse loss function does not provide probabilities.
* **C127.** if the holdout set is empty (C108) and is used for calibration, all lists of bins are empty. The method fit then reads bins[0] and writes to bins[0] the element bins[numBins - 1], where numBins - 1 wraps around (common/prediction/probability_calibration_isotonic.cpp:15, 32).
* **C130.** if MULTI_THREADING_SUPPORT_ENABLED is disabled, the number of threads is 1 (common/util/threads.hpp:38), but the index of the thread is set to 1 instead of 0 (common/prediction/predictor_common.hpp:84 and 168). Predictors of binary labels allocate one row of scores per thread (boosting/prediction/predictor_binary_common.hpp) and access the row with index 1, i.e., memory out of bounds, for every example.
* **C132.** A rule may increase the loss on the training data. (1) When learning rules for regression problems that predict for some of the outputs, the statistics of these outputs remain unchanged (see C100, `loss_decomposable_common.hpp` ignores the indices). If two rules that predict for the second of two outputs with ground truth [0, 1] are learned, each of them predicts the score 1 and the loss of the second one is as large as without any rules (`C132_regression_refuted`). (2) The logistic loss may increase because scores are calculated by a full step of Newton's method, without limiting its size: If 19 out of 20 labels are relevant and the first two rules cover all of them, a rule that covers the irrelevant label and one of the relevant ones predicts a score s such that the loss is larger than before (`C132_logistic_refuted`). It cannot increase if the L2 regularization weight is at least a quarter of the product of the shrinkage parameter and the sum of the weights of the covered examples (`C132_logistic_partial`), i.e., the defaults (L2 regularization weight 1, shrinkage 0.3) rule it out for rules that cover at most 13 equally weighted examples. The wrong sign of the L1 regularization term does not invalidate the property.
* **C133.** If feature values are missing, the predictions of a boosted ensemble for its training examples may be worse than without any rules. During training, a rule with a condition `feature <= t` does not cover examples with missing values, but it covers them when predicting (see C70). As a result, the scores used for learning subsequent rules are not those that are predicted. In `C133_missing_refuted`, the squared error for the training examples is four if all rules are used and two if none of them is used.
* **C134.** The statistics used for learning the rules of a decision list do not correspond to its predictions for the training examples (1) if predictions are obtained in the sparse format (see C53): If a label is relevant to two out of three examples and a rule correctly predicts it as irrelevant to the third one, the label is considered to be covered and no further rules are learned, but it is predicted as relevant to all examples (`C134_sparse_refuted`), and (2) if feature values are missing (see C70): A rule `feature <= t` is applied to training examples with missing values, for which the corresponding label has not been marked as covered (`C134_missing_refuted`). Moreover, `C134_predictions_partial` shows that the number of errors exceeds the sum of uncovered weights, which is used for stopping (`stopping_criterion_coverage.cpp`), by twice the number of labels that are predicted incorrectly by rules.
* **C135.** `initializeEntry` (`rule_induction_top_down_beam_search.cpp`, lines 42-51) does not compare the number of examples that are covered by the first condition to the minimum coverage, in contrast to `copyEntry` (line 62) and greedy search. Hence, beam search adds redundant conditions to rules that already cover the minimum number of examples (`C135_beam_refuted`).
* **C136.** `common/util/openmp.hpp` and `common/util/threads.hpp` (line 6) include `"config.hpp"`. Each library generates a file of this name in its own build directory (`configure_file` in the files meson.build), but only the one of the library common defines MULTI_THREADING_SUPPORT_ENABLED, and its build directory is not exported to the other libraries (`common/meson.build`, line 192). When compiling boosting and seco, the macro is hence undefined and `#if` treats it as 0, regardless of the build option. Consequences: (1) `getNumAvailableThreads(0)` always returns 1 in `parallel_rule_refinement_auto.cpp` and `parallel_statistic_update_auto.cpp`, i.e., the default value 'auto' of the parameters parallel_rule_refinement and parallel_statistic_update never results in multi-threading. (2) The pragmas in the statistics providers and in `predictor_common.hpp` are removed, i.e., statistics are not initialized in parallel and predictions are never obtained in parallel. (This also explains why the undeclared name `numThreads` in `statistics_provider_non_decomposable_dense.cpp`, lines 123 and 165, does not result in an error.) (3) The index of the thread is always 1 (see the finding on C130). The number of rows of the score matrix is determined in the library common, i.e., it equals the number of threads: with parallel_prediction=false, num_preferred_threads=1 or on a machine with a single core, binary predictors access a row that does not exist for every example, in any build. With two or more threads, predictions are correct.
* **C137.** `loss_non_decomposable_squared_error.cpp` takes the ground truth of regression problems into account when calculating non-decomposable statistics (via the conversion function, lines 61-122), but converts it to a truth value when calculating decomposable statistics (lines 16-59, see the finding on C99). The statistics provider for single-output heads calculates non-decomposable statistics first and switches to decomposable ones after the default rule has been learned, i.e., the examples that have been covered by a rule since then have gradients of a different objective than the remaining ones. For a single output with ground truth 5 and a score of 0, the gradient is -5 before and -1 after applying a rule that predicts 0. The same holds for any ground truth but 1.
* **C138.** `feature_sampling_without_replacement.cpp`, line 156 calculates `log2(numRemainingFeatures - 1) + 1` and converts it to an unsigned integer. If there is a single feature (that is not retained), the logarithm is minus infinity and the conversion is undefined behaviour; feature sampling without replacement is used by default when boosting, so this affects any data set with one feature. If `num_retained` is at least the number of features, `numRemainingFeatures - 1` wraps around and 32 features are sampled out of none: the ratio is infinite, the reservoir algorithm copies the first 32 elements of an `IndexIterator`, which returns any index it is given, and the sample consists of duplicates and of features that do not exist (if there are less than 32). Moreover, `min_samples` and `max_samples` are silently ignored unless `sample_size` is given, e.g., 7 out of 100 features are sampled despite a maximum of 3.
* **C139.** Statistics of uncovered examples are calculated as the difference of two sums that are rounded independently, and the examples are added up in different orders (by their index and by their feature value). If the uncovered examples have small Hessians, compared to the covered ones, the difference has no correct digits. All Hessians may be positive and their calculated sum negative (e.g., the Hessians 1, 2^-53, 2^-53 and 2^-60, when only the last one is not covered), which flips the sign of the Newton step if no L2 regularization is used. Likewise, `revertPrediction` does not restore a score: after adding and removing 1, the score 2^-60 becomes 0, i.e., a label predicted as relevant by the model is treated as irrelevant during training. The absolute errors are bounded by the number of operations times 2^-54 times the magnitude of the sums (C139).
* **C140.** `DenseCoverageMatrix::increaseCoverage` and `decreaseCoverage` (seco/src/mlrl/seco/data/matrix_coverage_dense.cpp, lines 34, 65, 93 and 124) modify the member `sumOfUncoveredWeights_`, which is not atomic, and they are called by the loops that are parallelized in common/src/mlrl/common/rule_refinement/feature_space_tabular.cpp (lines 281-289 and 301-309) if a user enables parallel statistic updates, which are supported by separate-and-conquer algorithms (`IParallelStatisticUpdateMixin`). This is a data race, i.e., undefined behaviour. Even if individual accesses are atomic, updates are lost, the sum remains too large and the coverage stopping criterion does not stop the training although all labels are covered. The result depends on the schedule of the threads and training is not reproducible (C140).
* **C141.** Unused rules are removed (common/include/mlrl/common/learner_common.hpp, lines 357-372) before sequential post-optimization is carried out, but post_optimization_unused_rule_removal.cpp does not revert their predictions. Therefore, the remaining rules are replaced with rules that complement the dropped rules, which are not part of the model anymore. A model that fits the training data perfectly may be turned into one that predicts 0 in all cases. The same happens if unused rules are kept (C141).
* **C142.** The minimum support is not guaranteed, if feature values are missing: for negated conditions, the number of covered examples is computed as a difference and includes the examples with missing values, although they do not satisfy the condition. For example, `f != 1` is accepted as a rule that covers at least 75% of four examples, although it covers one of them. Moreover, the minimum is computed from the number of all training examples (rule_induction_top_down_greedy.cpp, lines 238-245), whereas only examples with non-zero weights are counted as covered. Therefore, no rules are learned at all if the holdout set, or the examples that are not sampled, make up more than 1 - `minSupport` of the training examples (C142).
* **C143.** The rules that can be learned depend on the representation of the feature matrix. (1) With the values 1, 1, 1, 0, 2, 3 of a nominal feature, a rule with the conditions `f != 0` and `f != 2` can be learned from a dense matrix. With a sparse one, zero is used as the majority value and the feature cannot be used anymore after the first condition has been added. (2) With the values 0, 3, 3, 5 of an ordinal feature, after the examples with value 3 have been excluded, the first threshold that is evaluated is `> 3` in the case of a dense matrix and `> 0` in the case of a sparse one, because the majority value is used as a threshold, even if there are no examples with this value anymore. Both cover the same training examples, but unseen examples with value 3 are treated differently. (3) With the values 0, -1, 5 of a numerical feature, the condition `f <= -0.5` can be learned from a sparse matrix. With a dense one, the only threshold is 2, the mean of -1 and 5, such that no condition selects the second example only. If all values are non-negative, the thresholds differ as well, e.g. 5.5 (dense) and 5 (sparse) for the values 1, 10, 0 (C143).
* **C144.** `view_matrix_dense.hpp`, line 74 calculates the number of elements `numRows * numCols` to be allocated with unsigned 32-bit integers, and `view_matrix_c_contiguous.hpp`, lines 77-107, as well as `view_matrix_fortran_contiguous.hpp`, lines 77-107, calculate the positions of rows and columns in the same way. If a matrix has 2^32 or more elements, not enough memory is allocated and elements overlap, e.g., the scores or predictions for 1,000,000 examples and 5,000 outputs. If a feature matrix with 1,000,000 examples and 5,000 features is provided by the caller, the values of example 41,006 (and 41,007) are silently used instead of the ones of example 900,000. The Hessians of 100,000 examples and 300 outputs overlap as well. The function `triangularNumber` (`boosting/util/math.hpp`, line 17) overflows if there are 2^16 or more outputs; for 65,536 outputs, memory for 32,768 instead of 2,147,516,416 Hessians per example is allocated (C144).
* **C145.** `IndexIterator::operator--(int)` (`iterator_index.cpp`, line 31) increments the iterator. The array access of `IndexIterator`, `BinnedIterator` and `DiagonalIterator` ignores the current position, i.e., `it[k]` is not the same as `*(it + k)`. The postfix operators of all iterators return a reference to the modified iterator, such that `*it++` yields the next instead of the current element. `DenseNonDecomposableStatisticVector::hessians_diagonal_cend` (`vector_statistic_non_decomposable_dense.cpp`, line 63) uses the number of Hessians instead of the number of gradients as the end position. `BinnedIterator::operator*` (`iterator_binned.hpp`, lines 89 and 99) applies the operator `*` to an integer and cannot be compiled when used. None of these operators is currently used by the library in a way that is affected (C145).
* **C147.** The documentation of default settings differs from the implementation. According to `doc/user_guide/boosting/parameters.md`, line 528, feature binning is not used by default, but `learner_boomer_classifier.cpp`, line 27 and `learner_boomer_regressor.cpp`, line 27 use an automatic strategy, which bins the features of dense datasets with more than 200,000 examples. According to `doc/user_guide/seco/parameters.md`, holdout sets are determined automatically (line 247), rules are not pruned (line 282), features are sampled (line 355), instances are not sampled (line 385), at most 1000 rules are learned (line 233), and predictions are recalculated (lines 179 and 210), whereas `learner_seco_classifier.cpp`, lines 22-66 do the opposite or use another value (500 rules). The default value of `beta` is documented as 1.0 (line 85), but it is 0.25 (`heuristic_f_measure.cpp`, line 68). The default value of `aggregation` is documented as `'min'` (`boosting/parameters.md`, line 351), but the arithmetic mean is used (`global_pruning_pre.cpp`, line 195). The default value of `sample_size` for sampling with replacement is documented as 1.0 (line 464), but it is 0.66 (`instance_sampling_with_replacement.cpp`, line 191) (C147).
* **C149.** Several documented values of parameters are not available. `BOOMER_CLASSIFIER_PARAMETERS` and `BOOMER_REGRESSOR_PARAMETERS` are the union of `RULE_LEARNER_PARAMETERS` and a set that contains extended versions of the same parameters (`boosting/config.py`, lines 482-513). Because parameters are considered equal if their names are equal and because the union of Python sets keeps the elements of the left operand, the extended parameters are dropped. As a consequence, the documented value `auto` of the parameters `holdout`, `parallel_rule_refinement` and `parallel_statistic_update` is rejected with a `ValueError` (C149_automatic_refuted). The value `auto` of `head_type` is documented as well (`doc/user_guide/boosting/parameters.md`, lines 183-189), but it is not added to the values of the parameter (`boosting/config.py`, lines 321-330), the branch that handles it (lines 346-347) is unreachable. `BoomerClassifierConfig.use_automatic_binary_predictor` (`learner_boomer.pyx`, lines 559-560) calls `useOutputWiseBinaryPredictor` (C149_predictor_refuted). In the case of `SeCoClassifier`, the value `auto` of `holdout` (C149_holdout_refuted) and the parameter `default_rule` (C149_default_rule_refuted) are documented, but not available.
* **C149.** `OutputSamplingParameter` (`common/config.py`, lines 394-400) adds the values `round-robin` and `without-replacement` depending on the mixins for *feature* sampling. This does not matter for the available rule learners, which have all mixins in question.
* **C150.** The parameter `random_state` of `BoomerRegressor` is ignored: the class `BoomerRegressorConfig` (`learner_boomer.pyx`, lines 578-635) does not inherit from `RNGMixin`, so that `RandomStateParameter` is skipped without any notice (`common/config.py`, lines 249-251 and 282-293). C150_seed_refuted shows that the function `useRNG` is never called and that the configuration is the same for all seeds, i.e., the default seed 1 is always used.
* **C151.** The setters for the minimum and maximum number of samples of `ExampleWiseStratifiedInstanceSamplingConfig`, `OutputWiseStratifiedInstanceSamplingConfig`, `InstanceSamplingWithReplacementConfig`, `InstanceSamplingWithoutReplacementConfig` and `OutputSamplingWithoutReplacementConfig` are declared with parameters of type `float32` in `common/cython/instance_sampling.pxd` and `common/cython/output_sampling.pxd`, although the C++ functions expect `uint32`. As a consequence, the maximum 16777217 is silently replaced by 16777216 (C151_changed_refuted), and the conversion of 4294967295, which is rounded to 2^32, is undefined behavior (C151_undefined_refuted).
* **C151.** The setters of the same five classes are declared without `except +`, i.e., C++ exceptions are not translated into Python exceptions and terminate the process. Because the checks in Python are applied to double-precision values, a valid sample size just below one passes them, is rounded to one and rejected in C++ (C151_terminated_refuted). The value NaN, which passes the checks in Python, has the same effect.
* **C152.** The value 1 of `min_support` is documented to be valid (`common/cython/rule_induction.pyx`, lines 45-46 and 206-207), but rejected (C152_one_refuted). The sample size 1 of the parameters `output_sampling` and `feature_sampling` is valid according to `doc/user_guide/boosting/parameters.md`, lines 410 and 436, but rejected, in accordance with the docstrings (C152_guide_refuted). NaN is accepted as a value of parameters that must be at least as large as a number, e.g., `beta` (C152_nan_refuted).
* **C153.** The default value of the option `max_samples` of `output_sampling=without-replacement` is one rather than zero, so that the option `min_samples=2` is rejected with a message on `max_samples`, unless the latter is given as well (C153_output_sampling_refuted). Likewise, `global_pruning=pre-pruning{update_interval=2}` is rejected, because the default value of `stop_interval`, which is one, is no multiple of two (C153_pre_pruning_refuted).
* **C154.** If a sparse feature matrix explicitly stores zeros and `sparse_feature_value` is not zero, the conversion into a dense matrix replaces the stored zeros by the sparse value, because `nonzero` does not return their indices (`common/arrays.py`, lines 133-151), whereas they are kept if the sparse format is used. As column-wise and row-wise formats require different amounts of memory, different values can be used for training and prediction (C154_zeros_refuted).
* **C154.** Sparse feature or label matrices without any stored elements raise an `IndexError`, because the address of the first element is accessed with bounds checking, unless the dense format is used (C154_empty_refuted).
* **C154.** Labels that are explicitly stored as zeros in a sparse matrix are considered as relevant if the sparse format is used, because only indices are passed to C++ (C154_labels_refuted).
* **C155.** If `output_format` is set to 'auto', the memory needed for regression scores is computed as if they were labels, i.e., a single byte per dense element (`common/rule_learners.py`, lines 369-374). The dense format is used although it requires more than twice the memory (C155_regression_refuted). For labels, one of the pointers is not counted, so that the sparse format may require up to three more bytes (C155_labels_refuted).
* **C155.** Matrices in the DIA or BSR format are rejected, even if a conversion into the dense format is requested (C155_unsupported_refuted).
* **C156.** If only ordinal or only nominal feature indices are set, a `TypeError` is raised, because the constructor of `MixedFeatureInfo` does not accept `None` (C156_single_refuted), unless all features have this type.
* **C156.** Feature indices are not checked: If the length of a list, including duplicates, is equal to the number of features, all features have the given type (C156_duplicates_refuted). Features that are set to be ordinal and nominal are ordinal, unless all features are nominal (C156_overlap_refuted). Indices out of range are ignored or result in a write access outside of the bounds of a bit vector (C156_range_refuted).
* **C157.** The arrays that are returned by native incremental predictors provide access to the memory of the C++ predictor. They are overwritten by the next call of `apply_next` (C157_overwritten_refuted) and refer to freed memory once the predictor is deleted (C157_freed_refuted), as in `estimator.predict_incrementally(x).apply_next(10)`. Neither kind of incremental predictor keeps a reference to the model, so that deleting the estimator or fitting it again results in the use of freed memory (C157_deleted_refuted).
* **C157.** The step size zero is rejected by incremental predictors for dense binary predictions and non-native predictors, but accepted by those for scores and probabilities (`checksStepSize` in Model/Incremental.v). Step sizes are assumed to be at least one in the theorems, as documented.
* **C158.** The method `_predict_proba_incrementally` calls `super().predict_proba_incrementally` rather than `super()._predict_proba_incrementally` (`common/rule_learners.py`, line 519), which calls itself again. If probabilities are not supported, a `RecursionError` is raised after the feature matrix has been created hundreds of times (C158_recursion_refuted). As this is a subclass of `RuntimeError`, the testbed still reports that probabilities are not supported.
* **C159.** The keyword arguments are not passed to the function for predicting probabilities (`testbed/experiments.py`, line 73). Thus, sparse elements are considered as zero when predicting probabilities, regardless of `--sparse-feature-value` (C159_probabilities_refuted).
* **C160.** The loop of an incremental evaluation continues until all rules are used, even if `max_size` is given (`testbed/experiments.py`, line 203). The additional evaluations are reported with the maximum size (C160_maximum_refuted).
* **C161.** The shape of matrices that are loaded from sparse ARFF files is determined from the largest indices that are given (`testbed/data.py`, line 384). If the last label is irrelevant to all examples in a file, e.g., in a fold or a test set, the columns are shifted, such that feature values are used as labels (C161_shifted_refuted). Examples at the end of a file for which no values are given are dropped (C161_dropped_refuted).
* **C161.** The outputs in the XML file are assigned to columns by their position rather than their name. If they are given in a different order than in the ARFF file, they are confused with each other (C161_order_refuted).
* **C161.** The ground truth is always converted to `uint8` (`testbed/data.py`, line 364), because the argument `output_dtype` is not given by any caller (`testbed/data_splitting.py`, lines 283, 329, 340, 415, 428 and 466). Thus, regression scores are truncated to integers (C161_scores_refuted).
* **C161.** Negative numbers of outputs in the declaration of a relation, which are written by `save_arff_file` itself if outputs are located at the end (`testbed/data.py`, lines 256 and 274), result in empty feature matrices and all attributes being considered as outputs without names (C161_negative_refuted), unless an XML file is available.
* **C163.** Results are stored per fold and not per size of a model (`testbed/evaluation.py`, lines 229-230 and 404-405). If an incremental evaluation is combined with a cross validation, the average that is reported for a certain size consists of the scores of the largest models of all folds except for the last one (C163_size_refuted, C163_incremental_partial).
* **C163.** The options of the mean and the median absolute error have the same name (`testbed/evaluation.py`, lines 72 and 76), i.e., they cannot be enabled or disabled individually. This is not modelled.
* **C162.** The value `cv` that is documented for the argument `--data-split` (`doc/user_guide/testbed/evaluation.md`, lines 70 and 79) is not accepted; the value is called `cross-validation` (`testbed/runnables.py`, line 382). This is not modelled.
* **C166.** The documentation states that parameters that are given via the command line take precedence over those in a file (`doc/user_guide/testbed/parameter_persistence.md`, line 51). However, the parameters in the file are applied to a learner that has already been created from the command line arguments (`testbed/experiments.py`, lines 320-329) and override them (C166_command_line_refuted).
* **C167.** The files that store models are identified by the name of the learner and the fold (`testbed/io.py`, line 56, `testbed/persistence.py`, lines 37 and 56). If the data set, the number of folds or the random state changes, models that have been trained on other examples are loaded, including models that have been trained on examples in the current test set (C167_other_refuted). Only changes of parameters are checked (`testbed/experiments.py`, lines 348-350), not of data. The number of folds is fixed in the theorem, whereas C167_reused_partial shows that the training examples are irrelevant in general.
* **C167.** According to the documentation, the model is stored in a file `boomer.model` if train-test splits are used (`doc/user_guide/testbed/model_persistence.md`, line 31). The actual name is `boomer_overall.model` (C167_example).
* **C168.** For sparse matrices, elements that are explicitly stored are counted, regardless of their values (`testbed/characteristics.py`, lines 42, 59, 76 and 91). If zeros are stored, the characteristics differ from those of the equivalent dense matrix (C168_zeros_refuted).
* **C169.** Sparse data sets that are saved by `save_data_set_and_meta_data` are not restored, if the last output is irrelevant to all examples: feature values are loaded as labels (C169_sparse_refuted). The reason is the shape that is determined when loading files, as described for C161.
* **C169.** Data sets that are saved by `save_data_set` without an XML file cannot be loaded correctly, because a negative number of outputs is written (`testbed/data.py`, lines 256 and 274), which is not supported when parsing it (C169_relation_refuted).

## 6. Print Assumptions per theorem

"none" means `Closed under the global context`. Generated from the compiled files.

| file | theorem | axioms |
|---|---|---|
| Addressing | `C144_rows_partial` | none |
| Addressing | `C144_columns_partial` | none |
| Addressing | `C144_initialized_partial` | none |
| Addressing | `C144_ranges_partial` | none |
| Addressing | `C144_provided_partial` | none |
| Addressing | `C144_hessians_partial` | none |
| Addressing | `C144_allocated_refuted` | none |
| Addressing | `C144_features_refuted` | none |
| Addressing | `C144_outputs_refuted` | none |
| Addressing | `C144_hessians_refuted` | none |
| BeamCoverage | `C135_greedy_partial` | none |
| BeamCoverage | `C135_beam_partial` | none |
| BeamCoverage | `C135_beam_refuted` | none |
| Binning | `C38_bins_partial` | none |
| Binning | `C38_safe_partial` | none |
| Binning | `C38_out_of_bounds_refuted` | none |
| Binning | `C38_tolerance_refuted` | none |
| Binning | `C88_even_bins_partial` | none |
| Binning | `C88_missing_refuted` | none |
| Binning | `C39_bins_partial` | none |
| Binning | `C39_safe_partial` | none |
| Binning | `C39_threshold_refuted` | none |
| Binning | `C39_boundary_refuted` | none |
| Binning | `C39_out_of_bounds_refuted` | none |
| Binning | `C39_dense_refuted` | none |
| Binning | `C39_sparse_refuted` | none |
| BoostBinning | `C66_bins_partial` | none |
| BoostBinning | `C66_conversion_refuted` | none |
| BoostBinning | `C94_complete_partial` | none |
| BoostBinning | `C94_partial_heads_refuted` | none |
| BoostBinning | `C95_default_partial` | none |
| BoostBinning | `C95_maximum_partial` | none |
| BoostBinning | `C95_minimum_refuted` | none |
| BoostConfig | `C112_default_rule_auto_partial` | none |
| BoostConfig | `C112_non_decomposable_refuted` | none |
| BoostConfig | `C112_complete_heads_refuted` | none |
| BoostConfig | `C113_default_rule_complete_partial` | none |
| BoostConfig | `C113_single_output_refuted` | none |
| BoostConfig | `C114_binning_partial` | none |
| BoostConfig | `C114_complete_heads_refuted` | none |
| BoostConfig | `C115_head_types` | none |
| BoostConfig | `C116_format_partial` | none |
| BoostConfig | `C116_complete_heads_refuted` | none |
| BoostEvaluation | `C54_optimal_partial` | none |
| BoostEvaluation | `C54_quality_partial` | none |
| BoostEvaluation | `C54_never_optimal_partial` | none |
| BoostEvaluation | `C54_scores_refuted` | none |
| BoostEvaluation | `C54_positive_refuted` | none |
| BoostEvaluation | `C55_fixed_heads` | none |
| BoostEvaluation | `C56_dynamic_heads` | `ClassicalDedekindReals.sig_not_dec`, `ClassicalDedekindReals.sig_forall_dec`, `FunctionalExtensionality.functional_extensionality_dep`, `Classical_Prop.classic` |
| BoostEvaluation | `C56_monotone` | `ClassicalDedekindReals.sig_not_dec`, `ClassicalDedekindReals.sig_forall_dec`, `FunctionalExtensionality.functional_extensionality_dep`, `Classical_Prop.classic` |
| BoostEvaluation | `C91_single_partial` | none |
| BoostEvaluation | `C91_fixed_partial` | none |
| BoostEvaluation | `C91_single_refuted` | none |
| BoostEvaluation | `C92_refuted` | none |
| BoostEvaluation | `C92_inflated_partial` | none |
| BoostEvaluation | `C92_l2_partial` | none |
| BoostEvaluation | `C93_refuted` | `ClassicalDedekindReals.sig_not_dec`, `ClassicalDedekindReals.sig_forall_dec`, `FunctionalExtensionality.functional_extensionality_dep`, `Classical_Prop.classic` |
| BoostModel | `C133_scores_partial` | `ClassicalDedekindReals.sig_forall_dec`, `FunctionalExtensionality.functional_extensionality_dep` |
| BoostModel | `C133_squared_error_partial` | `ClassicalDedekindReals.sig_forall_dec`, `FunctionalExtensionality.functional_extensionality_dep` |
| BoostModel | `C133_squared_hinge_partial` | `ClassicalDedekindReals.sig_forall_dec`, `FunctionalExtensionality.functional_extensionality_dep` |
| BoostModel | `C133_squared_error_regression_partial` | `ClassicalDedekindReals.sig_forall_dec`, `FunctionalExtensionality.functional_extensionality_dep` |
| BoostModel | `C133_logistic_partial` | `ClassicalDedekindReals.sig_not_dec`, `ClassicalDedekindReals.sig_forall_dec`, `FunctionalExtensionality.functional_extensionality_dep`, `Classical_Prop.classic` |
| BoostModel | `C133_missing_refuted` | `ClassicalDedekindReals.sig_forall_dec`, `FunctionalExtensionality.functional_extensionality_dep` |
| BoostNDBinning | `C111_complete_partial` | none |
| BoostNDBinning | `C111_interactions_refuted` | none |
| BoostNDBinning | `C111_l1_refuted` | none |
| BoostNDBinning | `C111_partial_heads_refuted` | none |
| BoostNonDecomposable | `C96_complete_partial` | none |
| BoostNonDecomposable | `C96_l1_partial` | none |
| BoostNonDecomposable | `C96_l1_refuted` | none |
| BoostNonDecomposable | `C97_agree_partial` | none |
| BoostNonDecomposable | `C97_agree_refuted` | none |
| BoostNonDecomposable | `C98_dynamic_partial` | `ClassicalDedekindReals.sig_not_dec`, `ClassicalDedekindReals.sig_forall_dec`, `FunctionalExtensionality.functional_extensionality_dep`, `Classical_Prop.classic` |
| BoostNonDecomposable | `C98_fixed_partial` | none |
| BoostNonDecomposable | `C98_quality_refuted` | `ClassicalDedekindReals.sig_not_dec`, `ClassicalDedekindReals.sig_forall_dec`, `FunctionalExtensionality.functional_extensionality_dep`, `Classical_Prop.classic` |
| BoostNonDecomposable | `C98_scores_refuted` | none |
| BoostStatistics | `C57_same_statistics_partial` | `ClassicalDedekindReals.sig_forall_dec`, `FunctionalExtensionality.functional_extensionality_dep` |
| BoostStatistics | `C57_squared_hinge_partial` | `ClassicalDedekindReals.sig_forall_dec`, `FunctionalExtensionality.functional_extensionality_dep` |
| BoostStatistics | `C57_squared_hinge_refuted` | `ClassicalDedekindReals.sig_forall_dec`, `FunctionalExtensionality.functional_extensionality_dep` |
| BoostStatistics | `C57_small_weights_refuted` | `ClassicalDedekindReals.sig_forall_dec`, `FunctionalExtensionality.functional_extensionality_dep` |
| BoostStatistics | `C58_dense_scores` | `ClassicalDedekindReals.sig_forall_dec`, `FunctionalExtensionality.functional_extensionality_dep` |
| BoostStatistics | `C58_dense_scores_restored` | `ClassicalDedekindReals.sig_forall_dec`, `FunctionalExtensionality.functional_extensionality_dep` |
| BoostStatistics | `C58_sparse_scores` | `ClassicalDedekindReals.sig_forall_dec`, `FunctionalExtensionality.functional_extensionality_dep` |
| BoostStatistics | `C58_sparse_scores_restored` | `ClassicalDedekindReals.sig_forall_dec`, `FunctionalExtensionality.functional_extensionality_dep` |
| BoostStatistics | `C58_unaffected_scores` | `ClassicalDedekindReals.sig_forall_dec`, `FunctionalExtensionality.functional_extensionality_dep` |
| BoostStatistics | `C58_sparse_and_dense_scores` | `ClassicalDedekindReals.sig_forall_dec`, `FunctionalExtensionality.functional_extensionality_dep` |
| BoostStatistics | `C59_dense` | `ClassicalDedekindReals.sig_forall_dec`, `FunctionalExtensionality.functional_extensionality_dep` |
| BoostStatistics | `C59_sparse` | `ClassicalDedekindReals.sig_forall_dec`, `FunctionalExtensionality.functional_extensionality_dep` |
| BoostStatistics | `C59_non_decomposable` | `ClassicalDedekindReals.sig_forall_dec`, `FunctionalExtensionality.functional_extensionality_dep` |
| BoostStatistics | `C103_dense` | `ClassicalDedekindReals.sig_forall_dec`, `FunctionalExtensionality.functional_extensionality_dep` |
| BoostStatistics | `C103_sparse` | `ClassicalDedekindReals.sig_forall_dec`, `FunctionalExtensionality.functional_extensionality_dep` |
| BoostStatistics | `C103_non_decomposable_partial` | `ClassicalDedekindReals.sig_forall_dec`, `FunctionalExtensionality.functional_extensionality_dep` |
| BoostStatistics | `C103_non_decomposable_refuted` | `ClassicalDedekindReals.sig_forall_dec`, `FunctionalExtensionality.functional_extensionality_dep` |
| BoostStatistics | `C104_evaluation_partial` | `ClassicalDedekindReals.sig_forall_dec`, `FunctionalExtensionality.functional_extensionality_dep` |
| BoostStatistics | `C104_update_partial` | `ClassicalDedekindReals.sig_forall_dec`, `FunctionalExtensionality.functional_extensionality_dep` |
| BoostStatistics | `C104_sorted_scores_partial` | `ClassicalDedekindReals.sig_forall_dec` |
| BoostStatistics | `C104_evaluation_refuted` | `ClassicalDedekindReals.sig_forall_dec`, `FunctionalExtensionality.functional_extensionality_dep` |
| BoostStatistics | `C104_update_refuted` | `ClassicalDedekindReals.sig_forall_dec`, `FunctionalExtensionality.functional_extensionality_dep` |
| BoostStatistics | `C105_sparse_statistics` | `ClassicalDedekindReals.sig_forall_dec`, `FunctionalExtensionality.functional_extensionality_dep` |
| BoostStatistics | `C105_sparse_statistics_and_labels_partial` | `ClassicalDedekindReals.sig_forall_dec`, `FunctionalExtensionality.functional_extensionality_dep` |
| BoostStatistics | `C105_dense_statistics_and_sparse_labels_partial` | `ClassicalDedekindReals.sig_forall_dec` |
| BoostStatistics | `C105_sparse_labels_refuted` | `ClassicalDedekindReals.sig_forall_dec`, `FunctionalExtensionality.functional_extensionality_dep` |
| BoostStatistics | `C106_sorted_partial` | `ClassicalDedekindReals.sig_forall_dec`, `FunctionalExtensionality.functional_extensionality_dep` |
| BoostStatistics | `C106_sorted_refuted` | `ClassicalDedekindReals.sig_forall_dec` |
| BoostTraining | `C132_squared_error_partial` | `ClassicalDedekindReals.sig_forall_dec`, `FunctionalExtensionality.functional_extensionality_dep` |
| BoostTraining | `C132_squared_hinge_partial` | `ClassicalDedekindReals.sig_forall_dec`, `FunctionalExtensionality.functional_extensionality_dep` |
| BoostTraining | `C132_squared_error_regression_partial` | `ClassicalDedekindReals.sig_forall_dec`, `FunctionalExtensionality.functional_extensionality_dep` |
| BoostTraining | `C132_logistic_partial` | `ClassicalDedekindReals.sig_not_dec`, `ClassicalDedekindReals.sig_forall_dec`, `FunctionalExtensionality.functional_extensionality_dep`, `Classical_Prop.classic` |
| BoostTraining | `C132_regression_refuted` | `ClassicalDedekindReals.sig_forall_dec`, `FunctionalExtensionality.functional_extensionality_dep` |
| BoostTraining | `C132_logistic_refuted` | `ClassicalDedekindReals.sig_not_dec`, `ClassicalDedekindReals.sig_forall_dec`, `FunctionalExtensionality.functional_extensionality_dep`, `Classical_Prop.classic` |
| Calibration | `C27_fitted_bins` | none |
| Calibration | `C27_pooling` | none |
| Calibration | `C27_calibration` | none |
| Calibration | `C28_duplicate_thresholds_refuted` | none |
| Calibration | `C28_duplicate_thresholds_partial` | none |
| Calibration | `C74_least_squares_refuted` | none |
| Calibration | `C75_calibrating_zero_refuted` | none |
| Calibration | `C75_calibrating_zero_partial` | none |
| Calibration | `C76_label_vector_equality_refuted` | none |
| Calibration | `C76_label_vector_equality_partial` | none |
| CalibrationData | `C125_marginal` | none |
| CalibrationData | `C125_marginal_csr` | none |
| CalibrationData | `C125_joint` | none |
| CalibrationData | `C125_joint_csr` | none |
| CalibrationData | `C126_dense_labels_partial` | none |
| CalibrationData | `C126_csr_labels_partial` | none |
| CalibrationData | `C126_scores_refuted` | none |
| CalibrationData | `C126_labels_refuted` | none |
| CalibrationData | `C127_marginal_partial` | none |
| CalibrationData | `C127_joint_partial` | none |
| CalibrationData | `C127_refuted` | none |
| Configuration | `C146_last` | none |
| Configuration | `C146_unaffected` | none |
| Configuration | `C146_order` | none |
| Configuration | `C146_adjacent` | none |
| Configuration | `C146_completes` | none |
| Configuration | `C146_classifier` | none |
| Configuration | `C146_regressor` | none |
| Configuration | `C147_boosting_partial` | none |
| Configuration | `C147_seco_partial` | none |
| Configuration | `C147_values_partial` | none |
| Configuration | `C147_binning_refuted` | none |
| Configuration | `C147_pruning_refuted` | none |
| Configuration | `C147_sampling_refuted` | none |
| Configuration | `C147_rules_refuted` | none |
| Configuration | `C147_values_refuted` | none |
| Conversion | `C137_switch_partial` | `ClassicalDedekindReals.sig_forall_dec` |
| Conversion | `C137_logistic_partial` | `ClassicalDedekindReals.sig_forall_dec`, `FunctionalExtensionality.functional_extensionality_dep` |
| Conversion | `C137_squared_hinge_partial` | `ClassicalDedekindReals.sig_not_dec`, `ClassicalDedekindReals.sig_forall_dec`, `FunctionalExtensionality.functional_extensionality_dep`, `Classical_Prop.classic` |
| Conversion | `C137_squared_error_partial` | `ClassicalDedekindReals.sig_not_dec`, `ClassicalDedekindReals.sig_forall_dec`, `FunctionalExtensionality.functional_extensionality_dep`, `Classical_Prop.classic` |
| Conversion | `C137_derivatives_partial` | `ClassicalDedekindReals.sig_not_dec`, `ClassicalDedekindReals.sig_forall_dec`, `FunctionalExtensionality.functional_extensionality_dep`, `Classical_Prop.classic` |
| Conversion | `C137_regression_refuted` | `ClassicalDedekindReals.sig_not_dec`, `ClassicalDedekindReals.sig_forall_dec`, `FunctionalExtensionality.functional_extensionality_dep`, `Classical_Prop.classic` |
| Conversion | `C137_regression_always_refuted` | `ClassicalDedekindReals.sig_not_dec`, `ClassicalDedekindReals.sig_forall_dec`, `FunctionalExtensionality.functional_extensionality_dep`, `Classical_Prop.classic` |
| Data | `C13_bit_vector` | none |
| Data | `C14_ring_buffer` | none |
| Data | `C15_sparse_set` | none |
| Data | `C16_sparse_iteration` | none |
| Data | `C16_binary_iteration` | none |
| Data | `C16_non_zero_iteration` | none |
| Data | `C17_sparse_prediction_conversion` | none |
| Data | `C18_label_vector_set` | none |
| Data | `C18_storage_independent` | none |
| Estimators | `C154_features_partial` | none |
| Estimators | `C154_features_created_partial` | none |
| Estimators | `C154_regression` | none |
| Estimators | `C154_labels_partial` | none |
| Estimators | `C154_labels_created_partial` | none |
| Estimators | `C154_zeros_refuted` | none |
| Estimators | `C154_empty_refuted` | none |
| Estimators | `C154_labels_refuted` | none |
| Estimators | `C155_features` | none |
| Estimators | `C155_forced_partial` | none |
| Estimators | `C155_labels_partial` | none |
| Estimators | `C155_regression_partial` | none |
| Estimators | `C155_labels_refuted` | none |
| Estimators | `C155_regression_refuted` | none |
| Estimators | `C155_unsupported_refuted` | none |
| Estimators | `C156_types_partial` | none |
| Estimators | `C156_single_refuted` | none |
| Estimators | `C156_duplicates_refuted` | none |
| Estimators | `C156_overlap_refuted` | none |
| Estimators | `C156_range_refuted` | none |
| Experiments | `C166_documented_partial` | none |
| Experiments | `C166_file_partial` | none |
| Experiments | `C166_restored_partial` | none |
| Experiments | `C166_command_line_refuted` | none |
| Experiments | `C167_names_partial` | none |
| Experiments | `C167_reused_partial` | none |
| Experiments | `C167_other_refuted` | none |
| Experiments | `C168_same_partial` | none |
| Experiments | `C168_values_partial` | none |
| Experiments | `C168_imbalance_partial` | none |
| Experiments | `C168_zeros_refuted` | none |
| FeatureFormats | `C143_categorical_partial` | none |
| FeatureFormats | `C143_nominal_refuted` | none |
| FeatureFormats | `C143_ordinal_refuted` | none |
| FeatureFormats | `C143_numerical_refuted` | none |
| FeatureSampling | `C138_fraction_partial` | none |
| FeatureSampling | `C138_logarithmic_partial` | none |
| FeatureSampling | `C138_valid_partial` | none |
| FeatureSampling | `C138_single_feature_refuted` | none |
| FeatureSampling | `C138_single_remaining_refuted` | none |
| FeatureSampling | `C138_all_retained_refuted` | none |
| FeatureSampling | `C138_bounds_refuted` | none |
| FeatureTypes | `C109_dense` | none |
| FeatureTypes | `C109_majority` | none |
| FeatureTypes | `C109_sparse_partial` | none |
| FeatureTypes | `C109_uninitialised_refuted` | none |
| FeatureTypes | `C109_wrong_refuted` | none |
| FeatureTypes | `C110_dense` | none |
| FeatureTypes | `C110_sparse` | none |
| Filter | `C36_remaining_interval` | none |
| Filter | `C36_ordinal_intervals` | none |
| Filter | `C36_numerical_intervals` | none |
| Filter | `C36_binned_intervals` | none |
| Filter | `C37_conditions_partial` | none |
| Filter | `C37_categorical_partial` | none |
| Filter | `C37_progress_partial` | none |
| Filter | `C37_numerical_refuted` | none |
| Filter | `C37_missing_values_refuted` | none |
| Filter | `C84_filtered_vectors_partial` | none |
| Filter | `C84_binned_refuted` | none |
| Filter | `C84_binned_interval_partial` | none |
| Filter | `C84_binned_sparse_bin_partial` | none |
| Filter | `C84_missing_values_refuted` | none |
| Filter | `C85_equal_values_partial` | none |
| Filter | `C85_nominal_refuted` | none |
| Filter | `C85_numerical_refuted` | none |
| Filter | `C86_positions_partial` | none |
| Filter | `C86_exception_refuted` | none |
| Filter | `C86_binned_refuted` | none |
| Filter | `C87_reset_partial` | none |
| Filter | `C87_statistics_refuted` | none |
| Floats | `C35_separates_partial` | none |
| Floats | `C35_between_partial` | none |
| Floats | `C35_sparse_value_positive_partial` | none |
| Floats | `C35_sparse_value_negative_partial` | none |
| Floats | `C35_order_of_arguments_partial` | none |
| Floats | `C35_overflow_refuted` | none |
| Floats | `C35_neighbours_refuted` | none |
| Floats | `C107_range` | none |
| Floats | `C107_accuracy_partial` | none |
| Floats | `C107_accuracy_refuted` | none |
| Floats | `C107_all_elements_refuted` | none |
| Floats | `C107_undefined_refuted` | none |
| Floats | `C108_training_set` | none |
| Floats | `C108_holdout_set_partial` | none |
| Floats | `C108_holdout_set_refuted` | none |
| Incremental | `C157_latest_partial` | none |
| Incremental | `C157_owned_partial` | none |
| Incremental | `C157_overwritten_refuted` | none |
| Incremental | `C157_freed_refuted` | none |
| Incremental | `C157_deleted_refuted` | none |
| Incremental | `C158_methods_partial` | none |
| Incremental | `C158_recursion_refuted` | none |
| Incremental | `C159_values_partial` | none |
| Incremental | `C159_probabilities_refuted` | none |
| Incremental | `C160_sizes_partial` | none |
| Incremental | `C160_maximum_refuted` | none |
| Iterators | `C145_index_partial` | none |
| Iterators | `C145_binned_partial` | none |
| Iterators | `C145_diagonal_partial` | none |
| Iterators | `C145_sparse_partial` | none |
| Iterators | `C145_decrement_refuted` | none |
| Iterators | `C145_subscript_refuted` | none |
| Iterators | `C145_binned_subscript_refuted` | none |
| Iterators | `C145_diagonal_subscript_refuted` | none |
| Iterators | `C145_postfix_refuted` | none |
| Iterators | `C145_diagonal_end_refuted` | none |
| JointPrediction | `C60_gfm_optimal` | none |
| JointPrediction | `C61_marginal_probabilities` | none |
| JointPrediction | `C62_closest_label_vector` | none |
| JointPrediction | `C62_most_probable_label_vector` | none |
| JointPrediction | `C63_chain_rule` | none |
| JointPrediction | `C63_chain_rule_sparse` | none |
| JointPrediction | `C63_normalisation` | none |
| Losses | `C64_logistic_function` | `ClassicalDedekindReals.sig_not_dec`, `ClassicalDedekindReals.sig_forall_dec`, `FunctionalExtensionality.functional_extensionality_dep`, `Classical_Prop.classic` |
| Losses | `C65_logistic_partial` | `ClassicalDedekindReals.sig_not_dec`, `ClassicalDedekindReals.sig_forall_dec`, `FunctionalExtensionality.functional_extensionality_dep`, `Classical_Prop.classic` |
| Losses | `C65_squared_hinge_partial` | `ClassicalDedekindReals.sig_forall_dec`, `FunctionalExtensionality.functional_extensionality_dep` |
| Losses | `C65_squared_error_partial` | `ClassicalDedekindReals.sig_forall_dec`, `FunctionalExtensionality.functional_extensionality_dep` |
| Losses | `C65_evaluation_partial` | `ClassicalDedekindReals.sig_forall_dec`, `FunctionalExtensionality.functional_extensionality_dep` |
| Losses | `C65_complete_update_partial` | `ClassicalDedekindReals.sig_forall_dec` |
| Losses | `C65_non_decomposable_logistic_partial` | `ClassicalDedekindReals.sig_not_dec`, `ClassicalDedekindReals.sig_forall_dec`, `FunctionalExtensionality.functional_extensionality_dep`, `Classical_Prop.classic` |
| Losses | `C65_non_decomposable_logistic_diagonal_partial` | `ClassicalDedekindReals.sig_not_dec`, `ClassicalDedekindReals.sig_forall_dec`, `FunctionalExtensionality.functional_extensionality_dep`, `Classical_Prop.classic` |
| Losses | `C65_non_decomposable_squared_hinge_partial` | `ClassicalDedekindReals.sig_not_dec`, `ClassicalDedekindReals.sig_forall_dec`, `FunctionalExtensionality.functional_extensionality_dep`, `Classical_Prop.classic` |
| Losses | `C65_non_decomposable_squared_hinge_diagonal_partial` | `ClassicalDedekindReals.sig_not_dec`, `ClassicalDedekindReals.sig_forall_dec`, `FunctionalExtensionality.functional_extensionality_dep`, `Classical_Prop.classic` |
| Losses | `C65_non_decomposable_squared_error_partial` | `ClassicalDedekindReals.sig_not_dec`, `ClassicalDedekindReals.sig_forall_dec`, `FunctionalExtensionality.functional_extensionality_dep`, `Classical_Prop.classic` |
| Losses | `C65_non_decomposable_squared_error_diagonal_partial` | `ClassicalDedekindReals.sig_not_dec`, `ClassicalDedekindReals.sig_forall_dec`, `FunctionalExtensionality.functional_extensionality_dep`, `Classical_Prop.classic` |
| Losses | `C65_squared_hinge_gradient_refuted` | `ClassicalDedekindReals.sig_forall_dec`, `FunctionalExtensionality.functional_extensionality_dep` |
| Losses | `C65_squared_hinge_hessian_refuted` | `ClassicalDedekindReals.sig_forall_dec`, `FunctionalExtensionality.functional_extensionality_dep` |
| Losses | `C65_squared_error_gradient_refuted` | `ClassicalDedekindReals.sig_forall_dec`, `FunctionalExtensionality.functional_extensionality_dep` |
| Losses | `C65_non_decomposable_squared_hinge_refuted` | `ClassicalDedekindReals.sig_not_dec`, `ClassicalDedekindReals.sig_forall_dec`, `FunctionalExtensionality.functional_extensionality_dep`, `Classical_Prop.classic` |
| Losses | `C99_update_partial` | `ClassicalDedekindReals.sig_not_dec`, `ClassicalDedekindReals.sig_forall_dec`, `FunctionalExtensionality.functional_extensionality_dep`, `Classical_Prop.classic` |
| Losses | `C99_evaluation_refuted` | `ClassicalDedekindReals.sig_not_dec`, `ClassicalDedekindReals.sig_forall_dec`, `FunctionalExtensionality.functional_extensionality_dep` |
| Losses | `C99_gradient_refuted` | `ClassicalDedekindReals.sig_not_dec`, `ClassicalDedekindReals.sig_forall_dec`, `FunctionalExtensionality.functional_extensionality_dep`, `Classical_Prop.classic` |
| Losses | `C99_gradient_sign_refuted` | `ClassicalDedekindReals.sig_not_dec`, `ClassicalDedekindReals.sig_forall_dec`, `FunctionalExtensionality.functional_extensionality_dep`, `Classical_Prop.classic` |
| Losses | `C100_partial_update_partial` | `ClassicalDedekindReals.sig_forall_dec` |
| Losses | `C100_regression_refuted` | `ClassicalDedekindReals.sig_forall_dec`, `FunctionalExtensionality.functional_extensionality_dep` |
| Losses | `C101_underflow_refuted` | `ClassicalDedekindReals.sig_not_dec`, `ClassicalDedekindReals.sig_forall_dec`, `FunctionalExtensionality.functional_extensionality_dep`, `Classical_Prop.classic` |
| MinCoverage | `C142_minimum_partial` | none |
| MinCoverage | `C142_categorical_partial` | none |
| MinCoverage | `C142_exact_partial` | none |
| MinCoverage | `C142_too_few_partial` | none |
| MinCoverage | `C142_missing_refuted` | none |
| MinCoverage | `C142_rounded_refuted` | none |
| MultiThreading | `C136_training_partial` | none |
| MultiThreading | `C136_libraries_refuted` | none |
| MultiThreading | `C136_libraries_always_refuted` | none |
| MultiThreading | `C136_automatic_refuted` | none |
| MultiThreading | `C136_automatic_always_refuted` | none |
| MultiThreading | `C136_predictions_partial` | none |
| MultiThreading | `C136_predictions_refuted` | none |
| MultiThreading | `C136_predictions_always_refuted` | none |
| OptionValues | `C148_options` | none |
| Options | `C148_notation` | none |
| Options | `C148_written` | none |
| Options | `C148_unique` | none |
| Options | `C148_ambiguity_refuted` | none |
| Options | `C148_parameters` | none |
| OutputWise | `C102_minimal_loss` | `ClassicalDedekindReals.sig_not_dec`, `ClassicalDedekindReals.sig_forall_dec`, `FunctionalExtensionality.functional_extensionality_dep`, `Classical_Prop.classic` |
| OutputWise | `C102_strictly_smaller_loss` | `ClassicalDedekindReals.sig_not_dec`, `ClassicalDedekindReals.sig_forall_dec`, `FunctionalExtensionality.functional_extensionality_dep`, `Classical_Prop.classic` |
| OutputWise | `C102_probabilities_and_scores` | `ClassicalDedekindReals.sig_not_dec`, `ClassicalDedekindReals.sig_forall_dec`, `FunctionalExtensionality.functional_extensionality_dep`, `Classical_Prop.classic` |
| OutputWise | `C102_sparse_and_dense_predictions` | `ClassicalDedekindReals.sig_forall_dec` |
| ParallelUpdate | `C140_boosting_partial` | none |
| ParallelUpdate | `C140_coverage_partial` | none |
| ParallelUpdate | `C140_single_thread_partial` | none |
| ParallelUpdate | `C140_lost_refuted` | none |
| ParallelUpdate | `C140_any_lost_refuted` | none |
| Parameters | `C121_values_partial` | none |
| Parameters | `C121_effects_partial` | none |
| Parameters | `C121_minimum_partial` | none |
| Parameters | `C121_maximum_set_last_partial` | none |
| Parameters | `C121_minimum_not_set_partial` | none |
| Parameters | `C121_order_refuted` | none |
| Parameters | `C121_default_maximum_refuted` | none |
| Parameters | `C121_default_minimum_refuted` | none |
| Parameters | `C122_floats_partial` | none |
| Parameters | `C122_integers_partial` | none |
| Parameters | `C122_near_zero_partial` | none |
| Parameters | `C122_nan_partial` | none |
| Parameters | `C122_nan_refuted` | none |
| Parameters | `C122_infinite_refuted` | none |
| Parameters | `C122_one_rejected_refuted` | none |
| Parameters | `C122_one_accepted_refuted` | none |
| PartialBinning | `C131_fixed` | none |
| PartialBinning | `C131_dynamic` | `ClassicalDedekindReals.sig_not_dec`, `ClassicalDedekindReals.sig_forall_dec`, `FunctionalExtensionality.functional_extensionality_dep`, `Classical_Prop.classic` |
| PartialBinning | `C131_fixed_non_decomposable` | none |
| PartialBinning | `C131_dynamic_non_decomposable` | `ClassicalDedekindReals.sig_not_dec`, `ClassicalDedekindReals.sig_forall_dec`, `FunctionalExtensionality.functional_extensionality_dep`, `Classical_Prop.classic` |
| PostOptimization | `C141_no_pruning_partial` | none |
| PostOptimization | `C141_pruning_partial` | none |
| PostOptimization | `C141_dropped_refuted` | none |
| Predictors | `C128_batch` | none |
| Predictors | `C128_incremental` | none |
| Predictors | `C128_without_transformation` | none |
| Predictors | `C128_output_wise` | none |
| Predictors | `C128_example_wise` | none |
| Predictors | `C128_gfm` | none |
| Predictors | `C129_batch` | none |
| Predictors | `C129_incremental` | none |
| Predictors | `C129_without_transformation` | none |
| Predictors | `C129_output_wise` | none |
| Predictors | `C129_marginalized` | none |
| Predictors | `C130_multi_threaded_partial` | none |
| Predictors | `C130_threads_partial` | none |
| Predictors | `C130_single_threaded_refuted` | none |
| Predictors | `C130_always_undefined_refuted` | none |
| PyConfig | `C149_values_partial` | none |
| PyConfig | `C149_rejected` | none |
| PyConfig | `C149_learners_partial` | none |
| PyConfig | `C149_values_refuted` | none |
| PyConfig | `C149_automatic_refuted` | none |
| PyConfig | `C149_predictor_refuted` | none |
| PyConfig | `C149_holdout_refuted` | none |
| PyConfig | `C149_default_rule_refuted` | none |
| PyConfig | `C150_numbers_partial` | none |
| PyConfig | `C150_seed_refuted` | none |
| PyConfig | `C150_numbers_refuted` | none |
| Refinement | `C29_best_refinement` | none |
| Refinement | `C29_best_over_features` | none |
| Refinement | `C30_parallel_search` | none |
| Refinement | `C30_parallel_beam` | none |
| Refinement | `C31_beam_candidates_refuted` | none |
| Refinement | `C31_beam_candidates_partial` | none |
| Refinement | `C31_merge_partial` | none |
| Refinement | `C40_irep` | none |
| Refinement | `C40_irep_single_condition` | none |
| Refinement | `C41_greedy_growth` | none |
| Refinement | `C41_greedy_terminates` | none |
| Refinement | `C77_beam_loses_best_refuted` | none |
| Refinement | `C77_beam_not_sorted_refuted` | none |
| Refinement | `C77_beam_overwrites_refuted` | none |
| Refinement | `C78_beam_search` | none |
| Refinement | `C78_beam_terminates` | none |
| Refinement | `C79_induce_rule_refuted` | none |
| Refinement | `C79_induce_rule_partial` | none |
| Refinement | `C79_recalculation_partial` | none |
| Refinement | `C80_post_optimization_refuted` | none |
| Refinement | `C80_post_optimization_partial` | none |
| Rounding | `C139_entries_partial` | none |
| Rounding | `C139_scores_partial` | none |
| Rounding | `C139_uncovered_partial` | none |
| Rounding | `C139_accumulated_partial` | none |
| Rounding | `C139_revert_refuted` | none |
| Rounding | `C139_sign_refuted` | none |
| Rules | `C19_covers_iff_all_conditions_hold` | none |
| Rules | `C19_sparse_equals_dense` | none |
| Rules | `C20_condition_list_to_body` | none |
| Rules | `C21_copied_condition_list_refuted` | none |
| Rules | `C21_copied_condition_list_uninitialised_refuted` | none |
| Rules | `C21_copied_condition_list_partial` | none |
| Rules | `C22_rule_list_iteration` | none |
| Rules | `C44_parallel_prediction` | none |
| Rules | `C44_parallel_scores` | none |
| Rules | `C45_incremental_prediction` | none |
| Rules | `C70_missing_values_refuted` | none |
| Rules | `C70_missing_values_partial` | none |
| Sampling | `C01_random_numbers_in_range` | none |
| Sampling | `C02_full_period` | none |
| Sampling | `C02_no_early_repetition` | none |
| Sampling | `C02_every_value_is_drawn` | none |
| Sampling | `C03_index_sampling` | none |
| Sampling | `C03_output_sampling` | none |
| Sampling | `C04_random_permutation` | none |
| Sampling | `C05_weights_without_replacement` | none |
| Sampling | `C06_weights_with_replacement` | none |
| Sampling | `C07_random_holdout` | none |
| Sampling | `C10_feature_sampling` | none |
| Sampling | `C11_round_robin` | none |
| Sampling | `C12_bounded_fraction` | none |
| Saving | `C169_round_trip_partial` | none |
| Saving | `C169_sparse_refuted` | none |
| Saving | `C169_relation_refuted` | none |
| Search | `C32_nominal_search` | none |
| Search | `C32_binary_search` | none |
| Search | `C33_ordinal_search_partial` | none |
| Search | `C33_first_bin_refuted` | none |
| Search | `C33_last_bin_refuted` | none |
| Search | `C34_numerical_search_partial` | none |
| Search | `C34_threshold_missed_refuted` | none |
| Search | `C34_dense_refuted` | none |
| Search | `C34_sparse_refuted` | none |
| Search | `C34_negative_refuted` | none |
| Search | `C34_hidden_threshold_refuted` | none |
| Search | `C81_missing_values_refuted` | none |
| Search | `C82_binned_search_partial` | none |
| Search | `C82_negated_condition_refuted` | none |
| Search | `C82_last_bin_refuted` | none |
| Search | `C83_minimum_coverage` | none |
| Seco | `C46_majority_partial` | none |
| Seco | `C46_agree_partial` | none |
| Seco | `C46_default_rule_partial` | none |
| Seco | `C46_default_rule_refuted` | none |
| Seco | `C46_out_of_bounds_refuted` | none |
| Seco | `C47_weighted_partial` | none |
| Seco | `C47_unweighted_refuted` | none |
| Seco | `C48_cancel` | none |
| Seco | `C49_sum_partial` | none |
| Seco | `C49_sum_refuted` | none |
| Seco | `C89_sampling_refuted` | none |
| Seco | `C89_head_refuted` | none |
| Seco | `C89_ascending_partial` | none |
| Seco | `C59_seco` | none |
| SecoEvaluation | `C51_no_lift_partial` | `ClassicalDedekindReals.sig_forall_dec`, `FunctionalExtensionality.functional_extensionality_dep` |
| SecoEvaluation | `C51_kln_partial` | `ClassicalDedekindReals.sig_not_dec`, `ClassicalDedekindReals.sig_forall_dec`, `FunctionalExtensionality.functional_extensionality_dep`, `Classical_Prop.classic` |
| SecoEvaluation | `C51_peak_partial` | `ClassicalDedekindReals.sig_not_dec`, `ClassicalDedekindReals.sig_forall_dec`, `FunctionalExtensionality.functional_extensionality_dep`, `Classical_Prop.classic` |
| SecoEvaluation | `C51_bound_refuted` | `ClassicalDedekindReals.sig_not_dec`, `ClassicalDedekindReals.sig_forall_dec`, `FunctionalExtensionality.functional_extensionality_dep`, `Classical_Prop.classic` |
| SecoEvaluation | `C51_increase_refuted` | `ClassicalDedekindReals.sig_not_dec`, `ClassicalDedekindReals.sig_forall_dec`, `FunctionalExtensionality.functional_extensionality_dep`, `Classical_Prop.classic` |
| SecoEvaluation | `C51_nan_partial` | `ClassicalDedekindReals.sig_not_dec`, `ClassicalDedekindReals.sig_forall_dec`, `FunctionalExtensionality.functional_extensionality_dep`, `Classical_Prop.classic` |
| SecoEvaluation | `C51_out_of_bounds_partial` | `ClassicalDedekindReals.sig_not_dec`, `ClassicalDedekindReals.sig_forall_dec`, `FunctionalExtensionality.functional_extensionality_dep`, `Classical_Prop.classic` |
| SecoEvaluation | `C51_pruning_refuted` | `ClassicalDedekindReals.sig_not_dec`, `ClassicalDedekindReals.sig_forall_dec`, `FunctionalExtensionality.functional_extensionality_dep`, `Classical_Prop.classic` |
| SecoEvaluation | `C52_best_head` | `ClassicalDedekindReals.sig_forall_dec`, `FunctionalExtensionality.functional_extensionality_dep` |
| SecoEvaluation | `C52_kln` | `ClassicalDedekindReals.sig_not_dec`, `ClassicalDedekindReals.sig_forall_dec`, `FunctionalExtensionality.functional_extensionality_dep`, `Classical_Prop.classic` |
| SecoEvaluation | `C52_peak` | `ClassicalDedekindReals.sig_not_dec`, `ClassicalDedekindReals.sig_forall_dec`, `FunctionalExtensionality.functional_extensionality_dep`, `Classical_Prop.classic` |
| SecoEvaluation | `C90_complete` | `ClassicalDedekindReals.sig_forall_dec`, `FunctionalExtensionality.functional_extensionality_dep` |
| SecoEvaluation | `C90_single` | `ClassicalDedekindReals.sig_forall_dec`, `FunctionalExtensionality.functional_extensionality_dep` |
| SecoHeuristics | `C50_range_partial` | none |
| SecoHeuristics | `C50_defined_partial` | none |
| SecoHeuristics | `C50_wra_range_partial` | none |
| SecoHeuristics | `C50_textbook_partial` | none |
| SecoHeuristics | `C50_accuracy_positive_partial` | none |
| SecoHeuristics | `C50_f_measure_limit_partial` | none |
| SecoHeuristics | `C50_m_estimate_limit_partial` | none |
| SecoHeuristics | `C50_accuracy_refuted` | none |
| SecoHeuristics | `C50_accuracy_constant_partial` | none |
| SecoHeuristics | `C50_wra_refuted` | none |
| SecoModel | `C134_predictions_partial` | none |
| SecoModel | `C134_sparse_refuted` | none |
| SecoModel | `C134_missing_refuted` | none |
| SecoPrediction | `C53_dense_partial` | none |
| SecoPrediction | `C53_sparse_partial` | none |
| SecoPrediction | `C53_agree_partial` | none |
| SecoPrediction | `C53_sparse_refuted` | none |
| SecoPrediction | `C53_unsorted_refuted` | none |
| Serialization | `C123_restored` | none |
| Serialization | `C123_predictions` | none |
| Serialization | `C123_errors` | none |
| Serialization | `C123_versions` | none |
| Serialization | `C123_label_vectors` | none |
| Serialization | `C123_calibration` | none |
| Serialization | `C124_enough_partial` | none |
| Serialization | `C124_too_many_partial` | none |
| Serialization | `C124_refuted` | none |
| Setters | `C151_exact_partial` | none |
| Setters | `C151_small_partial` | none |
| Setters | `C151_changed_refuted` | none |
| Setters | `C151_undefined_refuted` | none |
| Setters | `C151_terminated_refuted` | none |
| Setters | `C152_ranges_partial` | none |
| Setters | `C152_documented` | none |
| Setters | `C152_one_refuted` | none |
| Setters | `C152_guide_refuted` | none |
| Setters | `C152_nan_refuted` | none |
| Setters | `C153_options_partial` | none |
| Setters | `C153_output_sampling_refuted` | none |
| Setters | `C153_pre_pruning_refuted` | none |
| Stopping | `C23_combined_criteria` | none |
| Stopping | `C24_at_most_max_rules` | none |
| Stopping | `C24_exactly_max_rules` | none |
| Stopping | `C25_post_pruning` | none |
| Stopping | `C25_training_with_post_pruning` | none |
| Stopping | `C25_evaluation_is_the_mean` | none |
| Stopping | `C26_pre_pruning` | none |
| Stopping | `C42_sequential_assemblage` | none |
| Stopping | `C43_unused_rule_removal` | none |
| Stopping | `C71_time_limit` | none |
| Stopping | `C72_pre_pruning_ends_training_refuted` | none |
| Stopping | `C73_pre_pruning_configurations_refuted` | none |
| Stopping | `C73_configurations_partial` | none |
| Stopping | `C73_stop_interval_partial` | none |
| Stopping | `C73_multiple_refuted` | none |
| Stratified | `C08_stratified_weights` | none |
| Stratified | `C08_stratified_holdout` | none |
| Stratified | `C08_holdout_share` | none |
| Stratified | `C09_stratified_holdout` | none |
| Stratified | `C09_stratified_weights` | none |
| Stratified | `C67_stratified_sample_size_refuted` | none |
| Stratified | `C68_strata_storage_independent_refuted` | none |
| Stratified | `C69_csr_to_csc` | none |
| Testbed | `C161_loaded_partial` | none |
| Testbed | `C161_shifted_refuted` | none |
| Testbed | `C161_dropped_refuted` | none |
| Testbed | `C161_order_refuted` | none |
| Testbed | `C161_scores_refuted` | none |
| Testbed | `C161_negative_refuted` | none |
| Testbed | `C162_predefined` | none |
| Testbed | `C162_random` | none |
| Testbed | `C163_single_partial` | none |
| Testbed | `C163_incremental_partial` | none |
| Testbed | `C163_size_refuted` | none |
| Testbed | `C164_rows` | none |
| Testbed | `C165_duration` | none |
| Training | `C117_no_pruning_partial` | none |
| Training | `C117_dropped_partial` | none |
| Training | `C117_dropped_optimized_partial` | none |
| Training | `C117_unused_rules_refuted` | none |
| Training | `C118_single_partial` | none |
| Training | `C118_holdout_partial` | none |
| Training | `C118_holdout_refuted` | none |
| Training | `C119_label_vectors_available` | none |
| Training | `C119_predictors_available` | none |
| Training | `C119_label_vectors_needed` | none |
| Training | `C120_available_partial` | none |
| Training | `C120_logistic_partial` | none |
| Training | `C120_unused_refuted` | none |
