{"id": "C01", "title": "create_feature_columns is the transpose", "statement": "create_feature_columns(rows) returns one column per feature of the first row, column j holding rows[i][j] at position i; it panics exactly when rows is empty or some row is shorter than the first.", "quantifier": "every vector of rows, of any size, rectangular or ragged, with any f64 entries", "why_tests_cant": "The row/column shapes are unbounded and the panic boundary depends on every row; tests only look at a 3x3 example.", "anchors": ["common/src/data_reader.rs::create_feature_columns"]}
{"id": "C02", "title": "One-hot encoding puts a single 1 at the truncated label", "statement": "Reading a single-target data set as one-hot multi-target gives, for every row, a vector of number_of_targets entries that is 1 at position `label as usize` (truncation toward zero, saturating; negative and NaN labels become class 0) and 0 elsewhere; it panics exactly when some label's class is >= number_of_targets.", "quantifier": "every list of f64 labels and every number of targets", "why_tests_cant": "The claim covers every f64 label including fractions, negatives, NaN and out-of-range values.", "anchors": ["common/src/data_reader.rs::create_multi_target_labels", "common/src/data_reader.rs::read_csv_data_one_hot_multi_target"]}
{"id": "C03", "title": "CSV loading keeps every record, in order, and separates the label", "statement": "read_csv_data_one_hot_multi_target and read_csv_data_multi_target return a data set whose i-th feature row and i-th label come from the i-th record (last field = label in the single-target layout), with feature_columns the transpose of feature_rows, so a rectangular file yields a well-formed data set; a missing file or a record that does not parse makes the call panic rather than drop data.", "quantifier": "every parsed CSV content (any number of records and fields)", "why_tests_cant": "Ranges over all file contents.", "anchors": ["common/src/data_reader.rs::read_data", "common/src/data_reader.rs::parse_data_into_features_and_labels", "common/src/data_reader.rs::read_csv_data_multi_target"]}
{"id": "C04", "title": "Feature sorting is a stable-by-index sort of the column", "statement": "get_sorted_feature_tuple_vector(col) returns a permutation of the (value, position) pairs, ascending by value with equal values ascending by position, and that result is the only such list; it panics exactly when the column has at least two entries and one of them is NaN.", "quantifier": "every f64 column of any length, including infinities, signed zeros and NaN", "why_tests_cant": "Sortedness, permutation and the NaN panic boundary quantify over all columns.", "anchors": ["common/src/feature_sorter.rs::get_sorted_feature_tuple_vector"]}
{"id": "C05", "title": "Sorted-feature data set is the same data, sorted per column", "statement": "create_dataset_with_sorted_features keeps the labels in their original order and replaces each feature column by its sorted (value, row index) list; no row of any column is lost, duplicated or re-indexed.", "quantifier": "every data set without NaN features", "why_tests_cant": "All data sets, all columns.", "anchors": ["common/src/data_processor.rs::create_dataset_with_sorted_features"]}
{"id": "C06", "title": "partition splits the rows exactly by the question", "statement": "partition(data, q) returns (false side, true side): the rows (with their labels, in original order) whose value at q.column is < q.value resp. >= q.value, every (row,label) pair appearing on exactly one side, and each side's feature_columns are the transpose of its rows; on rectangular data it panics exactly when q.column is out of range or one side is empty.", "quantifier": "every data set and every question", "why_tests_cant": "All inputs; the empty-side panic is an input-dependent corner.", "anchors": ["multi-target-decision-tree/src/utils/data_partitioner.rs::partition", "common/src/question.rs::Question::solve"]}
{"id": "C07", "title": "new_partition splits sorted data exactly by value >= threshold", "statement": "On a node's sorted data (every column sorted, all columns listing the same row indices), when some value of the split column reaches the threshold, new_partition returns the rows with value >= split_value first and the rest second: labels in original order, every column of each side still sorted and listing exactly that side's row indices; no row lost or duplicated.", "quantifier": "every node data set, split column and threshold reached by some row", "why_tests_cant": "All data sets and thresholds; the algorithm relies on sortedness of inherited columns.", "anchors": ["common/src/data_processor.rs::new_partition", "common/src/data_processor.rs::collect_indices_for_partitioning", "common/src/data_processor.rs::collect_partitioned_labels", "common/src/data_processor.rs::collect_partitioned_feature_columns"]}
{"id": "C08", "title": "new_partition agrees with the question for every threshold", "statement": "For every threshold, a row is on the first (true) side returned by new_partition iff its value in the split column is >= the threshold. (False of the code when the threshold exceeds every value: all rows then go to the true side.)", "quantifier": "every node data set, split column and threshold, including thresholds above the maximum", "why_tests_cant": "A universally quantified boundary case; no test uses such a threshold.", "anchors": ["common/src/data_processor.rs::collect_indices_for_partitioning"]}
{"id": "C09", "title": "A reported split is always usable", "statement": "On a well-formed data set find_best_split does not panic and returns a gain that is never NaN or negative; when the gain is non-zero the question names an existing column and one of that column's own values, strictly greater than the column's minimum, so both sides of the split are non-empty and partition succeeds.", "quantifier": "every well-formed data set with arbitrary f64 labels (including NaN and infinities)", "why_tests_cant": "Must hold through all floating-point behaviours, for every data set.", "anchors": ["multi-target-decision-tree/src/split_finders/split_finder_variance.rs::find_best_split", "multi-target-decision-tree/src/split_finders/threshold_finders/threshold_finder_variance.rs::determine_best_threshold"]}
{"id": "C10", "title": "The reported gain is the true variance reduction of the reported split", "statement": "In exact arithmetic the gain returned by find_best_split equals total label variance (summed over targets) minus the size-weighted variance of the two sides of the returned question. (False of the code when a feature value above the column minimum is repeated; proved when it is not.)", "quantifier": "every well-formed data set with real-valued labels", "why_tests_cant": "Quantifies over all data; the failing inputs need repeated feature values in a particular order.", "anchors": ["multi-target-decision-tree/src/split_finders/split_finder_variance.rs::find_best_split", "multi-target-decision-tree/src/split_finders/threshold_finders/threshold_finder_variance.rs::determine_best_threshold", "multi-target-decision-tree/src/utils/calculations/calculations.rs::calculate_variance_vector", "multi-target-decision-tree/src/utils/calculations/calculations.rs::calculate_loss_vector"]}
{"id": "C11", "title": "The chosen split is optimal", "statement": "In exact arithmetic no question (column, threshold) splits the data with a larger variance reduction than the one returned by find_best_split. (False of the code with repeated feature values; proved when values above each column's minimum are distinct.)", "quantifier": "every well-formed data set and every competing column and threshold", "why_tests_cant": "Optimality over an infinite set of thresholds and all data sets.", "anchors": ["multi-target-decision-tree/src/split_finders/split_finder_variance.rs::find_best_split", "multi-target-decision-tree/src/split_finders/threshold_finders/threshold_finder_variance.rs::determine_best_threshold"]}
{"id": "C12", "title": "Zero gain means nothing can be gained", "statement": "In exact arithmetic the gain returned by find_best_split is at least the true variance reduction of every question; in particular gain 0 means no question reduces the variance.", "quantifier": "every well-formed real-valued data set (repeated values allowed) and every column and threshold", "why_tests_cant": "Universal over data sets and questions.", "anchors": ["multi-target-decision-tree/src/split_finders/split_finder_variance.rs::find_best_split", "multi-target-decision-tree/src/split_finders/threshold_finders/threshold_finder_variance.rs::determine_best_threshold"]}
{"id": "C13", "title": "Deterministic tie-breaking across columns", "statement": "find_best_split on all columns equals the best of the per-column answers: its gain is the largest gain over the columns taken one at a time, and the column chosen is the first one attaining that gain, with that column's own threshold.", "quantifier": "every well-formed data set, f64 arithmetic", "why_tests_cant": "All data sets with ties; equality is bit-exact.", "anchors": ["multi-target-decision-tree/src/split_finders/split_finder_variance.rs::find_best_split"]}
{"id": "C14", "title": "A pure node is not split", "statement": "In exact arithmetic, if all label vectors of a data set are identical, find_best_split reports gain 0, so the tree built on it is a single leaf. (In f64 rounding can report a positive gain for such data.)", "quantifier": "every well-formed data set with identical labels", "why_tests_cant": "Rounding-dependent: fails only for particular label values and sizes.", "anchors": ["multi-target-decision-tree/src/split_finders/split_finder_variance.rs::find_best_split", "multi-target-decision-tree/src/utils/calculations/calculations.rs::calculate_variance_vector"]}
{"id": "C15", "title": "Invariance under increasing feature transforms", "statement": "Replacing every value of each feature by its image under a strictly increasing function yields the same tree shape, questions with transformed thresholds, the same leaf labels, and the same predictions on transformed inputs.", "quantifier": "every well-formed data set, configuration and family of order-preserving functions, f64 arithmetic", "why_tests_cant": "Quantifies over functions and data sets.", "anchors": ["multi-target-decision-tree/src/tree/tree_builders/regression_tree_builder.rs::build_regression_tree", "multi-target-decision-tree/src/split_finders/split_finder_variance.rs::find_best_split"]}
{"id": "C16", "title": "Row order does not influence the chosen split", "statement": "In exact arithmetic, permuting the rows (with their labels) of a data set does not change find_best_split's gain or question. (False of the code with repeated feature values; proved when values above each column's minimum are distinct.)", "quantifier": "every well-formed data set and permutation of its rows", "why_tests_cant": "All permutations of all data sets.", "anchors": ["multi-target-decision-tree/src/split_finders/split_finder_variance.rs::find_best_split", "multi-target-decision-tree/src/split_finders/threshold_finders/threshold_finder_variance.rs::determine_best_threshold"]}
{"id": "C17", "title": "Tree training is total on well-formed data", "statement": "RegressionMultiTargetDecisionTree::new, GradBoostMultiTargetDecisionTree::new and AMGBoostTree::new return a tree, without panicking, for every well-formed non-empty data set whose label length equals number_of_classes; and for every input at all the recursion terminates. If number_of_classes differs from the label length (with at least one feature) the call panics.", "quantifier": "every data set, max_levels and thread flag", "why_tests_cant": "Termination and panic-freedom over all inputs.", "anchors": ["multi-target-decision-tree/src/tree/tree_builders/regression_tree_builder.rs", "multi-target-decision-tree/src/tree/tree_builders/grad_boost/grad_boost_tree_builder.rs", "multi-target-decision-tree/src/tree/tree_builders/grad_boost/approximate_grad_boost_tree_builder.rs", "multi-target-decision-tree/src/tree/decision_trees.rs", "multi-target-decision-tree/src/tree/grad_boost_decision_trees.rs"]}
{"id": "C18", "title": "Tree depth is bounded", "statement": "A built tree has depth at most max_levels and less than the number of training rows; max_levels = 0 gives a single leaf.", "quantifier": "every data set and max_levels", "why_tests_cant": "Unbounded depth and data.", "anchors": ["multi-target-decision-tree/src/tree/tree_builders/regression_tree_builder.rs::build_regression_tree"]}
{"id": "C19", "title": "Built trees are proper", "statement": "In a built tree every node is either a leaf with a payload and no branches or an inner node with both branches and no payload, so looking up a feature row (long enough for the questions asked) never panics and finds exactly one leaf.", "quantifier": "every built tree of each kind and every feature row", "why_tests_cant": "All trees and inputs.", "anchors": ["multi-target-decision-tree/src/tree/node.rs", "multi-target-decision-tree/src/utils/scorer.rs::find_leaf_node_for_data", "multi-target-grad-boost/src/tree_traverse.rs::find_leaf_node_for_data"]}
{"id": "C20", "title": "Leaves partition the training set", "statement": "The data sets stored in the leaves of a regression tree are non-empty, well-formed, and together contain every training (row, label) pair exactly once.", "quantifier": "every well-formed data set and configuration", "why_tests_cant": "All data sets.", "anchors": ["multi-target-decision-tree/src/tree/tree_builders/regression_tree_builder.rs::build_regression_tree"]}
{"id": "C21", "title": "The leaf found for a row holds exactly the training rows on the same path", "statement": "For every feature row x, the leaf found for x stores, in training order, exactly the training rows (with labels) that answer every question on x's path the way x does; hence each training row is stored in the leaf it is routed to.", "quantifier": "every built regression tree and every feature row", "why_tests_cant": "All inputs and trees.", "anchors": ["multi-target-decision-tree/src/tree/tree_builders/regression_tree_builder.rs::build_regression_tree", "multi-target-decision-tree/src/utils/scorer.rs::find_leaf_node_for_data"]}
{"id": "C22", "title": "Multi-threaded tree building is schedule-independent", "statement": "Under every interleaving of the fork-join tasks (and every completion order of the parallel column scans), each *_using_multiple_threads builder finishes and produces exactly the tree the single-threaded builder produces; it panics iff the single-threaded one does.", "quantifier": "every schedule, data set and configuration, for all three tree kinds", "why_tests_cant": "Schedules cannot be enumerated by tests.", "anchors": ["multi-target-decision-tree/src/tree/tree_builders/regression_tree_builder.rs::build_regression_tree_using_multiple_threads", "multi-target-decision-tree/src/tree/tree_builders/grad_boost/grad_boost_tree_builder.rs::build_grad_boost_regression_tree_using_multiple_threads", "multi-target-decision-tree/src/tree/tree_builders/grad_boost/approximate_grad_boost_tree_builder.rs::build_approximate_grad_boost_regression_tree_using_multiple_threads"]}
{"id": "C23", "title": "Parallel map/collect is order-preserving", "statement": "par_iter().map(f).collect() as used for column scans, column partitioning and residuals returns f of each element in input order whatever order the workers complete in.", "quantifier": "every schedule and input list", "why_tests_cant": "All completion orders.", "anchors": ["multi-target-decision-tree/src/split_finders/split_finder_variance.rs::find_best_split", "common/src/data_processor.rs::collect_partitioned_feature_columns", "multi-target-grad-boost/src/ensembles/RegressionBoost/regression_boost_executor_functions.rs::calculate_residuals"]}
{"id": "C24", "title": "The two partitioning strategies build the same tree", "statement": "RegressionMultiTargetDecisionTreeNewPartition::new on the sorted version of a data set gives the same tree as RegressionMultiTargetDecisionTree::new on the data set: same shape, same questions bit for bit, leaves with the same labels in the same order; hence the same predictions and the same mean squared error.", "quantifier": "every well-formed data set and max_levels, f64 arithmetic", "why_tests_cant": "Equality of two algorithms on all inputs, bit-exact.", "anchors": ["multi-target-decision-tree/src/tree/tree_builders/regression_tree_builder.rs::build_regression_tree_new_partition", "multi-target-decision-tree/src/tree/tree_builders/regression_tree_builder.rs::build_regression_tree", "common/src/data_processor.rs::new_partition"]}
{"id": "C25", "title": "Boosting trees are regression trees with computed leaf outputs", "statement": "GradBoostMultiTargetDecisionTree::new (resp. AMGBoostTree::new) yields the regression tree of the same data and configuration with each leaf's data replaced by the leaf output computed from that data (resp. by the largest entry of that output and its index).", "quantifier": "every data set, configuration and leaf-output kind", "why_tests_cant": "All inputs.", "anchors": ["multi-target-decision-tree/src/tree/tree_builders/grad_boost/grad_boost_tree_builder.rs", "multi-target-decision-tree/src/tree/tree_builders/grad_boost/approximate_grad_boost_tree_builder.rs", "multi-target-decision-tree/src/tree/tree_builders/grad_boost/grad_boost_leaf_output.rs"]}
{"id": "C26", "title": "Deeper trees refine shallower ones", "statement": "The tree built with max_levels = m is the tree built with any larger max_levels cut at depth m.", "quantifier": "every data set and pair of depth limits, f64 arithmetic", "why_tests_cant": "All inputs.", "anchors": ["multi-target-decision-tree/src/tree/tree_builders/regression_tree_builder.rs::build_regression_tree"]}
{"id": "C27", "title": "Tree predictions stay within the training labels", "statement": "The regression prediction for any row is, per target, the arithmetic mean of the labels in its leaf and lies between the smallest and largest training label of that target. (Proved in exact arithmetic; the range bound is false in f64 because the mean is rounded.)", "quantifier": "every built tree and feature row", "why_tests_cant": "All data; rounding.", "anchors": ["multi-target-decision-tree/src/utils/scorer.rs::calculate_overall_mean_squared_error", "common/src/numerical_calculations.rs::calculate_average_f64_vector"]}
{"id": "C28", "title": "Training error never increases with depth", "statement": "In exact arithmetic the training mean squared error of the tree with max_levels = m+1 is at most that of the tree with max_levels = m, and with max_levels = 0 it is the (mean over targets of the) label variance.", "quantifier": "every well-formed real-valued data set and every m", "why_tests_cant": "All data sets and depths.", "anchors": ["multi-target-decision-tree/src/tree/tree_builders/regression_tree_builder.rs::build_regression_tree", "multi-target-decision-tree/src/utils/scorer.rs::calculate_overall_mean_squared_error"]}
{"id": "C29", "title": "A deep enough tree fits consistent data", "statement": "In exact arithmetic, if rows with equal features have equal labels, a tree with max_levels at least the number of rows minus one predicts every training label exactly; and any leaf above the depth limit on such data holds a single label.", "quantifier": "every consistent data set", "why_tests_cant": "Ranges over all consistent tables and depths; holding at all depends on how ties are scanned.", "anchors": ["multi-target-decision-tree/src/tree/tree_builders/regression_tree_builder.rs::build_regression_tree"]}
{"id": "C30", "title": "Classification picks the most frequent class of the leaf", "statement": "predict_class returns a one-hot vector with the 1 at the class having most labels equal to 1 in the leaf found for the row, the lowest index on ties (class 0 when no label is 1).", "quantifier": "every regression tree with fewer than 2^32 rows per leaf and fewer than 2^53 classes, every row", "why_tests_cant": "All trees and rows.", "anchors": ["multi-target-decision-tree/src/utils/scorer.rs::classification::predict_class"]}
{"id": "C31", "title": "Accuracy is a fraction, and 1.0 means all correct", "statement": "calculate_accuracy (trees) and calculate_score (classification ensembles) return k/n correctly rounded, where k of the n test rows are predicted exactly; so the result is within [0,1], equals 1.0 iff every row is correct and 0.0 iff none is, and does not depend on the order of the test rows; an empty test set gives NaN.", "quantifier": "every test set of up to 2^53 rows, f64 arithmetic", "why_tests_cant": "Rounding for all k, n.", "anchors": ["multi-target-decision-tree/src/utils/scorer.rs::classification::calculate_accuracy", "multi-target-grad-boost/src/ensembles/MultiClassBoosting/common_multi_class_boosting_functions.rs::calculate_accuracy_from_predictions"]}
{"id": "C32", "title": "Mean squared error means what it says", "statement": "In exact arithmetic calculate_overall_mean_squared_error and RegressionBoostModel::calculate_score equal the average over rows of the average over targets of the squared prediction error; hence non-negative, and zero iff every prediction is exact.", "quantifier": "every model and non-empty test set", "why_tests_cant": "All data.", "anchors": ["multi-target-decision-tree/src/utils/scorer.rs::regression", "multi-target-grad-boost/src/ensembles/RegressionBoost/regression_boost_ensemble.rs::calculate_mean_squared_error", "common/src/numerical_calculations.rs::mean_sum_of_squared_differences_between_f64_slices"]}
{"id": "C33", "title": "Ensemble shape", "statement": "train with n iterations yields exactly n trees, stores the given learning rate, and an initial guess that is the label average (regression) or 1/K for each of the K classes (both classification ensembles).", "quantifier": "every data set, configuration, n and learning rate on which train returns", "why_tests_cant": "All n and data.", "anchors": ["multi-target-grad-boost/src/ensembles/boosting_loop.rs", "multi-target-grad-boost/src/ensembles/boosting_types.rs"]}
{"id": "C34", "title": "Fewer iterations give a prefix", "statement": "The model trained for m <= n iterations equals the model trained for n iterations with its trees truncated to the first m.", "quantifier": "every data set, configuration, learning rate and m <= n, all three ensembles", "why_tests_cant": "All histories of iterations.", "anchors": ["multi-target-grad-boost/src/ensembles/RegressionBoost/regression_boost_executor_functions.rs", "multi-target-grad-boost/src/ensembles/MultiClassBoosting"]}
{"id": "C35", "title": "Each regression stage fits the residuals of the model so far", "statement": "Tree k of a RegressionBoostModel is the squared-loss boosting tree trained on the features with labels y - predict_k(x), where predict_k is the prediction of the model made of the first k trees; bit-exact in f64.", "quantifier": "every training run and every stage", "why_tests_cant": "Internal running labels must equal public predictions at every stage, bit for bit.", "anchors": ["multi-target-grad-boost/src/ensembles/RegressionBoost/regression_boost_executor_functions.rs", "multi-target-grad-boost/src/ensembles/common_boosting_functions.rs"]}
{"id": "C36", "title": "Each classification stage fits the softmax residuals of the model so far", "statement": "Tree k of a MultiClassBoostModel or AMGBoostModel is the corresponding tree trained on labels y - softmax(score_k(x)), where score_k is the raw additive score of the first k trees; bit-exact in f64.", "quantifier": "every training run and every stage", "why_tests_cant": "As above, with the AMG reconstruction of leaf vectors on both the training and the prediction side.", "anchors": ["multi-target-grad-boost/src/ensembles/MultiClassBoosting/AMGBoost", "multi-target-grad-boost/src/ensembles/MultiClassBoosting/MultiClassBoost", "multi-target-grad-boost/src/ensembles/MultiClassBoosting/common_multi_class_boosting_functions.rs"]}
{"id": "C37", "title": "Predictions are initial guess plus shrunken leaf outputs", "statement": "RegressionBoostModel::predict returns, per target, the initial guess plus learning_rate times the leaf output of every tree for that row, added in tree order; with no trees it returns the initial guess; its length is the number of targets.", "quantifier": "every model whose leaf outputs have the right length and every feature row", "why_tests_cant": "All models and rows.", "anchors": ["multi-target-grad-boost/src/ensembles/common_boosting_functions.rs::predict_common"]}
{"id": "C38", "title": "Boosting never increases the training error", "statement": "In exact arithmetic, for a learning rate in [0,2], the training score of the RegressionBoostModel with n+1 iterations is at most that with n iterations. (For learning rates above 2 it can increase.)", "quantifier": "every well-formed real-valued data set, configuration, n and learning rate in [0,2]", "why_tests_cant": "All data sets and iteration counts.", "anchors": ["multi-target-grad-boost/src/ensembles/RegressionBoost"]}
{"id": "C39", "title": "Softmax residuals are well-behaved", "statement": "In exact arithmetic the residuals of the classification ensembles lie in (-1,1) for K >= 2 classes and sum to 0 over the classes of each one-hot labelled row. (In f64 an overflowing exponential yields NaN residuals.)", "quantifier": "every label and score vector", "why_tests_cant": "All reals; overflow corner in f64.", "anchors": ["multi-target-grad-boost/src/ensembles/MultiClassBoosting/common_multi_class_boosting_functions.rs::calculate_residuals"]}
{"id": "C40", "title": "Classification leaf outputs are finite", "statement": "In exact arithmetic, for K >= 2 classes and one-hot labels, every leaf output computed while training the classification ensembles is a finite number equal to (K-1)/K * sum(r)/sum(|r|(1-|r|)). (With K = 1 every leaf output is NaN.)", "quantifier": "every training run", "why_tests_cant": "Division by zero must be excluded in every leaf of every tree of every run.", "anchors": ["multi-target-decision-tree/src/tree/tree_builders/grad_boost/grad_boost_leaf_output.rs::calculate_leaf_output_multi_class_loss"]}
{"id": "C41", "title": "Classification ensembles answer with one class", "statement": "MultiClassBoostModel::predict and AMGBoostModel::predict return a vector with exactly one 1 and zeros elsewhere, the 1 at the first largest non-NaN score (class 0 if no score exceeds -infinity); they panic on an empty score vector.", "quantifier": "every model and row, every f64 score vector including NaN and infinities", "why_tests_cant": "All score vectors.", "anchors": ["multi-target-grad-boost/src/ensembles/MultiClassBoosting/common_multi_class_boosting_functions.rs::get_binary_prediction"]}
{"id": "C42", "title": "AMG leaf approximation", "statement": "An AMG leaf stores the largest entry of the classification leaf output and the first index where it occurs (below K); the vector reconstructed from it has that entry in place and, in exact arithmetic, the same value in all other classes so that it sums to zero; predictions and training updates use the same reconstruction. So, in exact arithmetic and for one-hot labels, the class scores of every row, training row or not, add up to 1 after any number of iterations.", "quantifier": "every leaf and K >= 2", "why_tests_cant": "All leaf outputs.", "anchors": ["multi-target-decision-tree/src/tree/tree_builders/grad_boost/approximate_grad_boost_tree_builder.rs::find_max_value_and_index_from_vector", "multi-target-grad-boost/src/ensembles/MultiClassBoosting/AMGBoost"]}
{"id": "C43", "title": "With two classes AMGBoost is MultiClassBoost", "statement": "In exact arithmetic, with two classes and one-hot labels, AMGBoostModel and MultiClassBoostModel trained on the same data with the same settings have trees of the same shape and questions and give the same raw scores, hence the same predictions and accuracy.", "quantifier": "every two-class one-hot data set, configuration, iteration count and learning rate", "why_tests_cant": "Relates two training algorithms on all inputs.", "anchors": ["multi-target-grad-boost/src/ensembles/MultiClassBoosting/AMGBoost", "multi-target-grad-boost/src/ensembles/MultiClassBoosting/MultiClassBoost"]}
{"id": "C44", "title": "Ensemble training and prediction are total on well-formed data", "statement": "train of each ensemble returns without panicking on every well-formed non-empty data set with label length equal to number_of_classes (>= 1 for classification), and the model predicts every feature row with at least as many features without panicking.", "quantifier": "every data set, configuration, iteration count, learning rate and feature row, f64 arithmetic", "why_tests_cant": "Panic-freedom over all inputs and NaN behaviours.", "anchors": ["multi-target-grad-boost/src/ensembles"]}
{"id": "C45", "title": "The thread flag does not change ensembles", "statement": "Training with use_multi_threading on or off gives identical models for all three ensembles.", "quantifier": "every data set, configuration and schedule", "why_tests_cant": "All schedules.", "anchors": ["multi-target-grad-boost/src/ensembles/boosting_loop.rs", "multi-target-decision-tree/src/tree/grad_boost_decision_trees.rs"]}
{"id": "C46", "title": "Batch predictions are pointwise", "statement": "calculate_all_predictions returns predict of each test row, in order; the regression score is the mean squared error of those predictions and the classification score the fraction equal to the label; classification scoring panics if a test row has no label; regression scoring panics if a label has no row, and ignores rows without a label.", "quantifier": "every model and test set", "why_tests_cant": "All test sets.", "anchors": ["multi-target-grad-boost/src/ensembles/RegressionBoost/regression_boost_ensemble.rs", "multi-target-grad-boost/src/ensembles/MultiClassBoosting"]}
{"id": "C47", "title": "Scores do not depend on test order", "statement": "Permuting the test rows with their labels does not change the regression score (exact arithmetic) or the accuracy (bit-exact f64).", "quantifier": "every model, test set and permutation", "why_tests_cant": "All permutations.", "anchors": ["multi-target-grad-boost/src/ensembles", "multi-target-decision-tree/src/utils/scorer.rs"]}
{"id": "C48", "title": "Label translation equivariance", "statement": "In exact arithmetic, adding a constant vector to every training label shifts every prediction of the regression tree and of RegressionBoostModel by that vector and leaves questions and residual trees unchanged.", "quantifier": "every well-formed real-valued data set and shift vector", "why_tests_cant": "All shifts.", "anchors": ["multi-target-decision-tree/src/split_finders/split_finder_variance.rs", "multi-target-decision-tree/src/tree/tree_builders/regression_tree_builder.rs", "multi-target-grad-boost/src/ensembles/RegressionBoost"]}
{"id": "C49", "title": "Zero learning rate or zero iterations leave the initial guess", "statement": "With 0 iterations (f64), or learning rate 0 (exact arithmetic), RegressionBoostModel predicts the initial guess for every row.", "quantifier": "every training run and feature row", "why_tests_cant": "All runs.", "anchors": ["multi-target-grad-boost/src/ensembles/common_boosting_functions.rs::predict_common"]}
{"id": "C50", "title": "Vector helpers check lengths and work elementwise", "statement": "add/subtract/multiply/divide of f64 slices return the elementwise result when lengths agree and panic otherwise; sum_of_f64_vectors and calculate_average_f64_vector return per-position sums and means and panic exactly on an empty outer vector or (resp.) an inner vector of different (resp. shorter) length; multiplication by a scalar is elementwise, and the mean squared difference of two slices is the left-to-right sum of the squared differences over their length, with a panic when lengths differ.", "quantifier": "all vectors", "why_tests_cant": "All lengths.", "anchors": ["common/src/numerical_calculations.rs"]}
{"id": "C51", "title": "The gain is the best considered cut, mid-group cuts included", "statement": "In exact arithmetic, find_best_split's gain is the largest variance reduction over all cuts of the sorted columns at a position whose value exceeds the column's minimum -- including positions between rows with the same value, which no question separates -- or 0 if none is positive; the question names the first column and, in it, the first position attaining that maximum.", "quantifier": "every well-formed data set with real-valued labels, repeated values included", "why_tests_cant": "This is the exact meaning of the search for all tables; examples without ties cannot tell it from the textbook search.", "anchors": ["multi-target-decision-tree/src/split_finders/split_finder_variance.rs::find_best_split", "multi-target-decision-tree/src/split_finders/threshold_finders/threshold_finder_variance.rs"]}
{"id": "C52", "title": "Label rescaling equivariance", "statement": "In exact arithmetic, replacing every training label y by s*y + v (any s != 0, any vector v) leaves the shape and questions of the regression tree and of every tree of RegressionBoostModel unchanged and maps every prediction p to s*p + v.", "quantifier": "every well-formed real-valued data set, factor and shift vector, configuration, iteration count and learning rate", "why_tests_cant": "All data sets and all factors, negative ones included.", "anchors": ["multi-target-decision-tree/src/split_finders/split_finder_variance.rs", "multi-target-decision-tree/src/tree/tree_builders/regression_tree_builder.rs", "multi-target-grad-boost/src/ensembles/RegressionBoost"]}
{"id": "C53", "title": "Boosting leaves hold the output of the rows that reach them", "statement": "The leaf of a boosting tree that a row is routed to stores the leaf output of exactly the training rows with the same path, summed in training order in f64: per target the average (regression) or (K-1)/K * sum(r)/sum(|r|(1-|r|)) (classification); AMG trees store the first largest entry of the latter and its class; and every leaf is reached by some training row.", "quantifier": "every well-formed data set, configuration and feature row, bit-exact f64", "why_tests_cant": "All trees and all rows.", "anchors": ["multi-target-decision-tree/src/tree/tree_builders/grad_boost", "multi-target-decision-tree/src/tree/tree_builders/grad_boost/approximate_grad_boost_tree_builder.rs"]}
{"id": "C54", "title": "A printed tree shows the whole tree and nothing else", "statement": "print_tree_regression on a built regression tree with enough feature names writes 4n-3 lines for n leaves: at indentation 4 times the depth, a leaf's stored data after 'Predict:', or a question with its feature's name and threshold followed by its true subtree and then its false subtree; it panics exactly when some question asks about a column without a name, after writing the lines before that question. With distinct names and number formatting that can be read back, two trees that print the same text have the same questions, leaves and predictions.", "quantifier": "every built tree, list of names and formatting of numbers and strings", "why_tests_cant": "All trees; injectivity of the text over all pairs of trees cannot be tested.", "anchors": ["multi-target-decision-tree/src/tree/tree_print.rs::print_tree_regression", "common/src/question.rs::to_string"]}
{"id": "C55", "title": "The main program reports the error of the trained ensemble on the test files", "statement": "When the four multi-target files hold a well-formed ten-target training set of more than ten rows and a matching test set, main runs to the end and prints the eleventh training label, the elapsed time, the test mean squared error of the 300-tree regression ensemble, its square root, the first test label and the ensemble's prediction for the first test row. When a training file is missing (as in the repository, which has no features_train_mt.csv) or has at most ten labels it panics before printing anything; when a test file is missing it panics after training.", "quantifier": "all file contents, every platform and formatting", "why_tests_cant": "The training feature file is not in the repository, so main cannot be run at all; and no run covers all files.", "anchors": ["main/src/main.rs::main"]}
{"id": "C56", "title": "On integer labels the reported gain is within a stated rounding error", "statement": "In f64, on a data set whose label entries are integers of absolute value at most M with (number of rows)*M^2 <= 2^53 (one-hot labels, for instance) and k targets, find_best_split's gain is finite and within 4(k+4)^2 M^2/2^53 of the true variance reduction of the cut it reports and of the exact-arithmetic search's gain; no question has a true gain exceeding the reported one by more than that; and if the reported threshold occurs once in its column, no question's true gain exceeds the reported question's by more than twice that.", "quantifier": "every well-formed data set with such labels, any features, every platform, up to 2^40 targets", "why_tests_cant": "A rounding-error bound over all tables of all sizes; testing a table shows only its own error.", "anchors": ["multi-target-decision-tree/src/split_finders/split_finder_variance.rs::find_best_split", "multi-target-decision-tree/src/split_finders/threshold_finders/threshold_finder_variance.rs", "common/src/numerical_calculations.rs"]}
{"id": "C57", "title": "On integer labels f64 trees stop where there is nothing to gain and deep ones fit exactly", "statement": "In f64 on integer labels bounded as in C56: if all labels are equal the gain is exactly 0 and the tree a single leaf. If moreover (k+4)^2 M^2 n^4 < 2^53 for n rows (about 2500 rows of ten one-hot classes), a gain of 0 means that no question has any true gain; and if rows with equal features have equal labels, every leaf above the depth limit holds one label, and a tree allowed n-1 levels predicts every training label exactly, with training error exactly 0.", "quantifier": "every well-formed data set with such labels, any features, every platform", "why_tests_cant": "All tables within the stated size; a test would have to hit the table whose rounding errors conspire.", "anchors": ["multi-target-decision-tree/src/split_finders/split_finder_variance.rs::find_best_split", "multi-target-decision-tree/src/tree/tree_builders/regression_tree_builder.rs", "multi-target-decision-tree/src/tree/tree_builders/regression_tree_builder.rs"]}
{"id": "C58", "title": "On integer labels f64 predictions are correctly rounded means within the label range", "statement": "In f64 on integer labels bounded as in C56, a regression tree's prediction for any row is, per target, the float nearest to the true mean of the labels of the training rows with the same path; so it never leaves the range of the training labels (which, by C27, it can for other labels).", "quantifier": "every well-formed data set with such labels, configuration and row, every platform", "why_tests_cant": "All tables and rows; the failing case for non-integer labels shows how rare a visible violation is.", "anchors": ["multi-target-decision-tree/src/tree/tree_builders/regression_tree_builder.rs", "multi-target-decision-tree/src/utils/scorer.rs"]}
{"id": "C59", "title": "Redundant features change nothing, and entries nobody asks about are not read", "statement": "Appending columns that are constant on the training rows, or that order the training rows exactly as an existing column does (a copy, or any increasing recoding, ties included), leaves training unchanged bit for bit: the regression tree has the same questions with the same samples in its leaves, and the gradient-boosting tree, the approximate (AMG) tree and all three ensembles are equal outright. When a tree or ensemble answers a row, it gives the same answer for the row with anything appended, so accuracies and errors are the same on test sets with longer rows.", "quantifier": "every well-formed data set, any number of appended columns in any mixture of the two kinds, every configuration, learning rate, number of iterations, platform, test set and appended entries", "why_tests_cant": "A relation between two runs over all data sets and all recodings; ties between equal gains are the corner where a duplicate column could change the tree.", "anchors": ["multi-target-decision-tree/src/split_finders/split_finder_variance.rs::find_best_split", "multi-target-decision-tree/src/tree/tree_builders/regression_tree_builder.rs", "multi-target-decision-tree/src/tree/tree_builders/grad_boost/grad_boost_tree_builder.rs", "multi-target-decision-tree/src/tree/tree_builders/grad_boost/approximate_grad_boost_tree_builder.rs", "multi-target-grad-boost/src/ensembles/boosting_loop.rs", "multi-target-decision-tree/src/utils/scorer.rs"]}
{"id": "C60", "title": "Tree size is bounded by the rows and by the depth limit", "statement": "A built tree of any of the three kinds has twice as many nodes, minus one, as leaves; it has at most as many leaves as training rows and at most 2^max_levels leaves.", "quantifier": "every data set and configuration for which building succeeds, any leaf calculator", "why_tests_cant": "All data sets and depth limits.", "anchors": ["multi-target-decision-tree/src/tree/tree_builders/regression_tree_builder.rs", "multi-target-decision-tree/src/tree/tree_builders/grad_boost/grad_boost_tree_builder.rs", "multi-target-decision-tree/src/tree/tree_builders/grad_boost/approximate_grad_boost_tree_builder.rs"]}
{"id": "C61", "title": "The order of the training rows does not matter in exact arithmetic", "statement": "In exact arithmetic, training on the same (row, label) pairs in another order: if rows that share a value above a column's minimum have the same label, the regression tree asks the same questions, its leaves hold the same samples, and it predicts and scores the same; gradient-boosting and AMG trees are equal outright. If no value above a column's minimum is repeated, the regression, multi-class and AMG ensembles are equal tree for tree.", "quantifier": "every pair of well-formed data sets with the same samples in any two orders, every configuration, learning rate and iteration count; one-hot labels and at least two classes for the classification ensembles", "why_tests_cant": "A relation between two runs over all permutations of all tables.", "anchors": ["multi-target-decision-tree/src/split_finders/split_finder_variance.rs::find_best_split", "multi-target-decision-tree/src/tree/tree_builders/regression_tree_builder.rs", "multi-target-decision-tree/src/tree/tree_builders/grad_boost/grad_boost_tree_builder.rs", "multi-target-decision-tree/src/tree/tree_builders/grad_boost/approximate_grad_boost_tree_builder.rs", "multi-target-grad-boost/src/ensembles/boosting_loop.rs"]}
{"id": "C62", "title": "On integer labels the order of the training rows does not matter in f64 either", "statement": "In f64 on integer labels bounded as in C56, if rows that share a value above a column's minimum hold the same float there and the same label, then for any reordering of the training rows find_best_split returns the same gain and question bit for bit; the regression tree has the same questions with the same samples in its leaves and gives bit-identical predictions, accuracies and errors; and gradient-boosting and AMG trees with averaging leaves are equal outright.", "quantifier": "every pair of well-formed data sets with such labels and the same samples in any two orders, every configuration, platform, row and test set", "why_tests_cant": "Float addition is not associative, so this fails in general and a few permutations of one table cannot establish it.", "anchors": ["multi-target-decision-tree/src/split_finders/split_finder_variance.rs::find_best_split", "multi-target-decision-tree/src/tree/tree_builders/regression_tree_builder.rs", "multi-target-decision-tree/src/tree/tree_builders/grad_boost/grad_boost_tree_builder.rs", "multi-target-decision-tree/src/tree/tree_builders/grad_boost/approximate_grad_boost_tree_builder.rs", "multi-target-decision-tree/src/utils/scorer.rs"]}
{"id": "C63", "title": "A model's answers change only at values seen in training", "statement": "Every question a trained tree asks compares a feature with a value that feature has in the training rows and that is not the smallest one there. So two rows whose features reach the same such values get the same leaf from each kind of tree and the same prediction from each of the three ensembles; in particular NaN, and anything at or below the smallest training value of a feature, are treated alike, and so are all values at or above the largest.", "quantifier": "every well-formed data set, configuration, learning rate, iteration count, platform, and pair of rows (NaN and infinities included)", "why_tests_cant": "All models and all pairs of rows between two neighbouring training values; tests sample a few points of a few models.", "anchors": ["multi-target-decision-tree/src/split_finders/split_finder_variance.rs::find_best_split", "multi-target-decision-tree/src/split_finders/threshold_finders/threshold_finder_variance.rs", "multi-target-decision-tree/src/tree/tree_builders/regression_tree_builder.rs", "multi-target-decision-tree/src/tree/tree_builders/grad_boost/grad_boost_tree_builder.rs", "multi-target-decision-tree/src/tree/tree_builders/grad_boost/approximate_grad_boost_tree_builder.rs", "multi-target-grad-boost/src/ensembles/boosting_loop.rs"]}
{"id": "C64", "title": "Exactly when training panics", "statement": "On a data set of consistent shape whose number of targets is the configured number of classes, building any of the three trees and training any of the three ensembles succeeds exactly if there is at least one row and, unless it is the only row, no feature entry is NaN; otherwise it panics. An ensemble of 0 iterations needs only a row. Labels may be anything, NaN and infinities included.", "quantifier": "every rectangular data set, empty or not, with any floats as features and labels, every configuration with the standard split finder, learning rate, iteration count and platform (at least one class for the AMG ensemble)", "why_tests_cant": "An exact characterisation over all inputs; tests would need every placement of a NaN in every table.", "anchors": ["multi-target-decision-tree/src/split_finders/split_finder_variance.rs::find_best_split", "multi-target-decision-tree/src/split_finders/threshold_finders/threshold_finder_variance.rs", "multi-target-decision-tree/src/tree/tree_builders/regression_tree_builder.rs", "multi-target-decision-tree/src/tree/tree_builders/grad_boost/grad_boost_tree_builder.rs", "multi-target-decision-tree/src/tree/tree_builders/grad_boost/approximate_grad_boost_tree_builder.rs", "multi-target-grad-boost/src/ensembles/boosting_loop.rs"]}
{"id": "C65", "title": "Training predictions average to the training labels", "statement": "In exact arithmetic a regression tree's predictions for its own training rows have, per target, the same average as the training labels, and its training error is the variance of the labels minus the variance of the predictions, averaged over the targets. A regression ensemble's training predictions also have the labels' averages, at every iteration count and learning rate, even ones at which boosting diverges.", "quantifier": "every well-formed data set with real labels, every configuration, learning rate and iteration count", "why_tests_cant": "An identity over all data sets and runs; in f64 it is blurred by rounding, so a test can only check it up to a tolerance.", "anchors": ["multi-target-decision-tree/src/tree/tree_builders/regression_tree_builder.rs", "multi-target-decision-tree/src/tree/tree_builders/grad_boost/grad_boost_tree_builder.rs", "multi-target-grad-boost/src/ensembles/RegressionBoost/regression_boost_ensemble.rs", "multi-target-decision-tree/src/utils/scorer.rs"]}
{"id": "C66", "title": "Renaming the targets renames the predictions", "statement": "In exact arithmetic, training with the targets (or classes) listed in another order gives trees with the same questions; a regression tree's and a regression ensemble's predictions, and a multi-class ensemble's class scores, are the old ones in the new order. When one class score is strictly the largest, both ensembles predict that class, under its old and its new number. The same holds of AMG ensembles with two classes, and with more classes when no leaf has two classes sharing a largest output other than 0: such a tie goes to the class with the smaller number, so there exchanging the names of two tied classes leaves the answer where it was.", "quantifier": "every well-formed data set with real labels (one-hot and at least two classes for the classification ensemble), every order of the targets, configuration with the standard split finder, learning rate, iteration count and row", "why_tests_cant": "A relation between two runs over all permutations of the targets; with ten or more targets they cannot be enumerated.", "anchors": ["multi-target-decision-tree/src/split_finders/split_finder_variance.rs::find_best_split", "multi-target-decision-tree/src/tree/tree_builders/regression_tree_builder.rs", "multi-target-decision-tree/src/tree/tree_builders/grad_boost/grad_boost_tree_builder.rs", "multi-target-grad-boost/src/ensembles/boosting_loop.rs", "multi-target-grad-boost/src/ensembles/MultiClassBoosting/MultiClassBoost/multi_class_boost_ensemble.rs"]}
{"id": "C67", "title": "What one boosting iteration does to the training error", "statement": "In exact arithmetic one more regression-boosting iteration at rate lr reduces the training error by exactly lr(2-lr) times the variance of the added tree's outputs on the training rows, averaged over the targets; those outputs average to 0. So a rate outside (0,2) never reduces the training error, an iteration that leaves the training error unchanged is followed only by such iterations, and unless lr = 2 no later model then answers any row differently, and a single iteration at rate lr or at rate 2-lr ends with the same training error.", "quantifier": "every well-formed data set with real labels, every configuration, real learning rate and iteration count", "why_tests_cant": "An identity over all data sets, rates and stages; in f64 a test can check it only up to a tolerance on a few runs.", "anchors": ["multi-target-decision-tree/src/tree/tree_builders/grad_boost/grad_boost_tree_builder.rs", "multi-target-grad-boost/src/ensembles/RegressionBoost/regression_boost_ensemble.rs", "multi-target-grad-boost/src/ensembles/boosting_loop.rs", "multi-target-decision-tree/src/utils/scorer.rs"]}
{"id": "C68", "title": "Classification boosting follows the gradient of the log-loss", "statement": "In exact arithmetic, with K >= 2 one-hot classes, the vector a training row contributes to the next tree of either classification ensemble is minus the gradient of the row's log-loss (minus the logarithm of the softmax probability of its class) in its current class scores. Each entry of a leaf's output is (K-1)/K times one Newton step (minus first over second derivative, the latter positive) for the summed log-loss of the training rows in that leaf when that class's score is raised; an AMG leaf keeps the largest of these, the first if there are several.", "quantifier": "every well-formed one-hot data set, configuration, real learning rate, iteration count, stage and row", "why_tests_cant": "A statement about derivatives; tests see only the numbers, and cannot tell a gradient step from any other formula that agrees on a few rows.", "anchors": ["multi-target-decision-tree/src/tree/tree_builders/grad_boost/grad_boost_tree_builder.rs", "multi-target-decision-tree/src/tree/tree_builders/grad_boost/approximate_grad_boost_tree_builder.rs", "multi-target-grad-boost/src/ensembles/boosting_loop.rs", "multi-target-grad-boost/src/ensembles/MultiClassBoosting/MultiClassBoost/multi_class_boost_ensemble.rs"]}
{"id": "C69", "title": "A classification iteration moves the scores downhill", "statement": "In exact arithmetic, with K >= 2 one-hot classes and a positive learning rate, one more iteration of either classification ensemble either leaves the class scores of all training rows as they were, or moves them in a direction along which the summed log-loss of the training rows falls: going a small enough part of the way from the old scores to the new ones lowers it strictly. In particular a first iteration at any small enough rate lowers the training log-loss, unless it changes no training score at any rate.", "quantifier": "every well-formed one-hot data set, configuration, positive real learning rate and iteration count", "why_tests_cant": "It speaks of all sufficiently small steps in every run; a test tries a few rates on a few tables, and rounding hides small steps.", "anchors": ["multi-target-decision-tree/src/tree/tree_builders/grad_boost/grad_boost_tree_builder.rs", "multi-target-decision-tree/src/tree/tree_builders/grad_boost/approximate_grad_boost_tree_builder.rs", "multi-target-grad-boost/src/ensembles/boosting_loop.rs", "multi-target-grad-boost/src/ensembles/MultiClassBoosting/MultiClassBoost/multi_class_boost_ensemble.rs"]}
{"id": "C70", "title": "The order of the feature columns matters only through ties", "statement": "Listing the feature columns in another order does not change the gain of the best split, bit for bit. Where one column alone offers a strictly larger gain than each other column alone, the same threshold on that column is chosen wherever it stands. If this is so at each question of a tree, training on the reordered columns gives the same tree up to column numbers, and reordered rows get bit-identical predictions, leaves and scores. With tied columns the first is taken, and predictions do depend on the order.", "quantifier": "every well-formed data set, order of its columns, configuration with the standard split finder, row and test set; f64 arithmetic on every platform", "why_tests_cant": "A relation between two runs over all permutations of the columns; the number of orders is factorial, and tied gains on test data hide it.", "anchors": ["multi-target-decision-tree/src/split_finders/split_finder_variance.rs::find_best_split", "multi-target-decision-tree/src/tree/tree_builders/regression_tree_builder.rs", "multi-target-decision-tree/src/tree/tree_builders/grad_boost/grad_boost_tree_builder.rs", "multi-target-decision-tree/src/tree/tree_builders/grad_boost/approximate_grad_boost_tree_builder.rs", "multi-target-decision-tree/src/utils/scorer.rs"]}
{"id": "C71", "title": "A regression ensemble's answers stay near the mean label", "statement": "In exact arithmetic, with a learning rate lr between 0 and 2, each target of a regression ensemble's prediction for any row differs from the mean training label of that target by at most n * lr * S, where n is the number of iterations and S the square root of the summed squared deviations of the training labels from their mean. So no row, however far outside the training range, is given an arbitrarily large answer.", "quantifier": "every well-formed data set with real labels, every configuration, iteration count, learning rate in [0,2] and every row, seen in training or not", "why_tests_cant": "A bound over all rows and all data sets; tests try finitely many rows, and the extreme ones are the ones not tried.", "anchors": ["multi-target-decision-tree/src/tree/tree_builders/grad_boost/grad_boost_tree_builder.rs", "multi-target-grad-boost/src/ensembles/RegressionBoost/regression_boost_ensemble.rs", "multi-target-grad-boost/src/ensembles/boosting_loop.rs"]}
{"id": "C72", "title": "Repeating every training row changes nothing", "statement": "In exact arithmetic, training on a set in which each row stands m times in a row (m >= 1) instead of once gives the same split, a regression tree with the same questions, predictions and scores whose leaves hold each row m times, and identical gradient-boosting and AMG trees and regression, multi-class and AMG ensembles. For trees the copies may stand in any order when rows that share a feature value share their label. In f64 this fails: three copies of a label 0.1 average to another number.", "quantifier": "every well-formed data set with real labels (one-hot, two or more classes, for the classification ensembles), every m >= 1, configuration with the standard split finder, learning rate, iteration count, row and test set", "why_tests_cant": "A relation between two runs over all data sets and multiplicities; that no cut between two copies of a row ever wins needs an argument about all labels.", "anchors": ["multi-target-decision-tree/src/split_finders/split_finder_variance.rs::find_best_split", "multi-target-decision-tree/src/split_finders/threshold_finders/threshold_finder_variance.rs", "multi-target-decision-tree/src/tree/tree_builders/regression_tree_builder.rs", "multi-target-decision-tree/src/tree/tree_builders/grad_boost/grad_boost_tree_builder.rs", "multi-target-decision-tree/src/tree/tree_builders/grad_boost/approximate_grad_boost_tree_builder.rs", "multi-target-grad-boost/src/ensembles/boosting_loop.rs"]}
{"id": "C73", "title": "Rounding in ensemble predictions grows linearly with the trees", "statement": "In f64, each target of a regression ensemble's prediction, and each raw class score of a multi-class ensemble, is finite and within n * (2^-51 * S + 2^-1073) of the exact value of: starting value plus learning rate times the leaf outputs, where n is the number of trees and S the sum of the absolute values of the starting value and of the products. For AMG ensembles the leaf for class c with value v contributes v to class c and -v/(K-1) to the others, and the bound is n * (2^-50 * S + 2^-1072 * (1 + |rate|)). Holds for at most 2^40 trees, finite numbers and S at most 2^1000.", "quantifier": "every model, trained or not, with finite numbers, every row, target or class, and number of trees up to 2^40; f64 arithmetic on every platform", "why_tests_cant": "A bound over all models and rows; a test sees the error of a few sums, not the worst one.", "anchors": ["multi-target-grad-boost/src/ensembles/common_boosting_functions.rs", "multi-target-grad-boost/src/ensembles/RegressionBoost/regression_boost_ensemble.rs", "multi-target-grad-boost/src/ensembles/MultiClassBoosting/AMGBoost/amg_boost_predict_functions.rs"]}
{"id": "C74", "title": "Leaf averages and initial guesses are accurate", "statement": "In f64, with finite labels of at most 2^900 in absolute value and at most 2^40 rows, each target of a regression tree's prediction, each output of a regression ensemble's tree and each entry of a regression ensemble's initial guess is finite and within 2^-51 * (n+1) * A + 2^-1072 of the exact mean of the n labels that it averages, where A is the mean of their absolute values.", "quantifier": "every well-formed data set with such labels, configuration, row and target; f64 arithmetic on every platform", "why_tests_cant": "A bound on the worst rounding error over all label values and group sizes.", "anchors": ["multi-target-decision-tree/src/tree/tree_builders/regression_tree_builder.rs", "multi-target-decision-tree/src/tree/tree_builders/grad_boost/grad_boost_tree_builder.rs", "common/src/numerical_calculations.rs::calculate_average_f64_vector", "multi-target-grad-boost/src/ensembles/boosting_loop.rs"]}
{"id": "C75", "title": "Test errors are computed accurately", "statement": "In f64, the mean squared error that a regression tree's scorer or a regression ensemble's score reports on a test set of n rows with k targets is finite and within 2^-51 * (n + k + 3) * E + 2^-600 of E, the exact mean over rows and targets of the squared differences between the model's predictions and the labels. Holds for non-empty test sets of at most 2^40 rows and 2^40 targets, with finite labels and predictions of at most 2^400 in absolute value, on platforms whose powf(x, 2) is within one unit in the last place.", "quantifier": "every tree, ensemble and test set of such size and magnitude; f64 arithmetic on every platform with an accurate square", "why_tests_cant": "A bound on the worst accumulated rounding error over all test sets and predictions.", "anchors": ["multi-target-decision-tree/src/utils/scorer.rs::calculate_overall_mean_squared_error", "multi-target-grad-boost/src/ensembles/RegressionBoost/regression_boost_ensemble.rs", "common/src/numerical_calculations.rs"]}
{"id": "C76", "title": "Classification residuals are computed accurately", "statement": "In f64, for a row with a one-hot label of class c of K and current scores s that are finite and at most 300 in absolute value, entry j of the residual that the next tree is fitted to is finite and within 2^-51 * (K + 4) of: 1 if j = c else 0, minus the exact class probability exp(s_j) / (sum of exp(s_i)). Holds for K up to 2^40 on platforms whose exp is within one unit in the last place; this is the residual of both multi-class and AMG ensembles.", "quantifier": "every training state, row, class and score vector of such magnitude; f64 arithmetic on every platform with an accurate exp", "why_tests_cant": "A bound on the worst rounding error over all score vectors and numbers of classes.", "anchors": ["multi-target-grad-boost/src/ensembles/MultiClassBoosting/common_multi_class_boosting_functions.rs::calculate_residuals"]}
{"id": "C77", "title": "On any labels of ordinary size the reported gain is within a stated rounding error", "statement": "In f64, with finite labels of at most B in absolute value (2^-400 <= B <= 2^400), at most 2^20 rows and 2^40 targets, the reported gain is finite and, if positive, within 320 (k+1)(k+n) B^2 / 2^53 of the true variance reduction of the cut it reports, for n rows and k targets. It is within that bound of the gain found in exact arithmetic, no question of any kind truly gains more than the reported gain plus the bound, and if the threshold value occurs once in its column, no question is better than the reported one by more than twice the bound. Running sums that are decremented row by row therefore never drift far.", "quantifier": "every well-formed data set with such labels, integer or not, and every question; f64 arithmetic on every platform", "why_tests_cant": "Cancellation in sum of squares minus squared sum depends on the labels; only a bound for all of them says the search can be trusted.", "anchors": ["multi-target-decision-tree/src/split_finders/split_finder_variance.rs::find_best_split", "multi-target-decision-tree/src/split_finders/threshold_finders/threshold_finder_variance.rs", "multi-target-decision-tree/src/utils/calculations/calculations.rs"]}
{"id": "C78", "title": "Every node of a tree asks nearly the best question, and trees stop early only when nothing is left to gain", "statement": "In f64, take a regression, gradient-boosting or AMG tree built with the variance split finder from at most 2^20 rows with finite labels of absolute value at most B (2^-400 <= B <= 2^400), and let e(n) be the rounding error of C77 for n rows. For any row, consider the questions it meets on its way down, and at each of them the training samples that answered all earlier questions as the row does. If the question's value occurs once in its column among those samples, no question has a true variance reduction on them exceeding this one's by more than 2 e(n). If the path ends above the depth limit, no question at all has a true variance reduction above e(n) on the samples that answer every question on the path as the row does.", "quantifier": "every well-formed data set with such labels, tree configuration, row, node on its path and competing question; f64 arithmetic on every platform", "why_tests_cant": "Universal over data sets, nodes and competing questions, about exact real gains that no execution computes.", "anchors": ["multi-target-decision-tree/src/split_finders/split_finder_variance.rs", "multi-target-decision-tree/src/split_finders/threshold_finders/threshold_finder_variance.rs", "multi-target-decision-tree/src/tree/tree_builders/regression_tree_builder.rs", "multi-target-decision-tree/src/tree/tree_builders/grad_boost/grad_boost_tree_builder.rs", "multi-target-decision-tree/src/tree/tree_builders/grad_boost/approximate_grad_boost_tree_builder.rs"]}
{"id": "C79", "title": "A class learned perfectly turns into NaN, and one more iteration can ruin a perfect classifier", "statement": "In f64, an entry of a classification tree's leaf output is finite exactly if some training residual of that class in the leaf lies strictly between 0 and 1 in absolute value, and NaN if all of them are zero (residuals of one-hot labels and scores of at most 200 qualify). If at some iteration all training rows sharing a leaf with row x have residual zero for class j, the score of class j at x is NaN from then on, and j is no longer answered if any other score is above minus infinity. It follows that more iterations can destroy a perfect model: on two rows of two classes there is a learning rate, below 61, at which the multi-class ensemble has training accuracy 1 after one iteration and 0 after two, and every row's own class scores NaN ever after.", "quantifier": "every well-formed residual data set, configuration, row and class; every training run and iteration; every platform (with an accurate exp for the statements about residuals and the collapsing run), every tree depth", "why_tests_cant": "The failure depends on a probability rounding to exactly 1, which sampled runs rarely reach and which exact arithmetic rules out.", "anchors": ["multi-target-decision-tree/src/tree/tree_builders/grad_boost/grad_boost_leaf_output.rs::LeafOutputCalculator", "multi-target-grad-boost/src/ensembles/boosting_loop.rs", "multi-target-grad-boost/src/ensembles/MultiClassBoosting/MultiClassBoost/multi_class_boost_ensemble.rs", "multi-target-grad-boost/src/ensembles/MultiClassBoosting/common_multi_class_boosting_functions.rs"]}
{"id": "C80", "title": "Classification leaf outputs are computed accurately", "statement": "In f64, a finite entry of a classification tree's leaf output is within 2^-49 * (n+1) * (sum |r|) / (sum |r| (1 - |r|)) of the exact (K-1)/K * (sum r) / (sum |r| (1 - |r|)), for the n training residuals r of that class in the leaf and K classes. Holds for residuals of absolute value at most 1 that are zero or at least 2^-900, at most 2^40 rows and 2^40 classes.", "quantifier": "every well-formed data set of such residuals, configuration, row and class; f64 arithmetic on every platform", "why_tests_cant": "The division by a sum of near-zero terms could magnify rounding errors; only a bound over all residuals excludes it.", "anchors": ["multi-target-decision-tree/src/tree/tree_builders/grad_boost/grad_boost_leaf_output.rs::LeafOutputCalculator", "multi-target-decision-tree/src/tree/tree_builders/grad_boost/grad_boost_tree_builder.rs"]}
{"id": "C81", "title": "An AMG ensemble that has learned a leaf perfectly answers class 1 there", "statement": "In f64, train an AMG ensemble with a positive finite learning rate on K >= 2 classes. If at some iteration all residuals of the training rows that share a leaf with row x are exactly zero, while the scores of x are still finite, the next model has score minus infinity for class 0 and plus infinity for every other class at x, so it answers class 1 whatever the labels are, and the scores at x are infinite or NaN in every longer model. Two rows of two classes with learning rate 402 reach this after one iteration, at which both are classified correctly.", "quantifier": "every well-formed data set with 2 to 2^40 classes, configuration, training run, iteration and row; f64 arithmetic on every platform", "why_tests_cant": "Needs probabilities that round to exactly 0 and 1; exact arithmetic and short runs never reach it.", "anchors": ["multi-target-decision-tree/src/tree/tree_builders/grad_boost/approximate_grad_boost_tree_builder.rs", "multi-target-grad-boost/src/ensembles/MultiClassBoosting/AMGBoost/amg_boost_predict_functions.rs", "multi-target-decision-tree/src/tree/tree_builders/grad_boost/grad_boost_leaf_output.rs::LeafOutputCalculator"]}
{"id": "C82", "title": "In f64, another boosting iteration makes the fit worse by at most rounding", "statement": "In f64, with a learning rate from 0 to 2, N training rows and finite labels of at most B in absolute value (2^-400 <= B <= 2^300), the predictions of a trained regression ensemble on its training rows stay finite and within (1 + 4 sqrt N) B after every iteration; one more iteration increases the root mean square error of no target by more than 2^-48 (N + 2)(1 + 4 sqrt N) B; and after k iterations that error is at most the standard deviation of the target plus k + 1 times that amount. The number of iterations times that amount must be at most B. The allowance cannot be dropped: with labels 0.1 and 0.8 on two equal rows and rate 1, the first iteration makes the error strictly larger.", "quantifier": "every well-formed data set of at most 2^40 rows with finite bounded labels, configuration, learning rate from 0 to 2 and iteration count within the stated budget", "why_tests_cant": "The error bound holds over all floating-point inputs; the increase is one unit in the last place and a test that prints scores would not show it.", "anchors": ["multi-target-grad-boost/src/ensembles/RegressionBoost/regression_boost_ensemble.rs", "multi-target-grad-boost/src/ensembles/boosting_loop.rs", "multi-target-decision-tree/src/tree/tree_builders/grad_boost/grad_boost_leaf_output.rs"]}
{"id": "C83", "title": "In f64, a deep enough tree nearly fits consistent data", "statement": "In f64, take at most 2^20 rows with finite labels of absolute value at most B (2^-400 <= B <= 2^400), where rows with equal features have equal labels, and let e(n) be the rounding error of C77 for n rows. In every leaf above the depth limit of a regression, gradient-boosting or AMG tree built with the variance split finder, every label entry is within 2 n^2 sqrt(e(n)) of the leaf's exact average, for the n training rows in the leaf. If the depth limit is at least the number of rows minus one, the regression tree predicts every entry of every training label within that distance plus 2^-51 (n+1) B + 2^-1072. An exact fit cannot be had: labels 1 and 1 + 2^-30 in rows with different features share a leaf at every depth limit.", "quantifier": "every well-formed consistent data set with such labels, configuration, row and target; f64 arithmetic on every platform", "why_tests_cant": "Splitting stops where the computed gain is zero, and only a bound over all tables says how different the labels there can still be.", "anchors": ["multi-target-decision-tree/src/split_finders/split_finder_variance.rs", "multi-target-decision-tree/src/split_finders/threshold_finders/threshold_finder_variance.rs", "multi-target-decision-tree/src/tree/tree_builders/regression_tree_builder.rs", "multi-target-decision-tree/src/tree/tree_builders/grad_boost/grad_boost_tree_builder.rs", "multi-target-decision-tree/src/tree/tree_builders/grad_boost/approximate_grad_boost_tree_builder.rs"]}
{"id": "C84", "title": "In f64, a deeper regression tree fits the training data no worse, up to rounding", "statement": "In f64, with at most 2^40 training rows and finite labels of absolute value at most B (2^-400 <= B <= 2^400), raising the depth limit of a regression tree increases the root mean square training error of no target by more than 2^-50 (N + 2) B for N rows, and a tree of any depth has an error of at most the standard deviation of the target plus 2^-51 (N + 2) B; all training predictions are finite. The allowance cannot be dropped: on six rows whose first target has the values 0.1, 0.2, 0.3 in both halves and whose second target tells the halves apart, one question makes the error of the first target strictly larger.", "quantifier": "every well-formed data set with such labels, configuration, pair of depth limits and target; f64 arithmetic on every platform", "why_tests_cant": "A comparison of exact errors between two trees over all data sets; the loss is below what printed scores show.", "anchors": ["multi-target-decision-tree/src/tree/tree_builders/regression_tree_builder.rs", "multi-target-decision-tree/src/utils/scorer.rs"]}
{"id": "C85", "title": "In f64, negating every label negates every answer of a regression model", "statement": "In f64, training a regression tree or a regression ensemble on the same rows with every label negated asks the same questions at the same places, and every answer, for any row, is the negated one; for all labels, infinite and NaN ones included, all numbers of iterations and all learning rates. Only the sign of zeros is left open (0 and -0 are both answered 0). Changing the signs of zero labels likewise changes no question, and no answer except the sign of zeros.", "quantifier": "every well-formed data set with any f64 labels, depth limit, number of iterations, learning rate and row asked about; f64 arithmetic on every platform", "why_tests_cant": "Equality of two whole training runs over all inputs, including the rounding of every intermediate sum and loss and the special values.", "anchors": ["multi-target-decision-tree/src/tree/tree_builders/regression_tree_builder.rs", "multi-target-decision-tree/src/split_finders/split_finder_variance.rs", "multi-target-decision-tree/src/split_finders/threshold_finders/threshold_finder_variance.rs", "multi-target-grad-boost/src/ensembles/RegressionBoost/regression_boost_ensemble.rs"]}
{"id": "C86", "title": "A target with the same label in every row does not influence a regression model", "statement": "In exact arithmetic, adding a target with one and the same finite label c in every row, at any position, changes no question of a regression tree or ensemble and no answer for the other targets, and the added target is always answered c. In f64 this holds for a target that is 0 in every row (the answers being the same numbers up to the sign of zeros). It fails in f64 for other constants: with a target that is 0.1 everywhere, the rounded variances of a node whose rows all agree differ from 0 and the tree asks a question it would not ask otherwise.", "quantifier": "every well-formed data set, position and constant (exact: other labels arbitrary; f64: up to 2^53 rows, other labels arbitrary, infinities and NaN included), depth limit, number of iterations, finite learning rate and row asked about", "why_tests_cant": "Equality of two whole training runs over all inputs, positions and constants; the failure in f64 is a rounding effect that exact reasoning does not show.", "anchors": ["multi-target-decision-tree/src/tree/tree_builders/regression_tree_builder.rs", "multi-target-decision-tree/src/split_finders/split_finder_variance.rs", "multi-target-decision-tree/src/split_finders/threshold_finders/threshold_finder_variance.rs", "multi-target-grad-boost/src/ensembles/RegressionBoost/regression_boost_ensemble.rs"]}
{"id": "C87", "title": "In f64, multiplying the labels by a power of two multiplies the answers of a regression model by it exactly", "statement": "Multiplying every label by the same power of two changes no question of a regression tree or ensemble, and every answer is multiplied by exactly that power of two, without any rounding difference, as long as the labels (and, for an ensemble, the residuals of the run) are 0 or of moderate size. Units such as bytes and kibibytes therefore give the same model. Outside that range it fails: labels 0 and 2^-540 are not separated, because their squares underflow, while labels 0 and 2^-440 are.", "quantifier": "every well-formed data set with at most 2^40 rows and targets and labels that are 0 or between 2^-150 and 2^150 in magnitude, every power 2^k with |k| <= 100, depth limit, up to 2^40 iterations, learning rate that is 0 or between 2^-100 and 2^100 in magnitude, and row asked about; for ensembles the residuals of each iteration on the original labels are 0 or between 2^-150 and 2^150", "why_tests_cant": "Bit-for-bit equality of two whole training runs in floating point over all inputs; tests on a few data sets cannot show that no rounding step ever differs.", "anchors": ["multi-target-decision-tree/src/tree/tree_builders/regression_tree_builder.rs", "multi-target-decision-tree/src/split_finders/split_finder_variance.rs", "multi-target-decision-tree/src/split_finders/threshold_finders/threshold_finder_variance.rs", "multi-target-grad-boost/src/ensembles/RegressionBoost/regression_boost_ensemble.rs"]}
{"id": "C88", "title": "In f64 a regression ensemble's answer to any row is finite and near the mean label", "statement": "After any number k of the iterations of a training run in f64 with learning rate lr between 0 and 2, the ensemble answers every row, seen in training or not, with finite numbers, and the answer for each target differs from the mean training label by at most k * lr * sqrt(sum of the squared deviations of the labels from their mean), plus a rounding allowance of (1 + 4 k^2 sqrt N) * e, where N is the number of rows, the labels are at most B in absolute value and e = 2^-48 (N + 2) (1 + 4 sqrt N) B. Finite labels alone do not suffice: two rows labelled 2^1023 make the starting point infinite.", "quantifier": "every well-formed data set of at most 2^40 rows whose labels are finite and at most B in absolute value (B between 2^-400 and 2^300), every number of iterations n with n * e <= B, every k <= n, depth limit and row asked about", "why_tests_cant": "The bound ranges over all data sets, rows and numbers of iterations and includes every rounding error of the run; a test sees one run and cannot tell a guaranteed bound from a lucky one.", "anchors": ["multi-target-grad-boost/src/ensembles/RegressionBoost/regression_boost_ensemble.rs", "multi-target-decision-tree/src/tree/tree_builders/grad_boost/grad_boost_tree_builder.rs", "multi-target-grad-boost/src/ensembles/boosting_loop.rs"]}
{"id": "C89", "title": "Rotating the target space rotates the answers and changes no question", "statement": "In exact arithmetic, replacing every label vector y by M y + v, where M multiplies every squared length by the same positive factor (a rotation or reflection of the targets, a common change of unit, a repetition of all targets, an embedding into more targets, or any combination), changes no question of a regression tree or ensemble, and every answer p becomes M p + v. In particular, targets that are all computed from one number y as a_j y + b_j (some a_j not 0) give the model of that number alone, answering a_j p + b_j. Other maps do change the model: multiplying only one of two targets by 100 changes the first question.", "quantifier": "every well-formed data set with finite labels, every such M and v (also changing the number of targets), depth limit, number of iterations, finite learning rate and row asked about", "why_tests_cant": "Equality of two whole training runs for a continuum of maps and all data sets; tests can try some rotations of some data.", "anchors": ["multi-target-decision-tree/src/tree/tree_builders/regression_tree_builder.rs", "multi-target-decision-tree/src/split_finders/split_finder_variance.rs", "multi-target-decision-tree/src/split_finders/threshold_finders/threshold_finder_variance.rs", "multi-target-grad-boost/src/ensembles/RegressionBoost/regression_boost_ensemble.rs"]}
{"id": "C90", "title": "Subtrees are the trees of the rows that reach them", "statement": "The subtree found by answering the first questions of a trained tree in some way is exactly the tree that training on the rows which answer them that way, with the depth limit reduced by the number of questions, would give: same questions, same leaves, bit for bit. This holds for regression trees and for both kinds of boosting trees. Hence the other rows, and their labels, have no influence on the subtree: two training sets with the same rows at a node, reached by the same questions, have the same subtree there.", "quantifier": "every well-formed data set, every configuration (any split finder, threads on or off, any depth limit), every leaf output kind and every node of the trained tree; binary64 on every platform", "why_tests_cant": "Equality of two training runs at every node of every tree; tests check a few nodes of a few trees.", "anchors": ["multi-target-decision-tree/src/tree/tree_builders/regression_tree_builder.rs", "multi-target-decision-tree/src/tree/tree_builders/grad_boost/grad_boost_tree_builder.rs", "multi-target-decision-tree/src/tree/tree_builders/grad_boost/approximate_grad_boost_tree_builder.rs"]}
{"id": "C91", "title": "Clear decisions: binary64 trees and ensembles are the exact ones up to rounding", "statement": "Call a decision clear when, in exact arithmetic, the chosen question reduces the label variance by more than a stated margin (an explicit multiple of 2^-53, growing polynomially in the numbers of rows, targets and iterations and in the label size), and by more than that beyond every cut for another question. If every question that a row meets in the exactly computed tree is clear, then the binary64 tree asks that row the same questions in the same order, and its answer differs from the exact answer by at most 2^-51 (N+1) B + 2^-1072. If every question that the training rows and the queried row meet in an exactly computed regression ensemble of n trees is clear, then every binary64 tree asks the row the same questions, and the ensemble's answer differs from the exact one by at most 2 sqrt(N) (n+1)^2 2^-48 (N+2) (1 + 4 sqrt N) B. (Where all labels at an exact leaf are equal, binary64 may ask further questions; the bounds still hold.)", "quantifier": "every table of at most 2^20 rows and 2^40 targets with labels of size at most B (2^-400 <= B <= 2^300), every variance configuration and depth limit, every learning rate in [0,2], every number of iterations n with n times the rounding unit at most B, and every row whose decisions are clear; every platform", "why_tests_cant": "A relation between a floating point run and an ideal run with no rounding, with an explicit error bound; no test can execute the ideal run.", "anchors": ["multi-target-decision-tree/src/split_finders/split_finder_variance.rs", "multi-target-decision-tree/src/split_finders/threshold_finders/threshold_finder_variance.rs", "multi-target-decision-tree/src/tree/tree_builders/regression_tree_builder.rs", "multi-target-decision-tree/src/tree/tree_builders/grad_boost/grad_boost_tree_builder.rs", "multi-target-grad-boost/src/ensembles/RegressionBoost/regression_boost_executor_functions.rs", "multi-target-grad-boost/src/ensembles/boosting_loop.rs"]}
{"id": "C92", "title": "A little label noise does not change a clear regression tree", "statement": "If every label entry of a table is moved by at most e, then every row whose decisions in the exactly computed tree of the original table are clear by more than twice the binary64 rounding error plus 32 nt B e is asked the same questions by the two trees trained in binary64 on the original and on the noisy table, and its two answers differ by at most e plus a rounding term 2^-50 (N+1) B + 2^-1071. (Where all labels at an exact leaf are equal, either tree may ask further questions; the bound still holds.)", "quantifier": "every pair of tables with the same features, at most 2^20 rows and 2^40 targets and labels of size at most B (2^-400 <= B <= 2^300) that differ by at most e, every e, every variance configuration and depth limit, and every row whose decisions are clear; every platform", "why_tests_cant": "Quantifies over all perturbations of all tables; a test tries finitely many perturbed copies.", "anchors": ["multi-target-decision-tree/src/split_finders/split_finder_variance.rs", "multi-target-decision-tree/src/split_finders/threshold_finders/threshold_finder_variance.rs", "multi-target-decision-tree/src/tree/tree_builders/regression_tree_builder.rs"]}
{"id": "C93", "title": "A little label noise does not change a clear regression ensemble", "statement": "If every label entry of a training table is moved by at most nu, and every decision that the exactly computed ensemble of the original table makes for the training rows and for a given row is clear by a margin of twice the binary64 rounding error plus 128 nt B' sqrt(N) (2 nu + (n+2) e), then every tree of the two ensembles trained in binary64 on the original and on the noisy table asks that row the same questions, and the two answers differ by at most (4n+1) sqrt(N) nu plus the rounding term 4 sqrt(N) (n+1)^2 e: the noise is not amplified from one stage to the next. Here B' = (1 + 4 sqrt N) B and e = 2^-48 (N+2) B'. (Where all residuals at an exact leaf are equal, either tree may ask further questions; the bound still holds.)", "quantifier": "every pair of tables with the same features, at most 2^20 rows and 2^40 targets and labels of size at most B (2^-400 <= B <= 2^300) that differ by at most nu <= B, every number of trees n with n e <= B, every rate in [0, 2], every variance configuration and depth limit, and every row whose decisions are clear; every platform", "why_tests_cant": "Quantifies over all perturbations of all tables and over all numbers of trees; a test tries finitely many perturbed copies of a few tables.", "anchors": ["multi-target-grad-boost/src/ensembles/RegressionBoost/regression_boost_executor_functions.rs", "multi-target-decision-tree/src/split_finders/split_finder_variance.rs", "multi-target-decision-tree/src/tree/tree_builders/grad_boost/grad_boost_tree_builder.rs"]}
{"id": "C94", "title": "Boosting trees that already fit is the single tree, shrunk", "statement": "In exact arithmetic, if the regression tree T of a configuration answers every training row with its label, then the ensemble of n trees trained with the same configuration and rate lr answers every row, seen or not, with mean + (1 - (1-lr)^n) (T(row) - mean), where mean is the vector of target means: boosting adds nothing but a shrinkage towards the mean. Every tree of the ensemble asks exactly T's questions (same nodes, columns and thresholds) when lr is not 1, and when lr = 1 every tree after the first is a single leaf. In particular, for data without contradictory rows and a depth limit of at least the number of rows minus one, a training row with label l is answered mean + (1 - (1-lr)^n) (l - mean).", "quantifier": "every rectangular table with real labels, every variance configuration whose tree fits the table, every number of trees, every real rate, every row (exact arithmetic)", "why_tests_cant": "An identity between two models for all rows, tables, rates and ensemble sizes; a test compares a few answers.", "anchors": ["multi-target-grad-boost/src/ensembles/RegressionBoost/regression_boost_executor_functions.rs", "multi-target-decision-tree/src/split_finders/split_finder_variance.rs", "multi-target-decision-tree/src/tree/tree_builders/grad_boost/grad_boost_tree_builder.rs", "multi-target-decision-tree/src/tree/tree_builders/regression_tree_builder.rs"]}
{"id": "C95", "title": "A deeper tree classifies the training rows no worse", "statement": "On one-hot labels, in binary64: the number of training rows a tree classifies correctly is the sum over its leaves of the size of the largest class there, and calculate_accuracy on the training set is that number over the number of rows, correctly rounded. It is therefore at least the share of the most frequent class, and a larger depth limit never lowers it. If rows with equal features have equal labels and the table is small enough for exact sums ((k+4)^2 n^4 < 2^53), a tree allowed n-1 levels answers every training row with its class and has accuracy exactly 1. (Boosting has no such guarantee: C79.)", "quantifier": "every rectangular table of at most 2^53 rows with one-hot labels of any number of classes, every configuration, all pairs of depth limits; every platform", "why_tests_cant": "Quantifies over all tables and depth limits; tests compare the accuracy of a few trees.", "anchors": ["multi-target-decision-tree/src/utils/scorer.rs::calculate_accuracy", "multi-target-decision-tree/src/tree/tree_builders/regression_tree_builder.rs", "multi-target-decision-tree/src/split_finders/split_finder_variance.rs"]}
{"id": "C96", "title": "If one feature tells the training rows apart, boosting learns the training labels to any accuracy", "statement": "In exact arithmetic: a boosting iteration at rate r changes the training error from e to e - r(2-r)(e - t), where t is the training error of a regression tree learnt from the residuals. If the tree may have at least one level, some feature has a different value in every row and no feature repeats a value above its minimum, every iteration at a rate in [0, 2] removes at least the share r(2-r)/n^2 of the training error (n rows), so after k iterations the error is at most (1 - r(2-r)/n^2)^k times that of the constant prediction. For a rate strictly between 0 and 2 the ensemble's answers for the training rows therefore come within any eps > 0 of the labels and stay there, even with trees of one level. Without such a feature this fails: on the exclusive-or table, ensembles of one-level trees keep training error 1/4 for every rate and number of iterations.", "quantifier": "every rectangular table with real labels (at most 2^53 targets for the last two parts), every configuration with the standard split finder, every number of iterations, every rate in the stated range, every eps; exact arithmetic", "why_tests_cant": "A statement about the limit of unboundedly many iterations on all tables; tests run a few iterations on a few tables.", "anchors": ["multi-target-decision-tree/src/split_finders/split_finder_variance.rs::find_best_split", "multi-target-decision-tree/src/split_finders/threshold_finders/threshold_finder_variance.rs", "multi-target-decision-tree/src/tree/tree_builders/grad_boost/grad_boost_tree_builder.rs", "multi-target-grad-boost/src/ensembles/boosting_loop.rs"]}
{"id": "C97", "title": "In f64, boosting with a feature that tells the rows apart removes the training error down to rounding", "statement": "In f64, with n <= 2^20 rows, at least one tree level, a feature with a different value in every row and no feature repeating a value above its minimum: an iteration at rate r in [0, 2] takes the exact mean squared error of the training predictions from e to at most (1 - r(2-r)/n^2) e + 2^-39 (k+n) B^2, for k targets and labels and predictions of at most B in absolute value. Over a whole run, from a bound B on the labels alone, the error after i iterations is at most (1 - r(2-r)/n^2)^i times that of the constant prediction plus i times the rounding term for B' = (1 + 4 sqrt n) B, and, for a rate strictly between 0 and 2, plus at most n^2/(r(2-r)) rounding terms however many iterations there are. The score the code reports for the first i trees on the training data obeys the same bound up to its own relative rounding error.", "quantifier": "every rectangular table with finite f64 labels at most B in absolute value (2^-400 <= B <= 2^300), at most 2^20 rows and 2^40 targets, every configuration with the standard split finder, every finite rate in [0, 2], every number of iterations while the accumulated rounding stays below B; the last part for platforms whose square is accurate to one unit in the last place", "why_tests_cant": "The bound must survive every rounding in split search, leaf means and predictions, on all tables and for any number of iterations.", "anchors": ["multi-target-decision-tree/src/split_finders/split_finder_variance.rs::find_best_split", "multi-target-decision-tree/src/split_finders/threshold_finders/threshold_finder_variance.rs", "multi-target-decision-tree/src/tree/tree_builders/grad_boost/grad_boost_tree_builder.rs", "multi-target-grad-boost/src/ensembles/boosting_loop.rs", "multi-target-grad-boost/src/ensembles/RegressionBoost/regression_boost_executor_functions.rs::calculate_residuals"]}
{"id": "C98", "title": "In f64, the average training prediction is the average label up to rounding", "statement": "In f64, with N training rows and finite labels of at most B in absolute value: for every target, the exact mean of a regression tree's predictions on its training rows is within 2^-51 (N + 2) B of the exact mean of the training labels; for the first k trees of a regression ensemble trained at a rate from 0 to 2 it is within (k + 1) 2^-48 (N + 2)(1 + 4 sqrt N) B, while the number of iterations times one such amount is at most B. The allowance cannot be dropped: a tree trained on three equal rows labelled 0.1 has an average prediction other than the average label.", "quantifier": "every well-formed data set of at most 2^40 rows with finite labels at most B (2^-400 <= B <= 2^400 for a tree, 2^300 for an ensemble), configuration, target, finite learning rate from 0 to 2 and iteration count within the stated budget; f64 arithmetic on every platform", "why_tests_cant": "A bound on accumulated rounding over all tables, tree shapes and numbers of iterations.", "anchors": ["multi-target-decision-tree/src/tree/tree_builders/regression_tree_builder.rs", "multi-target-grad-boost/src/ensembles/boosting_loop.rs", "multi-target-grad-boost/src/ensembles/RegressionBoost/regression_boost_ensemble.rs", "multi-target-decision-tree/src/tree/tree_builders/grad_boost/grad_boost_leaf_output.rs"]}
{"id": "C99", "title": "In f64, the order of the test rows changes a regression score by rounding only", "statement": "In f64, if two test sets hold the same n rows with k-entry labels in different orders, the mean squared errors that a regression tree's scorer or a regression ensemble's score reports for them are both finite and differ by at most 2 (2^-51 (n + k + 3) E + 2^-600), where E is the exact mean squared error of the model's predictions. The allowance cannot be dropped: for a tree and for an ensemble, five test rows get different errors in two orders.", "quantifier": "every tree, ensemble, non-empty test set of at most 2^40 rows and targets with labels and predictions of at most 2^400 in absolute value, and permutation of it; platforms whose powf(x, 2) is within one unit in the last place", "why_tests_cant": "All permutations of all test sets, with a bound on the worst rounding difference.", "anchors": ["multi-target-decision-tree/src/utils/scorer.rs::calculate_overall_mean_squared_error", "multi-target-grad-boost/src/ensembles/RegressionBoost/regression_boost_ensemble.rs", "common/src/numerical_calculations.rs"]}
{"id": "C100", "title": "The order of the feature columns matters to an ensemble only through ties", "statement": "If at each question of each tree of a trained ensemble one feature column alone offers a strictly larger gain than each other column alone, on the residuals the tree was grown from, then training on the columns in another order succeeds and gives the same ensemble up to column numbers, and reordered rows and test sets get bit-identical predictions and scores. Holds for RegressionBoostModel, MultiClassBoostModel and AMGBoostModel. With tied columns the answers of an ensemble do depend on the order.", "quantifier": "every well-formed data set with at most 2^53 targets (at least one for AMGBoost), order of its columns, configuration with the standard split finder, iteration count, learning rate (even NaN or infinite), row and test set; f64 arithmetic on every platform", "why_tests_cant": "A relation between two training runs over all permutations of the columns and any number of iterations.", "anchors": ["multi-target-decision-tree/src/split_finders/split_finder_variance.rs::find_best_split", "multi-target-decision-tree/src/tree/tree_builders/grad_boost/grad_boost_tree_builder.rs", "multi-target-decision-tree/src/tree/tree_builders/grad_boost/approximate_grad_boost_tree_builder.rs", "multi-target-grad-boost/src/ensembles/boosting_loop.rs", "multi-target-grad-boost/src/ensembles/RegressionBoost/regression_boost_ensemble.rs", "multi-target-grad-boost/src/ensembles/MultiClassBoosting/MultiClassBoost", "multi-target-grad-boost/src/ensembles/MultiClassBoosting/AMGBoost"]}
{"id": "C101", "title": "Ensembles do not see increasing transforms of the features", "statement": "Applying to each feature a transform that keeps the order of its values, in training and test data alike, changes nothing about a boosted ensemble but its thresholds: training succeeds, gives the same trees with each threshold transformed like its feature, the same leaf outputs, initial guess and learning rate, and bit-identical predictions and scores. Holds for RegressionBoostModel, MultiClassBoostModel and AMGBoostModel.", "quantifier": "every family of transforms that preserves the order on a domain containing the feature values, well-formed data set with at most 2^53 targets (at least one for AMGBoost), configuration with the standard split finder, iteration count, learning rate (even NaN or infinite), row and test set in the domain; f64 arithmetic on every platform", "why_tests_cant": "All increasing transforms of all data sets, over any number of iterations.", "anchors": ["multi-target-decision-tree/src/split_finders/split_finder_variance.rs::find_best_split", "multi-target-decision-tree/src/tree/tree_builders/grad_boost/grad_boost_tree_builder.rs", "multi-target-decision-tree/src/tree/tree_builders/grad_boost/approximate_grad_boost_tree_builder.rs", "multi-target-grad-boost/src/ensembles/boosting_loop.rs", "multi-target-grad-boost/src/ensembles/RegressionBoost/regression_boost_ensemble.rs", "multi-target-grad-boost/src/ensembles/MultiClassBoosting/MultiClassBoost", "multi-target-grad-boost/src/ensembles/MultiClassBoosting/AMGBoost"]}
{"id": "C102", "title": "Classification iterations with small steps lower the log-loss by a stated amount", "statement": "When one more iteration of a classification ensemble with K classes moves no training score by more than 1/2, the log-loss of the training rows falls by at least (C/lr - 1) times the variance of the score changes under the current class probabilities, summed over the rows, where C is K/(2(K-1)) for MultiClassBoostModel and 1 for AMGBoostModel; so with lr below C it falls strictly unless no score changed, and with lr at most C it never rises over any number of such iterations above the ln K a row it starts from. No score moves that far while every class probability stays at least eps away from 0 and 1 and lr is at most K*eps/(2(K-1)); in particular a first iteration with lr at most 1/(2(K-1)) lowers the log-loss unless it changes nothing. The limit is needed: with lr 6 the first iteration on three rows raises the log-loss.", "quantifier": "every well-formed one-hot data set with 2 to 2^53 classes, configuration for which training succeeds, iteration counts i <= n, learning rate 0 < lr, row; exact arithmetic", "why_tests_cant": "A bound on the change of the loss for all data sets, trees, classes and iterations.", "anchors": ["multi-target-decision-tree/src/tree/tree_builders/grad_boost/grad_boost_tree_builder.rs", "multi-target-decision-tree/src/tree/tree_builders/grad_boost/approximate_grad_boost_tree_builder.rs", "multi-target-grad-boost/src/ensembles/boosting_loop.rs", "multi-target-grad-boost/src/ensembles/MultiClassBoosting/MultiClassBoost", "multi-target-grad-boost/src/ensembles/MultiClassBoosting/AMGBoost", "multi-target-decision-tree/src/tree/tree_builders/grad_boost/grad_boost_leaf_output.rs"]}
{"id": "C103", "title": "With deep enough trees a classification ensemble is right on consistent training rows from the first iteration on", "statement": "When rows with equal features have equal labels and the tree depth limit is at least the number of rows minus 1, a classification ensemble with K classes and n iterations at learning rate lr scores the class of every training row at least n*lr*C higher than every other class, where C is 2(K-1)/K for MultiClassBoostModel and 1 for AMGBoostModel. So the log-loss of the training rows is at most (K-1)*exp(-n*lr*C) a row, and for n at least 1 every training row is predicted with its own label and the score on the training set is exactly 1.", "quantifier": "every well-formed one-hot consistent data set with 2 to 2^53 classes, standard configuration with that class count and a depth limit of at least rows - 1 for which training succeeds, iteration count, learning rate 0 < lr, training row; the score for up to 2^53 rows; exact arithmetic", "why_tests_cant": "An exponential bound for every iteration count and data set; runs show single values, and in f64 the leaf outputs overflow after enough iterations.", "anchors": ["multi-target-decision-tree/src/tree/tree_builders/grad_boost/grad_boost_tree_builder.rs", "multi-target-decision-tree/src/tree/tree_builders/grad_boost/approximate_grad_boost_tree_builder.rs", "multi-target-grad-boost/src/ensembles/boosting_loop.rs", "multi-target-grad-boost/src/ensembles/MultiClassBoosting/MultiClassBoost", "multi-target-grad-boost/src/ensembles/MultiClassBoosting/AMGBoost", "multi-target-decision-tree/src/tree/tree_builders/grad_boost/grad_boost_leaf_output.rs"]}
{"id": "C104", "title": "After its first iteration a classification ensemble answers like the single tree", "statement": "A MultiClassBoostModel or AMGBoostModel trained for one iteration with a positive learning rate predicts, for every row, training row or not, exactly the class that the scorer of a RegressionTree trained on the same data with the same configuration predicts: the most frequent class of the leaf, the first one on ties. So both have the same accuracy on every test set. The scores behind it are 1/K + lr*(K*p - 1) for a class with share p of the leaf's training rows in MultiClassBoostModel; in AMGBoostModel that holds for the most frequent class, and each other class gets 1/K - lr*(K*p - 1)/(K-1) with the share p of the most frequent one.", "quantifier": "every well-formed one-hot data set with 2 to 2^53 classes, standard configuration with that class count and any depth, learning rate (positive for answers and accuracies), row at least as long as the training rows, test set of up to 2^53 such rows; exact arithmetic", "why_tests_cant": "Relates two different training algorithms on every data set and every unseen row, ties included.", "anchors": ["multi-target-decision-tree/src/tree/tree_builders/regression_tree_builder.rs", "multi-target-decision-tree/src/tree/tree_builders/grad_boost/grad_boost_tree_builder.rs", "multi-target-decision-tree/src/tree/tree_builders/grad_boost/approximate_grad_boost_tree_builder.rs", "multi-target-decision-tree/src/utils/scorer.rs", "multi-target-grad-boost/src/ensembles/boosting_loop.rs", "multi-target-grad-boost/src/ensembles/MultiClassBoosting/MultiClassBoost", "multi-target-grad-boost/src/ensembles/MultiClassBoosting/AMGBoost", "multi-target-decision-tree/src/tree/tree_builders/grad_boost/grad_boost_leaf_output.rs"]}
{"id": "C105", "title": "Regression boosting continues by boosting the residuals", "statement": "Let a RegressionBoostModel be trained for n iterations, replace the labels by what its predictions leave over of them, and train a second model on these for k iterations. Training on the original data for n+k iterations then gives exactly the trees of the first model followed by those of the second, the initial guess of the second is all zeros, and for every row, training row or not, the long model predicts the sum of the two predictions.", "quantifier": "every well-formed data set with real labels, configuration, iteration counts n and k, learning rate, row at least as long as the training rows; that all three trainings succeed: every standard configuration with the data's target count, up to 2^53 targets; exact arithmetic", "why_tests_cant": "Relates three training runs of any length on arbitrary data and all unseen rows.", "anchors": ["multi-target-decision-tree/src/tree/tree_builders/grad_boost/grad_boost_tree_builder.rs", "multi-target-grad-boost/src/ensembles/boosting_loop.rs", "multi-target-grad-boost/src/ensembles/RegressionBoost/regression_boost_ensemble.rs"]}
{"id": "C106", "title": "One regression boosting iteration blends the mean with the single tree", "statement": "A RegressionBoostModel trained for one iteration predicts, for every row and target, (1 - lr) times the mean training label plus lr times what a RegressionTree trained on the same data with the same configuration predicts; its only tree asks the same questions. With learning rate 1 the model predicts exactly what the tree predicts, and the two mean squared errors agree on every test set.", "quantifier": "every well-formed data set with real labels, standard configuration with its target count and any depth, learning rate, row at least as long as the training rows, non-empty well-formed test set; exact arithmetic", "why_tests_cant": "Relates two training algorithms and two scorers on every data set and every unseen row.", "anchors": ["multi-target-decision-tree/src/tree/tree_builders/regression_tree_builder.rs", "multi-target-decision-tree/src/tree/tree_builders/grad_boost/grad_boost_tree_builder.rs", "multi-target-decision-tree/src/utils/scorer.rs", "multi-target-grad-boost/src/ensembles/boosting_loop.rs", "multi-target-grad-boost/src/ensembles/RegressionBoost/regression_boost_ensemble.rs"]}
{"id": "C107", "title": "A class that no training row has", "statement": "Whatever row it is asked about, seen in training or not, a tree answers the class of one of its training rows, and so, in exact arithmetic, does an AMGBoostModel trained for at least one iteration with a positive learning rate. Of a class that no training row has, the AMGBoostModel's score is the smallest of all the row's scores and below 1/K, and a MultiClassBoostModel's score is at most 1/K - n*lr*(K-1)/K after n iterations. Without an iteration an ensemble may answer such a class, and so may, with floating-point numbers, an ensemble of either kind that has learned its training rows perfectly.", "quantifier": "every well-formed data set with one-hot labels, configuration, number of iterations, learning rate and row at least as long as the training rows; the tree in binary64 arithmetic on every platform, the ensembles in exact arithmetic with 2 to 2^53 classes", "why_tests_cant": "Quantifies over every row that could ever be asked and over training runs of any length; a held-out test set with the known classes cannot show that an unknown class is never answered.", "anchors": ["multi-target-decision-tree/src/tree/tree_builders/regression_tree_builder.rs", "multi-target-decision-tree/src/tree/tree_builders/grad_boost/grad_boost_tree_builder.rs", "multi-target-decision-tree/src/tree/tree_builders/grad_boost/approximate_grad_boost_tree_builder.rs", "multi-target-grad-boost/src/ensembles/boosting_loop.rs", "multi-target-grad-boost/src/ensembles/MultiClassBoosting/AMGBoost", "multi-target-grad-boost/src/ensembles/MultiClassBoosting/MultiClassBoost"]}
{"id": "C108", "title": "Each regression iteration removes the same share of what is left over in every leaf", "statement": "Take the tree that an iteration of RegressionBoostModel training adds, and any leaf of it. Every leaf is reached by a training row, and it holds, per target, the mean of label minus prediction, before the iteration, over the training rows that reach it. After the iteration that mean is (1 - lr) times what it was. With learning rate 1 the predictions therefore average to the labels in every leaf of the last tree.", "quantifier": "every well-formed data set with real labels, configuration, iteration, learning rate, leaf (named by any row that reaches it, training row or not) and target; exact arithmetic", "why_tests_cant": "Says something about every leaf of every tree of runs of any length on arbitrary data.", "anchors": ["multi-target-decision-tree/src/tree/tree_builders/grad_boost/grad_boost_tree_builder.rs", "multi-target-decision-tree/src/tree/tree_builders/grad_boost/grad_boost_leaf_output.rs", "multi-target-grad-boost/src/ensembles/boosting_loop.rs", "multi-target-grad-boost/src/ensembles/RegressionBoost/regression_boost_ensemble.rs"]}
{"id": "C109", "title": "The training error is the label variance minus what the trees explain", "statement": "The training mean squared error of a RegressionBoostModel is the variance of the training labels, summed over the targets, minus lr*(2-lr) times the sum over its trees of the variance of the tree's outputs on the training rows, all divided by the number of targets. So for learning rates between 0 and 2 the outputs of all trees together vary by at most label variance / (lr*(2-lr)), however many trees there are; among the first n iterations at least one lowers the error by less than eps as soon as n*eps exceeds the error of the initial guess; and the training error converges, from above, as iterations are added.", "quantifier": "every well-formed data set with real labels, configuration, number of iterations, learning rate and eps; convergence for standard configurations with the data's target count (up to 2^53) and learning rates from 0 to 2; exact arithmetic", "why_tests_cant": "An identity over all trees of runs of any length, and a limit over infinitely many iterations.", "anchors": ["multi-target-decision-tree/src/tree/tree_builders/grad_boost/grad_boost_tree_builder.rs", "multi-target-grad-boost/src/ensembles/boosting_loop.rs", "multi-target-grad-boost/src/ensembles/RegressionBoost/regression_boost_ensemble.rs", "multi-target-decision-tree/src/utils/scorer.rs"]}
{"id": "C110", "title": "Test rows with the same features cannot be told apart", "statement": "On a test set in which feature rows occur more than once, with differing labels, no model does better than its features allow: the mean squared error of a RegressionTree and of a RegressionBoostModel is at least the size-weighted average of the label variances of the groups of equal rows (per target), and equals it exactly when the model answers every such row with the mean of its labels; and the number of rows a classification tree, MultiClassBoostModel or AMGBoostModel has right, of which the reported accuracy is the fraction, is at most the sum over the groups of the size of the largest class in the group.", "quantifier": "errors: every trained tree and ensemble, every non-empty test set with real labels and long enough rows, in any order, and every way of listing it in groups, in exact arithmetic; accuracies: every trained tree and every classification ensemble that answers the test rows, every non-empty test set of up to 2^53 rows, with floating-point numbers", "why_tests_cant": "A lower bound that holds for every model and test set; a test sees one model on one test set.", "anchors": ["multi-target-decision-tree/src/tree/tree_builders/regression_tree_builder.rs", "multi-target-grad-boost/src/ensembles/RegressionBoost/regression_boost_ensemble.rs", "multi-target-grad-boost/src/ensembles/MultiClassBoosting/MultiClassBoost/multi_class_boost_ensemble.rs", "multi-target-grad-boost/src/ensembles/MultiClassBoosting/AMGBoost/amg_boost_ensemble.rs", "multi-target-decision-tree/src/utils/scorer.rs"]}
{"id": "C111", "title": "Scores of two test sets taken together", "statement": "Scoring a model on two test sets taken together gives the average of its two scores, weighted by the numbers of test rows: exactly so, in exact arithmetic, for the mean squared errors of a RegressionTree and a RegressionBoostModel; and for the accuracies of a classification tree, MultiClassBoostModel and AMGBoostModel with floating-point numbers, ka of na rows right and kb of nb rows right make the correctly rounded (ka+kb)/(na+nb).", "quantifier": "errors: every trained tree and ensemble and every two well-formed test sets with real labels, in exact arithmetic; accuracies: every tree and classification ensemble, every two non-empty test sets that it can answer, together of up to 2^53 rows, with floating-point numbers", "why_tests_cant": "Ranges over all models and all pairs of test sets.", "anchors": ["multi-target-grad-boost/src/ensembles/RegressionBoost/regression_boost_ensemble.rs", "multi-target-grad-boost/src/ensembles/MultiClassBoosting/MultiClassBoost/multi_class_boost_ensemble.rs", "multi-target-grad-boost/src/ensembles/MultiClassBoosting/AMGBoost/amg_boost_ensemble.rs", "multi-target-decision-tree/src/utils/scorer.rs"]}
{"id": "C112", "title": "Training that cannot ask anything", "statement": "When the tree depth allowed is zero, or all training rows have the same features, every model answers all rows alike: a RegressionTree, a RegressionBoostModel, a MultiClassBoostModel and an AMGBoostModel each give any two rows the same answer, whatever the iterations and the learning rate. The tree then answers, as a class, the one that most training rows have (the first on ties). In exact arithmetic a regression tree and a regression ensemble answer the mean training label, whatever the iterations and the learning rate. The two classification ensembles answer, after one iteration with a positive learning rate and in exact arithmetic, the class that most training rows have.", "quantifier": "every well-formed training set, settings with depth zero or rows with equal features, every number of iterations, every learning rate and every two rows; the answers alike and the tree's class with floating-point numbers, the mean and the ensembles' class in exact arithmetic", "why_tests_cant": "Ranges over all training sets, iteration counts, learning rates and rows.", "anchors": ["multi-target-decision-tree/src/tree/tree_builders/regression_tree_builder.rs", "multi-target-decision-tree/src/split_finders/split_finder_variance.rs", "multi-target-grad-boost/src/ensembles/RegressionBoost/regression_boost_ensemble.rs", "multi-target-grad-boost/src/ensembles/MultiClassBoosting/MultiClassBoost/multi_class_boost_ensemble.rs", "multi-target-grad-boost/src/ensembles/MultiClassBoosting/AMGBoost/amg_boost_ensemble.rs", "multi-target-grad-boost/src/ensembles/boosting_loop.rs"]}
