{"id": "C01", "title": "Kernel weights are finite and lie in [0,1]", "statement": "For each of the seven kernel names, every distance d >= 0 and every bandwidth (zero and negative included), kernel_function returns a finite weight between 0 and 1; no NaN or infinity produced by 0/0 or d/0 reaches the result.", "quantifier": "all kernel names, all d >= 0, all real bandwidths", "why_tests_cant": "The domain (real distances, bandwidths, matrices of every size) is infinite; a test samples a few points.", "anchors": ["georegression/kernel.py:kernel_function"]}
{"id": "C02", "title": "A coincident point gets weight exactly 1", "statement": "For every kernel and every bandwidth b >= 0 (b = 0 included), the weight of a point at distance 0 is 1.", "quantifier": "all kernels, all b >= 0", "why_tests_cant": "The domain (real distances, bandwidths, matrices of every size) is infinite; a test samples a few points.", "anchors": ["georegression/kernel.py:kernel_function"]}
{"id": "C03", "title": "Nearer points never weigh less", "statement": "For every kernel and b >= 0, 0 <= d1 <= d2 implies weight(d1) >= weight(d2); for linear, bisquare, tricube the inequality is strict while d1 < d2 <= b, and for gaussian/exponential it is strict everywhere (b > 0).", "quantifier": "all kernels, all pairs of distances, all b >= 0", "why_tests_cant": "The domain (real distances, bandwidths, matrices of every size) is infinite; a test samples a few points.", "anchors": ["georegression/kernel.py:kernel_function"]}
{"id": "C04", "title": "Compact kernels vanish exactly outside the bandwidth", "statement": "linear/bisquare/tricube give weight 0 iff d >= b and boxcar iff d > b (b > 0); gaussian, exponential and uniform never give 0.", "quantifier": "all kernels, all d >= 0, all b > 0", "why_tests_cant": "The domain (real distances, bandwidths, matrices of every size) is infinite; a test samples a few points.", "anchors": ["georegression/kernel.py:kernel_function"]}
{"id": "C05", "title": "Zero bandwidth keeps only coincident points", "statement": "With bandwidth 0 every kernel except 'uniform' gives weight 1 at distance 0 and weight 0 at every positive distance.", "quantifier": "all kernels, all d >= 0", "why_tests_cant": "The domain (real distances, bandwidths, matrices of every size) is infinite; a test samples a few points.", "anchors": ["georegression/kernel.py:kernel_function"]}
{"id": "C06", "title": "Kernel weight depends only on the ratio distance/bandwidth", "statement": "Multiplying distance and bandwidth by the same c > 0 (a change of units) leaves every kernel weight unchanged.", "quantifier": "all kernels, d >= 0, b, c > 0", "why_tests_cant": "The domain (real distances, bandwidths, matrices of every size) is infinite; a test samples a few points.", "anchors": ["georegression/kernel.py:kernel_function"]}
{"id": "C07", "title": "Unknown kernel names are rejected, known ones never", "statement": "kernel_function raises exactly when kernel_type is not one of the seven listed names, whatever the matrices.", "quantifier": "all strings, all matrices", "why_tests_cant": "All strings and all array sizes.", "anchors": ["georegression/kernel.py:kernel_function", "georegression/kernel.py:KERNEL_TYPE_ENUM"]}
{"id": "C08", "title": "The dask bisquare shortcut equals the numpy bisquare", "statement": "For d >= 0 and b >= 0 the clamp-then-square dask branch returns the same weight as the numpy branch followed by the d > b mask, including b = 0.", "quantifier": "all d >= 0, b >= 0", "why_tests_cant": "The domain (real distances, bandwidths, matrices of every size) is infinite; a test samples a few points.", "anchors": ["georegression/kernel.py:kernel_function"]}
{"id": "C09", "title": "Integer neighbour_count gives the k-th nearest distance of each row", "statement": "With an int k, adaptive_bandwidth returns for each row its k-th smallest entry (at least k entries are <= it, fewer than k are < it, it is an entry of the row); it raises iff k <= 0 or k exceeds the row length.", "quantifier": "all matrices, all integers k", "why_tests_cant": "All matrix sizes, orders and ties.", "anchors": ["georegression/kernel.py:adaptive_bandwidth"]}
{"id": "C10", "title": "How many neighbours an integer neighbour_count really yields", "statement": "Relied on: neighbour_count = k includes k neighbours. True for boxcar (at least k entries per row have non-zero weight). For linear, bisquare and tricube it is false whenever the k-th nearest distance is positive: at most k-1 entries get non-zero weight, the k-th neighbour itself having weight 0.", "quantifier": "all rows of distances, all k, all compact kernels", "why_tests_cant": "All rows, ties included.", "anchors": ["georegression/kernel.py:adaptive_kernel", "georegression/kernel.py:adaptive_bandwidth"]}
{"id": "C11", "title": "Fractional neighbour_count is a bounded, monotone quantile", "statement": "With a float q in (0,1] the bandwidth of a row lies between its smallest and largest distance, is monotone in q, equals the largest distance at q = 1, and is the Hyndman-Fan type-8 (median-unbiased) interpolation; q <= 0 or q > 1 is rejected.", "quantifier": "all rows, all q", "why_tests_cant": "The domain (real distances, bandwidths, matrices of every size) is infinite; a test samples a few points.", "anchors": ["georegression/kernel.py:adaptive_bandwidth"]}
{"id": "C12", "title": "The dask adaptive path and the numpy adaptive path", "statement": "Relied on: both paths give the same bandwidth. For a sorted matrix with as many rows as columns and an int 1 <= k <= N they agree. They disagree otherwise: k = 0 is rejected by numpy but returns the farthest distance under dask; a rectangular matrix uses the row count for the limit; a float is ceil(N*q) under dask but an interpolated quantile under numpy.", "quantifier": "all matrices, all neighbour counts", "why_tests_cant": "All shapes and counts.", "anchors": ["georegression/kernel.py:adaptive_bandwidth"]}
{"id": "C13", "title": "Weight matrices are row-stochastic or zero", "statement": "Every matrix returned by weight_matrix_from_distance for non-negative distances has entries in [0,1] and each row either sums to 1 or is identically 0 (the latter exactly when no target is inside the support).", "quantifier": "all numbers of dimensions, sizes, kernels, bandwidths, neighbour counts", "why_tests_cant": "The domain (real distances, bandwidths, matrices of every size) is infinite; a test samples a few points.", "anchors": ["georegression/weight_matrix.py:weight_matrix_from_distance"]}
{"id": "C14", "title": "Several dimensions combine by product: support is the intersection", "statement": "The weight of (i,j) is the product over dimensions of the kernel weights divided by the row total; it is non-zero iff every dimension's kernel weight is non-zero.", "quantifier": "all dimension counts and matrices", "why_tests_cant": "The domain (real distances, bandwidths, matrices of every size) is infinite; a test samples a few points.", "anchors": ["georegression/weight_matrix.py:weight_matrix_from_distance"]}
{"id": "C15", "title": "A point is its own heaviest neighbour", "statement": "When sources and targets coincide (zero diagonal, non-negative distances), the diagonal weight is positive and is the maximum of its row.", "quantifier": "all distance matrices with zero diagonal, all admissible parameters", "why_tests_cant": "The domain (real distances, bandwidths, matrices of every size) is infinite; a test samples a few points.", "anchors": ["georegression/weight_matrix.py:weight_matrix_from_distance"]}
{"id": "C16", "title": "Weights do not depend on the order of points", "statement": "Permuting the target points permutes the columns, permuting the source points permutes the rows of the weight matrix; nothing else changes.", "quantifier": "all permutations, all matrices, all parameters", "why_tests_cant": "All permutations and sizes.", "anchors": ["georegression/weight_matrix.py:weight_matrix_from_distance"]}
{"id": "C17", "title": "distance_ratio", "statement": "Relied on: distance_ratio merges the distance matrices before weighting. False: for every input with distance_ratio given, weight_matrix_from_distance raises and never returns a matrix (the merge loop assigns into an empty list).", "quantifier": "all distance matrices, all ratios, all other parameters", "why_tests_cant": "All inputs.", "anchors": ["georegression/weight_matrix.py:weight_matrix_from_distance"]}
{"id": "C18", "title": "Choosing between bandwidth and neighbour_count", "statement": "A dimension with neither or with both of bandwidth and neighbour_count is rejected; the README claim that bandwidth takes precedence over neighbour_count is false.", "quantifier": "all matrices and parameter combinations", "why_tests_cant": "All parameter combinations.", "anchors": ["georegression/weight_matrix.py:weight_matrix_from_distance", "georegression/weight_matrix.py:weight_by_distance", "README.md"]}
{"id": "C19", "title": "Omitting the target coordinates", "statement": "Relied on: target_coordinate_vector_list is optional. False: for every input without targets, weight_matrix_from_points raises (the condensed distance vector has no axis 1).", "quantifier": "all coordinate lists and parameters on the numpy path", "why_tests_cant": "All inputs.", "anchors": ["georegression/weight_matrix.py:weight_matrix_from_points", "georegression/distance_utils.py:_distance_matrix"]}
{"id": "C20", "title": "distance_args", "statement": "Relied on: distance_args is passed to the metric. False: its value never influences any distance; it is only consulted for truthiness, and a truthy value switches the computation to the dask path.", "quantifier": "all coordinates, metrics and distance_args", "why_tests_cant": "All argument dictionaries.", "anchors": ["georegression/weight_matrix.py:weight_matrix_from_points", "georegression/distance_utils.py:_distance_matrices"]}
{"id": "C21", "title": "Unit-free weights", "statement": "Rescaling all distances by c > 0 leaves the weight matrix unchanged with neighbour_count, and with a fixed bandwidth leaves it unchanged if the bandwidth is rescaled too.", "quantifier": "all matrices, all c > 0", "why_tests_cant": "The domain (real distances, bandwidths, matrices of every size) is infinite; a test samples a few points.", "anchors": ["georegression/weight_matrix.py:weight_matrix_from_distance"]}
{"id": "C22", "title": "Euclidean distance matrices are metric", "statement": "For every list of points the euclidean distance matrix (exact arithmetic) is symmetric, non-negative, zero exactly between equal points, satisfies the triangle inequality and is invariant under translation.", "quantifier": "all point sets, all coordinate dimensions", "why_tests_cant": "The domain (real distances, bandwidths, matrices of every size) is infinite; a test samples a few points.", "anchors": ["georegression/distance_utils.py:_distance_matrix"]}
{"id": "C23", "title": "Great-circle distance is a metric on the sphere", "statement": "great_circle_distance is symmetric, zero between identical points, bounded by half the Earth's circumference, unchanged by adding 360 degrees to a longitude, consistent with the angle between the two position vectors and satisfies the triangle inequality (latitudes in [-90,90]).", "quantifier": "all longitudes and latitudes", "why_tests_cant": "The domain (real distances, bandwidths, matrices of every size) is infinite; a test samples a few points.", "anchors": ["georegression/distance_utils.py:great_circle_distance"]}
{"id": "C24", "title": "Mismatched coordinates are rejected", "statement": "_distance_matrices raises when source and target have different numbers of coordinate vectors or different coordinate dimensions, or when a great-circle coordinate is not 2-D; otherwise it returns one matrix of shape (sources, targets) per dimension.", "quantifier": "all coordinate lists and metrics", "why_tests_cant": "All shapes.", "anchors": ["georegression/distance_utils.py:_distance_matrices", "georegression/distance_utils.py:_distance_matrix"]}
{"id": "C25", "title": "The zarr distance cache can serve stale distances", "statement": "Relied on: the returned matrix is the distance matrix of the given coordinates. With use_dask, a filepath, and no overwrite this holds only for the first call on that path: after any history in which the file exists, the call returns the stored matrix whatever the coordinates are, and without the sorted companion even if cache_sort is set.", "quantifier": "all histories of calls and all file-system states", "why_tests_cant": "All call histories.", "anchors": ["georegression/distance_utils.py:_distance_matrix"]}
{"id": "C26", "title": "Second-order neighbours are the boolean product", "statement": "second_order_neighbour(N, L)[i,j] is true iff some k has L[i,k] and N[k,j]; without L it is the two-step neighbourhood of N.", "quantifier": "all boolean matrices of compatible shape", "why_tests_cant": "All matrices.", "anchors": ["georegression/neighbour_utils.py:second_order_neighbour", "georegression/neighbour_utils.py:_second_order_neighbour_dense"]}
{"id": "C27", "title": "Sparse and dense second-order neighbours agree", "statement": "On the CSR forms of square matrices the sparse routine returns the CSR form of the dense result: same entries, column indices strictly increasing in each row.", "quantifier": "all square boolean matrices", "why_tests_cant": "All matrices.", "anchors": ["georegression/neighbour_utils.py:_second_order_neighbour_sparse", "georegression/neighbour_utils.py:second_order_neighbour"]}
{"id": "C28", "title": "Row-parallel loops give the same result under every schedule", "statement": "The prange loops of second_order_neighbour and neighbour_shrink produce the same arrays for every order in which rows are executed.", "quantifier": "all schedules (permutations of rows), all matrices", "why_tests_cant": "The number of schedules is factorial.", "anchors": ["georegression/neighbour_utils.py:_second_order_neighbour_sparse", "georegression/neighbour_utils.py:_neighbour_shrink"]}
{"id": "C29", "title": "Shape of the sparse second-order matrix", "statement": "Relied on: the sparse result has shape (N,N). It does when every point is its own neighbour in both arguments; otherwise the inferred column count can be smaller than N.", "quantifier": "all CSR matrices", "why_tests_cant": "All matrices.", "anchors": ["georegression/neighbour_utils.py:second_order_neighbour"]}
{"id": "C30", "title": "neighbour_shrink keeps exactly the heaviest neighbours", "statement": "For shrink_rate in [0,1] each row of the result keeps some entries unchanged and sets the others to 0; every removed entry is strictly smaller than every kept one, the row maximum is always kept, at least n - ceil(rate*(n-1)) of n non-zero entries survive, and rate 0 changes nothing. The threshold is exactly the shrink_rate quantile (linear interpolation) of the row's non-zero entries: an entry survives if and only if it is at least that quantile.", "quantifier": "all weight matrices with non-negative entries, all rates", "why_tests_cant": "The domain (real distances, bandwidths, matrices of every size) is infinite; a test samples a few points.", "anchors": ["georegression/neighbour_utils.py:neighbour_shrink", "georegression/neighbour_utils.py:_neighbour_shrink"]}
{"id": "C31", "title": "Sparse and dense shrinking agree", "statement": "On the CSR form of a matrix the sparse shrink returns the CSR form of the dense shrink.", "quantifier": "all matrices, all rates", "why_tests_cant": "The domain (real distances, bandwidths, matrices of every size) is infinite; a test samples a few points.", "anchors": ["georegression/neighbour_utils.py:_neighbour_shrink_sparse", "georegression/neighbour_utils.py:_neighbour_shrink"]}
{"id": "C32", "title": "neighbour_shrink and the caller's matrix", "statement": "With inplace=False the caller's matrix is untouched; with the default inplace=True the caller's matrix is overwritten by the shrunk one.", "quantifier": "all matrices, rates", "why_tests_cant": "All inputs.", "anchors": ["georegression/neighbour_utils.py:neighbour_shrink", "georegression/stacking_model.py:StackingWeightModel.fit"]}
{"id": "C33", "title": "sample_neighbour samples the right number of real neighbours and itself", "statement": "Row i of sample_neighbour(W, rate) contains i, otherwise only j with W[i,j] > 0, and exactly min(n, max(1, ceil(n*rate))) of the n other neighbours, whatever random choice is made (rate >= 0).", "quantifier": "all weight matrices, all rates >= 0, all outcomes of the random choice", "why_tests_cant": "All random outcomes.", "anchors": ["georegression/neighbour_utils.py:sample_neighbour"]}
{"id": "C34", "title": "sample_neighbour is reproducible and resets the global generator", "statement": "Its result does not depend on the state of the global random generator, and after it returns the generator's state is a function of the weight matrix only: all earlier seeding by the caller is lost.", "quantifier": "all generator states, all histories, all matrices", "why_tests_cant": "All generator states.", "anchors": ["georegression/neighbour_utils.py:sample_neighbour"]}
{"id": "C35", "title": "Sparse and dense sampling agree", "statement": "Given the same matrix and the same generator the CSR branch returns the CSR form of the dense branch's result.", "quantifier": "all square weight matrices, all rates, all generators", "why_tests_cant": "All matrices and random outcomes.", "anchors": ["georegression/neighbour_utils.py:sample_neighbour"]}
{"id": "C36", "title": "Leave-local-out: a local model never sees its own target value", "statement": "With leave_local_out=True, local_predict_[i] is unchanged by any change of y[i], for every local estimator.", "quantifier": "all data, weight matrices, estimators, locations", "why_tests_cant": "Non-interference is a statement about pairs of runs over all values of y[i] and all estimators.", "anchors": ["georegression/weight_model.py:WeightModel.fit", "georegression/weight_model.py:_fit", "README.md"]}
{"id": "C37", "title": "Locality: a local prediction depends only on its neighbours", "statement": "local_predict_[i] depends only on X[i], the i-th weight row and the observations (X[j], y[j]) with non-zero weight in it.", "quantifier": "all data, weights, estimators", "why_tests_cant": "Two-run property over all data.", "anchors": ["georegression/weight_model.py:_fit", "georegression/weight_model.py:WeightModel.fit"]}
{"id": "C38", "title": "Results do not depend on the number of patches or the schedule", "statement": "For every n_patches >= 1, and every order in which joblib runs the batches, _fit returns the same predictions and estimators in the same order as the sequential loop.", "quantifier": "all n_patches >= 1, all schedules, all data", "why_tests_cant": "All schedules and patch counts.", "anchors": ["georegression/weight_model.py:_fit"]}
{"id": "C39", "title": "n_jobs and n_patches agree without location sampling, and diverge with it", "statement": "Without sample_local_rate the n_jobs branch returns the same lists as the n_patches branch. With sampled locations the dense n_jobs branch pairs the k-th sampled location with row k instead of its own row, so local_predict_ is scored against the wrong targets.", "quantifier": "all data; all sampled index sets", "why_tests_cant": "All index sets.", "anchors": ["georegression/weight_model.py:_fit"]}
{"id": "C40", "title": "Attributes of a fitted model are aligned", "statement": "After fit (n_patches path), local_predict_[k], y_sample_[k], local_residual_[k] and (with cache_estimator) local_estimator_list[k] all belong to location local_indices_[k]; local_indices_ is strictly increasing, within range, of length int(rate*N).", "quantifier": "all data, rates, random choices", "why_tests_cant": "All random choices.", "anchors": ["georegression/weight_model.py:WeightModel.fit"]}
{"id": "C41", "title": "Dense and sparse weight matrices give the same fit", "statement": "Fitting with a CSR matrix without stored zeros gives the same local_predict_ as fitting with its dense form. With a stored zero (possible when leave_local_out=False) the sample_weight vector has a different length from the training rows.", "quantifier": "all matrices, data, estimators", "why_tests_cant": "All matrices.", "anchors": ["georegression/weight_model.py:_fit", "georegression/weight_model.py:WeightModel.fit"]}
{"id": "C42", "title": "fit and the caller's weight matrix", "statement": "With leave_local_out=True fit overwrites the diagonal of the caller's weight matrix with 0 (so a later fit with leave_local_out=False on the same matrix still leaves the local point out); with leave_local_out=False the caller's matrix is unchanged.", "quantifier": "all matrices and histories of fits", "why_tests_cant": "All call histories.", "anchors": ["georegression/weight_model.py:WeightModel.fit"]}
{"id": "C43", "title": "Failed fits and the is_fitted_ flag", "statement": "fit without coordinates and without weight matrix raises; but after such a failure the model reports is_fitted_ = True, N and n_features_in_ of the rejected data.", "quantifier": "all models and data", "why_tests_cant": "All prior states.", "anchors": ["georegression/weight_model.py:WeightModel.fit"]}
{"id": "C44", "title": "predict_by_weight is a convex combination", "statement": "predict_by_weight returns for each row i the weighted sum of all local estimators' predictions; with weights from weight_matrix_from_points it lies between the smallest and largest local prediction whenever the point has a neighbour and is exactly 0 when it has none.", "quantifier": "all fitted models, all prediction points", "why_tests_cant": "The domain (real distances, bandwidths, matrices of every size) is infinite; a test samples a few points.", "anchors": ["georegression/weight_model.py:WeightModel.predict_by_weight"]}
{"id": "C45", "title": "Predicting with only a weight matrix", "statement": "Relied on: predict_by_weight / predict_by_fit accept weight_matrix instead of coordinates. False: with coordinate_vector_list=None and a weight matrix of more than one element both methods always raise.", "quantifier": "all models, all weight matrices", "why_tests_cant": "All inputs.", "anchors": ["georegression/weight_model.py:WeightModel.predict_by_weight", "georegression/weight_model.py:WeightModel.predict_by_fit"]}
{"id": "C46", "title": "predict_by_fit: predictions depend on the rest of the batch", "statement": "Relied on: the prediction for a new point does not depend on which other points are predicted in the same call. False: weights are normalised over the prediction points of each training row; predicting one point alone with an adaptive linear/bisquare/tricube kernel gives every non-coincident training point weight 0 and hence an empty training set.", "quantifier": "all training sets, all prediction points", "why_tests_cant": "All batches.", "anchors": ["georegression/weight_model.py:WeightModel.predict_by_fit"]}
{"id": "C47", "title": "predict_by_fit trains each new point on exactly the training points whose kernel covers it", "statement": "For fixed bandwidth, the estimator for new point i is trained on exactly the training points j with non-zero kernel weight K(d(j,i)), with sample weight K(d(j,i)) / sum over new points.", "quantifier": "all training and prediction sets", "why_tests_cant": "The domain (real distances, bandwidths, matrices of every size) is infinite; a test samples a few points.", "anchors": ["georegression/weight_model.py:WeightModel.predict_by_fit", "georegression/weight_model.py:_fit"]}
{"id": "C48", "title": "Inspection methods need the caches", "statement": "With the default cache_data=False / cache_estimator=False (as in the README example) importance_score_global, importance_score_local, interaction_score_global and predict_by_weight raise whatever the data.", "quantifier": "all models and data", "why_tests_cant": "All inputs.", "anchors": ["georegression/weight_model.py:WeightModel.importance_score_global", "README.md"]}
{"id": "C49", "title": "Stacking never leaks the target value", "statement": "Without estimator_sample_rate (or with sparse weights) stacking_predict_[i] is unchanged by any change of y[i], for every base estimator, meta estimator, weight matrix and random leave-out sample. With estimator_sample_rate on a dense matrix this is false: base learner 0 is used by every meta model and may have been trained on y[i].", "quantifier": "all data, weights, estimators, samples, locations", "why_tests_cant": "Two-run property over all data and random choices.", "anchors": ["georegression/stacking_model.py:StackingWeightModel.fit", "README.md"]}
{"id": "C50", "title": "Every base prediction used by a meta model was computed", "statement": "If every point has positive weight for itself (kept by meta_fitting_shrink), each X_meta entry the meta model of i reads is the prediction of base learner j on the right observation. If no point served by base learner j has positive weight for i, the dense and sparse paths silently use 0 as that prediction at i.", "quantifier": "all weight matrices and samples", "why_tests_cant": "All matrices and samples.", "anchors": ["georegression/stacking_model.py:StackingWeightModel.fit", "georegression/stacking_model.py:_fit"]}
{"id": "C51", "title": "Stacking requires neighbour_leave_out_rate", "statement": "With the default neighbour_leave_out_rate=None fit raises for all data; with acceptable data and weights it is an AttributeError.", "quantifier": "all data and other parameters", "why_tests_cant": "All inputs.", "anchors": ["georegression/stacking_model.py:StackingWeightModel.fit"]}
{"id": "C52", "title": "leave_local_out has no effect on stacking", "statement": "StackingWeightModel.fit produces the same model for leave_local_out True and False.", "quantifier": "all data, weights, samples", "why_tests_cant": "All inputs.", "anchors": ["georegression/stacking_model.py:StackingWeightModel.fit"]}
{"id": "C53", "title": "Dense, sparse and numba stacking build the same meta problems", "statement": "For a weight matrix with sorted indices, positive stored weights and a positive diagonal, the three code paths give meta model i the same design matrix, targets and sample weights, and the same prediction input.", "quantifier": "all weight matrices and samples", "why_tests_cant": "All matrices.", "anchors": ["georegression/stacking_model.py:StackingWeightModel.fit"]}
{"id": "C54", "title": "StackingEstimator replays the stored stacking prediction", "statement": "local_estimator_list[i].predict(X[[i]]) equals stacking_predict_[i] (when w[i,i] > 0): base estimators are listed in the order of the meta coefficients.", "quantifier": "all data, estimators, samples", "why_tests_cant": "All inputs.", "anchors": ["georegression/stacking_model.py:StackingEstimator.predict", "georegression/stacking_model.py:StackingWeightModel.fit"]}
{"id": "C55", "title": "sample_local_rate and n_jobs are unusable with stacking", "statement": "StackingWeightModel.fit raises whenever sample_local_rate selects fewer than N points, and whenever n_jobs is given without n_patches.", "quantifier": "all data, all rates", "why_tests_cant": "All inputs.", "anchors": ["georegression/stacking_model.py:StackingWeightModel.fit", "georegression/stacking_model.py:_fit"]}
{"id": "C56", "title": "local_residual_ of a stacking model is an N x N matrix", "statement": "Relied on: local_residual_[i] is the residual of location i. For stacking it is an N x N matrix whose (a,b) entry is y[b] - prediction[a].", "quantifier": "all data", "why_tests_cant": "All inputs.", "anchors": ["georegression/stacking_model.py:StackingWeightModel.fit"]}
{"id": "C57", "title": "Stacking fit and the cache_estimator flag", "statement": "A successful fit restores cache_estimator. A fit of a fresh model that raises after validation leaves it True, unless the base learners had already been stored (base_estimator_list set), in which case it has been restored.", "quantifier": "all prior states and failures", "why_tests_cant": "All failure points.", "anchors": ["georegression/stacking_model.py:StackingWeightModel.fit"]}
{"id": "C58", "title": "Stacking prediction on new points uses only computed base predictions", "statement": "In StackingWeightModel.predict_by_fit every X_meta entry used to fit the meta model of new point i is the prediction of base learner j on training point k, for j, k among the training points covering i; the rest of the batch has no influence: the same features and the same weights of training points give the same prediction in any batch and under any schedule. With use_numba or sparse weights the method always raises.", "quantifier": "all training and prediction sets", "why_tests_cant": "All inputs.", "anchors": ["georegression/stacking_model.py:StackingWeightModel.predict_by_fit"]}
{"id": "C59", "title": "estimator_sample_rate always selects base estimator 0", "statement": "Relied on: estimator_sample_rate draws a random subset of the neighbours' base estimators. On the dense path (numpy 1.x) the subset is always {0}, the first base estimator of the data set; with sparse weights the parameter is ignored.", "quantifier": "all data, rates, samples", "why_tests_cant": "All inputs.", "anchors": ["georegression/stacking_model.py:StackingWeightModel.fit"]}
{"id": "C60", "title": "ridge_cholesky minimises the weighted ridge objective", "statement": "For non-negative weights with positive sum and alpha >= 0, the returned coefficients and intercept minimise sum_i w_i (y_i - x_i.c - b)^2 + alpha |c|^2 over all c and b, given that the linear solve is exact; for alpha > 0 the system is non-singular and the minimiser unique.", "quantifier": "all design matrices, targets, weights, alpha", "why_tests_cant": "The domain (real distances, bandwidths, matrices of every size) is infinite; a test samples a few points.", "anchors": ["georegression/numba_impl.py:ridge_cholesky", "georegression/numba_impl.py:mean"]}
{"id": "C61", "title": "r2_score (numba)", "statement": "r2 <= 1, r2 = 1 iff predictions equal the targets when the targets are not constant, r2 is invariant under common shift and scaling; for constant targets it is 1 whatever the predictions.", "quantifier": "all vectors", "why_tests_cant": "The domain (real distances, bandwidths, matrices of every size) is infinite; a test samples a few points.", "anchors": ["georegression/numba_impl.py:r2_score"]}
{"id": "C62", "title": "Global importance perturbs one feature at a time, by a permutation", "statement": "In importance_score_global the (feature f, repeat r) input of local estimator i is X[i] with only feature f replaced by a value of that feature from another row, and over i these replacements are a permutation of the column. It returns whenever the estimators predict and n_repeats is positive.", "quantifier": "all data, all permutations, all repeats", "why_tests_cant": "All permutations.", "anchors": ["georegression/weight_model.py:WeightModel.importance_score_global"]}
{"id": "C63", "title": "Importance accumulates over calls and survives refitting", "statement": "After calls with n_1,...,n_k repeats the returned importance is the mean over all n_1+...+n_k trials; fit does not reset the accumulator, so after a refit the importance mixes trials of the old and the new model.", "quantifier": "all histories of fit / importance calls", "why_tests_cant": "All histories.", "anchors": ["georegression/weight_model.py:WeightModel.importance_score_global", "georegression/weight_model.py:WeightModel.fit"]}
{"id": "C64", "title": "interaction_score_global", "statement": "Relied on: it returns a symmetric F x F interaction matrix. False: with F features and r repeats it raises unless F = r or F = 1 or r = 1, and when it does return, entry (a, b) is the mean over k of I(a,b,k) + I(k,b,a), where I(a,b,k) for a < b is the score decrease after permuting both features in repeat k minus the two mean single decreases, and for a >= b uninitialised memory, so that any entry can be any number.", "quantifier": "all F, r, data", "why_tests_cant": "All shapes; uninitialised memory.", "anchors": ["georegression/weight_model.py:WeightModel.interaction_score_global"]}
{"id": "C65", "title": "Weighted partial dependence is a weighted mean of the individual curves", "statement": "Each partial-dependence value is the weight-normalised mean of the individual predictions, hence lies between their minimum and maximum for non-negative weights; zero-weight rows have no influence; zero total weight raises.", "quantifier": "all curves and weights", "why_tests_cant": "The domain (real distances, bandwidths, matrices of every size) is infinite; a test samples a few points.", "anchors": ["georegression/weight_model.py:local_partial_dependence", "georegression/local_pd.py:local_partial_dependence"]}
{"id": "C66", "title": "bisect_fun terminates and meets its contract", "statement": "For lo <= hi bisect_fun terminates with lo <= v <= hi, evaluates fun only inside [lo,hi), and v = lo or fun(v-1) < target, and v = hi or fun(v) >= target, for every fun; for non-decreasing fun it is the exact threshold.", "quantifier": "all functions, targets, lo, hi", "why_tests_cant": "All functions.", "anchors": ["georegression/ale_utils.py:bisect_fun"]}
{"id": "C67", "title": "adaptive_grid: every bin has more than min_bin_points points", "statement": "When adaptive_grid succeeds on at least 3 values its grid is strictly increasing from the minimum to the maximum value and every bin contains more than min_bin_points values (unless all values are equal, when the grid is a single point); it raises iff there are at most min_bin_points values.", "quantifier": "all value arrays, all non-negative min_bin_points", "why_tests_cant": "The domain (real distances, bandwidths, matrices of every size) is infinite; a test samples a few points.", "anchors": ["georegression/ale_utils.py:adaptive_grid", "georegression/ale_utils.py:minimum_satisfied"]}
{"id": "C68", "title": "Accumulated local effects recover additive effects exactly", "statement": "If the predictor is g(x_feature) + h(other features) and the feature array holds floats then weighted_ale returns g at the grid points up to the additive constant avg h of the first bin; in particular a feature the predictor ignores gets a flat curve.", "quantifier": "all data, positive weights, predictors of this form", "why_tests_cant": "The domain (real distances, bandwidths, matrices of every size) is infinite; a test samples a few points.", "anchors": ["georegression/local_ale.py:weighted_ale"]}
{"id": "C69", "title": "Normalised ALE is centred", "statement": "With normalize=True the count-weighted trapezoidal mean of the ALE curve is 0; the two variants differ by a constant.", "quantifier": "all data and predictors", "why_tests_cant": "The domain (real distances, bandwidths, matrices of every size) is infinite; a test samples a few points.", "anchors": ["georegression/local_ale.py:weighted_ale", "georegression/weight_model.py:WeightModel.global_ALE"]}
{"id": "C70", "title": "When weighted_ale fails", "statement": "weighted_ale raises when at most min_bin_points or fewer than three observations are given, when the feature is constant, and when weights is None (its default).", "quantifier": "all data", "why_tests_cant": "All inputs.", "anchors": ["georegression/local_ale.py:weighted_ale", "georegression/ale_utils.py:adaptive_grid"]}
{"id": "C71", "title": "The two global Moran statistics agree and are shift/scale invariant", "statement": "spatiotemporal_MI and STMI return the same I and the same expectation, unchanged when y is replaced by a*y + b (a <> 0).", "quantifier": "all non-constant y, all weight matrices", "why_tests_cant": "The domain (real distances, bandwidths, matrices of every size) is infinite; a test samples a few points.", "anchors": ["georegression/spatial_temporal_moran.py:spatiotemporal_MI", "georegression/spatial_temporal_moran.py:STMI"]}
{"id": "C72", "title": "Local Moran values sum to the global one", "statement": "The sum of spatiotemporal_LMI(y,w) equals S0 * I where S0 is the total of the internally normalised weights.", "quantifier": "all y, w", "why_tests_cant": "The domain (real distances, bandwidths, matrices of every size) is infinite; a test samples a few points.", "anchors": ["georegression/spatial_temporal_moran.py:spatiotemporal_LMI"]}
{"id": "C73", "title": "Weight standardisation inside the Moran functions", "statement": "Relied on: weights are row-standardised. False: each column j is divided by the sum of row j; the result is row-standardised when all row sums are equal (e.g. rows already summing to 1) but not in general.", "quantifier": "all weight matrices", "why_tests_cant": "The domain (real distances, bandwidths, matrices of every size) is infinite; a test samples a few points.", "anchors": ["georegression/spatial_temporal_moran.py:STMI", "georegression/spatial_temporal_moran.py:spatiotemporal_MI", "georegression/spatial_temporal_moran.py:spatiotemporal_LMI"]}
{"id": "C74", "title": "The two Moran variances disagree", "statement": "Relied on: spatiotemporal_MI and STMI give the same variance. False: their difference is (n-1) * D * S5 / ((n-1)(n-2)(n-3) S0^2), D = sum z^4/(sum z^2)^2, non-zero in general.", "quantifier": "all y, w with n > 3", "why_tests_cant": "The domain (real distances, bandwidths, matrices of every size) is infinite; a test samples a few points.", "anchors": ["georegression/spatial_temporal_moran.py:spatiotemporal_MI", "georegression/spatial_temporal_moran.py:STMI"]}
{"id": "C75", "title": "Cluster-aware sampling represents every cluster", "statement": "sample_partial with cluster labels returns at least one index of each cluster, never more than the cluster size, without repetition, and at least sample_size indices in total when sample_size <= N.", "quantifier": "all label arrays, sizes, random choices", "why_tests_cant": "All random choices.", "anchors": ["georegression/visualize/pd.py:sample_partial"]}
{"id": "C76", "title": "Partial-line distance matrices are symmetric", "statement": "partial_distance returns a symmetric matrix; finite line distances appear off the diagonal unchanged and non-overlapping pairs get twice the largest finite distance.", "quantifier": "all families of lines", "why_tests_cant": "The domain (real distances, bandwidths, matrices of every size) is infinite; a test samples a few points.", "anchors": ["georegression/visualize/pd.py:partial_distance"]}
{"id": "C77", "title": "choose_cluster_typical returns the medoid of every cluster", "statement": "For each cluster value, in increasing order, exactly one index is returned, it belongs to the cluster and minimises the sum of distances within the cluster.", "quantifier": "all embeddings, all label vectors", "why_tests_cant": "The domain (real distances, bandwidths, matrices of every size) is infinite; a test samples a few points.", "anchors": ["georegression/visualize/pd.py:choose_cluster_typical"]}
{"id": "C78", "title": "range_margin and vector_to_color normalisation", "statement": "range_margin returns an interval containing all values (margin >= 0); vector_to_color maps the minimum to 0, the maximum to 1 and everything into [0,1] unless the vector is constant, where it divides by zero.", "quantifier": "all vectors", "why_tests_cant": "The domain (real distances, bandwidths, matrices of every size) is infinite; a test samples a few points.", "anchors": ["georegression/visualize/utils.py:range_margin", "georegression/visualize/utils.py:vector_to_color"]}
{"id": "C79", "title": "Simulation coefficients are bounded as documented", "statement": "directional_coefficient is bounded by its amplitude, radial_coefficient is non-negative and zero only at its origin, gaussian_coefficient equals its amplitude at the mean and is maximal there, uniform sample_x stays within bounds shifted by mean.", "quantifier": "all points and parameters", "why_tests_cant": "The domain (real distances, bandwidths, matrices of every size) is infinite; a test samples a few points.", "anchors": ["georegression/simulation/simulation_utils.py"]}
{"id": "C80", "title": "Kernel weights equal the textbook formulas, entry by entry", "statement": "For b > 0 and d >= 0 the weight is the textbook kernel of d/b; kernel_function on a matrix applies this to each entry with the bandwidth of its row.", "quantifier": "all kernels, matrices, bandwidths", "why_tests_cant": "The domain (real distances, bandwidths, matrices of every size) is infinite; a test samples a few points.", "anchors": ["georegression/kernel.py:kernel_function"]}
{"id": "C81", "title": "dask and numpy weight matrices", "statement": "With a fixed non-negative bandwidth in every dimension the dask variant of weight_matrix_from_distance returns the same matrix as the numpy variant. With a fractional neighbour_count it does not in general (linear instead of median-unbiased quantile).", "quantifier": "all distance matrices, kernels and bandwidths", "why_tests_cant": "The domain (real distances, bandwidths, matrices of every size) is infinite; a test samples a few points.", "anchors": ["georegression/weight_matrix.py:weight_matrix_from_distance"]}
{"id": "C82", "title": "Exactly when WeightModel.fit succeeds", "statement": "With a weight matrix in force, fit succeeds iff X and y are valid data of equal length, at most one of n_jobs/n_patches is given and it is not 0, the requested number of local samples can be drawn, at least two locations are fitted, and the estimator fits and predicts at every drawn location. With at most one location it always raises.", "quantifier": "all data, weights, configurations, schedules, estimators", "why_tests_cant": "The domain (real distances, bandwidths, matrices of every size) is infinite; a test samples a few points.", "anchors": ["georegression/weight_model.py:WeightModel.fit", "georegression/weight_model.py:_fit"]}
{"id": "C83", "title": "A model fitted on a sample of locations cannot predict by weight", "statement": "Relied on: a model fitted with sample_local_rate can predict_by_weight. False: with more than one but not all locations fitted, predict_by_weight raises for every non-empty batch.", "quantifier": "all fitted objects, batches and weight computations", "why_tests_cant": "The domain (real distances, bandwidths, matrices of every size) is infinite; a test samples a few points.", "anchors": ["georegression/weight_model.py:WeightModel.predict_by_weight"]}
{"id": "C84", "title": "The reported leave-local-out score is the R2 of the stored predictions", "statement": "After a successful fit llocv_score_ is the R2 of local_predict_ against y_sample_ (1 - SSE/SST; for constant targets 1 if exact, else 0), both of which have the same length, at least 2.", "quantifier": "all data, weights, configurations, schedules", "why_tests_cant": "The domain (real distances, bandwidths, matrices of every size) is infinite; a test samples a few points.", "anchors": ["georegression/weight_model.py:WeightModel.fit"]}
{"id": "C85", "title": "meta_fitting_shrink_rate overwrites the caller's weight matrix", "statement": "Relied on: fit leaves the weight matrix passed by the caller alone. False: afterwards that object holds the matrix shrunk by meta_fitting_shrink_rate (and the unchanged matrix when no rate is given).", "quantifier": "all data, weights (dense or sparse), rates, schedules", "why_tests_cant": "The domain (real distances, bandwidths, matrices of every size) is infinite; a test samples a few points.", "anchors": ["georegression/stacking_model.py:StackingWeightModel.fit"]}
{"id": "C86", "title": "weight_matrix_ and neighbour_matrix_ of a stacking model", "statement": "After a fit from coordinates weight_matrix_ is the shrunk matrix while neighbour_matrix_ is the positivity mask of the matrix before shrinking, so with meta_fitting_shrink_rate the two describe different neighbourhoods.", "quantifier": "all data, coordinates, rates, schedules", "why_tests_cant": "The domain (real distances, bandwidths, matrices of every size) is infinite; a test samples a few points.", "anchors": ["georegression/stacking_model.py:StackingWeightModel.fit"]}
{"id": "C87", "title": "Stacking does not depend on batches or parallel schedules", "statement": "If fit succeeds, then fit with any other number of patches and any other schedule of the parallel loops gives exactly the same outcome: every attribute, the caller's matrix and the generator state.", "quantifier": "all data, weights, configurations, schedules, numbers of patches", "why_tests_cant": "Every interleaving.", "anchors": ["georegression/stacking_model.py:StackingWeightModel.fit", "georegression/stacking_model.py:_fit"]}
{"id": "C88", "title": "predict_by_fit of a stacking model replaces the fitted model", "statement": "Relied on: predicting leaves the fitted model alone. False: after a successful predict_by_fit base_estimator_list belongs to the training data passed to it and local_estimator_list has one entry per new point, while stacking_predict_, llocv_stacking_ and local_indices_ are still those of the last fit (or missing).", "quantifier": "all prior states, data, coordinates", "why_tests_cant": "The domain (real distances, bandwidths, matrices of every size) is infinite; a test samples a few points.", "anchors": ["georegression/stacking_model.py:StackingWeightModel.predict_by_fit"]}
{"id": "C89", "title": "A feature no local model uses has importance exactly zero", "statement": "If no local estimator depends on feature f then every trial of importance_score_global for f is exactly 0, for every permutation drawn.", "quantifier": "all data, estimators, permutations, repeats", "why_tests_cant": "All permutations.", "anchors": ["georegression/weight_model.py:WeightModel.importance_score_global"]}
{"id": "C90", "title": "partial_dependence and local_ICE", "statement": "They return, per location, the curves of its own estimator on its positively weighted observations, exactly when these curves exist and do not all have the same number of points. If all curves have the same length they always raise.", "quantifier": "all data, weights, schedules, grids", "why_tests_cant": "The domain (real distances, bandwidths, matrices of every size) is infinite; a test samples a few points.", "anchors": ["georegression/weight_model.py:WeightModel.partial_dependence", "georegression/weight_model.py:WeightModel.local_ICE"]}
{"id": "C91", "title": "Inspecting a model fitted on a sample of locations raises", "statement": "Relied on: the inspection methods work for a model fitted with sample_local_rate. False: with fewer local estimators than observations importance_score_global, importance_score_local, partial_dependence and local_ICE raise for all data.", "quantifier": "all fitted objects", "why_tests_cant": "The domain (real distances, bandwidths, matrices of every size) is infinite; a test samples a few points.", "anchors": ["georegression/weight_model.py:WeightModel.importance_score_global", "georegression/weight_model.py:WeightModel.partial_dependence"]}
{"id": "C92", "title": "Local importance uses exactly the positively weighted observations", "statement": "Row i of importance_score_local is the permutation importance of estimator i on exactly the observations with positive weight at i, with those weights, whatever order the parallel tasks run in.", "quantifier": "all data, weights, schedules", "why_tests_cant": "Every interleaving.", "anchors": ["georegression/weight_model.py:WeightModel.importance_score_local"]}
{"id": "C93", "title": "weight_matrix_ and neighbour_matrix_ of a fitted model", "statement": "After a successful fit with a NumPy matrix weight_matrix_ is the matrix in force (its diagonal zeroed with leave_local_out) and neighbour_matrix_ marks exactly its positive entries.", "quantifier": "all data, matrices, configurations", "why_tests_cant": "The domain (real distances, bandwidths, matrices of every size) is infinite; a test samples a few points.", "anchors": ["georegression/weight_model.py:WeightModel.fit"]}
{"id": "C94", "title": "global_ALE averages every observation's own effect", "statement": "Each step of the global_ALE curve is the mean, over the observations of the bin, of the change their own local estimator predicts when the feature moves through the bin, other features fixed; the curve is centred. If estimator i predicts g_i(x_feature) + h_i(other features) the step is the mean of the own steps of g_i.", "quantifier": "all fitted models, features, estimators", "why_tests_cant": "The domain (real distances, bandwidths, matrices of every size) is infinite; a test samples a few points.", "anchors": ["georegression/weight_model.py:WeightModel.global_ALE"]}
{"id": "C95", "title": "ALE of a model fitted on a sample of locations", "statement": "Relied on: curve k of local_ALE describes the estimator of location local_indices_[k] on the neighbourhood of that location. False: it is computed on the neighbourhood of location k, without an exception; global_ALE raises. local_ALE also raises for every model in which some location has at most five positively weighted neighbours.", "quantifier": "all data, weights, samples, schedules", "why_tests_cant": "The domain (real distances, bandwidths, matrices of every size) is infinite; a test samples a few points.", "anchors": ["georegression/weight_model.py:WeightModel.local_ALE", "georegression/weight_model.py:WeightModel.global_ALE"]}
{"id": "C96", "title": "ALE of integer-valued features", "statement": "Relied on: weighted_ale recovers additive effects for integer data too. False: if X is an integer array the grid points are truncated when they are written into it, so the value reported for grid point q is the effect at q truncated to an integer.", "quantifier": "all integer-typed data, additive predictors, positive weights", "why_tests_cant": "The domain (real distances, bandwidths, matrices of every size) is infinite; a test samples a few points.", "anchors": ["georegression/local_ale.py:weighted_ale"]}
{"id": "C97", "title": "STMI's p-value is a lower tail", "statement": "Relied on: a small p returned by STMI means significant spatial autocorrelation. False: p = cdf((I - E)/sqrt(V)), so p exceeds 1/2 exactly when I exceeds its expectation; positive autocorrelation gives p near 1.", "quantifier": "all non-constant y, usable weights, n >= 4, increasing cdf", "why_tests_cant": "The domain (real distances, bandwidths, matrices of every size) is infinite; a test samples a few points.", "anchors": ["georegression/spatial_temporal_moran.py:STMI"]}
{"id": "C98", "title": "Moran statistics do not depend on the order of the observations", "statement": "Relabelling the observations (y and both axes of w by the same permutation) leaves spatiotemporal_MI and STMI unchanged and permutes the values of spatiotemporal_LMI.", "quantifier": "all y, w, permutations, n >= 4", "why_tests_cant": "The domain (real distances, bandwidths, matrices of every size) is infinite; a test samples a few points.", "anchors": ["georegression/spatial_temporal_moran.py:spatiotemporal_MI", "georegression/spatial_temporal_moran.py:STMI", "georegression/spatial_temporal_moran.py:spatiotemporal_LMI"]}
{"id": "C99", "title": "STMI reports the exact randomisation mean and variance of I", "statement": "When the diagonal of w is zero, the expectation and variance returned by STMI are the mean and the variance of I over all n! rearrangements of y (with the internally scaled weights). With a non-zero diagonal the expectation is not that mean in general.", "quantifier": "all non-constant y, usable w, n >= 4", "why_tests_cant": "All n! permutations for every n.", "anchors": ["georegression/spatial_temporal_moran.py:STMI"]}
{"id": "C100", "title": "Moran statistics of degenerate inputs", "statement": "One observation raises ZeroDivisionError; constant y, or a location without neighbours in non-negative weights, gives I = NaN without an exception.", "quantifier": "all y, w", "why_tests_cant": "The domain (real distances, bandwidths, matrices of every size) is infinite; a test samples a few points.", "anchors": ["georegression/spatial_temporal_moran.py:spatiotemporal_MI", "georegression/spatial_temporal_moran.py:STMI"]}
{"id": "C101", "title": "Plain sampling of lines is exact and reproducible", "statement": "Without labels sample_partial returns exactly the requested number of distinct in-range indices (an int is a count, a float a rate cut towards zero) and raises ValueError when that number is negative or exceeds N; with a random_state the result does not depend on earlier random draws; giving no or two selection methods raises.", "quantifier": "all sizes, rates, line families, random choices, generator states", "why_tests_cant": "All random choices and generator histories.", "anchors": ["georegression/visualize/pd.py:sample_partial"]}
{"id": "C102", "title": "Quantile selection returns the nearest-rank line", "statement": "For every quantile q sample_partial returns the first line whose mean equals the order statistic of rank nearest to (N-1)q of the line means; the generator is not advanced.", "quantifier": "all line families, quantiles in [0,1], tie-breaking rules", "why_tests_cant": "The domain (real distances, bandwidths, matrices of every size) is infinite; a test samples a few points.", "anchors": ["georegression/visualize/pd.py:sample_partial"]}
{"id": "C103", "title": "Line distances ignore vertical position", "statement": "Moving every line up or down by its own constant leaves partial_distance unchanged; the distance of two overlapping lines is zero exactly when they differ by a constant at all their common points.", "quantifier": "all families of lines, all shifts", "why_tests_cant": "The domain (real distances, bandwidths, matrices of every size) is infinite; a test samples a few points.", "anchors": ["georegression/visualize/pd.py:partial_distance"]}
{"id": "C104", "title": "Line distance is not the minimal shifted distance", "statement": "Relied on (comment in the code): the distance is the minimal weighted square distance over vertical shifts. False: the shift used is the unweighted mean difference, so the distance exceeds the minimum by the square of the difference between the weighted and the unweighted mean.", "quantifier": "all pairs of overlapping lines", "why_tests_cant": "The domain (real distances, bandwidths, matrices of every size) is infinite; a test samples a few points.", "anchors": ["georegression/visualize/pd.py:partial_distance"]}
{"id": "C105", "title": "Two lines without common range", "statement": "Relied on: lines without a common range are far apart. False: with two such lines (and whenever all finite distances are zero) partial_distance reports distance 0.", "quantifier": "all pairs of non-overlapping lines", "why_tests_cant": "The domain (real distances, bandwidths, matrices of every size) is infinite; a test samples a few points.", "anchors": ["georegression/visualize/pd.py:partial_distance"]}
{"id": "C106", "title": "Hover index and legend of cluster plots", "statement": "Relied on: hovering over a point shows the index of its observation. True in embedding_plot. False in scatter_3d with is_cluster: the k-th point of every cluster shows k, right only if all earlier observations are in the same cluster. In both plots every observation is in exactly one trace, and partial_plot_3d shows one legend entry per cluster.", "quantifier": "all label vectors", "why_tests_cant": "The domain (real distances, bandwidths, matrices of every size) is infinite; a test samples a few points.", "anchors": ["georegression/visualize/scatter.py:scatter_3d", "georegression/visualize/pd.py:embedding_plot", "georegression/visualize/pd.py:partial_plot_3d"]}
{"id": "C107", "title": "Importance plot keeps names and values together", "statement": "global_importance_plot draws the features in increasing order of mean importance, each row of values with its own label.", "quantifier": "all importance matrices, label lists, argsort tie-breaking", "why_tests_cant": "The domain (real distances, bandwidths, matrices of every size) is infinite; a test samples a few points.", "anchors": ["georegression/visualize/importance.py:global_importance_plot"]}
{"id": "C108", "title": "scatter_3d keeps the geographic aspect ratio", "statement": "With positive x- and y-extent the axes are true to scale and the shorter one has length 1; if one extent is zero an aspect is infinite, if both are zero it is NaN.", "quantifier": "all extents, numbers of slices", "why_tests_cant": "The domain (real distances, bandwidths, matrices of every size) is infinite; a test samples a few points.", "anchors": ["georegression/visualize/scatter.py:scatter_3d"]}
{"id": "C109", "title": "Line style follows cluster size", "statement": "In partial_plot_2d every opacity and width lies within its configured range, larger clusters never get a smaller value, and equal cluster sizes give the maximum.", "quantifier": "all label vectors, ranges, non-negative powers, with and without sigmoid", "why_tests_cant": "The domain (real distances, bandwidths, matrices of every size) is infinite; a test samples a few points.", "anchors": ["georegression/visualize/pd.py:partial_plot_2d"]}
{"id": "C110", "title": "coefficient_wrapper combines coefficients point by point", "statement": "With two or more coefficients and a reduction the wrapped coefficient at every point is the reduction of the coefficients there; with none it raises ValueError. Relied on: summing a single coefficient gives that coefficient. False: it gives the total over all points.", "quantifier": "all reductions, numbers of coefficients, points", "why_tests_cant": "The domain (real distances, bandwidths, matrices of every size) is infinite; a test samples a few points.", "anchors": ["georegression/simulation/simulation_utils.py:coefficient_wrapper"]}
{"id": "C111", "title": "sample_points respects type and bounds of every dimension", "statement": "sample_points returns n points of the requested dimension; continuous coordinates lie within their bounds, discrete ones are among the given classes, other types give zero; it succeeds for all sensible arguments; a flat list such as [-1, 1] raises TypeError.", "quantifier": "all n, dimensions, bounds, types, random draws", "why_tests_cant": "All random draws.", "anchors": ["georegression/simulation/simulation_utils.py:sample_points"]}
{"id": "C112", "title": "Normal and exponential sample_x", "statement": "Each value is the standard draw scaled and shifted by the parameters at its own point; exponential values are non-negative for non-negative scale; an unknown distribution returns None. Relied on: variance is the variance of the normal samples. False: it multiplies the standard deviation, so the variance is multiplied by its square.", "quantifier": "all n, parameters (numbers, arrays or functions of the points), random draws", "why_tests_cant": "All random draws.", "anchors": ["georegression/simulation/simulation_utils.py:sample_x"]}
{"id": "C113", "title": "sample_x overwrites functional bounds", "statement": "Relied on: a second sample_x with the same bounds list and other points evaluates the bound functions at these points. False: the first call replaces them in the caller's list by their values. As a tuple they raise TypeError.", "quantifier": "all call histories", "why_tests_cant": "History-dependent.", "anchors": ["georegression/simulation/simulation_utils.py:sample_x"]}
{"id": "C114", "title": "generate_sample produces the model it describes", "statement": "Points lie in the square, x1 within 1 of a coefficient and x2 within 2 of three times a coefficient at each point, y is coefficient * x1 * x2; the result does not depend on the random state before the call. Relied on: it is the same coefficient; true for deterministic coefficient functions, false for random ones. A list of coefficient functions always raises TypeError, f_square_2 always raises IndexError.", "quantifier": "all counts, coefficient functions, random draws", "why_tests_cant": "All random draws and generator states.", "anchors": ["georegression/simulation/simulation.py:generate_sample"]}
{"id": "C115", "title": "Response functions have their documented shape", "statement": "sigmoid is odd, increasing and bounded by its coefficient; relu is zero on negatives and linear otherwise; square, linear and interaction are what they say; exponential is positive and increasing.", "quantifier": "all real arguments", "why_tests_cant": "The domain (real distances, bandwidths, matrices of every size) is infinite; a test samples a few points.", "anchors": ["georegression/simulation/simulation_utils.py:sigmoid_function", "georegression/simulation/simulation_utils.py:relu_function", "georegression/simulation/simulation_utils.py:polynomial_function"]}
{"id": "C116", "title": "Random bumps are well-formed", "statement": "Every bump drawn by coef_auto_gau_weak/strong has its centre in the square, amplitude of size 1 to 2, variances in range and a positive semidefinite covariance. Relied on: always definite. False: it is singular exactly when the drawn covariance hits its extreme, which uniform allows.", "quantifier": "all random draws, all numbers of bumps", "why_tests_cant": "All random draws.", "anchors": ["georegression/simulation/simulation.py:coef_auto_gau_weak", "georegression/simulation/simulation.py:coef_auto_gau_strong"]}
{"id": "C117", "title": "Several dimensions sharing one cache file", "statement": "With the dask path and a file of its own for each dimension, every dimension gets and keeps its own distances. Relied on: the same holds when one filepath is given for all. False: every dimension is given the first one's distances; with overwrite (or no name) the results are right but the file keeps only the last dimension's.", "quantifier": "all dimensions, coordinates, metrics, contents of the disk", "why_tests_cant": "All coordinates and disk states.", "anchors": ["georegression/distance_utils.py:_distance_matrices", "georegression/distance_utils.py:_distance_matrix"]}
{"id": "C118", "title": "Interrupted or concurrent writes of the cache", "statement": "Whatever the row blocks and the order in which they are stored, an uninterrupted run stores and returns the right distances, and overwrite=True repairs any state of the disk. Relied on: a run that dies (or is read by another process) while storing does not corrupt later ones. False: from the moment the metadata are written, later runs read every block not yet stored as distance 0 without any exception, which makes the weights of those points uniform; before that, later runs raise.", "quantifier": "all crash points, block sizes, storage orders, disk states, later calls", "why_tests_cant": "All crash points and schedules.", "anchors": ["georegression/distance_utils.py:_distance_matrix"]}
{"id": "C119", "title": "The Moran diagram shows Moran's I", "statement": "plot_moran_diagram draws one point per observation, at its deviation from the mean and the weighted sum of its neighbours' deviations, and the least-squares line through the origin over the range of the deviations. The slope is the reported I times the common row sum of the weights, hence I itself for weights whose rows sum to one.", "quantifier": "all non-constant y, all weight matrices, any least-squares solver", "why_tests_cant": "The domain (real distances, bandwidths, matrices of every size) is infinite; a test samples a few points.", "anchors": ["georegression/spatial_temporal_moran.py:plot_moran_diagram"]}
{"id": "C120", "title": "Kernel guarantees survive rounding", "statement": "Computed in any floating-point format with order-preserving rounding (including overflow) and a faithful exp and cube, the weights of non-negative distances are finite and in [0,1], a coincident point weighs exactly 1, and, if the elementary functions are increasing, a nearer point never weighs less.", "quantifier": "all distances, bandwidths, kernels, roundings (binary64 among them)", "why_tests_cant": "All floating-point inputs.", "anchors": ["georegression/kernel.py:kernel_function"]}
{"id": "C121", "title": "The support of the kernels in floating point", "statement": "In binary64 linear, bisquare and tricube weights are 0 exactly from the bandwidth on and positive for every smaller representable distance, however close; a zero bandwidth keeps only coincident points. Relied on: gaussian and exponential weights are never 0. False in binary64: they underflow.", "quantifier": "all binary64 distances and bandwidths", "why_tests_cant": "All floating-point inputs.", "anchors": ["georegression/kernel.py:kernel_function"]}
{"id": "C122", "title": "Row normalisation in floating point", "statement": "Whatever the order and grouping in which the row sum is computed, normalised weights are within [0,1], keep zeros and the order of the weights, and for a row with a non-zero weight add up to 1 within the stated relative error; the product over the dimensions stays within [0,1] and below each factor.", "quantifier": "all rows, lengths, summation orders, roundings", "why_tests_cant": "All floating-point inputs and summation orders.", "anchors": ["georegression/weight_matrix.py:weight_matrix_from_distance"]}
{"id": "C123", "title": "dask and NumPy kernels agree bit for bit", "statement": "For non-negative distances and bandwidths the dask and the NumPy branch of the kernel return the same floating-point numbers, although dask's bisquare clamps instead of masking.", "quantifier": "all distances, bandwidths, kernels, roundings", "why_tests_cant": "All floating-point inputs.", "anchors": ["georegression/kernel.py:kernel_function"]}
{"id": "C124", "title": "predict_by_weight is the same weighted sum for NumPy and dask weights", "statement": "For any distance_args, the prediction at new point i is the sum over the training locations of weight (i,j) times the prediction of j's local model at i.", "quantifier": "all weights, estimators, coordinates, backends", "why_tests_cant": "The domain (real distances, bandwidths, matrices of every size) is infinite; a test samples a few points.", "anchors": ["georegression/weight_model.py:WeightModel.predict_by_weight"]}
{"id": "C125", "title": "predict_by_fit with dask weights", "statement": "Relied on: predict_by_fit gives the same predictions whether the weights are computed with NumPy or with dask. False: with dask weights the model of new point i is trained on the training observations numbered like the new points that training point i gives weight to, with these weights; with more new points than training points it raises.", "quantifier": "all weights, data, estimators, schedules", "why_tests_cant": "The domain (real distances, bandwidths, matrices of every size) is infinite; a test samples a few points.", "anchors": ["georegression/weight_model.py:WeightModel.predict_by_fit", "georegression/weight_model.py:_fit"]}
{"id": "C126", "title": "What a fit from coordinates trains on", "statement": "fit with coordinates succeeds with the predictions ps if and only if the data and the parallelism settings are accepted, there are two observations or more, and for each location i the estimator trained on exactly the observations (other than i when leave_local_out) that no kernel gives weight zero, each weighted by the product of its kernel weights over the row's sum of products, predicts ps[i] at i.", "quantifier": "all coordinates, metrics, kernels, bandwidths, data, estimators, schedules", "why_tests_cant": "The domain (real distances, bandwidths, matrices of every size) is infinite; a test samples a few points.", "anchors": ["georegression/weight_model.py:WeightModel.fit", "georegression/weight_matrix.py:weight_matrix_from_points"]}
{"id": "C127", "title": "The order of the observations does not matter", "statement": "With an estimator that does not depend on the order of its training rows, permuting the observations (data and coordinates, or data and weight matrix) permutes local_predict_ in the same way, leaves llocv_score_ unchanged, and does not change whether fit succeeds.", "quantifier": "all permutations, data, coordinates, metrics, kernels, schedules", "why_tests_cant": "The domain (real distances, bandwidths, matrices of every size) is infinite; a test samples a few points.", "anchors": ["georegression/weight_model.py:WeightModel.fit"]}
{"id": "C128", "title": "Units and origin of the coordinates do not matter", "statement": "Rescaling the distances of each dimension by a positive constant of its own, with fixed bandwidths expressed in the new unit (adaptive bandwidths need no change), leaves the weights and the whole fit unchanged; for euclidean coordinates, rescaling and translating each coordinate array does this.", "quantifier": "all positive scales per dimension, translations, coordinates, kernels", "why_tests_cant": "The domain (real distances, bandwidths, matrices of every size) is infinite; a test samples a few points.", "anchors": ["georegression/weight_model.py:WeightModel.fit", "georegression/weight_matrix.py:weight_matrix_from_distance"]}
{"id": "C129", "title": "What the constructors accept and store", "statement": "WeightModel and StackingWeightModel reject a call only when a parameter is given twice or the estimator is missing (the stacking model also any positional argument beyond its twenty); otherwise each argument, by position, keyword or default, is stored under its own name, n_patches becomes the number of cores only if neither it nor n_jobs is given, and nothing is marked as fitted. Relied on: a misspelt keyword is reported. False: it is accepted and the model is the one without it. Relied on: midpoint configures the stacking model. False: it has no effect.", "quantifier": "all positional and keyword arguments", "why_tests_cant": "All ways of calling a constructor with 13 or 20 parameters and open-ended keywords.", "anchors": ["georegression/weight_model.py:WeightModel.__init__", "georegression/stacking_model.py:StackingWeightModel.__init__"]}
{"id": "C130", "title": "The models in scikit-learn workflows", "statement": "Relied on: WeightModel supports sklearn workflows such as GridSearchCV. False: for every WeightModel or StackingWeightModel, however built, get_params, a non-empty set_params, repr and clone raise RuntimeError and score raises AttributeError. A StackingEstimator can be listed and cloned, but its fit raises TypeError unless called with a single argument.", "quantifier": "all constructor calls of both classes", "why_tests_cant": "All constructor calls.", "anchors": ["georegression/weight_model.py:WeightModel", "georegression/stacking_model.py:StackingEstimator"]}
{"id": "C131", "title": "fit reads X.shape and prints the estimator before checking anything", "statement": "Relied on: fit takes array-likes. False: with X a nested list WeightModel.fit raises AttributeError, and with a WeightModel as local estimator RuntimeError, leaving the object, the caller's weights, the random generator and the files as they were; predict_by_fit of a nested list never returns. predict_by_weight and StackingWeightModel.fit treat a nested list as the array of its numbers.", "quantifier": "all data, weights and states", "why_tests_cant": "All inputs.", "anchors": ["georegression/weight_model.py:WeightModel.fit", "georegression/weight_model.py:WeightModel.log_before_fitting"]}
{"id": "C132", "title": "The README's sample data", "statement": "generate_sample(count, f_square, coef_strong) returns points in the square, one feature within [-10, 10] and, for every seed and size, the response s(point) * x^2 for one fixed surface s with values in (-3, 7]; the response is finite and within [-300, 700] except at a point that is exactly the centre, where it is NaN. f_square_const and f_sigmoid give the responses they name; f_square_2 and f_interact always raise IndexError; the random state before the call does not matter. Relied on: with the same seed, samples of different sizes come from the same surface. False for random coefficient functions: the surface depends on the size.", "quantifier": "all seeds, sizes, coefficient functions, generators", "why_tests_cant": "All random draws.", "anchors": ["georegression/simulation/simulation_for_fitting.py:generate_sample", "georegression/simulation/simulation_for_fitting.py:coef_strong", "georegression/simulation/simulation_for_fitting.py:f_square"]}
{"id": "C133", "title": "The coefficient surfaces of the experiments", "statement": "coef_manual_gau is a cone plus six bumps (the bump first assigned to coef_gau_6 is not among them) with values in (-2.5, 6.8]; coef_auto_gau_weak/strong raise exactly when a drawn covariance is singular, and else are the sum of cone, direction and all bumps, finite except at the centre and of size at most 2 (rounds + 1). In the importance experiments each coefficient function drives its own feature; too few coefficient functions raise IndexError.", "quantifier": "all points, random draws, numbers of bumps", "why_tests_cant": "All random draws and points.", "anchors": ["georegression/simulation/simulation_for_importance.py:coef_manual_gau", "georegression/simulation/simulation_for_importance.py:generate_sample", "georegression/simulation/simulation_for_fitting.py:coef_auto_gau_strong", "georegression/simulation/simulation_for_fitting.py:coef_auto_gau_weak"]}
{"id": "C134", "title": "Exactly when fitting the stacking model succeeds", "statement": "With finite weights of the right shape (and non-negative ones for numba), StackingWeightModel.fit returns normally if and only if the data pass the checks, sample_local_rate keeps every location, the parallelism settings give at least one batch, the way the weights are stored suits the settings (dense: no numba; sparse: somebody has the last observation as a neighbour), and every base learner and every meta learner can be fitted and predicts; for learners that fit exactly when given data this means that every observation keeps a base training row after leaving out and has at least one neighbour whose base estimator enters its meta model. With use_numba, alpha > 0 and an exact solver the ridge never fails, so sparse weights and these two conditions decide.", "quantifier": "all data, weights, settings, schedules, leave-out draws, learners", "why_tests_cant": "The domain (real distances, bandwidths, matrices of every size) is infinite; a test samples a few points.", "anchors": ["georegression/stacking_model.py:StackingWeightModel.fit"]}
{"id": "C135", "title": "Dense and sparse weights in the stacking model", "statement": "Relied on: the stacking model accepts a sparse weight matrix whenever it accepts the same matrix dense. False without numba: the sparse fit succeeds if and only if the dense one does and the last observation is, after meta-fit shrinking, a neighbour of some observation; if it is nobody's neighbour the sparse fit raises.", "quantifier": "all weights, data, settings, learners, schedules", "why_tests_cant": "The domain (real distances, bandwidths, matrices of every size) is infinite; a test samples a few points.", "anchors": ["georegression/stacking_model.py:StackingWeightModel.fit"]}
{"id": "C136", "title": "Leaving all neighbours out", "statement": "With neighbour_leave_out_rate of 1 or more (and no leave-out shrinking), non-negative weights in which being a neighbour is mutual, and learners that need data, StackingWeightModel.fit raises.", "quantifier": "all data, weights, rates, learners, schedules", "why_tests_cant": "The domain (real distances, bandwidths, matrices of every size) is infinite; a test samples a few points.", "anchors": ["georegression/stacking_model.py:StackingWeightModel.fit", "georegression/neighbour_utils.py:sample_neighbour"]}
{"id": "C137", "title": "Fitting the stacking model from coordinates", "statement": "Given coordinates, StackingWeightModel's weights are the products of the kernel weights divided by their row sum; every observation is its own neighbour with the largest weight of its row (non-negative bandwidths, zero distance to itself). Hence, with learners that need data, fit from coordinates returns normally if and only if the data and settings are accepted, numba is off, and after leaving out and shrinking every base learner has a training row and every meta model an observation; sparse and dense storage of such weights are accepted alike; and every stored stacking estimator reproduces the stored prediction at its own observation.", "quantifier": "all coordinates, metrics, kernels, bandwidths, data, learners, draws, schedules", "why_tests_cant": "The domain (real distances, bandwidths, matrices of every size) is infinite; a test samples a few points.", "anchors": ["georegression/stacking_model.py:StackingWeightModel.fit", "georegression/weight_matrix.py:weight_matrix_from_points"]}
{"id": "C138", "title": "Exactly when the stacking model predicts new points", "statement": "With learners that need data and dense weights, StackingWeightModel.predict_by_fit returns if and only if the training data and settings are accepted, numba is off, every training point has a neighbour to be trained on, every new point has a training point with positive weight, and every training point has positive weight at some new point. Relied on: a point that can be predicted in a batch can be predicted alone. False: one new point at the end of a line of training points raises, both ends together do not.", "quantifier": "all training data, new points, weights, settings, learners, schedules", "why_tests_cant": "The domain (real distances, bandwidths, matrices of every size) is infinite; a test samples a few points.", "anchors": ["georegression/stacking_model.py:StackingWeightModel.predict_by_fit"]}
{"id": "C139", "title": "ICE curves of integer data", "statement": "Relied on: in a curve (x, y) returned by local_ICE each y is the local estimator's prediction for the location's own observation with that feature set to x. This holds if X holds floats. False if X holds integers: the grid is stored in an integer copy of the observation, so the curve is constant between consecutive integers whatever the estimator.", "quantifier": "all integer or float data, estimators, weights, grids", "why_tests_cant": "The domain (real distances, bandwidths, matrices of every size) is infinite; a test samples a few points.", "anchors": ["georegression/weight_model.py:WeightModel.local_ICE"]}
{"id": "C140", "title": "local_ICE and partial_dependence on large data", "statement": "Relied on: both methods work on data of any size. False: if every feature takes at least 100 (sklearn's grid resolution) distinct values among the positively weighted observations of every location, both raise, whatever the data and estimators. local_ICE returns if two of its grids differ in size.", "quantifier": "all data, weights, estimators, grids, schedules", "why_tests_cant": "The domain (real distances, bandwidths, matrices of every size) is infinite; a test samples a few points.", "anchors": ["georegression/weight_model.py:WeightModel.local_ICE", "georegression/weight_model.py:WeightModel.partial_dependence"]}
{"id": "C141", "title": "The ridge solver under changes of its data", "statement": "For alpha > 0: the result of ridge_cholesky does not depend on the order of the observations; observations of weight 0 are ignored; one observation of weight v + v' counts as two with weights v and v'; multiplying all weights and alpha by the same positive number changes nothing; replacing y by a*y + k gives the coefficients a*coef and the intercept a*intercept + k; adding a vector to every row of X keeps the coefficients and the predictions at the moved points. Relied on: the predictions do not depend on the units of a feature. False: doubling a feature changes them.", "quantifier": "all data, weights, penalties, exact linear solvers", "why_tests_cant": "The domain (real distances, bandwidths, matrices of every size) is infinite; a test samples a few points.", "anchors": ["georegression/numba_impl.py:ridge_cholesky"]}
{"id": "C142", "title": "The ridge penalty shrinks", "statement": "A larger alpha never gives larger coefficients (sum of squares) nor a smaller weighted training error, and the weighted training errors always sum to zero.", "quantifier": "all data, weights, penalties", "why_tests_cant": "The domain (real distances, bandwidths, matrices of every size) is infinite; a test samples a few points.", "anchors": ["georegression/numba_impl.py:ridge_cholesky"]}
{"id": "C143", "title": "What the three-dimensional partial-dependence plot shows", "statement": "Every figure partial_plot_3d returns has one trace per sampled observation, in order, with that observation's line, time, number and cluster; a trace has a legend entry iff it is the first of its cluster; the axes contain all that is drawn. With labels and a sample size it returns for all non-empty data and shows every cluster; with one labelling for all features (or none) partials_plot_3d shows the same observations for every feature. The figure, and the state it leaves NumPy's global generator in, do not depend on the state before: every plot resets the generator.", "quantifier": "all lines, times, labels, samplers, generator states", "why_tests_cant": "All data and random draws.", "anchors": ["georegression/visualize/pd.py:partial_plot_3d", "georegression/visualize/pd.py:partials_plot_3d"]}
{"id": "C144", "title": "Colours of clusters across plots", "statement": "Relied on: a cluster has the same colour in the line plot, the embedding plot and the scatter plot. True, for every colormap, when lines are chosen by sample size. False when they are chosen by quantile: the colours are then spread over the clusters that happen to be chosen. With a single cluster every line gets the colormap's colour for NaN, in matplotlib fully transparent.", "quantifier": "all labels, colormaps, samplers", "why_tests_cant": "All data, draws and colormaps.", "anchors": ["georegression/visualize/utils.py:vector_to_color", "georegression/visualize/pd.py:partial_plot_3d", "georegression/visualize/pd.py:embedding_plot", "georegression/visualize/scatter.py:scatter_3d"]}
{"id": "C145", "title": "The shape of the time vector", "statement": "Relied on: the plots accept the same time vector. False: embedding_plot, scatter_3d and (with at least one feature, or a merged embedding) partial_compound_plot raise for every time vector of shape (N,); partial_plot_3d without labels raises for every time column (N, 1), and with labels does not distinguish the two. partial_compound_plot with a time column, merged labels and a sample size returns the figures of the three plots and joins those belonging to the same feature.", "quantifier": "all data", "why_tests_cant": "All data.", "anchors": ["georegression/visualize/pd.py:partial_compound_plot", "georegression/visualize/pd.py:embedding_plot", "georegression/visualize/scatter.py:scatter_3d"]}
{"id": "C146", "title": "Camera and aspect ratio", "statement": "camera_position puts the eye at horizontal distance 1 and height sin(pitch), whatever the rotation; full turns change nothing. Relied on: pitch is the elevation of the view. False: the view is flatter than every pitch in (0, 90] degrees and never steeper than 45 degrees. aspect_ratio_scale keeps the proportions, two scalings are one by the product, and a figure without aspect ratio is rejected.", "quantifier": "all angles and scales", "why_tests_cant": "All real angles.", "anchors": ["georegression/visualize/utils.py:camera_position", "georegression/visualize/utils.py:aspect_ratio_scale"]}
{"id": "C147", "title": "The time surfaces of the scatter plot", "statement": "scatter_3d draws one surface per distinct time, one of them with a legend entry, and with at least two times each lies strictly below its own slice. Relied on: each surface lies between its slice and the one below. True if the times are equally spaced. False otherwise: with times 0, 0.01, 10 the second surface lies below the first slice. With a single time the surface coincides with its slice.", "quantifier": "all coordinates, times, values, colormaps", "why_tests_cant": "All data.", "anchors": ["georegression/visualize/scatter.py:scatter_3d"]}
{"id": "C148", "title": "Clustering of the lines", "statement": "partial_cluster and features_partial_cluster use given distances as they are, return them, and ignore the lines; without distances they use those of the lines; with neither they raise. The embedding they return is the two-dimensional one, while the labels come from the embedding in n_components dimensions. Each feature is clustered as it would be alone.", "quantifier": "all lines, distances, settings, embeddings and clusterings", "why_tests_cant": "All data and settings.", "anchors": ["georegression/visualize/pd.py:partial_cluster", "georegression/visualize/pd.py:features_partial_cluster"]}
{"id": "C149", "title": "Which observations a stacked prediction depends on", "statement": "The stacked prediction at an observation depends only on the observations within two steps of it in the weights: those with non-zero weight for itself or for a neighbour. Changing features and targets of all others (and its own target) leaves it unchanged, and the same holds for predict_by_fit at a new point. Relied on: one step suffices. False.", "quantifier": "all learners acting row by row, data, weights, settings, schedules", "why_tests_cant": "The domain (real distances, bandwidths, matrices of every size) is infinite; a test samples a few points.", "anchors": ["georegression/stacking_model.py:StackingWeightModel.fit", "georegression/stacking_model.py:StackingWeightModel.predict_by_fit"]}
{"id": "C150", "title": "The unit and the origin of the target", "statement": "If the local estimator follows the unit of its target, then fitting WeightModel to a*y + k (a not 0) succeeds whenever fitting to y does, predicts a*p + k where the first predicted p, has a times its residuals and the same score; predict_by_fit at new points returns a*p + k too. predict_by_weight returns a*p + k*s where s is the sum of the weights of the new point.", "quantifier": "all learners that follow units, data, weights, settings, schedules", "why_tests_cant": "The domain (real distances, bandwidths, matrices of every size) is infinite; a test samples a few points.", "anchors": ["georegression/weight_model.py:WeightModel.fit", "georegression/weight_model.py:WeightModel.predict_by_fit", "georegression/weight_model.py:WeightModel.predict_by_weight"]}
{"id": "C151", "title": "Stacking and the unit of the target", "statement": "Relied on: a stacking fit to a*y + k predicts a*p + k where the fit to y predicts p. True if the base learners follow units and alpha is multiplied by a squared. False with the same alpha: with the numba ridge and alpha = 10, doubling the target changes a prediction from 3/7 to 1/2.", "quantifier": "all learners that follow units, data, weights, settings, schedules", "why_tests_cant": "The domain (real distances, bandwidths, matrices of every size) is infinite; a test samples a few points.", "anchors": ["georegression/stacking_model.py:StackingWeightModel.fit", "georegression/numba_impl.py:ridge_cholesky"]}
{"id": "C152", "title": "Rounded weight matrices", "statement": "weight_matrix_from_distance computed with rounding after every operation (single precision, the type of the distance matrices, is one instance) still returns finite weights in [0, 1], exactly 0 outside the support of any dimension; a target no farther in every dimension weighs no less; and a row containing a coinciding pair sums to 1 up to an explicit bound, for every order of summation.", "quantifier": "all roundings, distances, kernels, bandwidths, neighbour counts, dimensions, summation orders", "why_tests_cant": "The domain (real distances, bandwidths, matrices of every size) is infinite; a test samples a few points.", "anchors": ["georegression/weight_matrix.py:weight_matrix_from_distance", "georegression/kernel.py:kernel_function"]}
{"id": "C153", "title": "Support of the weights in single precision", "statement": "In one dimension the weight of a pair is non-zero exactly if the distance is inside the support, also with the bandwidth taken from the z-th nearest neighbour; a coinciding target always keeps a weight of at least 2^-24 (rows of up to 2^24 targets). Relied on: a pair inside the support of every dimension has a positive weight. False with several dimensions: the product of three tiny weights underflows to 0.", "quantifier": "all single-precision distances, kernels of bounded support, bandwidths, summation orders", "why_tests_cant": "The domain (real distances, bandwidths, matrices of every size) is infinite; a test samples a few points.", "anchors": ["georegression/weight_matrix.py:weight_matrix_from_distance", "georegression/kernel.py:kernel_function"]}
{"id": "C154", "title": "Rounding does not decide success", "statement": "Whatever the rounding, weight_matrix_from_distance succeeds for the same arguments, and otherwise raises the same exception, as in exact arithmetic.", "quantifier": "all roundings, distances and settings", "why_tests_cant": "The domain (real distances, bandwidths, matrices of every size) is infinite; a test samples a few points.", "anchors": ["georegression/weight_matrix.py:weight_matrix_from_distance"]}
{"id": "C155", "title": "Refitting", "statement": "Fitting a WeightModel returns, raises, draws and writes what fitting a new object would, whatever was called on the object before, and on success leaves the same model: same predictions and inspections. Predictions and inspections between two fits do not change the model. (The recorded importance and interaction trials are kept over a refit.)", "quantifier": "all sequences of calls, successful or failing, arguments, schedules, random draws, learners", "why_tests_cant": "All histories of the object.", "anchors": ["georegression/weight_model.py:WeightModel.fit", "georegression/weight_model.py:WeightModel.predict_by_weight", "georegression/weight_model.py:WeightModel.predict_by_fit"]}
{"id": "C156", "title": "A refit that fails", "statement": "Relied on: a fit that raises leaves the earlier model, or one that refuses to predict. False: a fit to valid data whose weights cannot be computed, or one of whose local models cannot be trained, leaves the new data and coordinates beside the earlier local models and scores. predict_by_weight then weights the earlier local models by the distances to the new coordinates; predict_by_fit predicts as if the fit had succeeded.", "quantifier": "all earlier states, data, settings, learners, schedules", "why_tests_cant": "All failure points.", "anchors": ["georegression/weight_model.py:WeightModel.fit", "georegression/weight_model.py:WeightModel.predict_by_weight", "georegression/weight_model.py:WeightModel.predict_by_fit"]}
{"id": "C157", "title": "Arrays shared with the caller", "statement": "Relied on: a fitted model does not depend on later changes of the caller's arrays or on other models. True for the local models, predictions and scores, for predict_by_weight unless the coordinates are overwritten, and for the weight matrix of a model fitted with leave_local_out. False for predict_by_fit, which trains on what the caller's arrays hold when it is called, and for the weight matrix of a model fitted without leave_local_out when another is fitted with it on the same array.", "quantifier": "all sequences of fits of any number of models on shared arrays and of writes by the caller", "why_tests_cant": "All interleavings of fits and writes.", "anchors": ["georegression/weight_model.py:WeightModel.fit", "georegression/weight_model.py:WeightModel.predict_by_fit", "georegression/weight_model.py:WeightModel.predict_by_weight"]}
{"id": "C158", "title": "What the embedding and scatter plots show", "statement": "embedding_plot and scatter_3d (of clusters) have one trace per distinct label, and the trace holds every observation of that label exactly once, at its own place and time (embedding_plot: with its own number). embedding_plot returns exactly if there is an observation and as many times and labels. With labels per feature partials_plot_3d uses each feature's own labels, and partial_compound_plot joins the plots of the same feature.", "quantifier": "all embeddings, places, times, labels, colormaps, samplers", "why_tests_cant": "All data.", "anchors": ["georegression/visualize/pd.py:embedding_plot", "georegression/visualize/scatter.py:scatter_3d", "georegression/visualize/pd.py:partials_plot_3d", "georegression/visualize/pd.py:partial_compound_plot"]}
{"id": "C159", "title": "Scatter plot of a continuous value", "statement": "scatter_3d of continuous values shows observation i at its place and time with number i and its value; the five colour-bar ticks are values of the data, each within half a rank of its quartile, increasing, the first the smallest and the last the largest value.", "quantifier": "all places, times, values, colormaps, roundings of the quantile index", "why_tests_cant": "All data.", "anchors": ["georegression/visualize/scatter.py:scatter_3d"]}
{"id": "C160", "title": "Linear relations are recovered", "statement": "With linear least squares (with intercept) as local estimator, wherever the observations in a location's neighbourhood satisfy one linear relation - possibly another one at another location - the local prediction follows it if the location's row is an affine combination of the neighbours' rows, and where those rows determine the relation the stored estimator has its coefficients. If one relation holds everywhere, local_predict_ equals the targets, the residuals are 0 and the score is 1; predict_by_fit and predict_by_weight follow it too. Relied on without the condition on the rows: false, with one neighbour each exactly linear data scores 0.", "quantifier": "all least-squares minimisers, features, relations, non-negative weights, settings, schedules", "why_tests_cant": "The domain (real distances, bandwidths, matrices of every size) is infinite; a test samples a few points.", "anchors": ["georegression/weight_model.py:WeightModel.fit", "georegression/weight_model.py:WeightModel.predict_by_fit", "georegression/weight_model.py:WeightModel.predict_by_weight"]}
{"id": "C161", "title": "Refitting a stacking model", "statement": "Fitting a StackingWeightModel returns, raises, draws, writes files and changes the caller's weight matrix as fitting a new object would, whatever was called on the object before, and on success leaves the same learners, predictions, scores and locations; predict_by_fit does not depend on earlier calls either. Relied on: the attributes describe the last fit. False: a fit with a given weight matrix keeps weight_matrix_ and neighbour_matrix_ of an earlier call, a fit without numba keeps stacking_scores_, one without cache_data keeps the earlier data; and a fit that fails before its base learners are stored leaves cache_estimator at True for good.", "quantifier": "all sequences of calls, successful or failing, arguments, schedules, random draws, learners", "why_tests_cant": "All histories of the object.", "anchors": ["georegression/stacking_model.py:StackingWeightModel.fit", "georegression/stacking_model.py:StackingWeightModel.predict_by_fit"]}
{"id": "C162", "title": "Stacked predictions of simple neighbourhoods", "statement": "If all the neighbours of an observation (or of a new point) have the same target, the stacked prediction is that value whatever the base learners predict. If the base learners agree everywhere, it is the ridge regression of the targets on copies of their common prediction. Relied on: base learners that are right everywhere give right stacked predictions. False: the penalty draws the prediction to the weighted mean of the neighbours' targets, and it is right only where the target equals that mean.", "quantifier": "all data, weights, settings, schedules, random draws, base learners; ridge meta estimators (numba and scikit-learn) with positive alpha", "why_tests_cant": "The domain (real distances, bandwidths, matrices of every size) is infinite; a test samples a few points.", "anchors": ["georegression/stacking_model.py:StackingWeightModel.fit", "georegression/stacking_model.py:StackingWeightModel.predict_by_fit", "georegression/numba_impl.py:ridge_cholesky"]}
{"id": "C163", "title": "Observations out of reach", "statement": "Appending observations that no earlier observation gives weight to, and that do not change the earlier bandwidths (fixed bandwidths, or neighbour_count as a number with the new points no nearer than the current neighbours), leaves the weights among the earlier observations and their predictions as they were; equally a model fitted without them makes the same predictions. Relied on without the condition on the bandwidths: false for a fractional neighbour_count, where far points widen every bandwidth.", "quantifier": "all data, learners, kernels, bandwidths, neighbour counts, dimensions, schedules, random draws", "why_tests_cant": "The domain (real distances, bandwidths, matrices of every size) is infinite; a test samples a few points.", "anchors": ["georegression/weight_matrix.py:weight_matrix_from_points", "georegression/weight_model.py:WeightModel.fit"]}
{"id": "C164", "title": "Leaving out is omitting", "statement": "With leave_local_out the prediction reported for an observation is the one that a model fitted to all the other observations makes for it by predict_by_fit with the observation's row of the weights (its own entry removed). predict_by_fit with a given weight matrix trains, for each new point, on the observations with non-zero weight in its row, with these weights.", "quantifier": "all data, weights (dense or sparse in the fit), settings, schedules; learners whose clones behave alike", "why_tests_cant": "The domain (real distances, bandwidths, matrices of every size) is infinite; a test samples a few points.", "anchors": ["georegression/weight_model.py:WeightModel.fit", "georegression/weight_model.py:WeightModel.predict_by_fit"]}
{"id": "C165", "title": "Repeated stacking fits on one weight matrix", "statement": "Relied on: a stacking fit can be repeated with the same weight matrix. False with a positive meta_fitting_shrink_rate: every successful fit takes from each row of distinct weights at least the smallest, until only the largest is left, so that with each observation its own heaviest neighbour at most m - 2 fits can succeed if some row has m distinct weights; the next one raises. With rate 1 the matrix no longer changes after the first fit.", "quantifier": "all numbers of fits, models, data, settings, weights, schedules, random draws, learners", "why_tests_cant": "All sequences of fits.", "anchors": ["georegression/stacking_model.py:StackingWeightModel.fit", "georegression/neighbour_utils.py:neighbour_shrink"]}
{"id": "C166", "title": "Size of the rounding error of weights", "statement": "A computed kernel value differs from the exact one by at most a small constant times the precision of the number format (relative error plus underflow threshold). In weight_matrix_from_distance, with fixed bandwidths or numbers of neighbours, each weight of a row with a coinciding pair (every row, among the observations) differs from the exact weight by at most 46 times number of dimensions times number of columns times the precision, in whatever order the row is summed. Relied on: the same for new points. False: gaussian weights of a single far point are exactly 1, and 0 as computed in double precision.", "quantifier": "all distances, kernels, bandwidths, neighbour counts, dimensions, summation orders, single and double precision", "why_tests_cant": "The domain (real distances, bandwidths, matrices of every size) is infinite; a test samples a few points.", "anchors": ["georegression/weight_matrix.py:weight_matrix_from_distance", "georegression/kernel.py:kernel_function"]}
{"id": "C167", "title": "Distances read lazily from a cache file", "statement": "A dask distance matrix computed by the call itself never changes. Relied on: so does one taken from an existing cache file. False: its row blocks are read when they are used. While another call overwrites the file a block holds the old distances, zeros, or the new ones, depending on when it is read, so that one matrix can mix all three; after the other call it holds the new distances; if the file has been deleted all distances are 0. Nothing raises.", "quantifier": "all coordinates, metrics, chunkings, orders of writing, interleavings of reading and writing", "why_tests_cant": "All interleavings.", "anchors": ["georegression/distance_utils.py:_distance_matrix", "georegression/distance_utils.py:_distance_matrices"]}
{"id": "C168", "title": "Shapes of ALE curves", "statement": "For predictions x * h(others) + r(others) the slope of an ALE curve in each bin is the weighted mean of h over the observations there. Relied on: an interaction shows as a straight line with the average effect. False unless that mean is the same in every bin. Predictions that never fall when the feature rises give curves that never fall, by weighted_ale, local_ALE and global_ALE; predictions that change at most L times as much as the feature give curves no steeper than L; the curve of a linear combination of models is that combination of their curves; only the proportions of the weights matter, and the order of the observations does not.", "quantifier": "all data, weights, predictors, features, bin sizes", "why_tests_cant": "The domain (real distances, bandwidths, matrices of every size) is infinite; a test samples a few points.", "anchors": ["georegression/local_ale.py:weighted_ale", "georegression/weight_model.py:WeightModel.local_ALE", "georegression/weight_model.py:WeightModel.global_ALE"]}
{"id": "C169", "title": "Inspecting the README's models", "statement": "Relied on: a WeightModel built as in the README can be used as in the README. False: both ways of constructing it leave cache_data and cache_estimator off, and then importance_score_global, importance_score_local, predict_by_weight and predict_by_fit raise in every state, and the README's local ALE snippet raises at every location after any fit of a new model. With the caches, local_ALE returns exactly when the snippet returns at every location, and then the same curves; the snippet needs only its own location to have at least six neighbours, finite weights and two values of the feature, while a single location with five neighbours or fewer makes local_ALE raise.", "quantifier": "all estimators, metrics, kernels, neighbour counts, states, data, weights, locations", "why_tests_cant": "The domain (real distances, bandwidths, matrices of every size) is infinite; a test samples a few points.", "anchors": ["README.md", "georegression/weight_model.py:WeightModel.__init__", "georegression/weight_model.py:WeightModel.local_ALE", "georegression/local_ale.py:weighted_ale"]}
{"id": "C170", "title": "ALE figures", "statement": "plot_ale draws the curve through the given points and ten adjoining bars of equal width from the least value to the greatest, whose heights count the values in them and add up to the number of values. Relied on: the bars are the density their axis is labelled with. False: their area is the number of values times a tenth of the range. The line \"True value\" of the ALE simulation is the response averaged over the second feature uniform within 2 of its centre at the location; moving a curve to a base value changes no difference; for a perfect local model the rise of the curve differs from that of the line by at most |coefficient| * spread of the second feature * distance. Relied on: it coincides with the line. False.", "quantifier": "all values, curves, coefficients, centres, data, weights", "why_tests_cant": "The domain (real distances, bandwidths, matrices of every size) is infinite; a test samples a few points.", "anchors": ["georegression/visualize/ale.py:plot_ale", "georegression/simulation/simulation_for_ale.py:draw_graph"]}
{"id": "C171", "title": "Inspecting a stacking model", "statement": "On a fitted stacking model the inspection methods look at the stacked estimators but compare with llocv_score_, the score of the base learners. Relied on: a feature that no base learner uses has importance 0. False: every trial of every feature is shifted by llocv_score_ - llocv_stacking_, so such a feature is recorded with exactly that difference; differences between features are unaffected. If the only fit got its weight matrix from the caller, importance_score_local, partial_dependence, local_ICE and local_ALE raise. The ALE curve of a linearly stacked model is the combination of the base learners' curves with the stacking coefficients, on the same grid, plus the intercept when not centred.", "quantifier": "all data, weights, estimators, meta learners, permutations, numbers of repeats, schedules", "why_tests_cant": "The domain (real distances, bandwidths, matrices of every size) is infinite; a test samples a few points.", "anchors": ["georegression/stacking_model.py:StackingWeightModel.fit", "georegression/stacking_model.py:StackingEstimator.predict", "georegression/weight_model.py:WeightModel.importance_score_global", "georegression/weight_model.py:WeightModel.local_ALE"]}
{"id": "C172", "title": "Local permutation importance", "statement": "The local importance of a feature is the mean drop of the weighted R\u00b2 of the local estimator on its own neighbours over rearrangements of the feature among them, the same rearrangements for every feature. It is 0 for a feature the estimator does not use (also in a stacking model, unlike the global importance) and for one that does not vary among the neighbours, however the estimator uses it; NaN for every feature where there is one neighbour only; unchanged by rescaling the weights of a location or by the units of the response. Where the estimator reproduces the neighbours' responses it is not negative, and if the estimator is linear in the feature it is the squared slope times the mean squared displacement over the variation of the responses. Relied on: it is never negative. False.", "quantifier": "all data, weights, estimators, shuffles, seeds, numbers of repeats, schedules", "why_tests_cant": "The domain (real distances, bandwidths, matrices of every size) is infinite; a test samples a few points.", "anchors": ["georegression/weight_model.py:WeightModel.importance_score_local", "georegression/weight_model.py:local_importance", "georegression/stacking_model.py:StackingEstimator.score"]}
{"id": "C173", "title": "Partial dependence and ICE curves", "statement": "The curve of partial_dependence at a location has at each grid point the weighted mean, over the neighbours, of the local estimator's predictions with the feature set to that value; local_ICE uses the same grid. The grid increases and stays within the neighbours' values. Relied on: it spans them. False with 100 or more different values. An effect proportional to the feature shows as a straight line with the neighbours' average slope (unlike ALE); predictions that never fall with the feature give curves that never fall, and curves are no steeper than the predictions. Where the feature adds to the rest of the prediction the two curves of a location are parallel; the ICE curve passes through the location's own prediction if it is its own neighbour. Both methods raise if a feature takes one value at all but a twentieth of the neighbours and has 100 or more different values, and if every feature has that many around every location.", "quantifier": "all data, weights, estimators, features, grid resolutions, schedules", "why_tests_cant": "The domain (real distances, bandwidths, matrices of every size) is infinite; a test samples a few points.", "anchors": ["georegression/weight_model.py:WeightModel.partial_dependence", "georegression/weight_model.py:local_partial_dependence", "georegression/weight_model.py:WeightModel.local_ICE"]}
{"id": "C174", "title": "Units of the features", "statement": "With a learner whose predictions do not depend on how the features are written (a regression line on the unit of its feature), fitting to features in other units gives the same local predictions, residuals and score, and predict_by_fit and predict_by_weight predict the same for new points in those units. Relied on: linear least squares is such a learner. False where a location has fewer neighbours than parameters: doubling one feature changes its prediction; true where the location's features are an affine combination of its neighbours'. Partial dependence curves then have the same heights over the converted values. Relied on: they can be computed in any unit. False: in a large enough unit partial_dependence and local_ICE raise if a feature has as many different values around a location as the grid has points.", "quantifier": "all data, weights, units and origins, learners, schedules, random draws, settings", "why_tests_cant": "The domain (real distances, bandwidths, matrices of every size) is infinite; a test samples a few points.", "anchors": ["georegression/weight_model.py:WeightModel.fit", "georegression/weight_model.py:WeightModel.predict_by_fit", "georegression/weight_model.py:WeightModel.predict_by_weight", "georegression/weight_model.py:WeightModel.partial_dependence", "georegression/weight_model.py:WeightModel.local_ICE"]}
{"id": "C175", "title": "Scores with and without the location itself", "statement": "With a learner that minimises a (penalised) weighted squared error, the residual at a location trained on itself is never larger in size than with leave_local_out, so llocv_score_ is never lower without leave_local_out. Relied on: the same with any learner. False: with the sum of the neighbours' targets it falls from -11 to -32. Relied on: the scores that fit_models compares are comparable. False: the linear model is scored on its own training data, and a local model covering everything with equal weights, the same model, never scores higher. Relied on: without leave_local_out the score tells how well the model fits. False: least squares scores 1, whatever the targets, where no location has more neighbours than a linear relation can pass through.", "quantifier": "all data, weights, error-minimising learners, schedules, random draws", "why_tests_cant": "The domain (real distances, bandwidths, matrices of every size) is infinite; a test samples a few points.", "anchors": ["georegression/weight_model.py:WeightModel.fit", "georegression/simulation/simulation_for_fitting.py:fit_models"]}
{"id": "C176", "title": "Growing neighbourhoods", "statement": "The kernel weight of a pair never falls when the bandwidth grows. With larger bandwidths, numbers or shares of neighbours in every dimension, a neighbour stays a neighbour, training sets are nested, the share of the location itself (and of coinciding observations) never grows, and with a learner that only needs a non-empty training set a fit that works goes on working. With fixed bandwidths so large that all distances are at most t of them, all weights of a row of c lie between (1 - delta) / c and 1 / (c (1 - delta)), delta = 3 t times the number of dimensions. With uniform kernels, or boxcars that reach everything, all weights are 1/N and every local model is trained on everything (else).", "quantifier": "all distances, kernels, bandwidths, neighbour counts, shares, dimensions, learners", "why_tests_cant": "The domain (real distances, bandwidths, matrices of every size) is infinite; a test samples a few points.", "anchors": ["georegression/kernel.py:kernel_function", "georegression/kernel.py:adaptive_kernel", "georegression/weight_matrix.py:weight_matrix_from_distance", "georegression/weight_model.py:WeightModel.fit"]}
{"id": "C177", "title": "Neighbours in several dimensions", "statement": "With boxcars and k_d nearest neighbours in dimension d, a location has at least sum of k_d minus (D - 1) N neighbours, so if the sum is (D - 1) N + 2 or more each location has one besides itself. Relied on: with neighbour_count = k (or a share) and several dimensions every location has about k neighbours. False: with two dimensions and 2 k <= N + 1, or any share of a half or less (Examples: 0.3), N places with different positions in both dimensions exist where one location has no neighbour but itself, for every kernel of bounded reach, and a fit with leave_local_out fails with every learner that needs data.", "quantifier": "all distances, numbers of dimensions, neighbour counts, shares, numbers of observations, learners", "why_tests_cant": "The domain (real distances, bandwidths, matrices of every size) is infinite; a test samples a few points.", "anchors": ["georegression/weight_matrix.py:weight_matrix_from_distance", "georegression/kernel.py:adaptive_kernel", "georegression/weight_model.py:WeightModel.fit", "Examples/spatiotemporal.py"]}
{"id": "C178", "title": "Repeated observations", "statement": "Observations at the same place are always neighbours of each other. Relied on: with leave_local_out the score is about observations the local models have not seen. False where each observation is repeated among its neighbours: a learner that reproduces its training targets predicts every target exactly and llocv_score_ is 1, whatever the targets.", "quantifier": "all data with repeated observations, weights, reproducing learners, schedules, random draws", "why_tests_cant": "The domain (real distances, bandwidths, matrices of every size) is infinite; a test samples a few points.", "anchors": ["georegression/weight_model.py:WeightModel.fit", "georegression/weight_matrix.py:weight_matrix_from_distance"]}
{"id": "C179", "title": "Scripts that cannot finish", "statement": "Relied on: parameter_tuning.py searches for good parameters of a stacking model. False: the model it scores is never fitted; the objective raises TypeError for all parameters, accepted by the constructor or not, and so does the search, whatever is suggested. Relied on: simulation_data_fitting.py maps the residuals of its WeightModel. False: it reads an attribute that neither the constructor nor fit nor the analyses of a WeightModel set, and raises after all fits and analyses are done.", "quantifier": "all parameters, suggestions, numbers of evaluations, constructor calls, attributes set by fit and the analyses", "why_tests_cant": "The domain (real distances, bandwidths, matrices of every size) is infinite; a test samples a few points.", "anchors": ["georegression/simulation/parameter_tuning.py:objective", "georegression/simulation/simulation_data_fitting.py", "georegression/stacking_model.py:StackingWeightModel.__init__", "georegression/weight_model.py:WeightModel.__init__"]}
{"id": "C180", "title": "Typical curves of the clusters", "statement": "With the observations chosen by choose_cluster_typical, partial_plot_2d draws for each feature one line per cluster in the order of the labels: the curve of the cluster's medoid, named after the cluster. Opacity and width stay within the given (or default) ranges and increase with the size of the cluster; colours run over the whole colour map; a single cluster has the colour of NaN with the largest opacity and width. With one set of labels a cluster looks the same in all features. Relied on: only clusters are shown. False: noise (label -1) gets a line like any cluster.", "quantifier": "all curves, labels, embeddings, style ranges, powers, colour maps, numbers of features", "why_tests_cant": "The domain (real distances, bandwidths, matrices of every size) is infinite; a test samples a few points.", "anchors": ["georegression/visualize/pd.py:partial_plot_2d", "georegression/visualize/pd.py:choose_cluster_typical", "georegression/visualize/utils.py:vector_to_color"]}
{"id": "C181", "title": "Range and mean of Moran's I", "statement": "With non-negative weights |I| <= c if no location's share of the weights it gives and gets exceeds c times the average; so I lies between -1 and 1 for symmetric weights with equal row sums. Relied on: the same whenever the weights of each location sum to 1. False: I exceeds every bound for some observations and such weights, without own-neighbours. The mean of I over all rearrangements exceeds the reported expectation by n/(n-1) times the share of the weights that locations have for themselves. Relied on: the weights of a fitted model can be used. False: each location weighs on itself there, and the expectation reported is too low.", "quantifier": "all observations, weights, numbers of observations, rearrangements", "why_tests_cant": "The domain (real distances, bandwidths, matrices of every size) is infinite; a test samples a few points.", "anchors": ["georegression/spatial_temporal_moran.py:STMI", "georegression/spatial_temporal_moran.py:spatiotemporal_MI"]}
{"id": "C182", "title": "Maps of local importances", "statement": "Examples/local_importance.py draws one map per feature with each location's own importance at its point. Relied on: simulation_for_importance.py scales the importances of every location to [0, 1] and draws a map per feature. False: with two or more features it raises ValueError after all computations, unless there are as many features as locations; then column j is scaled with the range of location j and the results need not lie in [0, 1]; with one feature it has as many columns as locations and no value is a number. simulation_data_fitting.py scales all importances together (lowest 0, highest 1, order kept) if they are numbers and not all equal. Relied on: its map shows the other locations if one has no importance. False: a single location with one neighbour blanks the whole map.", "quantifier": "all data, weights, estimators, shuffles, seeds, numbers of locations, features and repeats, schedules", "why_tests_cant": "The domain (real distances, bandwidths, matrices of every size) is infinite; a test samples a few points.", "anchors": ["georegression/simulation/simulation_for_importance.py:draw_graph", "georegression/simulation/simulation_data_fitting.py:draw_graph", "Examples/local_importance.py", "georegression/weight_model.py:WeightModel.importance_score_local"]}
{"id": "C183", "title": "Parameter search of the experiments", "statement": "A search that finishes appends one line per model and combination, in the order of the grid, each with the score of a fit with those parameters, and the best line of each model: the first with the highest score, or the very first line if its score is not a number. Relied on: what has been computed is in the files when a later fit fails. False: then both files are as before. Relied on: an empty list of parameters leaves a model out. False: the other lines are written but no best line, and ValueError is raised. Relied on: in simulation_for_data_size.py the lines labelled use_x_plus = False are of models without the coordinates as features. False for both weight models: the result does not depend on such fits, and where fitting is deterministic each pair of labels has the same score.", "quantifier": "all grids, earlier contents of the files, outcomes of the fits (scores or exceptions), random states", "why_tests_cant": "The domain (real distances, bandwidths, matrices of every size) is infinite; a test samples a few points.", "anchors": ["georegression/simulation/simulation_for_fitting.py:test_models", "georegression/simulation/simulation_for_fitting.py:test_stacking", "georegression/simulation/simulation_for_data_size.py:test_GRF", "georegression/simulation/simulation_for_data_size.py:test_GWR"]}
{"id": "C184", "title": "Order of the features", "statement": "With a learner that does not depend on the order of its features, fitting to the features in another order works too, local importances, partial dependence and ICE curves come out in the new order, and the local and global ALE curve of a feature is the same wherever it stands. Relied on: the same of the global importance. False: all features draw from one stream of random numbers, so a feature in another place meets other shuffles and other importances.", "quantifier": "all data, weights, orders, learners, shuffles, seeds, numbers of repeats, grids, schedules, random draws, settings", "why_tests_cant": "The domain (real distances, bandwidths, matrices of every size) is infinite; a test samples a few points.", "anchors": ["georegression/weight_model.py:WeightModel.fit", "georegression/weight_model.py:WeightModel.importance_score_local", "georegression/weight_model.py:WeightModel.importance_score_global", "georegression/weight_model.py:WeightModel.partial_dependence", "georegression/weight_model.py:WeightModel.local_ICE", "georegression/weight_model.py:WeightModel.local_ALE", "georegression/weight_model.py:WeightModel.global_ALE"]}
{"id": "C185", "title": "A dimension given several times", "statement": "Giving one dimension m times, with the same parameters, succeeds exactly when giving it once does, and every row of weights becomes the row of their m-th powers divided by their total: the neighbours and their order by weight stay, the heaviest never gets lighter and the lightest never heavier. With the uniform and the boxcar kernel nothing changes. Relied on: the same with all kernels. False as soon as two neighbours of a location have different weights. For the Gaussian and the exponential kernel with a fixed bandwidth it is the same as dividing the bandwidth by the root of m and by m.", "quantifier": "all distances, kernels, bandwidths, neighbour counts and shares, numbers of repetitions", "why_tests_cant": "The domain (real distances, bandwidths, matrices of every size) is infinite; a test samples a few points.", "anchors": ["georegression/weight_matrix.py:weight_matrix_from_distance", "georegression/kernel.py:kernel_function"]}
{"id": "C186", "title": "Variation of stacking scores over repeated fits", "statement": "An experiment of simulation_for_STST_variation.py that returns has appended one line: the info given, both scores of ten successive fits of either model on the same objects, and mean, standard deviation, maximum and minimum of the ten stacking scores, which fit together (mean between the extremes, deviation at most half their distance, 0 exactly if all scores agree). Relied on: what was computed before a failure is kept. False: if one of the twenty fits raises, the file is as before. Relied on: the times are those of the ten fits. False: they are the duration of the tenth fit alone. Relied on: the spread shows the effect of the random choice of left-out neighbours. False: with learners without randomness of their own all ten scores are the same, as every fit draws the same left-out neighbours.", "quantifier": "all data, learners, weights, rates, generator states, schedules, earlier uses, contents of the file, outcomes of the fits", "why_tests_cant": "The domain (real distances, bandwidths, matrices of every size) is infinite; a test samples a few points.", "anchors": ["georegression/simulation/simulation_for_STST_variation.py:fit_models", "georegression/stacking_model.py:StackingWeightModel.fit", "georegression/neighbour_utils.py:sample_neighbour"]}
{"id": "C187", "title": "Leave-one-out scores", "statement": "fit_llocv_models of simulation_for_robust.py returns exactly if there are two or more observations and each can be predicted by a learner trained on all the others, with the coordinates among the features, and its score is the coefficient of determination of these predictions. A WeightModel with leave_local_out and equal weights for all observations fits exactly if it returns, with the same score, for learners to whom equal weights are as good as none. Relied on: a learner that knows only the mean of its targets scores 0. False: with n observations it scores 1 - (n/(n-1))^2, whatever the targets, and 1 if they are all the same; so does the WeightModel.", "quantifier": "all data, learners, numbers of observations, weights, schedules, settings, random draws", "why_tests_cant": "The domain (real distances, bandwidths, matrices of every size) is infinite; a test samples a few points.", "anchors": ["georegression/simulation/simulation_for_robust.py:fit_llocv_models", "georegression/weight_model.py:WeightModel.fit"]}
{"id": "C188", "title": "Simulation script for seven models", "statement": "A run of simulation_for_robust.py's fit_models that returns has appended one line with the scores and durations of the fits to the training data of six models, the info given, and nothing else. Relied on: the line tells how the models do on the test data, and how XGB does. False: with the same outcomes of the training fits it is the same line, whatever the test data, the predictions and refits, and XGB. Relied on: scores from the training data are kept when a step that is only printed fails. False: if a prediction or refit on test data fails, the file is as before. Relied on: the experiments of the script can be run. False: all but two of them give only the training data and raise TypeError; the two others pass the check and every argument arrives under its name.", "quantifier": "all data, outcomes of fits and predictions, states, contents of the file, infos, settings", "why_tests_cant": "The domain (real distances, bandwidths, matrices of every size) is infinite; a test samples a few points.", "anchors": ["georegression/simulation/simulation_for_robust.py:fit_models", "georegression/simulation/simulation_for_robust.py:square_strong_100", "georegression/simulation/simulation_for_robust.py:square_strong_1000", "georegression/simulation/simulation_for_robust.py:square_gau_weak_5000", "georegression/simulation/simulation_for_robust.py:interact_ale"]}
{"id": "C189", "title": "Range of the predictions", "statement": "With a local learner whose predictions stay in the range of its training targets (trees, forests, nearest neighbours, means), every local prediction of WeightModel.fit lies in the range of the targets of the observations around that location, no residual exceeds the range of all targets, and predict_by_fit stays in the range of the targets around the new point. predict_by_weight stays in the range of the targets the neighbouring models were trained on. Relied on: in the range of all targets for every new point. False: a new point without neighbours is predicted as 0. Relied on: the same of StackingWeightModel. False: the ridge regression can leave the range on both sides.", "quantifier": "all data, weights, learners that average, kernels, bandwidths, schedules, settings, new points", "why_tests_cant": "The domain (real distances, bandwidths, matrices of every size) is infinite; a test samples a few points.", "anchors": ["georegression/weight_model.py:WeightModel.fit", "georegression/weight_model.py:WeightModel.predict_by_fit", "georegression/weight_model.py:WeightModel.predict_by_weight", "georegression/stacking_model.py:StackingWeightModel.predict_by_fit"]}
{"id": "C190", "title": "The unit of the weights", "statement": "For local learners to which only the ratios of the sample weights matter, WeightModel.fit with the weights of each location multiplied by a positive factor of its own succeeds too, with the same predictions, residuals and score. Relied on: the same of predict_by_weight. False: the prediction of a new point is multiplied by the factor. For StackingWeightModel, all weights and alpha multiplied by the same factor give the same stacked predictions, whatever the rates of left-out and dropped neighbours. Relied on: the same with alpha left alone. False: alpha is in the unit of the weights, and ten times the weights move a stacked prediction from 3/7 to 0.", "quantifier": "all data, weights dense or sparse, factors, learners, meta models, rates, schedules, settings, random draws", "why_tests_cant": "The domain (real distances, bandwidths, matrices of every size) is infinite; a test samples a few points.", "anchors": ["georegression/weight_model.py:WeightModel.fit", "georegression/weight_model.py:WeightModel.predict_by_weight", "georegression/stacking_model.py:StackingWeightModel.fit", "georegression/neighbour_utils.py:neighbour_shrink", "georegression/numba_impl.py:ridge_cholesky"]}
{"id": "C191", "title": "Stacking predictions from coordinates", "statement": "With fixed bandwidths, StackingWeightModel.predict_by_fit returns exactly if the data and settings are accepted, every training point is within reach (of the kernel, in every dimension) of a training point to be trained on, every training point is within reach of a new point, and every new point of a training point. With kernels of unlimited reach it returns wherever the new points are. Relied on: one new point can be predicted with an adaptive bandwidth. False: with a linear, bisquare or tricube kernel it raises as soon as one training point is elsewhere. Relied on: the other new points are predicted if one is far away. False: with these kernels and the z nearest new points, the whole call raises if some new point, apart from all training points, has z new points (itself counted) as near as it to each training point. Relied on: the prediction of a point does not depend on the other new points. False: giving another new point twice changes it.", "quantifier": "all data, distances, kernels, bandwidths, neighbour counts and shares, dimensions, learners, schedules, settings, new points", "why_tests_cant": "The domain (real distances, bandwidths, matrices of every size) is infinite; a test samples a few points.", "anchors": ["georegression/stacking_model.py:StackingWeightModel.predict_by_fit", "georegression/weight_matrix.py:weight_matrix_from_points", "georegression/kernel.py:kernel_function", "georegression/kernel.py:adaptive_kernel"]}
{"id": "C192", "title": "Small errors in the coordinates", "statement": "Points each moved by at most e change no euclidean distance by more than 2e, and bandwidths from neighbour_count (an integer or a share) by no more than the distances. With every kernel but boxcar the weight of a pair changes by at most 9/4 of the change of distance/bandwidth, and with fixed bandwidths of at least b in D dimensions each entry of the weight matrix of N points by at most (N + 1) D (9/4) e/b if the distances change by at most e. Relied on: the same of boxcar. False: arbitrarily small changes move a weight from 1 to 0. Relied on: the same with adaptive bandwidths. False: arbitrarily small changes move a linear weight from 1/2 to 1.", "quantifier": "all distances, coordinates, kernels, bandwidths, neighbour counts and shares, numbers of points and dimensions, sizes of the errors", "why_tests_cant": "The domain (real distances, bandwidths, matrices of every size) is infinite; a test samples a few points.", "anchors": ["georegression/kernel.py:kernel_function", "georegression/kernel.py:adaptive_bandwidth", "georegression/weight_matrix.py:weight_matrix_from_distance", "georegression/distance_utils.py:_distance_matrix"]}
{"id": "C193", "title": "Signs, size and mean of local Moran values", "statement": "With equal row sums of the weights the local value of a location is the product of the coordinates of its point in the Moran diagram times a positive factor: positive in the upper right and lower left quadrant, negative in the others. Relied on: the same of all weights. False: a location in the upper right quadrant can have a negative local value. Without own weights a local value is at most n/2 times the sum of the standardised weights in size. Relied on: between -1 and 1 when the weights of each location sum to 1. False: -n/2 is attained for every n. The mean of a local value over all rearrangements of the data is its own standardised weight minus 1/(n-1) times the sum of its others; -1/(n-1) for equal row sums without own weights. Relied on: -1/(n-1) for all weights. False: lower at some locations and higher at others.", "quantifier": "all observations, weights, numbers of observations, rearrangements", "why_tests_cant": "The domain (real distances, bandwidths, matrices of every size) is infinite; a test samples a few points.", "anchors": ["georegression/spatial_temporal_moran.py:spatiotemporal_LMI", "georegression/spatial_temporal_moran.py:plot_moran_diagram"]}
{"id": "C194", "title": "Several dimensions as one", "statement": "With the Gaussian kernel and fixed bandwidths in any number of dimensions, the weights equal those of a single dimension of bandwidth 1 with the root of the sum of the squared distances in bandwidths; from euclidean coordinates, those of the joined coordinates in units of the bandwidths. With the exponential kernel the same holds with the sum of the distances in bandwidths. With every kernel all neighbours at the combined distance are neighbours. Relied on: there are no others. False: with boxcar, linear, bisquare and tricube, observations further away than one bandwidth in all have weight.", "quantifier": "all distances, coordinates, bandwidths, numbers of dimensions and points, kernels", "why_tests_cant": "The domain (real distances, bandwidths, matrices of every size) is infinite; a test samples a few points.", "anchors": ["georegression/weight_matrix.py:weight_matrix_from_distance", "georegression/weight_matrix.py:weight_matrix_from_points", "georegression/kernel.py:kernel_function"]}
{"id": "C195", "title": "Mutual neighbours", "statement": "Among one set of points with symmetric distances and fixed bandwidths, one observation is a neighbour of another exactly if the other is a neighbour of it; each observation has a number (0 exactly if it has no neighbours) such that the two weights of every pair are in the inverse ratio of the numbers; the product of the weights around three observations is the same in both directions; and local means of any values keep the total of the values weighted by these numbers. Relied on: the weights themselves are symmetric. False: two neighbours can have the weights 1/2 and 1/3. Relied on: neighbours are mutual with neighbour_count too. False with boxcar, linear, bisquare and tricube.", "quantifier": "all distances, coordinates, kernels, bandwidths, numbers of dimensions and points, values", "why_tests_cant": "The domain (real distances, bandwidths, matrices of every size) is infinite; a test samples a few points.", "anchors": ["georegression/weight_matrix.py:weight_matrix_from_distance", "georegression/kernel.py:kernel_function", "georegression/kernel.py:adaptive_kernel", "georegression/distance_utils.py:_distance_matrix"]}
{"id": "C196", "title": "Predicting the training points", "statement": "After a fit from coordinates without leave_local_out, predict_by_fit with the training features and coordinates returns local_predict_ for every learner if the weight matrix is symmetric, and for a learner that ignores the sample weights if the bandwidths are fixed and the distances symmetric. Relied on: the same with every learner. False: fit weights the neighbours of a point by its row of the weights, predict_by_fit by its column; with a weighted mean no prediction need agree, with or without leave_local_out. Relied on: predict_by_weight returns local_predict_ there. False: it averages the predictions of the neighbouring models, and no prediction need agree.", "quantifier": "all data, learners, weights, distances, schedules, settings, random draws", "why_tests_cant": "The domain (real distances, bandwidths, matrices of every size) is infinite; a test samples a few points.", "anchors": ["georegression/weight_model.py:WeightModel.fit", "georegression/weight_model.py:WeightModel.predict_by_fit", "georegression/weight_model.py:WeightModel.predict_by_weight", "georegression/weight_matrix.py:weight_matrix_from_points"]}
