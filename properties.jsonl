{"id": "C01", "title": "Min-max scaling maps each column into [0,1] and preserves order", "statement": "MinMaxScaler()(x) on a vector, and MinMaxScaler(axis=0)(x) on each column of a matrix: if the column is not constant all outputs lie in [0,1], the smallest input maps to 0, the largest to 1, and a<b before iff a<b after. A constant column gives NaN everywhere. With the default axis=-1 a matrix that is not square is rejected with ValueError, and a square one is scaled entry (i,j) by the extremes of row j.", "quantifier": "every numeric vector or matrix with at least one row, any number of rows and columns", "why_tests_cant": "Range and order must hold for every column content and every size; a test only samples a few matrices.", "anchors": ["classicML/backend/python/data/preprocessing.py:MinMaxScaler.__call__"]}
{"id": "C02", "title": "Scalers are invertible", "statement": "inverse(scaler(x)) gives back x for MinMaxScaler and StandardScaler on vectors that are not constant and, with axis=0, on matrices without a constant column.", "quantifier": "every vector or matrix without a constant column", "why_tests_cant": "The round trip quantifies over all data.", "anchors": ["classicML/backend/python/data/preprocessing.py:MinMaxScaler.inverse", "classicML/backend/python/data/preprocessing.py:StandardScaler.inverse"]}
{"id": "C03", "title": "What standardisation guarantees", "statement": "StandardScaler()(x) gives a column with non-zero population variance v a mean of exactly 0 and a variance of exactly 1/v. (The documented goal, unit variance, is met only when v = 1: the code divides by the variance instead of the standard deviation.) A column has variance 0 iff it is constant, and then every output is NaN.", "quantifier": "every numeric column with at least one entry", "why_tests_cant": "An identity over all columns of all lengths; sampled tests with tolerance cannot establish the exact law 1/v.", "anchors": ["classicML/backend/python/data/preprocessing.py:StandardScaler.__call__"]}
{"id": "C04", "title": "One-hot encoding is exact and decodable", "statement": "OneHotEncoder()(y) returns (rows, class_indices): row i is the unit vector at the rank of y_i among the distinct labels, its length is the number of distinct labels, class_indices[y_i] is that row, two rows are equal iff the labels are equal, and on a fresh encoder class_indices has exactly the labels as keys and no two keys share a row.", "quantifier": "every finite label vector over a totally ordered label set, every earlier use of the encoder", "why_tests_cant": "Injectivity and decodability are statements about all pairs of labels in all vectors.", "anchors": ["classicML/backend/python/data/preprocessing.py:OneHotEncoder.__call__"]}
{"id": "C05", "title": "Dummy encoding and its class indices", "statement": "DummyEncoder()(y) returns for each label the unit vector at its rank; on a fresh encoder class_indices is a strictly monotone bijection from the labels that occur to 0..k-1, where k is the number of distinct labels.", "quantifier": "every finite label vector over a totally ordered label set", "why_tests_cant": "Must hold for every label set and ordering.", "anchors": ["classicML/backend/python/data/preprocessing.py:DummyEncoder.__call__"]}
{"id": "C06", "title": "Max-margin encoding", "statement": "MaxMarginEncoder()(y) sends the smallest distinct label to -1 and every other label to +1; on two-class data it is injective, in general two samples get the same code iff both or neither carry the smallest label.", "quantifier": "every label vector", "why_tests_cant": "The claim ranges over all label vectors and class counts.", "anchors": ["classicML/backend/python/data/preprocessing.py:MaxMarginEncoder.__call__"]}
{"id": "C07", "title": "Imputation fills every gap and touches nothing else", "statement": "Imputer()(x): if every column has at least one observed value, the result has no missing value, every observed cell keeps its value, every gap in a column of numbers receives the mean of the observed cells of that column and every gap in another column receives one most frequent observed value; imputing twice changes nothing more. A column with no observed value stays missing.", "quantifier": "every table, any pattern of gaps, every tie-breaking of the most frequent value", "why_tests_cant": "All patterns of missing cells cannot be enumerated by tests.", "anchors": ["classicML/backend/python/data/preprocessing.py:Imputer.__call__", "classicML/backend/python/data/preprocessing.py:Imputer._fillna"]}
{"id": "C08", "title": "Binary label encoding and class_indices of Dataset", "statement": "When the labels of a data frame take exactly two values, Dataset replaces recognised key words (yes/no in several spellings) by 1/0 and publishes class_indices. The stored code depends on the key word only; class_indices, computed from the sorted order of the raw labels, agrees with the stored codes iff the negative word sorts first, and is the reverse otherwise. Two other text labels are rejected. Two numeric labels are stored as they are, so that with label_mode one-hot or max-margin anything but {0,1} raises KeyError.", "quantifier": "every binary label vector in every order and multiplicity", "why_tests_cant": "Agreement of two independently computed maps over all vectors and all word pairs.", "anchors": ["classicML/backend/python/data/dataset.py:Dataset.from_dataframe", "classicML/backend/python/data/dataset.py:Dataset._preprocessing_binary_labels", "classicML/backend/python/data/dataset.py:Dataset._set_real_class_indices"]}
{"id": "C09", "title": "Categorical label encoding does not merge classes", "statement": "When the labels of a data frame take one or more than two values, Dataset replaces each label by its rank among the sorted distinct labels and publishes that map as class_indices. This is correct whenever no integer label is negative and whenever no text label is a numeral; with a negative label the in-place replacement can merge classes.", "quantifier": "every label vector; both the guaranteed and the failing regime", "why_tests_cant": "The in-place loop is order dependent; which label sets collide is a universally quantified question.", "anchors": ["classicML/backend/python/data/dataset.py:Dataset._preprocessing_categorical_labels"]}
{"id": "C10", "title": "Feature preprocessing is per column and normalisation wins over standardisation", "statement": "Dataset feature preprocessing treats every numeric column independently of all others; when both standardization and normalization are requested the stored features equal those obtained with normalization alone. With digitization the numeric columns come first and the dummy columns of each text column follow. In an integer array the scaled values are truncated when stored, so only the column maxima become 1 and everything else 0.", "quantifier": "every feature matrix and every combination of the flags", "why_tests_cant": "Equality of two pipelines for all inputs.", "anchors": ["classicML/backend/python/data/dataset.py:Dataset._preprocessing_features"]}
{"id": "C11", "title": "Convex hull is a hull", "statement": "For distinct points with a single leftmost point (or leftmost ties met in ascending y order) ConvexHull.compute returns a closed chain of input points; every input point lies on or to the left of every edge, no three consecutive vertices turn clockwise, and the chain spans exactly the convex hull of the input. Fewer than two points raise IndexError. A repeated interior point, or leftmost ties in another order, can break this.", "quantifier": "every list of points in the plane and every sorting routine that orders by x", "why_tests_cant": "Geometry over all point sets; sort tie order is unspecified.", "anchors": ["classicML/backend/python/ops.py:ConvexHull"]}
{"id": "C12", "title": "Target type classification is total, unambiguous and permutation invariant", "statement": "type_of_target returns exactly one of continuous, binary, multiclass, multilabel, unknown; continuous iff some real entry has a fractional part, and for discrete vectors binary iff exactly two and multiclass iff more than two distinct values occur; permuting the samples or repeating samples already present does not change the answer.", "quantifier": "every numeric vector or matrix", "why_tests_cant": "A total classification statement over all arrays.", "anchors": ["classicML/backend/python/ops.py:type_of_target"]}
{"id": "C13", "title": "Bootstrap keeps samples paired with their labels", "statement": "bootstrap_sampling(x, y) returns as many rows as the input, each returned (row, label) pair is one of the input pairs at a common index, and mismatched lengths are rejected with ValueError before anything is sampled.", "quantifier": "every data set and every sequence of random draws", "why_tests_cant": "Holds for every outcome of the random generator.", "anchors": ["classicML/backend/python/ops.py:bootstrap_sampling", "classicML/backend/cc/ops/ops.cc:BootstrapSampling1"]}
{"id": "C14", "title": "Multiplier clipping and second multiplier choice", "statement": "clip_alpha(a, low, high) is the point of [low, high] nearest to a; select_second_alpha returns a non-bound index whose cached error is at maximal distance from the given error.", "quantifier": "every real triple with low <= high; every error cache and non-empty non-bound set", "why_tests_cant": "Optimality over all candidates of every cache.", "anchors": ["classicML/backend/python/ops.py:clip_alpha", "classicML/backend/python/ops.py:select_second_alpha"]}
{"id": "C15", "title": "Centroid initialisation returns rows that exist", "statement": "init_centroids with random or index initialisation returns n_clusters rows of the training data; with explicit centroids of the right shape returns those unchanged; indices out of range or of the wrong count are rejected. Exactly which shapes are rejected or misread because of the squeeze is characterised (one cluster, one feature).", "quantifier": "every data matrix, cluster count, initialiser shape and random draw", "why_tests_cant": "Shape dispatch over all combinations of sizes.", "anchors": ["classicML/backend/python/ops.py:init_centroids", "classicML/backend/cc/ops/ops.cc:InitCentroids2"]}
{"id": "C16", "title": "Impurity measures are bounded and vanish exactly on pure sets", "statement": "Gini and entropy of a non-empty label set are non-negative, are zero iff all labels are equal, do not depend on the order of samples, and are at most 1-1/k and log2 k for k distinct labels.", "quantifier": "every non-empty label list and any number of classes", "why_tests_cant": "Inequalities over all label distributions.", "anchors": ["classicML/backend/python/tree/criteria.py:Gini.__call__", "classicML/backend/python/tree/criteria.py:Entropy.__call__"]}
{"id": "C17", "title": "The chosen split is optimal", "statement": "For a continuous attribute the reported threshold attains the minimum weighted impurity (maximum gain) among all midpoints of neighbouring distinct values, and among all real thresholds; optimal_division returns an attribute whose score no other attribute beats.", "quantifier": "every data set, attribute list and criterion", "why_tests_cant": "Optimality over infinitely many thresholds.", "anchors": ["classicML/backend/python/tree/criteria.py:Criterion.get_value", "classicML/backend/python/tree/criteria.py:Criterion.optimal_division", "classicML/backend/python/tree/criteria.py:Gain.get_value"]}
{"id": "C18", "title": "A decision tree reproduces consistent training data", "statement": "If no two training rows agree on all attributes but differ in label, then DecisionTreeClassifier without pruning predicts every training label correctly. For contradictory rows, whenever a tree is built no function of the row makes fewer errors on the training data.", "quantifier": "every consistent training set with any mix of discrete and continuous attributes, any criterion", "why_tests_cant": "Induction over all trees the generator can build; tests sample few data sets.", "anchors": ["classicML/backend/python/tree/generators.py:DecisionTreeGenerator", "classicML/api/models/tree/decision_tree_classifier.py:DecisionTreeClassifier._predict"]}
{"id": "C19", "title": "Reported leaf count and height of a grown tree", "statement": "num_of_leaves of the returned tree equals the actual number of leaf nodes. height equals the length of the longest root-leaf path when all splits are discrete; for continuous splits the code adds the heights of both children, so the reported height equals or exceeds the real one.", "quantifier": "every training set", "why_tests_cant": "Structural statement over all trees.", "anchors": ["classicML/backend/python/tree/generators.py:DecisionTreeGenerator.tree_generate"]}
{"id": "C20", "title": "Tree growth terminates and predicts only training labels", "statement": "Growing a tree always terminates, and every prediction is a label that occurs in the training labels; a row with an unseen discrete value raises an error instead of returning a label.", "quantifier": "every training set and every query row", "why_tests_cant": "Termination and range over all inputs.", "anchors": ["classicML/backend/python/tree/generators.py:DecisionTreeGenerator.tree_generate", "classicML/api/models/tree/decision_tree_classifier.py:DecisionTreeClassifier._predict"]}
{"id": "C21", "title": "Post-pruning never lowers validation accuracy", "statement": "After post-pruning, the number of correctly classified validation rows is at least that of the unpruned tree, the pruned tree has no more leaves, and is obtained from the original by collapsing subtrees into leaves.", "quantifier": "every tree and every validation set whose discrete values the tree knows", "why_tests_cant": "Bottom-up induction over all trees and all validation sets.", "anchors": ["classicML/backend/python/tree/pruners.py:PostPruner"]}
{"id": "C22", "title": "Pre-pruning behaviour", "statement": "PrePruner keeps a split iff it strictly increases the validation accuracy of the node, never produces more leaves than the given tree, and the heights it reports for discrete nodes are characterised (they over-count).", "quantifier": "every tree and validation set", "why_tests_cant": "Induction over all trees.", "anchors": ["classicML/backend/python/tree/pruners.py:PrePruner"]}
{"id": "C23", "title": "Decision stump is optimal", "statement": "DecisionStumpClassifier.fit finds a feature, threshold and direction such that no rule with one feature, any separating threshold and either direction makes fewer training mistakes; at most half of the training rows are misclassified. With one training row or no feature the fitted stump raises TypeError on prediction.", "quantifier": "every data set with labels in {-1,1}", "why_tests_cant": "Global optimality over all candidates for all inputs.", "anchors": ["classicML/backend/python/tree/generators.py:DecisionStumpGenerator"]}
{"id": "C24", "title": "SMO keeps every multiplier in the box and on the hyperplane", "statement": "At every moment of SVC training (after every pair update, in any order of visited samples) 0 <= alpha_i <= C for all i and sum_i alpha_i*y_i = 0.", "quantifier": "every data set with labels in {-1,1}, kernel, C > 0, tolerance, and every sequence of chosen pairs and random draws", "why_tests_cant": "Invariant over unbounded training histories.", "anchors": ["classicML/backend/python/optimizers.py:SequentialMinimalOptimization"]}
{"id": "C25", "title": "Support set of a trained SVC", "statement": "The multipliers, vectors and labels kept after training are exactly the samples whose multiplier is positive, in order; the flags used for that agree with the multipliers after every update.", "quantifier": "every training history", "why_tests_cant": "Invariant over histories.", "anchors": ["classicML/backend/python/optimizers.py:SequentialMinimalOptimization._update_alpha", "classicML/backend/python/optimizers.py:SequentialMinimalOptimization.run"]}
{"id": "C26", "title": "A pair update never decreases the dual objective", "statement": "If the two error values are exact and the curvature is positive, the accepted pair update maximises the dual objective on the feasible segment, hence never decreases it. Errors computed afresh are exact; cached errors leave out samples whose multiplier was zero before the update, and training can therefore lower the dual objective.", "quantifier": "every feasible multiplier vector and every pair", "why_tests_cant": "Optimality over a continuum.", "anchors": ["classicML/backend/python/optimizers.py:SequentialMinimalOptimization._update_parameters", "classicML/backend/python/optimizers.py:SequentialMinimalOptimization._update_error_cache"]}
{"id": "C27", "title": "Kernels are symmetric and have non-negative curvature", "statement": "The linear, polynomial, RBF and sigmoid kernels are symmetric; RBF values lie in (0,1] with value 1 on the diagonal; the Gram matrices of the linear, polynomial and RBF kernels (gamma >= 0) are positive semidefinite, so the SMO curvature K_ii+K_jj-2K_ij is non-negative for them (positive for distinct vectors with the linear and RBF kernels). The sigmoid kernel can have negative curvature.", "quantifier": "every pair of vectors and every finite sample", "why_tests_cant": "Inequalities over all vectors.", "anchors": ["classicML/backend/python/kernels.py:Linear", "classicML/backend/python/kernels.py:RBF", "classicML/backend/python/kernels.py:Polynomial"]}
{"id": "C28", "title": "SVC decision depends on support vectors only", "statement": "Predicting with the retained support vectors gives the same value as predicting with all training samples and their multipliers; the label is -1 iff the decision value is negative and 1 otherwise.", "quantifier": "every trained state and query", "why_tests_cant": "Equality for all states and queries.", "anchors": ["classicML/api/models/support_vector_machine/support_vector_classifier.py:SupportVectorClassifier.predict"]}
{"id": "C29", "title": "K-means assigns every sample to a nearest centroid", "statement": "predict and every training round assign to each sample a cluster whose centroid is at minimal Euclidean distance, the lowest such index on ties.", "quantifier": "every data matrix and non-empty centroid list", "why_tests_cant": "Minimality over all centroids for all inputs.", "anchors": ["classicML/backend/python/ops.py:get_cluster", "classicML/backend/python/ops.py:calculate_euclidean_distance", "classicML/api/models/cluster/k_means.py:KMeans.predict"]}
{"id": "C30", "title": "K-means training never increases the within-cluster sum of squares", "statement": "Whenever fit returns, the stored centroids are well defined (no NaN row) and the sum over samples of squared distance to the nearest stored centroid is at most that for the initial centroids.", "quantifier": "every data set, initial centroids and number of rounds", "why_tests_cant": "Monotonicity over unbounded histories.", "anchors": ["classicML/api/models/cluster/k_means.py:KMeans.fit", "classicML/backend/python/ops.py:calculate_centroids"]}
{"id": "C31", "title": "Stored clusters versus stored centroids", "statement": "If K-means stops early, the stored clusters equal predict(x) on the training data and every used centroid is within tol of the mean of its samples, unless all samples fall into one cluster other than the first (then it can stop anywhere). If it stops because epochs are exhausted, every centroid is exactly the mean of its stored samples, but the stored clusters can differ from predict(x).", "quantifier": "every run", "why_tests_cant": "Depends on the unbounded history.", "anchors": ["classicML/api/models/cluster/k_means.py:KMeans.fit"]}
{"id": "C32", "title": "Empty clusters in K-means", "statement": "calculate_centroids returns one centroid per distinct cluster label present; it is the mean of the members exactly when labels used are 0..k-1 without a gap. With a gap (an empty cluster) the result contains an undefined row and drops the members of the last cluster. Training raises ValueError as soon as a round leaves a cluster empty, unless all samples share one cluster.", "quantifier": "every assignment", "why_tests_cant": "All assignment patterns.", "anchors": ["classicML/backend/python/ops.py:calculate_centroids"]}
{"id": "C33", "title": "Gaussian mixture responsibilities and mixing weights are probability vectors", "statement": "Every responsibility row is non-negative and sums to 1, and after every EM round the mixing weights are non-negative and sum to 1.", "quantifier": "every data set, parameters with positive density, and number of rounds", "why_tests_cant": "Invariant over histories.", "anchors": ["classicML/backend/python/ops.py:get_gaussian_mixture_distribution_posterior_probability", "classicML/backend/python/ops.py:calculate_mixture_coefficient"]}
{"id": "C34", "title": "Gaussian mixture means and covariances stay admissible", "statement": "After every EM round each mean coordinate lies between the smallest and largest sample coordinate, and every covariance matrix is symmetric positive semidefinite.", "quantifier": "every data set, responsibilities and number of rounds", "why_tests_cant": "Inequalities over all vectors and histories.", "anchors": ["classicML/backend/python/ops.py:calculate_means", "classicML/backend/python/ops.py:calculate_covariances"]}
{"id": "C35", "title": "Bayes probabilities are normalised", "statement": "Class priors are in [0,1] and sum to 1; with smoothing and both classes present the priors are strictly between 0 and 1 (with a single class they are 1 and 0); conditional probabilities over all values of an attribute sum to 1 with and without smoothing and are positive with smoothing; dependent priors over all values and both classes sum to 1.", "quantifier": "every count table", "why_tests_cant": "Identity over all count tables.", "anchors": ["classicML/backend/python/ops.py:get_prior_probability", "classicML/backend/python/ops.py:get_conditional_probability", "classicML/backend/python/ops.py:get_dependent_prior_probability"]}
{"id": "C36", "title": "Naive Bayes value counts", "statement": "The per-class count stored for a discrete value is the number of rows of that class having the value whenever values first occur in order of decreasing frequency; otherwise counts are attached to the wrong value.", "quantifier": "every discrete column and labelling", "why_tests_cant": "Agreement of two orderings for all columns.", "anchors": ["classicML/api/models/bayes/naive_bayes_classifier.py:NaiveBayesClassifier.fit"]}
{"id": "C37", "title": "Naive Bayes probability output versus label", "statement": "predict(probability=True) returns two numbers summing to 1, but they are ratios of log-probabilities: whenever both joint scores are below 1 the class with the larger reported number is the class that is not predicted.", "quantifier": "every trained state and query", "why_tests_cant": "Order reversal over all scores.", "anchors": ["classicML/api/models/bayes/naive_bayes_classifier.py:NaiveBayesClassifier._predict"]}
{"id": "C38", "title": "Continuous Naive Bayes density", "statement": "The value used as class-conditional density is positive for every input and symmetric around the mean and maximal there; it is the normal density whose standard deviation is the stored variance.", "quantifier": "every sample value, mean and variance", "why_tests_cant": "Real-analytic identity.", "anchors": ["classicML/backend/python/ops.py:get_probability_density"]}
{"id": "C39", "title": "Semi-naive Bayes classifiers", "statement": "SPODE/AODE predict only 0 or 1; refitting an existing SPODE does not replace but accumulates the table of the first fit; AODE shares one table between all super parents.", "quantifier": "every training history and query", "why_tests_cant": "History dependent state.", "anchors": ["classicML/api/models/bayes/semi_naive_bayes_classifiers.py:SuperParentOneDependentEstimator", "classicML/api/models/bayes/semi_naive_bayes_classifiers.py:AveragedOneDependentEstimator"]}
{"id": "C40", "title": "Bagging predicts by majority and accumulates on refit", "statement": "BaggingClassifier.predict returns the majority label of its base learners (+1 on a tie), after k fits it holds k*n base learners.", "quantifier": "every history of fits and every query", "why_tests_cant": "History dependent; all vote patterns.", "anchors": ["classicML/api/models/ensemble/bagging.py:BaggingClassifier"]}
{"id": "C41", "title": "AdaBoost sample weights stay a probability distribution", "statement": "After every boosting round all sample weights are positive and sum to 1, as long as the weak learner error is strictly between 0 and 1.", "quantifier": "every data set and number of rounds", "why_tests_cant": "Invariant over rounds.", "anchors": ["classicML/api/models/ensemble/boosting.py:AdaBoostClassifier.fit"]}
{"id": "C42", "title": "AdaBoost reweighting makes the last learner useless, and bounds training error", "statement": "Under the new weights the error of the learner just added is exactly 1/2; the training error of the combined vote is at most the product of 2*sqrt(e(1-e)) over rounds.", "quantifier": "every data set, weak learner sequence and number of rounds", "why_tests_cant": "Induction over rounds with real inequalities.", "anchors": ["classicML/api/models/ensemble/boosting.py:AdaBoostClassifier.fit", "classicML/api/models/ensemble/boosting.py:AdaBoostClassifier.predict"]}
{"id": "C43", "title": "AdaBoost cannot be refitted and can flip votes", "statement": "Calling fit a second time on the same AdaBoostClassifier fails; dividing by the sum of learner weights reverses every prediction when that sum is negative.", "quantifier": "every history with two fits; every learner weight list with negative sum", "why_tests_cant": "History dependent.", "anchors": ["classicML/api/models/ensemble/boosting.py:AdaBoostClassifier"]}
{"id": "C44", "title": "Logistic gradient is the derivative of the reported loss", "statement": "The gradient used by GradientDescent and NewtonMethod is the derivative of the LogLikelihood loss in every parameter, and the Hessian used by NewtonMethod is the derivative of that gradient.", "quantifier": "every data matrix, label vector and parameter vector", "why_tests_cant": "Identity of functions over a continuum.", "anchors": ["classicML/backend/python/optimizers.py:GradientDescent", "classicML/backend/python/optimizers.py:NewtonMethod", "classicML/backend/python/losses.py:LogLikelihood"]}
{"id": "C45", "title": "Logistic loss is convex and the Hessian is positive semidefinite", "statement": "The Hessian built by NewtonMethod is symmetric and positive semidefinite, so the loss is convex along every line and every stationary point is a global minimum.", "quantifier": "every data matrix and parameters", "why_tests_cant": "Universally quantified inequality.", "anchors": ["classicML/backend/python/optimizers.py:NewtonMethod", "classicML/backend/python/losses.py:LogLikelihood"]}
{"id": "C46", "title": "Logistic predictions are probabilities monotone in the linear score", "statement": "predict returns values strictly between 0 and 1, at least 1/2 iff the linear score is non-negative, and increasing in the score. fit restarts from freshly drawn parameters on every call unless weights were loaded, in which case it continues from the stored ones.", "quantifier": "every parameter vector and query", "why_tests_cant": "Continuum of inputs.", "anchors": ["classicML/api/models/linear_model/logistic_regression.py:LogisticRegression.predict"]}
{"id": "C47", "title": "LDA projection and decision rule", "statement": "LDA predicts 1 iff the projected sample is strictly closer to the projected positive mean; the documented direction inverse(S_w)(mu0-mu1), which maximises the Fisher ratio, is returned by the deprecated get_w. fit uses get_w_v2, whose products are elementwise: it agrees for one feature only; there is separable two-feature data on which every correct SVD makes fit return the zero direction and predict answers 0 for every row.", "quantifier": "every data set; a witness for the failing part", "why_tests_cant": "Algebraic identity over all matrices.", "anchors": ["classicML/backend/python/ops.py:get_w_v2", "classicML/backend/python/ops.py:get_w", "classicML/api/models/linear_model/linear_discriminant_analysis.py:LinearDiscriminantAnalysis"]}
{"id": "C48", "title": "Activation functions", "statement": "Softmax rows are positive and sum to 1 and are unchanged when a constant is added to all scores; sigmoid lies in (0,1) with sigmoid(-z) = 1-sigmoid(z) and strictly increases; relu is max(0,z).", "quantifier": "every score matrix", "why_tests_cant": "Continuum of inputs.", "anchors": ["classicML/backend/python/activations.py:Softmax", "classicML/backend/python/activations.py:Sigmoid", "classicML/backend/python/activations.py:Relu"]}
{"id": "C49", "title": "Back-propagation gradient", "statement": "The gradients the SGD/Adam back pass computes equal the derivatives of the reported cross-entropy loss for softmax outputs; for a single sigmoid output they are the gradient of the loss minus half the mean squared prediction, which for one sample is the loss gradient times a factor in [3/4, 2). A small enough SGD step therefore lowers the loss of the drawn sample. Class numbers given to a network with several outputs push all class scores the same way.", "quantifier": "every network, input and label", "why_tests_cant": "Identity over a continuum; finite-difference tests are approximate.", "anchors": ["classicML/backend/python/optimizers.py:StochasticGradientDescent.backward"]}
{"id": "C50", "title": "Adam moment invariants", "statement": "In Adam the second moment estimates are non-negative at all times, so every update is defined; moments are convex combinations of past gradients with weights summing to 1-beta^t, and bias correction makes the estimate of a constant gradient exact.", "quantifier": "every gradient sequence and length", "why_tests_cant": "Invariant over unbounded histories.", "anchors": ["classicML/backend/python/optimizers.py:Adam"]}
{"id": "C51", "title": "RBF network gradients", "statement": "RBF network training moves weights and bias by the derivatives of half the mean squared error; the widths move by the derivative of half the mean squared output, which ignores the labels, so an exact fit is not kept. Centres never move, the loss recorded is that before the update, vector labels are refused.", "quantifier": "every network and sample", "why_tests_cant": "Identity over a continuum.", "anchors": ["classicML/backend/python/optimizers.py:RadialBasisFunctionOptimizer"]}
{"id": "C52", "title": "Loss functions", "statement": "Cross-entropies are non-negative for labels in {0,1} (one-hot rows) and predictions in (0,1); MeanSquaredError is the squared sum of differences over 2n, hence zero for predictions whose errors cancel.", "quantifier": "every prediction and label matrix of equal shape", "why_tests_cant": "Inequalities over a continuum.", "anchors": ["classicML/backend/python/losses.py"]}
{"id": "C53", "title": "Accuracy metrics are fractions of correct samples", "statement": "BinaryAccuracy on labels {0,1} or {-1,1} is the number of samples on the right side of 1/2 divided by n, CategoricalAccuracy the number of rows whose first maximum is at the label column divided by n; both are in [0,1]; score is invariant under a common permutation. Labels outside {0,1,-1} always count as correct.", "quantifier": "every prediction/label pair of equal shape", "why_tests_cant": "Counting identities over all inputs.", "anchors": ["classicML/backend/python/metrics.py", "classicML/api/models/base_model.py:BaseModel.score"]}
{"id": "C54", "title": "Using a model before training is rejected", "statement": "For every model class, predict raises ValueError in any state in which neither fit nor load_weights has succeeded, and does not raise that error afterwards; no other operation sequence makes predict usable. Exceptions, each shown by a concrete history: a failing fit of the Gaussian mixture leaves it usable (and the averaged one-dependence estimator marks itself trained early), and seven classes can save and reload an object that was never fitted.", "quantifier": "every sequence of compile/fit/load/save/predict calls", "why_tests_cant": "All operation histories.", "anchors": ["classicML/api/models: predict of every class"]}
{"id": "C55", "title": "Saved weights reload to the same predictor", "statement": "For every model class, saving a trained model and loading the file into a fresh instance with the same constructor arguments restores every field used by predict, so predictions are identical for all inputs; exceptions: polynomial degree, sigmoid beta/theta and the gamma of a kernel object are lost, and components with a name of their own cannot be loaded.", "quantifier": "every trained state", "why_tests_cant": "All states.", "anchors": ["classicML/api/models: save_weights, load_weights of every class", "classicML/backend/io.py"]}
{"id": "C56", "title": "Foreign or outdated weight files are rejected without touching the model", "statement": "load_weights raises ValueError for a file written by another model class, an older library version or an older io version, and leaves the model state unchanged; a load that raises never marks the model as loaded. An acceptable but damaged file can change the model before the call raises.", "quantifier": "every file content and model state", "why_tests_cant": "All files.", "anchors": ["classicML/backend/io.py:_parse", "classicML/backend/io.py:initialize_weights_file"]}
{"id": "C57", "title": "Interrupted save", "statement": "save_weights truncates the target before any weight is written; if it stops at any later point the file at that path holds only a part of the new contents and the old contents are gone; for every class but the two networks such a file cannot be loaded, while a truncated layered network loads silently as a shallower one.", "quantifier": "every crash point of every save", "why_tests_cant": "Crash points cannot be enumerated by tests.", "anchors": ["classicML/backend/io.py:initialize_weights_file"]}
{"id": "C58", "title": "Loading network weights merges instead of replacing", "statement": "BackPropagationNeuralNetwork.load_weights overwrites the layers contained in the file and leaves other layers of the instance in place, so loading a shallower network into a deeper instance yields a network that is neither.", "quantifier": "every file and instance state", "why_tests_cant": "All pairs of states.", "anchors": ["classicML/api/models/neural_network/back_propagation_neural_network.py:BackPropagationNeuralNetwork.load_weights"]}
{"id": "C59", "title": "History records exactly one entry per epoch", "statement": "With a History callback attached, after training for n epochs the loss and metric lists have grown by exactly n entries in order and kept equal length; repeated fits append; a fit that fails has recorded exactly the epochs before the failing one; reporting never changes what is learned; each entry belongs to a stated state of the parameters.", "quantifier": "every number of epochs and every sequence of fits", "why_tests_cant": "Unbounded histories.", "anchors": ["classicML/backend/python/callbacks.py:History", "classicML/backend/python/optimizers.py:_record_callbacks"]}
{"id": "C60", "title": "Progress bar width", "statement": "For 1 <= epoch <= epochs the drawn bar has exactly 25 characters between brackets, at most one arrow, and never moves backwards as epoch grows, and the arrow stands in the column of 25*epoch/epochs, whatever the rounding of floats; the C++ version does not move (with 26 characters) until the last 1/25 of the epochs. The bar stays on the optimizer for later calls.", "quantifier": "every epoch and epochs", "why_tests_cant": "Arithmetic with ceilings over all integers.", "anchors": ["classicML/backend/python/_utils.py:ProgressBar", "classicML/backend/cc/_utils/_utils.cc"]}
{"id": "C61", "title": "Name lookup of components", "statement": "get_criterion/get_initializer/get_kernel/get_loss/get_metric/get_optimizer/get_pruner are total; an instance is passed through unchanged; every documented name yields the class whose name attribute is accepted again; get_metric yields nothing for an unknown name while the others fall back or raise as documented.", "quantifier": "every string or instance", "why_tests_cant": "All strings.", "anchors": ["classicML/backend/training.py"]}
{"id": "C62", "title": "Python and C++ backends agree", "statement": "For equal arguments of matching shapes the Python and C++ implementations of each shared operation give equal results: distances, cluster numbers, centroids, component means, parameter comparison, bootstrap samples, clipping, prediction errors, probabilities, projection vectors, scatter matrices, hulls, metrics, losses, activations and their derivatives, kernels, target types and initial centroids. The exceptions are characterised: select_second_alpha (equal iff the first free sample is sample 0 or another free sample has a strictly larger error difference; otherwise C++ answers sample 0 even if it is not free), the smoothed class prior (equal iff there are exactly two classes), get_w_v2 (C++ multiplies by the scatter instead of dividing by it), metrics of mismatching shapes (ValueError in C++ only) and of empty arrays, kernels of several rows with one feature (unusable in C++), explicit initial centroids with one cluster or one feature, labels that differ only beyond the part C++ keeps, hulls of one point.", "quantifier": "every argument list of the shared operations, every random draw, every sort", "why_tests_cant": "Extensional equality of functions over all inputs; tests compare a few calls of one backend with a few of the other.", "anchors": ["classicML/backend/python/ops.py", "classicML/backend/cc/ops/ops.cc", "classicML/backend/cc/metrics/metrics.cc", "classicML/backend/cc/losses/losses.cc", "classicML/backend/cc/activations/activations.cc", "classicML/backend/cc/kernels/kernels.cc"]}
{"id": "C63", "title": "Two-level tree structure", "statement": "TwoLevelDecisionTreeClassifier produces trees with at most two levels of splits and four leaves whose labels are -1 or 1, and a leaf is 1 iff the weight of positive samples reaching it exceeds that of negative ones. Every split minimises weighted Gini impurity over all features and separating thresholds, and the weighted training error never exceeds that of a constant answer. If all weights are zero fitting fails.", "quantifier": "every weighted sample", "why_tests_cant": "All trees the generator can build.", "anchors": ["classicML/backend/python/tree/generators.py:TwoLevelDecisionTreeGenerator"]}
{"id": "C64", "title": "Initial mixture parameters", "statement": "Without an explicit value the initial mixing coefficients are n equal positive numbers summing to 1 and each initial covariance is 0.1 times the identity; explicit coefficients are accepted only if they sum to 1, and are returned unchanged. With one component explicit coefficients are always rejected, and with one component or one feature explicit covariances are always rejected.", "quantifier": "every number of components, features and explicit array", "why_tests_cant": "Quantifies over all shapes and values.", "anchors": ["classicML/backend/python/ops.py:init_covariances", "classicML/backend/python/ops.py:init_mixture_coefficient"]}
{"id": "C65", "title": "A split never makes a node less pure", "statement": "For every way of splitting a node the size-weighted impurity of the parts is at most the impurity of the node; the gain reported by optimal_division with the Gain criterion is therefore never negative, and the value reported with Gini or Entropy never exceeds the impurity of the node.", "quantifier": "every data set, attribute, threshold and criterion", "why_tests_cant": "Inequality (concavity) over all label distributions and all partitions.", "anchors": ["classicML/backend/python/tree/criteria.py:Criterion.get_value", "classicML/backend/python/tree/criteria.py:Gain.get_value"]}
{"id": "C66", "title": "A converged SVC satisfies the optimality conditions or has no usable partner", "statement": "When SVC training without a pass limit ends, every sample satisfies the KKT conditions up to tol for its error value, or no other sample gives an accepted pair update with it. Sweeps over all samples and over those strictly between the bounds alternate by the usual schedule; training ends only after a full sweep without changes or when the allowed sweeps are used up.", "quantifier": "every data set with labels in {-1,1}, kernel, C, tol and all random permutations, whenever training ends", "why_tests_cant": "Ranges over all training histories.", "anchors": ["classicML/backend/python/optimizers.py:SequentialMinimalOptimization.run"]}
{"id": "C67", "title": "K-means training settles after finitely many rounds", "statement": "For tol >= 0 and every data set and start there is a number of rounds from which on fit no longer depends on the round limit to stop: it raises or stops by the tolerance test.", "quantifier": "every data set, start and tol >= 0; the bound depends on the data only", "why_tests_cant": "Termination over unbounded histories.", "anchors": ["classicML/api/models/cluster/k_means.py:KMeans.fit"]}
{"id": "C68", "title": "Gaussian mixture training never lowers the likelihood", "statement": "The log-likelihood of the training data under the parameters stored by fit is at least that under the initial parameters (exact density values). With any number of features, initial covariance matrices that are symmetric and positive semi-definite (the default ones are) and whenever fit returns. If the samples differ along every direction, fit with the default start always returns.", "quantifier": "every data set, start, tolerance and number of rounds, whenever fit returns", "why_tests_cant": "Real inequality (EM ascent) over unbounded histories.", "anchors": ["classicML/api/models/cluster/gaussian_mixture.py:GaussianMixture.fit", "classicML/backend/python/ops.py:get_gaussian_mixture_distribution_posterior_probability", "classicML/backend/python/ops.py:calculate_means", "classicML/backend/python/ops.py:calculate_covariances", "classicML/backend/python/ops.py:calculate_mixture_coefficient"]}
{"id": "C69", "title": "Naive Bayes predicts the more probable class", "statement": "On discrete data with both classes present, smoothing on and every column listing its values in order of frequency, fit succeeds and predict returns 0 exactly when the Laplace-corrected prior times the product of Laplace-corrected value frequencies of class 0 exceeds that of class 1; in general the label compares the products of the stored factors. A value never seen in training raises KeyError, and a constant discrete column makes fit raise IndexError.", "quantifier": "every training table, labelling and query", "why_tests_cant": "The decision is taken on sums of logarithms of counts over all rows; agreement with the product rule must hold for every table and every query.", "anchors": ["classicML/api/models/bayes/naive_bayes_classifier.py:NaiveBayesClassifier.fit", "classicML/api/models/bayes/naive_bayes_classifier.py:NaiveBayesClassifier._predict"]}
{"id": "C70", "title": "Gradient descent descends and converges for small learning rates", "statement": "With learning rate at most 2/K (K a quarter of the sum of the squared lengths of the rows with the constant) no epoch of GradientDescent raises the loss; with rate at most 1/K the loss after n epochs exceeds the loss of any parameters c by at most |b-c|^2/(2 rate n). Larger rates can raise the loss.", "quantifier": "every data set, start and number of epochs", "why_tests_cant": "Inequality over a continuum and unbounded runs.", "anchors": ["classicML/backend/python/optimizers.py:GradientDescent"]}
{"id": "C71", "title": "Newton steps", "statement": "A Newton step solves the linear system of Hessian and gradient, stays exactly at stationary points and moves downhill from every other point. It raises LinAlgError exactly when the columns of the data and the constant are linearly dependent, for instance when a feature is constant.", "quantifier": "every data set and parameters", "why_tests_cant": "Algebraic identity over all matrices.", "anchors": ["classicML/backend/python/optimizers.py:NewtonMethod"]}
{"id": "C72", "title": "Extra arguments of the optimizers", "statement": "The arguments verbose, loss, metric and callbacks of an optimizer call can be given by position or keyword: a positional value wins over a keyword, a keyword wins over the default, unknown keywords are ignored, a fifth positional value is an IndexError, and a missing argument is the text of its own name.", "quantifier": "every list of positional values and every keyword dictionary", "why_tests_cant": "All combinations of arguments.", "anchors": ["classicML/backend/python/optimizers.py:_get_optimizer_parameters"]}
{"id": "C73", "title": "The seed of an initializer is a property of the process", "statement": "After an initializer was built with a seed, what initializers and later calls return depends on that seed and on the calls made since, and on nothing that happened before; each call continues the sequence of draws. The seed belongs to the whole process: building another instance replaces it for all instances, and building one without a seed discards it, so an instance does not in general return the parameters of its own seed (refuted by a witness).", "quantifier": "every sequence of constructor calls, initializer calls and other uses of the global generator, every generator", "why_tests_cant": "The result depends on the whole history of calls in the process.", "anchors": ["classicML/backend/python/initializers.py:Initializer.__init__", "classicML/backend/python/initializers.py:RandomNormal", "classicML/backend/python/initializers.py:HeNormal", "classicML/backend/python/initializers.py:XavierNormal", "classicML/backend/python/initializers.py:RBFNormal"]}
{"id": "C74", "title": "Initial parameters fit the structure", "statement": "For a network structure [n0,...,nL] the initializers return L weight matrices of shape (n_k, n_{k-1}), zero biases, and weight entries that are pairwise different draws times 1, sqrt(2/n_in) or sqrt(2/(n_in+n_out)); the network is wired for every input of width n0, and no number of training steps on data of that shape fails. For logistic regression the vector has one entry per attribute plus one. The Xavier vector form multiplies by sqrt(n): it grows with n although the layer form shrinks. The radial basis network starts with output exactly 0.", "quantifier": "every structure, every generator state, every number of training steps", "why_tests_cant": "Shapes and scales must hold for all structures, the training claim for all step sequences.", "anchors": ["classicML/backend/python/initializers.py:RandomNormal.__call__", "classicML/backend/python/initializers.py:HeNormal.__call__", "classicML/backend/python/initializers.py:XavierNormal.__call__", "classicML/backend/python/initializers.py:RBFNormal.__call__"]}
{"id": "C75", "title": "C++ initializers restart the sequence in every layer", "statement": "The C++ initializers return the same shapes, but every layer starts the sequence of the seed again: two layers of the same shape, with an even number of weights before each, start with equal weights and biases. After an odd number of weights the sequence is shifted by the value left over by the previous matrix. A call repeated with the same seed returns the same network when the number of weights is even; for an odd number it need not (witness).", "quantifier": "every structure with positive sizes, every seed, every engine and every pairwise normal sampler", "why_tests_cant": "Equality of layers for all structures cannot be sampled.", "anchors": ["classicML/backend/cc/initializers/initializers.cc:RandomNormal", "classicML/backend/cc/initializers/initializers.cc:HeNormal", "classicML/backend/cc/initializers/initializers.cc:XavierNormal", "classicML/backend/cc/matrix_op.cc:GenerateRandomStandardNormalDistributionMatrix"]}
{"id": "C76", "title": "Loading a data set keeps features and labels apart and says what it stored", "statement": "from_dataframe: the last column never influences the features (they are those of the frame without it), nothing else is changed when no option is set, missing values are imputed column by column when asked; test and unsupervised data have no labels, and a test frame still loses its last column. With 1 or at least 3 classes of whole non-negative numbers or texts, every label has a stored code and class_indices gives that code; non-integral float labels can be merged (witness). from_tensor_slices: vector labels are stored unchanged and class_indices names only the two smallest values, so it describes the labels iff they are 0 and 1; one-hot and max-margin always raise; a training set without labels raises AttributeError even if unsupervised; one-hot tables with 3 or more columns are stored unchanged while class_indices speaks about the entries 0 and 1.", "quantifier": "every frame or tensor, every combination of options", "why_tests_cant": "Agreement of the published table with every stored label for all label columns and options.", "anchors": ["classicML/backend/python/data/dataset.py:Dataset.from_dataframe", "classicML/backend/python/data/dataset.py:Dataset.from_tensor_slices"]}
{"id": "C77", "title": "The drawing of a decision tree shows every node once, apart from the others, in order and inside the frame", "statement": "plot_tree draws every node of the tree exactly once, parents before children, with an arrow from the box of its parent and the name of the branch half-way. A node is placed above the middle of the leaves below it; the leaves are equally spaced from left to right and the levels equally spaced from top to bottom. No two boxes share a position. Everything lies inside the unit frame exactly when the recorded height is at least the number of splits on the longest path; that holds for every tree trained without pruning or with pre-pruning, but fails for some post-pruned trees, whose lowest leaves are drawn below the frame.", "quantifier": "all trees with correct leaf counts, in particular every tree a fit returns for any data set, criterion and pruner", "why_tests_cant": "The layout is computed by mutating four module-level variables during the recursion, so whether siblings drift depends on the shape of everything drawn before; the tests only call plot on one data set and never look at positions.", "anchors": ["classicML/api/plots/tree.py: plot_tree, _plot_decision_tree", "classicML/api/plots/utils.py: _add_node, _add_text"]}
{"id": "C78", "title": "Two-dimensional plots show the samples, decisions and geometry of the model they are given", "statement": "Every plot refuses an untrained model with ValueError. Samples with the two expected labels are drawn exactly once, others are silently left out. The background of classifier plots shows at every grid position the prediction for exactly that position, the grid runs evenly over the frame, and for Bayes classifiers the frame reaches a tenth beyond every sample. The line of logistic regression consists of the points with probability one half. In the plot of linear discriminant analysis every sample is joined to the nearest point on the direction, which is classified like the sample. For support vector classifiers the circled samples are the support vectors. Gaussian mixtures draw every sample once in the group of its cluster; the k-means plot fails exactly when a cluster has fewer than two samples and otherwise its hulls enclose their clusters. The Bayes plot needs exactly two numeric columns.", "quantifier": "all weights, samples, labels, cluster assignments, frames and row-by-row predictors", "why_tests_cant": "Plots are only looked at, not compared; a transposed grid, a swapped axis or a wrong line looks plausible on symmetric data.", "anchors": ["classicML/api/plots/linear_model.py: plot_linear_discriminant_analysis, plot_logistic_regression", "classicML/api/plots/cluster.py: plot_gaussian_mixture, plot_k_means", "classicML/api/plots/support_vector_machine.py: plot_support_vector_classifier", "classicML/api/plots/ensemble.py: plot_ensemble", "classicML/api/plots/bayes.py: plot_bayes"]}
{"id": "C79", "title": "Measuring decorators do not change what they measure", "statement": "A function decorated with timer or memory_monitor returns the same value, raises the same exception and leaves the same state as without; one message follows a return and none an exception, and the printed number and unit give the time between the two clock readings (or the memory after the call). average_timer(n) with n>=1 runs the function exactly n times, returns the last value and prints mean, standard deviation, maximum and minimum that are those of the n durations in the printed units; an exception in any run comes out at once without a message. With n<=0 the function is never called and ValueError is raised.", "quantifier": "all functions on any state, clock readings, numbers of runs and points of failure", "why_tests_cant": "Holds for every function, history of states and clock; tests use a few functions and never inspect the message.", "anchors": ["classicML/benchmarks/wrapper_utils.py: timer, average_timer, memory_monitor, _format_and_display_the_time_spent"]}
{"id": "C80", "title": "Environment variables select engine and precision", "statement": "import classicML works in every environment. The 64-bit types are used exactly when CLASSICML_PRECISION is the text 64-bit; any other text except 32-bit gives 32 bits and a warning. Unless CLASSICML_ENGINE is exactly CC every backend component is the Python one, whatever engine the first message announces. With CC exactly ten components remain Python, a name bound by both engines stands for the same function, and get_w_v1 and get_w_v2 exist only without CC.", "quantifier": "all environments (sets of variables and texts) and all exported names", "why_tests_cant": "Any text can be in the variables; tests run under one setting of each.", "anchors": ["classicML/__init__.py", "classicML/framework/dtypes.py: set_precision", "classicML/backend/__init__.py"]}
{"id": "C81", "title": "Min-max scaling in floating point", "statement": "On a column of finite floats with different values whose range can be stored, MinMaxScaler gives values between 0 and 1, exactly 0 for the minimum and exactly 1 for the maximum, and never reverses the order of two values. inverse gives back the minimum exactly and every other value up to 7u(max-min)+u|x| plus three times half the smallest float, u being the relative rounding error. A constant column becomes NaN; a column whose range overflows becomes 0 and NaN.", "quantifier": "all columns of floats of any length, all binary formats (32 and 64 bits among them)", "why_tests_cant": "Rounding depends on the values; a test with a few columns says nothing about other exponents or about overflow.", "anchors": ["classicML/backend/python/data/preprocessing.py: MinMaxScaler"]}
{"id": "C82", "title": "The sigmoid in floating point", "statement": "The sigmoid of any float is a number between 0 and 1, never NaN; it never decreases, is at least one half for scores at least 0 and at most one half below. It saturates: from score 20 (32 bits) or 45 (64 bits) it is exactly 1 and below -100 or -800 exactly 0.", "quantifier": "all scores, all binary formats, all monotone exponential functions with value 1 at 0; the operations are those of IEEE 754", "why_tests_cant": "There are 2^32 or 2^64 scores and the library exponential differs between platforms.", "anchors": ["classicML/backend/python/activations.py: Sigmoid.__call__"]}
{"id": "C83", "title": "Softmax in floating point", "statement": "Each row of a softmax is either NaN throughout or consists of numbers between 0 and 1 whose sum is 1 up to a stated rounding error and whose order is that of the scores. A row is NaN exactly when every one of its exponentials, taken relative to the largest score of the whole batch, is stored as 0; a row that contains the largest score never is. Hence the class predicted for a sample depends on the other samples of the batch: [0, 1] is class 1 alone and class 0 next to [200, 0] (32 bits).", "quantifier": "all batches, all orders of summation, all binary formats", "why_tests_cant": "The failure needs another sample far away in the same batch; tests with comparable scores never show it.", "anchors": ["classicML/backend/python/activations.py: Softmax.__call__"]}
{"id": "C84", "title": "Losses in floating point", "statement": "For labels 0 and 1 and stored probabilities the binary cross-entropy is NaN exactly when some sample is predicted right with probability exactly 0 or 1; otherwise it is not negative, and infinite when a sample is predicted wrong with certainty. The categorical one is NaN exactly when a class that is not the label has probability 0, and otherwise not negative. A sigmoid output saturates, so a score of 20 (32 bits) or 45 (64 bits) for a positive sample already gives NaN. The log likelihood is infinite or NaN as soon as the exponential of one score overflows, even for samples predicted right.", "quantifier": "all samples, labels, probabilities and scores, all orders of summation, all binary formats", "why_tests_cant": "Saturation appears only for well separated data or long training; every order of summation has to be considered.", "anchors": ["classicML/backend/python/losses.py: BinaryCrossentropy, CategoricalCrossentropy, LogLikelihood"]}
{"id": "C85", "title": "The floor of reported densities", "statement": "A probability density is always reported strictly positive, so that its logarithm is finite. Larger densities are not always reported larger: one too small to store is reported as 1e-36, above others that can be stored; the order is right whenever the larger density is at least 1e-36.", "quantifier": "all non-negative densities, 32 and 64 bits and every format of at least that exponent range", "why_tests_cant": "The floor acts only on densities below the smallest float.", "anchors": ["classicML/backend/python/ops.py: get_normal_distribution_probability_density, get_probability_density"]}
{"id": "C86", "title": "The stored accuracy", "statement": "The stored accuracy is between 0 and 1, it is exactly 1 only when all samples are right, exactly 0 only when none is, and one more right sample makes it strictly larger. Binary accuracy counts the samples on the right side of one half; a sample predicted NaN counts as right, so that a diverged network reports 1.", "quantifier": "all predictions and labels, up to 2^prec samples (2^(prec-2) for strictness), all binary formats", "why_tests_cant": "Whether a quotient of large counts rounds to 1 is a question about all counts.", "anchors": ["classicML/backend/python/metrics.py: BinaryAccuracy"]}
{"id": "C87", "title": "Multipliers of the support vector machine in floating point", "statement": "Whatever samples are chosen, every stored multiplier stays between 0 and C up to ten units of rounding of C, and the sum of multipliers times labels, 0 at the start, drifts by at most five such units per attempt. The bounds are not exact: a multiplier can become negative by rounding alone.", "quantifier": "all labels, all sequences of attempts and candidate values, 32 bits (with 64 bit intermediate results as numpy promotes them) and 64 bits", "why_tests_cant": "Rounding errors accumulate over a training run of any length.", "anchors": ["classicML/backend/python/optimizers.py: SMO.run, SMO inner loop", "classicML/backend/python/ops.py: clip_alpha"]}
{"id": "C88", "title": "The kernel coefficient of the support vector classifier", "statement": "fit of SupportVectorClassifier turns gamma into a number before it trains: auto is one over the number of features, scale is one over the number of features times the variance of all entries (both positive), a number stays as it is. The kernel named at compile time is built with that number, and training and all predictions use it. A kernel object keeps its own coefficient. An unknown kernel name is reported as AttributeError and trains nothing, but gamma has already been replaced. After a successful fit, any number of further fits without compile keep the gamma and the kernel of the first one, so refitting differs from fitting a new object. Data without columns (auto) or with a single value (scale) give no coefficient.", "quantifier": "all data, labels, schedules, kernels, settings, earlier histories of the object, and any number of later fits", "why_tests_cant": "tests look at one data set; the coefficient must follow from every data set and survive every later call", "anchors": ["classicML/api/models/support_vector_machine/support_vector_classifier.py: SupportVectorClassifier.compile, SupportVectorClassifier.fit, SupportVectorClassifier.predict", "classicML/backend/training.py: get_kernel"]}
{"id": "C89", "title": "What the training of a support vector classifier depends on", "statement": "Training and prediction see the samples only through the kernel values. Hence the order of the columns, rotations and reflections do not change any prediction; with the rbf kernel translations do not either; with the rbf kernel and gamma=scale no change of unit or origin of the features does; a column of zeros does not when gamma is a number. Exchanging the two classes negates every decision value with the same multipliers, so it exchanges all predictions except those on the boundary, which are always the class 1. With the linear kernel translations do change predictions, even on separable data with the default settings, because the training works with stale errors.", "quantifier": "all kernels, data, labels, regularisation constants, tolerances, permutations drawn, numbers of epochs and query points", "why_tests_cant": "relates pairs of training runs of any length; a test compares two runs on one data set", "anchors": ["classicML/backend/python/optimizers.py: SequentialMinimalOptimization", "classicML/api/models/support_vector_machine/support_vector_classifier.py: SupportVectorClassifier", "classicML/backend/python/kernels.py: Linear, Polynomial, RBF, Gaussian, Sigmoid", "classicML/backend/python/ops.py: calculate_error, select_second_alpha"]}
{"id": "C90", "title": "The order of the training rows", "statement": "Training on the same rows in another order gives the same logistic regression (gradient descent and Newton), linear discriminant, decision stump, two-level tree and AdaBoost ensemble; the same centroids and mixture parameters, and the same cluster for every row, when the initial centroids are given; a decision tree, pruned or not, that answers every query the same and differs only in the order of branches; SPODE and AODE models that answer every query the same; and such a naive Bayes model when its discrete columns list their values in order of frequency. False: naive Bayes in general (its answers change with the order of the rows), the height reported after post-pruning, and trees when ties between labels are broken by order of appearance.", "quantifier": "all data sets, all permutations of their rows, all queries, epochs, tolerances and initial values", "why_tests_cant": "a test compares one shuffled data set with one original; the claim is about all n! orders of every data set", "anchors": ["classicML/api/models/linear_model/logistic_regression.py: LogisticRegression.fit", "classicML/api/models/cluster/k_means.py: KMeans.fit", "classicML/api/models/tree/decision_tree_classifier.py: DecisionTreeClassifier.fit", "classicML/api/models/bayes: NaiveBayesClassifier.fit, SuperParentOneDependentEstimator.fit, AveragedOneDependentEstimator.fit", "classicML/backend/python/tree/generators.py", "classicML/backend/python/tree/pruners.py: PostPruner", "classicML/backend/python/optimizers.py: GradientDescent, NewtonMethod"]}
{"id": "C91", "title": "Which seed decides what training returns", "statement": "All models of a process share the global generator of numpy. A script that seeds it and in which every object has a seed gives the same objects, exceptions and generator state in every process. A network, logistic regression or radial basis function network with a seed is trained to the same result whatever the process does before compile, and after compile as long as nothing uses the generator; for the support vector classifier the same counts from its constructor. The seed of the object that was compiled (classifier: made) last decides for all. Compiling a network or regression again does not seed again, compiling a radial network does. An object without a seed discards an earlier np.random.seed. Bagging seeds in every round, so its result does not depend on the generator and its fit leaves the generator in a state that depends only on its own seed; two baggers compiled without a seed are equal; compiling with the same seed and training again repeats the members. The rows of the epochs and the permutations are drawn one after the other from the generator.", "quantifier": "All generators, processes, scripts of calls on any number of objects, seeds, data and numbers of epochs.", "why_tests_cant": "A test runs one script in one order; the property is about every interleaving of calls on objects that share hidden global state.", "anchors": ["classicML/backend/python/initializers.py: Initializer.__init__", "classicML/backend/python/ops.py: bootstrap_sampling", "classicML/api/models/support_vector_machine/support_vector_classifier.py: SupportVectorClassifier.__init__", "classicML/api/models/neural_network/back_propagation_neural_network.py: compile, fit", "classicML/api/models/neural_network/radial_basis_function_network.py: compile", "classicML/api/models/linear_model/logistic_regression.py: compile", "classicML/api/models/ensemble/bagging.py: compile, fit"]}
{"id": "C92", "title": "Training an object again", "statement": "fit of a network, logistic regression or radial basis function network that was not loaded starts afresh: the result depends on the settings, the data and the generator, not on what the object had learned. After load_weights, fit goes on from the loaded parameters, also if compile is called in between, and two calls are one call with all the epochs (stochastic gradient descent, gradient descent, Newton, radial basis functions). Training in a process is the training described by the other properties. A fit that fails leaves an already trained object marked as trained with the fresh parameters of the failed call. Loading a network into an object with more layers keeps the further layers.", "quantifier": "All objects, settings, parameters, data, numbers of epochs and generators.", "why_tests_cant": "Histories of calls are unbounded, and whether a second call continues or restarts depends on all earlier calls.", "anchors": ["classicML/api/models/neural_network/back_propagation_neural_network.py: fit, load_weights", "classicML/api/models/neural_network/radial_basis_function_network.py: fit, load_weights", "classicML/api/models/linear_model/logistic_regression.py: fit, load_weights"]}
{"id": "C93", "title": "What was trained is what is used, here and after loading elsewhere", "statement": "For each of the thirteen model classes: if compile is called with usual arguments and the training of the algorithm succeeds with some model, then fit leaves an object whose predict answers exactly with that model, for every query; save_weights succeeds whatever was at the path before, and a new object of the class that loads the file in another process gives exactly the same answers.", "quantifier": "All objects of the class before compile (also already trained ones), all settings, data, random draws, authors, times, old file contents and queries.", "why_tests_cant": "Tests try one data set per class; the statement is about every history of compile, fit, save, load and predict for all data.", "anchors": ["classicML/api/models: compile, fit, predict, save_weights, load_weights of every class"]}
{"id": "C94", "title": "A training that fails", "statement": "A fit that raises does not make an untrained object answer (all classes but the mixture, see C54), and a fit that returns does. A fit that raises leaves the answers of a trained or loaded object unchanged for AdaBoost, bagging, the super-parent estimator, the support vector classifier and a decision tree that is not pruned; the averaged estimator never raises. It does change them for linear discriminant analysis, naive Bayes and K-means, and networks and logistic regression lose their trained parameters.", "quantifier": "All objects, settings, data and random draws; for the negative parts a concrete history.", "why_tests_cant": "The points at which an exception can leave fit depend on the data; tests rarely use an object after an exception.", "anchors": ["classicML/api/models: fit of every class"]}
{"id": "C95", "title": "Naive Bayes and column names", "statement": "With distinct attribute names that are texts (or 0, 1, 2, ...) an array is used column by column whatever was learned before; a DataFrame is used by name, so that the order of its columns has no effect on training or prediction and the result is that of the array with the columns in the order of the names. Predictions use the smoothing of the last compile. Weights loaded into an object with the same names in any order answer DataFrames as the saved object did. Without names training and loading succeed and every prediction raises TypeError. The order of names does matter for arrays after loading, numbers as names in another order select other columns, and equal names overwrite each other.", "quantifier": "all attribute names, arrays and DataFrames with any order of columns, labels, orders of the values, earlier trainings and saved objects", "why_tests_cant": "tests use one DataFrame with one order of columns; that every other order gives the same answers, and which names break it, concerns all tables", "anchors": ["classicML/api/models/bayes/naive_bayes_classifier.py: NaiveBayesClassifier.fit, predict, _predict, load_weights"]}
{"id": "C96", "title": "One-dependent estimators and column names", "statement": "After any number of trainings on arrays with distinct usual names the super parent is the column with its name, and the answers of the super-parent and the averaged estimator are those of the tables by position; the weights answer arrays in an object with other names or none. With names given, DataFrames are used by name; without, DataFrames are answered by position, so that another order of columns gives other answers. A super parent that is no column raises ValueError on the first training and is silently replaced by the previous one afterwards. A column called p_c_xi lets training succeed and every prediction raise TypeError. Training after loading goes on from the file for the super-parent estimator and starts again for the averaged one, although the saved averaged estimator itself goes on.", "quantifier": "all names, arrays, DataFrames, labels, super parents, smoothing settings and histories of trainings", "why_tests_cant": "tests train once with one fixed list of names; the statements concern every list of names and every history of trainings", "anchors": ["classicML/api/models/bayes/semi_naive_bayes_classifiers.py: SuperParentOneDependentEstimator.fit, predict, _predict, load_weights; AveragedOneDependentEstimator.fit, predict, _predict, load_weights"]}
{"id": "C97", "title": "Decision trees and column names", "statement": "Training a decision tree on DataFrames, with or without validation data, does not depend on the order of their columns and equals training on the array in the order of the attribute names. Prediction reads columns by position: it is right for DataFrames with the columns in the order of training, and for another order the same table gets other answers.", "quantifier": "all attribute names, DataFrames with any order of columns, labels, criteria, pruning modes and trees", "why_tests_cant": "tests predict with the columns in the order of training only", "anchors": ["classicML/api/models/tree/decision_tree_classifier.py: DecisionTreeClassifier.fit, predict"]}
{"id": "C98", "title": "Trees and their ensembles do not depend on units of measurement", "statement": "If every numeric column of the training data and of the data to be classified is given in another unit (a positive factor and an offset per column), decision stumps, bagging with the same draws, two-level trees and AdaBoost give the same answers and the same exceptions. Decision trees, also post-pruned ones, do so as long as whole numbers stay whole and other numbers do not become whole; otherwise answers can turn into KeyError.", "quantifier": "all labelled tables of any size, all positive factors and offsets per column, all rows to classify, all seeds, numbers of estimators and criteria", "why_tests_cant": "a relation between two runs on infinitely many pairs of inputs; tests use one unit only", "anchors": ["classicML/api/models/tree/decision_tree_classifier.py: DecisionStumpClassifier, DecisionTreeClassifier, TwoLevelDecisionTreeClassifier", "classicML/api/models/ensemble/bagging.py: BaggingClassifier", "classicML/api/models/ensemble/boosting.py: AdaBoostClassifier"]}
{"id": "C99", "title": "Scalers, the convex hull and k-means under other units", "statement": "Min-max scaled data do not depend on the units, per column for matrices. Standard scaled data do not depend on offsets but are divided by the factor, because the scaler divides by the variance. The convex hull changes its units and nothing else. K-means with one common factor, offsets per column and the tolerance in the same unit gives the same clusters, stops in the same epoch and predicts the same; with different factors per column the clusters can change.", "quantifier": "all data of any size, all positive factors and offsets, draws, starting centroids, tolerances and numbers of epochs", "why_tests_cant": "a relation between two runs on infinitely many pairs of inputs; tests use one unit only", "anchors": ["classicML/backend/python/data/preprocessing.py: MinMaxScaler, StandardScaler", "classicML/backend/python/ops.py: ConvexHull, calculate_centroids, calculate_euclidean_distance, compare_differences", "classicML/api/models/cluster/k_means.py: KMeans.fit, predict"]}
{"id": "C100", "title": "Training without compile and training after load_weights", "statement": "fit on an object that was never compiled raises one fixed exception per class whatever the data are, and the object still refuses to predict; the exceptions are the naive Bayes and the averaged estimator, which train as if compiled without smoothing (and then cannot be saved), and ensembles of zero rounds. fit on an object that has loaded a weight file assigns exactly what fit on the saved object would, and the two answer alike afterwards, for the Bayes classifiers, discriminant analysis, k-means, mixtures, bagging, AdaBoost and support vectors (the averaged estimator goes on without the entries of earlier calls). A tree loaded by a never compiled object cannot be trained, and after compile keeps the tree of the file whatever the data are. Logistic regression and the two networks go on from the parameters of the file with the optimizer at its default settings, whatever the saved or the loading object was compiled with, unless compile is called after load_weights.", "quantifier": "every class, every object that can be saved, every loading object, all training data, seeds, rounds and later queries", "why_tests_cant": "that a loaded object goes on exactly as the saved one ranges over all objects, files, data and later trainings; tests load once and only predict", "anchors": ["classicML/api/models/linear_model/logistic_regression.py: LogisticRegression.compile, fit, load_weights", "classicML/api/models/ensemble/bagging.py: BaggingClassifier.fit", "classicML/api/models/tree/decision_tree_classifier.py: DecisionTreeClassifier.fit, load_weights", "classicML/api/models/cluster/k_means.py: KMeans.fit", "classicML/api/models/bayes/naive_bayes_classifier.py: NaiveBayesClassifier.compile, fit, predict"]}
{"id": "C101", "title": "Which compiled variant a call reaches and in which precision it computes", "statement": "With the compiled engine, activations, distances, clusters, means, kernels, metrics, losses, scatter matrices and the like compute in double precision exactly if every array passed is of 64 bit floats (for clip_alpha and the density: if all three numbers are 64 bit numpy floats; for compare_differences: if the tolerance is one and the arrays are not both 32 bit); any other accepted combination, such as one list or one array of integers, is silently converted to single precision, and everything else raises TypeError. bootstrap_sampling returns labels only if their type matches the bits of the data and otherwise silently leaves them out. Counts given as floats are refused. Initializers choose the precision by the kind of integer. In single precision integers up to 2^24 are kept and above it different points become equal, with distance 0.", "quantifier": "all arguments of any kind, dtype and shape, any number of further arguments of a loss, and any answer of pybind11 on numpy integers and arrays given for C++ integers", "why_tests_cant": "A test calls a function with one or two combinations of types; the choice among overloads depends on all combinations of kinds, dtypes and shapes of all arguments.", "anchors": ["classicML/backend/cc/ops/ops_wrapper.cc: cc_bootstrap_sampling, cc_compare_differences, cc_calculate_centroids, cc_clip_alpha", "classicML/backend/cc/numpy_patch.h: type_caster", "classicML/backend/cc/kernels/kernels_wrapper.cc: RBF, Linear", "classicML/backend/cc/losses/losses_wrapper.cc: MeanSquaredError, LogLikelihood", "classicML/backend/cc/initializers/initializers_wrapper.cc: HeNormal"]}
{"id": "C102", "title": "The precision the models get from the compiled engine", "statement": "With the compiled engine and 64 bit settings the support vector classifier still computes violations and clipping, networks and logistic regression the reported loss and metric, k-means its stopping test and the radial basis network its starting weights in single precision, because labels are integers or numbers are Python ones; LDA, bagging, the starting weights of networks and logistic regression, and the k-means means keep double precision. The naive Bayes classifier cannot predict with a discrete column at 64 bit (TypeError), but can at 32 bit; the estimators with a super parent can at both.", "quantifier": "both precisions, all numbers of samples, attributes, clusters, layers and counts, all seeds, shapes of the bias and smoothing settings", "why_tests_cant": "A test runs one data set in one precision and sees only a small error or none; which calls lose precision or are refused follows from the types of all arguments at every call site.", "anchors": ["classicML/backend/python/optimizers.py: SequentialMinimalOptimization, Adam, NewtonMethod, RadialBasisFunctionOptimizer", "classicML/api/models/cluster/k_means.py: KMeans.fit", "classicML/api/models/bayes/naive_bayes_classifier.py: NaiveBayesClassifier.predict", "classicML/api/models/support_vector_machine/support_vector_classifier.py: SupportVectorClassifier.fit", "classicML/backend/cc/ops/ops_wrapper.cc: cc_get_conditional_probability"]}
{"id": "C103", "title": "The line a progress bar prints", "statement": "Each call of a progress bar prints one line that begins with a carriage return and ends with a newline exactly in the last round, with no other of these characters, and that shows the round, the number of rounds, the bar, the time, the loss and the metric. With the Python engine the values read back are within half a unit of the fourth digit, the time left is shown in minutes and seconds of two digits whose sum is the time left without its fraction (below a minute: the nearest second, possibly 60), and at the end the time used and the time per round to the nearest unit. The compiled engine rounds to six digits and cuts to four, shows minutes and seconds without leading zeros, and cuts the milliseconds, so the two engines do not print the same: an accuracy of 0.99996 is 1.0000 for one and 0.9999 for the other.", "quantifier": "all values, times, names, rounds and numbers of rounds, and any rounding of the position of the bar", "why_tests_cant": "A test compares a few printed lines; that the text means the value it shows holds for every real number and every time.", "anchors": ["classicML/backend/python/_utils.py: ProgressBar", "classicML/backend/cc/_utils/_utils.cc: ProgressBar"]}
{"id": "C104", "title": "Predicting a whole array is predicting its rows, and what a single sample must look like", "statement": "For every trained model, the answer for an array of rows has one entry per row, and it is the entry the row gets when it is predicted alone; a batch of rows is accepted if each row is, and two batches predicted one after the other get the answers of the batch of both. The shape of the answer is fixed by the model and the number of rows: without dimension for one row of logistic regression and discriminant analysis, a column for the radial basis function network, one column per output neuron for the layered network, one dimension otherwise. A sample given as an array with one dimension is one row for discriminant analysis, clusterings and the layered network, a column of samples for logistic regression, rows of equal features for a support vector classifier with the rbf kernel, is answered once per feature by the radial basis function network and refused by the ensembles; a list of samples gets one label from a decision tree and is refused by naive Bayes.", "quantifier": "every trained model of every class, every array with one or two dimensions, given as an array or as a list", "why_tests_cant": "The shapes of a few test arrays do not show what other numbers of rows and columns do; the equality with single rows holds for every batch.", "anchors": ["classicML/api/models: predict of every class", "classicML/backend/python/optimizers.py: forward", "classicML/backend/python/activations.py: Softmax"]}
{"id": "C105", "title": "The score of an array is the share of its rows that are predicted correctly", "statement": "score of a classifier with one number per row is the number of rows whose prediction is on the side of one half that the label asks for, divided by the number of rows; with several outputs it is the share of rows whose largest output is at the place of the largest entry of the label row. The score of two batches together is the average of their scores weighted with their sizes. A single row cannot be scored by logistic regression and discriminant analysis (IndexError), no rows are a ZeroDivisionError, and clusterings have no score.", "quantifier": "every trained model, every array of rows and every array of labels of the same length", "why_tests_cant": "A test compares the score of a few arrays; that it is this share, and how scores of parts combine, holds for every array.", "anchors": ["classicML/api/models/base_model.py: BaseModel.score", "classicML/backend/python/metrics.py: Accuracy", "classicML/api/models: predict of every class"]}
{"id": "C106", "title": "Bayes classifiers do not depend on the names of the values, but on the units of the measurements", "statement": "Renaming the values of discrete columns one to one, each column in its own way, and moving the zero point of continuous columns changes no prediction of naive Bayes (if the order of the values by frequency is kept) and of a super-parent estimator, and training fails with the same exception. The averaged estimator keeps its predictions when all columns are renamed in the same way; renaming a single column may change them. Measuring a continuous column in other units may change the predictions of naive Bayes.", "quantifier": "every table of columns, every one-to-one renaming, every shift, every query", "why_tests_cant": "Invariance relates infinitely many tables to each other; a test compares two.", "anchors": ["classicML/api/models/bayes/naive_bayes_classifier.py: fit, predict", "classicML/api/models/bayes/semi_naive_bayes_classifiers.py: SuperParentOneDependentEstimator, AveragedOneDependentEstimator", "classicML/backend/python/ops.py: get_probability_density"]}
{"id": "C107", "title": "Linear models and mixtures in other units", "statement": "Logistic regression trained with the Newton method from corresponding starting weights gives every row the same probability in any units of the features, or fails in the same way; gradient descent does not. Linear discriminant analysis keeps its labels when the zero points of the features move, and with one feature in all units (a row gets label 1 exactly if it is strictly nearer to the mean of class 1); with two features the labels may change with the unit. A Gaussian mixture that starts at rows of the data keeps its clusters and predictions when zero points move; other units may give means that do not correspond.", "quantifier": "every data set, all factors other than 0 and zero points of all features, every number of epochs, every query", "why_tests_cant": "Invariance relates infinitely many data sets to each other; a test compares two.", "anchors": ["classicML/api/models/linear_model/logistic_regression.py: fit, predict", "classicML/backend/python/optimizers.py: NewtonMethod, GradientDescent", "classicML/api/models/linear_model/linear_discriminant_analysis.py: fit, predict", "classicML/api/models/cluster/gaussian_mixture.py: fit, predict"]}
{"id": "C108", "title": "Names of the classes", "statement": "Training with the class labels 0 and 1 exchanged gives the exchanged classifier: logistic regression, started from the opposite weights, answers 1 - p for every p; linear discriminant analysis, naive Bayes (both classes present, or no smoothing), and the one-dependence estimators (with or without smoothing) exchange their labels except for rows whose scores are tied or undefined, which keep one fixed label. A decision tree, pruned or not, trained with any other different names for its classes is the same tree with the new names at the leaves, as long as ties for the most common label are not settled by the names. With smoothing, naive Bayes trained on a single class treats the missing class differently when it is 0 and when it is 1.", "quantifier": "every training set, every renaming of the classes, every query, every optimizer setting and number of epochs, every pruning mode", "why_tests_cant": "Symmetry relates every run to another run on different data; a test compares single runs.", "anchors": ["classicML/api/models/linear_model/logistic_regression.py: fit, predict", "classicML/api/models/linear_model/linear_discriminant_analysis.py: fit, predict", "classicML/api/models/bayes/naive_bayes_classifier.py: fit, predict", "classicML/api/models/bayes/semi_naive_bayes_classifiers.py: fit, predict", "classicML/api/models/tree/decision_tree_classifier.py: fit, predict", "classicML/backend/python/tree/pruners.py: PrePruner, PostPruner"]}
{"id": "C109", "title": "Order of the features", "statement": "Giving the features in another order, in training and in prediction alike, changes nothing but the order of what is stored: logistic regression (both optimizers), k-means, Gaussian mixtures, networks (with stochastic gradient descent or Adam) and radial basis function networks, started from the corresponding values and with the same draws, give every row the same probability, cluster or output, or raise the same exception; weights, centroids, means, covariances and centres follow the features. The decision stump makes the same number of mistakes on the training rows, although it may answer differently for new rows when two features are equally good. Linear discriminant analysis can give other labels after two features are exchanged.", "quantifier": "every number and permutation of features, every training set, every query, every number of epochs, every draw, every tolerance, learning rate and starting value", "why_tests_cant": "A symmetry over all permutations and all runs; a test tries one permutation of one table.", "anchors": ["classicML/api/models/linear_model/logistic_regression.py: fit, predict", "classicML/api/models/linear_model/linear_discriminant_analysis.py: fit, predict", "classicML/api/models/cluster/k_means.py: fit, predict", "classicML/api/models/cluster/gaussian_mixture.py: fit, predict", "classicML/backend/python/optimizers.py: StochasticGradientDescent, Adam, RadialBasisFunctionOptimizer, GradientDescent, NewtonMethod", "classicML/backend/python/tree/generators.py: DecisionStumpGenerator"]}
{"id": "C110", "title": "Training rows given several times", "statement": "Giving every training row k times (the same table k times in a row) changes no answer of k-means and Gaussian mixtures started from given values, of logistic regression with the Newton method, of linear discriminant analysis, of decision trees, of naive Bayes and one-dependence estimators without smoothing, of averaged estimators whose least count is multiplied by k, nor the statistics of the scalers and the accuracy; exceptions stay the same too. A network trained by drawing rows learns from the row of which the drawn row is a copy. Logistic regression with gradient descent behaves as with k times the learning rate, and the radial basis function network learns the same parameters while the mean squared error it reports is multiplied by k. The decision stump and naive Bayes with smoothing can change their answers.", "quantifier": "every number k of copies, every training set (empty, with one class, with ties), every query, every number of epochs, every tolerance, learning rate and starting value, every draw", "why_tests_cant": "A relation between two runs of every size; a test compares one table with its double.", "anchors": ["classicML/api/models/cluster/k_means.py: fit", "classicML/api/models/cluster/gaussian_mixture.py: fit", "classicML/api/models/linear_model/logistic_regression.py: fit", "classicML/api/models/linear_model/linear_discriminant_analysis.py: fit, predict", "classicML/backend/python/tree/generators.py: DecisionTreeGenerator, DecisionStumpGenerator", "classicML/api/models/bayes/naive_bayes_classifier.py: fit, predict", "classicML/api/models/bayes/semi_naive_bayes_classifiers.py: fit, predict", "classicML/backend/python/data/preprocessing.py: MinMaxScaler, StandardScaler", "classicML/backend/python/optimizers.py: GradientDescent, NewtonMethod, RadialBasisFunctionOptimizer", "classicML/backend/python/losses.py: MeanSquaredError"]}
{"id": "C111", "title": "Redundant features and too few samples", "statement": "Call features dependent if some combination of them, not all weights zero, has the same value in every training row (a constant feature, a feature in two units, one-hot encoded features, not more samples than features). Logistic regression with the Newton method raises LinAlgError exactly if the features are dependent, so always on one-hot encoded features and always with not more samples than features. Linear discriminant analysis on data with both classes raises LinAlgError exactly if they are dependent within the classes, so always with at most one sample more than features. A Gaussian mixture on dependent features never learns: whatever training returns is what training with no epoch returns, and with the default covariances and a tolerance below 0.1/d it never returns. K-means does not notice a constant feature: centres, clusters, score and predictions are the same without it.", "quantifier": "every training set, every number of features and samples, all labels, starts, tolerances and numbers of epochs, every correct singular value decomposition, every constant", "why_tests_cant": "Equivalence of an exception with a linear dependence of the data, over all data; a test shows single tables.", "anchors": ["classicML/api/models/linear_model/logistic_regression.py: fit", "classicML/backend/python/optimizers.py: NewtonMethod", "classicML/api/models/linear_model/linear_discriminant_analysis.py: fit", "classicML/backend/python/ops.py: get_within_class_scatter_matrix, get_w_v2, calculate_covariances, get_probability_density", "classicML/api/models/cluster/gaussian_mixture.py: fit", "classicML/api/models/cluster/k_means.py: fit, predict", "classicML/backend/python/data/preprocessing.py: OneHotEncoder"]}
{"id": "C112", "title": "Hidden neurons that are alike, and silent ones", "statement": "In a layered network trained with stochastic gradient descent or Adam, two neurons of the same hidden layer that start with the same weights, the same bias and the same weights in the next layer have the same weights after any training, and the same score for every input. A neuron of the first hidden layer without a positive score on any training row keeps its weights, its bias and the weights the next layer has for it, and stays silent on the training rows. If all neurons of the first layer are silent, as in a network that starts with zeros, neither the first layer nor the weights of the second layer ever change.", "quantifier": "every network, every hidden layer, every training set, every sequence of drawn rows, every learning rate and all options of Adam", "why_tests_cant": "An invariant of all training runs; a test sees single runs, mostly with random starts where it cannot be seen.", "anchors": ["classicML/backend/python/optimizers.py: StochasticGradientDescent, Adam", "classicML/backend/python/activations.py: Relu", "classicML/api/models/neural_network/back_propagation_neural_network.py: BackPropagationNeuralNetwork.fit"]}
{"id": "C113", "title": "Loading into a data set object that was used before, and loading a frame twice", "statement": "from_dataframe on a used object: with two classes the object holds what a new object would hold, except that labels that cannot be converted leave the new features beside the old labels. With another number of classes y is that of a new object, but class_indices is only updated: without encoding old labels stay published with their old codes; with one-hot or max-margin the call returns if and only if the code of every old label that is missing now happens to be the number of a class of now. Otherwise it raises TypeError (an old one-hot code) or KeyError (an old max-margin code -1) with y already encoded and class_indices holding the plain numbers. The array of labels is replaced in place; loading it again gives the same y for integers and for up to ten text classes, and merges classes from eleven on.", "quantifier": "every object reached by any loads, all label columns (texts, integers), all encodings", "why_tests_cant": "A statement about all histories of one object and all columns; tests load small frames into new objects.", "anchors": ["classicML/backend/python/data/dataset.py: Dataset.from_dataframe", "classicML/backend/python/data/dataset.py: Dataset._preprocessing_categorical_labels", "classicML/backend/python/data/dataset.py: Dataset._set_real_class_indices"]}
{"id": "C114", "title": "The order of the neurons of the hidden layers", "statement": "If the neurons of any hidden layers are put in another order, together with the weights the next layer gives to them, the network gives the same outputs (or the same error) for every batch, the gradient of a sample is moved in the same way, and training by StochasticGradientDescent or Adam ends in the moved network (or the same error), which again gives the same outputs. Moving only the neurons and not the weights behind them changes the outputs. The same holds for the hidden units of a radial basis function network with their weights, centres and widths: same predictions, same reported losses, moved trained parameters.", "quantifier": "every network, hidden layer, order, list of such moves, data set, sequence of drawn rows and setting of the optimizer; exact real arithmetic", "why_tests_cant": "A statement about all networks and all trainings.", "anchors": ["classicML/backend/python/optimizers.py: StochasticGradientDescent", "classicML/backend/python/optimizers.py: Adam", "classicML/backend/python/optimizers.py: RadialBasisFunctionOptimizer"]}
{"id": "C115", "title": "The numbers of the classes of a neural network", "statement": "With two or more classes: if the output neurons and the columns of the labels are put in another order, training by StochasticGradientDescent or Adam ends in the network with the output neurons in that order (or in the same error), its outputs are the same probabilities in that order, and the categorical cross-entropy is the same. The categorical accuracy is the same if no row has two greatest entries; with a tie the class with the smaller number wins, so that renumbering can turn the accuracy from 1 into 0.", "quantifier": "every network, number of classes from two on, order, data set, sequence of drawn rows and setting of the optimizer; exact real arithmetic", "why_tests_cant": "A statement about all networks, all numberings and all trainings.", "anchors": ["classicML/backend/python/optimizers.py: StochasticGradientDescent", "classicML/backend/python/optimizers.py: Adam", "classicML/backend/python/losses.py: CategoricalCrossentropy", "classicML/backend/python/metrics.py: CategoricalAccuracy"]}
{"id": "C116", "title": "The numbers of the clusters", "statement": "If GaussianMixture starts from the same components in another order, training ends with the same components in that order, and fails in one case exactly when it fails in the other; the labels are renumbered accordingly if no row has two components of greatest probability. If KMeans starts from the same centroids in another order, training ends with the same centroids in that order, stops in the same round and the labels are renumbered, if in no round a row is equally near to two centroids and no cluster is empty. With an empty cluster the order matters: a far centroid in the first place stops the training, in the second place it is dropped; and with ties the first place wins, so that the labels are not renumbered.", "quantifier": "every data set, number of clusters, order, start, tolerance and number of rounds; exact real arithmetic (for GaussianMixture with any rounding of the densities)", "why_tests_cant": "A statement about all data sets, all orders and all lengths of training.", "anchors": ["classicML/api/models/cluster/k_means.py: KMeans", "classicML/api/models/cluster/gaussian_mixture.py: GaussianMixture", "classicML/backend/python/ops.py: calculate_centroids", "classicML/backend/python/ops.py: compare_differences", "classicML/backend/python/ops.py: get_gaussian_mixture_distribution_posterior_probability"]}
{"id": "C117", "title": "Optimizers that are meant for another model", "statement": "compile accepts every optimizer for LogisticRegression, BackPropagationNeuralNetwork and RadialBasisFunctionNetwork. With one that is not meant for the model, fit with at least one epoch and one row raises (AttributeError, KeyError, IndexError or TypeError, according to the optimizer and the model), leaves the mark of training as it was and the new initial parameters (in a loaded object, the loaded ones) in the object, and predict of a trained or loaded model raises. fit with no epochs returns and marks the model as trained, although every predict then raises; only SequentialMinimalOptimization, and Adam outside the neural networks, raise also then.", "quantifier": "every object, optimizer, data set, number of epochs and initial parameters", "why_tests_cant": "A statement about all combinations of models, optimizers and data.", "anchors": ["classicML/backend/training.py: get_optimizer", "classicML/backend/python/optimizers.py: Optimizer", "classicML/api/models/linear_model/logistic_regression.py: LogisticRegression", "classicML/api/models/neural_network/back_propagation_neural_network.py: BackPropagationNeuralNetwork", "classicML/api/models/neural_network/radial_basis_function_network.py: RadialBasisFunctionNetwork"]}
