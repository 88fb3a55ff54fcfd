# Formal model of classicML in Rocq (Coq 8.16.1)

## Layout

| directory | content |
|---|---|
| `rocq/theories/Model/` | the model: Gallina functions that mirror the Python (and C++) code branch by branch. No proofs. Every definition cites file and lines. |
| `rocq/theories/Spec/` | small specifications used in theorem statements (what "nearest", "hull", "schedule", "likelihood" … mean). They do not use the model's algorithms. |
| `rocq/theories/Proof/` | lemmas. |
| `rocq/theories/Props/` | property theorems (`Theorem Cxx_…`), `Print Assumptions` for each, and `Example`s which show that the hypotheses can be met. |
| `properties.jsonl` | the properties in words. |
| `MANIFEST.json` | which theorems prove which property. |
| `seeded/LOG.jsonl` | wrong programs tried against the theorems. |

## Modelling conventions

* Python exceptions are values of `result A := Ok a | Err e`; the constructor of `e` is the exception class.
* Floating point numbers are exact real numbers (`R` of the standard library), except in C60 and C81 to C87.
  Rounding, overflow and NaN are **not** modelled, with these exceptions: operations that yield NaN/inf
  at a definite place (mean of an empty slice, division by a zero sum) are explicit
  error values where a property mentions them; the 32-bit rounding of a tree's dividing point
  is an arbitrary function argument `rnd`; the progress bar (C60) is computed in IEEE binary64 with Flocq; C81 to C87 restate the numeric core in rounded arithmetic (Flocq).
* numpy arrays are lists (vectors) and lists of rows (matrices). Shape
  mismatches are explicit where the code or numpy checks them.
* Mutation becomes state passing; `for` loops become folds or recursion; `while` loops get fuel, and the theorems
  quantify over all fuels or show that enough fuel exists.
* Random draws, the tie order of `pandas.value_counts`, the order of an unstable
  `argsort`, `numpy.linalg.svd` and custom components (losses, kernels, base learners, activations) are function arguments
  (Section variables that become ordinary quantified arguments); every theorem quantifies over all of them,
  restricted only by hypotheses shown in the statement. `numpy.linalg.inv` is modelled by the adjugate formula
  (`Model/Matrix.v`) and raises LinAlgError exactly when the determinant is zero; `multivariate_normal.pdf` by its closed formula.
* Logging and wall-clock text are not modelled.

## Properties

For each property: what is modelled and how it is proved. No property was dropped as not expressible; where the natural
claim is false for the code, the theorem states exactly when it holds and a `_refuted` theorem exhibits a witness.

| id | model | proof idea |
|---|---|---|
| C01-C03 | column functions of `MinMaxScaler`, `StandardScaler` over `list R` (`Model/Preprocessing.v`) | field arithmetic, induction on the column |
| C04-C06 | encoders over integer labels (sorted distinct list, index look-up) | sorted-list lemmas; injectivity of the index |
| C07 | `Imputer` over `list (option A)`; the `value_counts` order is an oracle | list induction |
| C08-C10 | `Dataset` label and feature preprocessing as state passing (`Model/Dataset.v`) | loop invariant of the sequential relabelling; witnesses for the failing regimes |
| C11 | Graham scan of `ConvexHull` (`Model/Hull.v`) | stack invariant (all left turns), slope order, enclosure by induction |
| C12 | `type_of_target` over an inductive type of arrays (`Model/Ops.v`) | case analysis, invariance of the distinct count |
| C13 | `bootstrap_sampling` with an index oracle | list induction |
| C14 | `clip_alpha`, `select_second_alpha` | case analysis, argmax induction |
| C15, C64 | `init_centroids`, `init_mixture_coefficient`, `init_covariances` shape dispatch | case analysis |
| C16-C17, C65 | `criteria.py` (Gini, Entropy, Gain) (`Model/Tree.v`) | sums over counts, concavity of -x log x; argmin induction |
| C18-C20 | `DecisionTreeGenerator` with fuel, prediction walk | induction on the construction; fuel bound gives termination |
| C21-C22 | pruners on model trees with validation rows (`Model/Pruner.v`) | induction on the tree |
| C23, C63 | stump and two-level generators (`Model/Stump.v`) | argmin induction |
| C24-C26, C28, C66 | SMO with error cache, non-bound flags and both sweeps (`Model/Smo.v`) | invariant by induction on the sweep history; quadratic maximisation; the schedule of sweeps as an inductive relation |
| C27 | kernels (`Model/Kernels.v`) | sums of squares |
| C29-C32, C67 | K-means loop (`Model/KMeans.v`) | argmin, parallel axis theorem, induction on rounds; finitely many partitions and strict descent |
| C33-C34 | EM round (`Model/Gmm.v`) | finite sums |
| C68 | the same EM loop with the multivariate normal density | Jensen for the E step; for the M step log det + trace inequality, obtained from a Cholesky factorisation (`Proof/Cholesky.v`) |
| C35-C39, C69 | Bayes counting code and prediction (`Model/Bayes.v`) | counting lemmas, logarithms |
| C40-C43 | bagging and AdaBoost with an arbitrary base learner (`Model/Ensemble.v`) | induction on rounds |
| C44-C46, C70-C71 | logistic regression, gradient descent, Newton (`Model/Logistic.v`) | derivatives in the standard library's sense (`derivable_pt_lim`); descent lemma; convex convergence rate; invertibility of the Hessian |
| C47 | LDA with the SVD as an argument (`Model/Lda.v`) | linear algebra on lists; witness |
| C48, C52-C53 | activations, losses, metrics | calculus, finite sums |
| C49-C51 | back-propagation, Adam, RBF network (`Model/Network.v`, `Model/Rbf.v`) | chain rule through lists of layers; induction on steps |
| C54-C58 | model life cycle as a state machine over calls and a file with crash points (`Model/Life.v`, `Model/Store.v`) | induction over operation lists; round trip of every model kind |
| C59-C61, C72 | callbacks, training loops, progress bar, component look-up, optimizer arguments | induction on epochs; interval arithmetic on binary64 |
| C73-C75 | initializers of both backends with an abstract generator (`Model/Initializers.v`) | induction on layers and draws; numbering of draws is injective |
| C76 | `from_dataframe`, `from_tensor_slices` (`Model/Loader.v`) | case analysis over the options, on top of the lemmas for C07-C10 |
| C77 | `plot_tree` (`Model/TreePlot.v`) | induction on the tree with the running position as a function of the leaves already drawn; disjoint leaf intervals give different positions |
| C78 | the other plots (`Model/Plots.v`) | masks as filters, row-major index arithmetic for the grid, plane geometry; hulls by C11, support vectors by C25 |
| C79 | measuring decorators (`Model/Benchmark.v`) | the function is a state transformer, the clock an arbitrary sequence; induction over the runs |
| C80 | environment variables (`Model/Config.v`) | tables of imports, checked entry by entry |
| C81 | min-max scaling in floats (`Model/Float.v`, `Model/FloatOps.v`) | formats as in Flocq, round to nearest even, overflow and NaN explicit; monotonicity of rounding, Sterbenz-style exact zeros, error bounds |
| C82 | sigmoid in floats | monotonicity of each operation; the operations are proved equal to Flocq's IEEE 754 ones (`Proof/FloatIEEE.v`) |
| C83 | softmax in floats | sums in any order as a relation, induction over it; witness for the dependence on the batch |
| C84 | losses in floats | case analysis of each term, induction over the order of summation |
| C85 | density floor in floats | smallest floats as powers of two; witness 2^-130 against 0 |
| C86 | accuracy in floats | rounding of quotients of integers below 2^prec |
| C87 | multipliers in floats | invariant over all sequences of attempts with the error of each of the five roundings; witness with three attempts |
| C88 | the classifier as an object (`Model/Svc.v`): compile, resolution of gamma and kernel, fit, predict | case analysis; refits by induction over the calls; refutation of `refit = new fit` |
| C89 | two runs of SMO side by side | simulation of every step of the run (same multipliers and flags, errors and bias up to a sign); corollaries for columns, isometries, translations, units, classes; a copy of SMO on rationals, proved equal to the one on reals, computes the counterexample |
| C90 | two trainings on permuted rows, for every model that has a deterministic training | sums, counts, sorted values and medians do not depend on the order; induction over epochs, rounds, the tree and the pruning passes; entries of the Bayes tables are matched up to permutation; counterexamples for naive Bayes, post-pruned heights and ties |
| C91 | a process of several objects with one generator (`Model/Process.v`): every constructor, compile, load and fit as a call | simulation of two processes; frame lemmas (a call changes only its own object, and which calls leave the generator alone); induction over scripts |
| C92 | the same calls, one object called again | a loop of n1 + n2 epochs is two loops; case analysis of the start of `fit` |
| C93 | compile and fit of all thirteen classes as assignments to the fields of an object (`Model/Fit.v`), save and load (`Model/Store.v`), predict (`Model/Life.v`) | the fields after fit are computed and composed with the round-trip lemmas of C57; one lemma per class |
| C94 | the same; the assignments made before an exception | the object after a failed fit agrees with the old one on all fields that predict reads; concrete histories where it does not |
| C95 | names, DataFrames, `pd.DataFrame(x, columns=names)`, rows read by `x[index]`, dictionaries by column name | refinement of the named object to the positional model of C35-C39; rearranging gives equal frames for equal tables; permutation of the sums for loaded names; concrete counterexamples |
| C96 | the same for the two estimators, with the shared list of elements, the super-parent place and the files | simulation between elements with and without names, by induction over the history of trainings; counterexamples computed |
| C97 | fit of trees arranges by name, predict takes `x.values` | equal frames for equal tables; a known tree for the counterexample |
| C98 | the stump, ensemble and tree models run twice, on data and on data in other units | simulation: fitted models correspond (thresholds in the new unit), by induction on fuel, rounds and trees |
| C99 | scalers, hull and k-means run twice | statistics of affine images; simulation of the training loop |
| C100 | fit of new objects and of objects that have loaded a file (`Model/Fit.v`, `Model/Store.v`) | case analysis over the calls of fit; the round-trip lemmas of C55 give agreement of the fields that fit reads, and it is kept by any further fit |
| C101 | the overloads registered by the wrapper files in their order and pybind11's choice among them (`Model/Dispatch.v`); a value is its kind, dtype, shape and integer | case analysis per function over strict and converting passes; integers above 2^24 through Flocq's rounding |
| C102 | the kinds, dtypes and shapes of the arguments in the calls of the models listed in the second half of `Model/Dispatch.v`; the other calls (densities, clusters, kernels, mixtures) are not listed there | the theorems of C101 at these arguments, for both precisions and all sizes |
| C103 | the text of both progress bars, with decimal formatting (`Model/ProgressText.v`); times and values are exact numbers | an independent reader of decimal texts (`Spec/ProgressText.v`); induction on digits, the distance of the nearest integer |
| C104 | `predict` on arrays with one or two dimensions and on lists, for every class, with numpy's broadcasting and the shapes of the answers (`Model/Batch.v`) | each model is shown to be a loop over rows (`rowwise`), softmax of a batch is softmax of its rows; then all statements follow for every model at once |
| C105 | `score` on arrays (`Model/Batch.v`, `Model/Metrics.v`) | from C104 and C53 |
| C106 | the Bayes classifiers (`Model/Bayes.v`) on a table written with other values | the stored statistics of both tables are related attribute by attribute (keys renamed, means shifted); related statistics give equal scores; two counterexamples by computation |
| C107 | logistic regression, linear discriminant analysis and the mixture (`Model/Logistic.v`, `Model/Lda.v`, `Model/Gmm.v`) on rows in other units | the Newton equations in the new units are combinations of the old ones and have one solution unless the rows are collinear, induction over the epochs; shifts cancel in every difference, induction over the rounds; counterexamples by computation |
| C108 | logistic regression, linear discriminant analysis, the Bayes classifiers and decision trees with pruning (`Model/Logistic.v`, `Model/Lda.v`, `Model/Bayes.v`, `Model/Tree.v`, `Model/Pruner.v`) on relabelled rows | the gradient changes sign and the Hessian does not, induction over the epochs; the entries of each class are the same lists in another order of classes; induction over the recursion of the generator and over trees for the pruners; counterexamples by computation |
| C109 | logistic regression, k-means, mixtures, the two networks, the stump and discriminant analysis (`Model/Logistic.v`, `Model/KMeans.v`, `Model/Gmm.v`, `Model/Network.v`, `Model/Rbf.v`, `Model/Stump.v`, `Model/Lda.v`) on rows with permuted entries | sums over permuted indices; determinant and inverse of a matrix conjugated by a permutation matrix (mathcomp); induction over rounds and epochs; for the stump, optimality of both results; counterexamples by computation |
| C110 | the training functions of all models (`Model/KMeans.v`, `Model/Gmm.v`, `Model/Logistic.v`, `Model/Lda.v`, `Model/Tree.v`, `Model/Bayes.v`, `Model/Rbf.v`, `Model/Network.v`, `Model/Preprocessing.v`, `Model/Metrics.v`, `Model/Stump.v`) on a table repeated k times | sums, counts and means of repeated lists; inverse of a multiple of a matrix; induction over rounds, epochs and the depth of the tree; the singular value decomposition is an argument, of which it is assumed that multiples of a matrix have the same vectors; counterexamples by computation |
| C111 | `lr_fit` with `NewtonMethod` (`Model/Logistic.v`), `lda_fit` (`Model/Lda.v`), `gm_fit` (`Model/Gmm.v`), `km_fit` (`Model/KMeans.v`), `onehot_call` (`Model/Preprocessing.v`), exact real arithmetic | a matrix has a kernel vector iff its inverse is refused; Hessian and scatter matrix as positive sums of squares; fewer equations than unknowns have a solution; induction over epochs |
| C112 | `sgd_run`, `adam_run` (`Model/Network.v`), exact real arithmetic | invariants of the forward pass, the gradient and every update, induction over the layers and the drawn rows |
| C113 | `load_frame` on any object (`Model/Reload.v`), linked to the one-load model of `Model/Dataset.v` | dictionary invariants, ranks, case analysis of the encoders; witness with eleven classes |
| C114 | `forward`, `sample_gradient`, `sgd_run`, `adam_run` (`Model/Network.v`), `rbf_run` (`Model/Rbf.v`), exact real arithmetic | each pass commutes with the reordering, induction over layers, moves and drawn rows; witness for the refuted half move |
| C115 | `forward`, `sgd_run`, `adam_run` (`Model/Network.v`), `categorical_crossentropy`, `categorical_accuracy` | softmax, gradient and updates commute with the renumbering; the greatest entry moves with its class; witness with a tie |
| C116 | `gm_loop`, `gm_fit`, `gm_predict` (`Model/Gmm.v`), `km_loop`, `km_fit` (`Model/KMeans.v`) | every step commutes with the renumbering of components; the members of a cluster are those of its renumbered twin; witness with an empty cluster |
| C117 | `misfit_run`, `misfit_forward` (`Model/Misfit.v`), `network_fit_effect`, `rbf_fit_effect`, `logistic_fit_effect`, `predict_*` | which computation comes first and does not fit, for every pair of optimizer and model; the effects on the object follow |
| C62 | C++ functions of `backend/cc` next to the Python ones (`Model/Cpp.v`) | extensional equality under stated hypotheses; witnesses where they differ |


## Code that is modelled

| /repo file | model |
|---|---|
| `backend/python/data/preprocessing.py` (all six classes) | `Model/Preprocessing.v` |
| `backend/python/data/dataset.py` 80-267 | `Model/Dataset.v`, `Model/Loader.v`, `Model/Reload.v` |
| `backend/python/ops.py` (all functions) | `Model/Ops.v`, `Hull.v`, `KMeans.v`, `Gmm.v`, `Bayes.v`, `Lda.v`, `Smo.v` |
| `backend/python/tree/criteria.py`, `generators.py`, `pruners.py` | `Model/Tree.v`, `Stump.v`, `Pruner.v` |
| `backend/python/activations.py`, `losses.py`, `metrics.py`, `kernels.py` | `Model/Activations.v`, `Metrics.v`, `Kernels.v` |
| `backend/python/initializers.py` | `Model/Initializers.v` |
| the same functions with rounding (see below) | `Model/Float.v`, `Model/FloatOps.v` |
| `backend/python/optimizers.py` (all optimizers) | `Model/Network.v`, `Rbf.v`, `Logistic.v`, `Smo.v`, `Callbacks.v` |
| `backend/python/callbacks.py`, `_utils.py` | `Model/Callbacks.v`, `ProgressBar.v`, `ProgressText.v` |
| `backend/training.py` | `Model/Training.v` |
| `benchmarks/wrapper_utils.py` | `Model/Benchmark.v` |
| `__init__.py`, `framework/dtypes.py`, `backend/__init__.py` | `Model/Config.v` |
| `backend/io.py` | `Model/Store.v` |
| `api/models/**` (all models: compile, fit, predict, score, save/load) | the file of the algorithm, `Model/Svc.v`, `Model/Life.v`, `Model/Store.v` |
| compile and fit of all classes as assignments to fields, up to an exception | `Model/Fit.v` (simplifications: after an exception inside the training of a network only the initial parameters are listed; columns keep their names between calls; arrays given as `init` have one or two dimensions) |
| `predict` and `score` on arrays and lists: accepted shapes, broadcasting, shapes of the answers | `Model/Batch.v` (simplification: a row with one entry is not stretched by the Gaussian mixture model) |
| attribute names, DataFrame columns and dictionaries by column name of the Bayes classifiers and decision trees | `Model/Named.v` (simplifications: two-dimensional input; a name that a DataFrame lacks ends the model with an error of its own; of two equal labels in a row the first is read; an exception discards the partly trained object) |
| the same models as objects that share numpy's generator | `Model/Process.v` (two simplifications: the row that an optimizer of the wrong kind draws before it fails does not show in the generator; K-means stands for Gaussian mixtures too, which draw in the same way; the models without randomness are left out) |
| `backend/cc/{ops,kernels,activations,losses,metrics,callbacks,_utils,initializers}` and `matrix_op.cc` | `Model/Cpp.v`, `Callbacks.v`, `ProgressBar.v`, `ProgressText.v`, `Initializers.v` |
| `backend/cc/*/*_wrapper.cc`, `numpy_patch.h` (overloads), and the types of the arguments at the call sites in `optimizers.py` and `api/models` | `Model/Dispatch.v` |

## Code that is not modelled

* `api/plots/*` : matplotlib drawing. What is drawn where is modelled (`Model/TreePlot.v`, `Model/Plots.v`); styles, legends, contour lines and `plot_history` are not.
* Rounding: numbers are exact reals, except in C60 and in the floating point layer (`Model/Float.v`, `Model/FloatOps.v`, C81 to C87), which models min-max scaling, sigmoid, softmax, the losses, the density floor, binary accuracy and the multiplier updates of SMO with rounding, overflow and NaN. There, zero has no sign, the library's exponential and logarithm are arbitrary monotone functions rounded to nearest, sums may be in any order, the density before the floor and the SMO candidate before clipping are arbitrary exact numbers.
* `setup.py`; of the pybind11 wrapper files and `numpy_patch.h` everything but the overloads, their order and the acceptance of arguments. How pybind11 chooses (all overloads without conversions, then all with conversions) and what its casters accept is not in the repository: it is modelled from its documentation and trusted. Where versions differ (numpy integers without conversion, arrays given for C++ integers) the theorems hold for every behaviour, or for every one that takes only arrays with one element.
* The bytes of HDF5 files: a file is an attribute dictionary and data sets, with the 64 KB attribute limit.
* Log messages; exception texts.
* pandas/numpy internals: their documented results are modelled where used.

## Trusted base

* Coq's kernel; the gate also runs `coqchk`.
* The reading of the Python/C++ sources: nothing here executes the code.
* Axioms, all from Coq's standard library:
  `ClassicalDedekindReals.sig_forall_dec`, `ClassicalDedekindReals.sig_not_dec` and
  `FunctionalExtensionality.functional_extensionality_dep` (the standard library's real numbers),
  `Classical_Prop.classic` (used by the standard library's and Flocq's real analysis),
  `ClassicalEpsilon.constructive_indefinite_description` (reals as a mathcomp field in
  `Proof/RealField.v`: decidable equality and choice, used for determinants).
* No axiom of this development; no section-less Variable or Hypothesis.
* mathcomp (matrices, determinants, permutations) and Flocq (binary64 for C60) are used as libraries and add no axiom.
  `coqchk` also lists sealed module fields of mathcomp (`bigop`, `finset`, `finfun`, `perm`, `fintype`, `generic_quotient`,
  `tuple`, `ssrunder`) and of the standard library (`RbaseSymbolsImpl`, `RinvImpl`); these are opaque definitions
  behind module signatures, not assumptions, and `Print Assumptions` does not list them.

What `Print Assumptions` reports, for every theorem:

* **no axioms (closed under the global context)** — 105 theorems: C79_average_timer_cases, C80_defaults, C80_precision, C80_python, C80_cpp, C80_same_function, C80_names, C62_bootstrap, C62_target_type, C62_target_type_confused, C08_keyword_codes, C08_class_indices_agree_iff, C08_other_text_rejected, C08_numeric_labels, C08_class_indices_refuted, C09_integer_labels, C09_text_labels, C09_integer_class_indices, C09_text_class_indices, C09_merges_classes_refuted, C09_merges_numeral_texts_refuted, C09_python_integers_refuted, C101_matrix_functions, C101_losses, C101_losses_need_two, C101_bootstrap, C101_three_numbers, C101_compare_differences, C101_centroids, C101_counts, C101_initializers, C102_support_vectors, C102_rounds, C102_starts, C102_k_means, C102_bayes, C102_keep_precision, C74_distinct_draws, C108_first_seen_looks_at_no_names, C12_total, C12_unknown, C12_continuous_iff, C12_vector, C12_matrix, C12_set_of_entries_only, C13_pairs_kept, C13_without_labels, C13_mismatch_rejected, C78_samples, C78_each_sample_once, C78_background, C78_gaussian_mixture, C04_onehot_rows, C04_onehot_injective, C04_onehot_decodable, C05_dummy_rows, C05_dummy_order_isomorphism, C06_maxmargin_codes, C06_maxmargin_two_classes_injective, C06_maxmargin_merges, C113_new_object_texts, C113_new_object_ints, C113_replaceable_ints, C113_replaceable_texts, C113_keys_distinct, C113_features_fail, C113_two_classes, C113_again, C113_again_published, C113_again_raises, C113_published_kind, C113_one_hot_again, C113_max_margin_again, C113_same_frame_again, C113_numbers_sort, C113_same_frame_refuted, C55_decision_tree_pruner_refuted, C56_rejected_untouched, C56_outdated_or_foreign, C56_no_file, C56_failed_load_flags, C56_own_files_acceptable, C56_own_versions, C56_malformed, C57_old_contents_gone, C57_first_operation, C57_failed_save, C59_one_entry_per_epoch, C59_lists_grow_by_the_epochs, C59_lists_keep_equal_length, C59_failed_fit_keeps_finished_epochs, C59_repeated_fits_append, C59_reporting_does_not_change_training, C59_reporting_does_not_stop_training, C59_nothing_without_history, C60_cc_bar, C60_cc_few_epochs, C60_bar_outlives_its_call, C60_bar_of_zero_epochs, C61_criterion_names, C61_initializer_names, C61_loss_names, C61_metric_names, C61_pruner_names, C72_arguments.
* **`ClassicalDedekindReals.sig_forall_dec`** — 5 theorems: C11_hull_convex, C55_renamed_kernel_refuted, C88_not_compiled, C61_kernel_names, C112_alike_scores.
* **`ClassicalDedekindReals.sig_forall_dec`, `FunctionalExtensionality.functional_extensionality_dep`** — 242 theorems: C48_relu, C52_mse_value, C52_mse_zero_means_equal_refuted, C104_tree_each_row_alone, C104_tree_lists, C104_tree_list_of_rows, C35_priors, C35_priors_exist, C35_smoothed_priors, C35_smoothed_priors_one_class_refuted, C35_dependent_priors, C36_counts_are_positional, C36_counts, C36_super_parent_tables, C37_reported_numbers, C38_stored_statistics, C39_refits_accumulate, C39_averaged_shares_one_table, C69_constant_column_fails, C79_timer, C79_memory_monitor, C115_accuracy, C115_accuracy_ties_refuted, C109_stump_mistakes, C109_stump_answers_refuted, C110_scalers, C110_accuracy, C110_stump_refuted, C62_differences, C62_multipliers, C62_hull, C62_metrics, C62_init_centroids, C62_second_multiplier, C62_second_multiplier_refuted, C62_second_multiplier_none, C62_smoothed_prior, C62_projection2_one_feature, C62_projection2, C62_metrics_shapes, C62_init_centroids_singletons, C62_hull_single, C10_normalisation_wins, C10_columns_independent, C10_columns_independent_digitised, C10_numeric_total, C10_normalised_column, C10_integer_array_truncated, C40_majority, C40_fit_appends, C40_learners_accumulate, C40_length_mismatch, C40_seed_range, C40_no_learner, C43_prediction, C93_discriminant_analysis, C93_bagging, C94_averaged_never_fails, C94_discriminant_analysis_refuted, C83_predicted_class, C86_right_side, C34_random_start, C11_hull_encloses, C11_hull_spans_the_points, C11_unique_leftmost_suffices, C11_hull_total, C11_duplicates_refuted, C11_leftmost_tie_refuted, C32_one_row_per_label, C32_rows, C32_gap, C108_discriminant_exchanged, C47_predict_closer_mean, C47_predict_half_space, C47_scatter, C76_last_column_split, C76_plain, C76_filled, C76_no_labels, C76_test_frame_loses_column, C76_frame_described, C76_float_labels_merged_refuted, C76_float_column_makes_floats, C76_integer_frame_is_cut, C76_missing_text_label_fails, C76_vector_labels, C76_loaders_differ, C76_encoded_tensors_fail, C76_no_labels_raises, C76_one_hot_table, C53_binary_accuracy, C53_unlabelled_predictions_count_as_correct, C53_binary_total, C53_binary_range, C53_foreign_labels_always_correct, C53_binary_order_irrelevant, C53_categorical_accuracy, C53_categorical_total, C53_categorical_range, C53_categorical_order_irrelevant, C53_class_numbers_read_as_class_zero, C117_compile_accepts, C96_unknown_super_parent, C97_prediction_in_training_order, C50_corrected_average, C14_clip_is_nearest, C14_second_multiplier, C14_second_multiplier_total, C15_random, C15_indices, C15_bad_indices_rejected, C15_explicit, C15_one_cluster_always_rejected, C15_one_feature_read_as_indices, C15_one_feature_floats_rejected, C64_default_mixture, C64_given_mixture, C64_weights_are_probabilities_refuted, C64_one_component_rejected, C64_default_covariance, C64_degenerate_covariance_rejected, C78_coordinates, C78_svc, C78_ensemble, C78_logistic_other_dimensions, C78_k_means_fails, C78_k_means_hulls, C78_bayes, C78_bayes_fails, C78_bayes_succeeds, C78_ensemble_succeeds, C01_minmax_range_and_order, C01_minmax_matrix_columns, C01_minmax_constant_is_nan, C01_minmax_default_axis_rejects, C01_minmax_default_axis_square, C01_minmax_default_axis_one_column, C01_minmax_default_axis_one_row, C02_minmax_inverse, C02_minmax_inverse_matrix, C02_standard_inverse, C02_standard_inverse_matrix, C03_standard_mean_zero_variance_inverse, C03_fitted_variance, C03_variance_zero_iff_constant, C03_constant_is_nan, C03_standard_matrix_columns, C03_standard_default_axis_rejects, C03_standard_default_axis_one_column, C03_standard_default_axis_one_row, C03_unit_variance_refuted, C07_imputer, C07_all_missing_unchanged, C91_one_draw_witness, C103_line, C103_compiled_line, C103_value, C103_compiled_value, C103_special_values, C103_engines_show_the_same_refuted, C103_time_left, C103_compiled_time_left, C103_engines_show_the_same_time_refuted, C103_time_used, C103_compiled_time_used, C21_post_pruning_any_tree, C22_pre_pruning_decision, C22_missing_value_fails, C22_continuous_node_fails, C100_discriminant_analysis, C100_bagging, C90_linear_discriminant, C90_stump, C90_two_level_tree, C54_untrained_not_saved, C54_base_learners_refuted, C55_discriminant_analysis, C55_decision_tree, C55_bagging, C55_adaboost, C55_learning_rate_refuted, C56_other_class, C57_part_of_the_new, C57_incomplete_not_loaded, C57_network_truncated_refuted, C58_merge, C58_layers, C23_stump_is_optimal, C23_stump_errs_on_at_most_half, C23_stump_exists, C23_too_little_data_fails, C63_at_most_two_levels, C63_leaf_label_is_heavier_class, C63_split_is_optimal, C63_training_error, C63_fit_succeeds, C63_no_weight_fails, C88_coefficient_positive, C89_only_the_kernel, C89_linear_translation_refuted, C89_exchanged_labels, C24_every_moment, C24_training_is_a_history, C24_training_ends, C25_flags_agree, C25_support_set, C26_exact_update_is_optimal, C26_fresh_errors_are_exact, C26_cache_after_update, C26_training_can_lower_the_dual, C28_support_vectors_suffice, C66_converged, C66_schedule, C60_python_width, C60_python_never_backwards, C60_python_full_at_the_end, C60_python_position, C61_optimizer_names, C61_names_are_unambiguous, C61_objects_pass_through, C61_missing_arguments, C16_gini_bounds, C16_gini_zero_iff_pure, C16_gini_is_disagreement, C77_layout, C77_one_box_per_node, C77_leaves_evenly_spaced, C77_inside_the_frame, C77_single_leaf, C98_stump, C98_bagging, C98_two_level_tree, C107_newton_units_from_zero, C107_weights_units_scores, C107_lda_zero_points, C99_minmax, C99_minmax_columns, C99_standard, C99_standard_offset, C99_standard_units_refuted, C99_hull, C99_hull_stable.
* **`ClassicalDedekindReals.sig_forall_dec`, `ClassicalDedekindReals.sig_not_dec`, `FunctionalExtensionality.functional_extensionality_dep`** — 198 theorems: C48_softmax_is_distribution, C48_softmax_defined, C48_softmax_shift, C48_sigmoid_diff, C38_density_is_normal, C38_density_positive, C38_density_symmetric, C79_average_timer, C79_average_timer_raises, C79_no_runs, C115_outputs, C115_sgd, C115_adam, C115_trained_outputs, C115_adam_trained_outputs, C116_k_means, C116_k_means_labels, C116_empty_cluster_refuted, C116_ties_refuted, C109_kmeans_columns, C109_network_outputs, C109_sgd_columns, C109_adam_columns, C109_rbf_columns, C110_kmeans, C110_gradient_descent, C110_gradient_descent_refuted, C110_rbf, C110_network, C62_clustering, C62_probabilities, C62_activations, C62_kernels, C62_kernels_one_feature, C42_factor_below_one, C93_logistic_regression, C93_network, C93_radial_network, C93_support_vectors, C93_k_means, C94_k_means_refuted, C94_network_forgets, C94_logistic_forgets, C114_same_outputs, C114_gradient, C114_sgd, C114_adam, C114_sgd_outputs, C114_adam_outputs, C114_rbf_predict, C114_rbf_run, C73_last_seed_decides, C73_unseeded_discards_seed, C73_calls_continue, C73_own_seed_refuted, C74_layers, C74_training_runs, C74_vector, C74_xavier_forms_differ, C74_rbf, C75_layers, C75_layers_shifted, C75_equal_layers, C75_vector, C75_rbf, C75_shapes, C75_repeat, C75_repeat_refuted, C29_predict_nearest, C30_objective_never_increases, C31_early_stop, C31_rounds_exhausted, C31_clusters_are_predictions_refuted, C31_stop_means_converged_refuted, C32_empty_cluster_fails, C67_training_settles, C108_logistic_regression_exchanged, C44_hessian, C45_hessian_psd, C46_fit_then_predict, C46_refit_is_fresh, C46_loaded_weights_continue, C46_untrained, C70_total, C117_no_rows, C117_no_epochs_keeps, C117_loaded_network, C117_loaded_regression, C117_loaded_radial, C117_network, C117_radial, C117_regression, C117_network_predict, C117_radial_predict, C117_regression_predict, C117_network_no_epochs, C117_radial_no_epochs, C117_regression_no_epochs, C49_class_numbers_push_all_classes, C49_sgd_run_keeps_shape, C50_moments, C50_update, C50_constant_gradient, C50_step_bound, C50_run, C78_lda_projections, C78_lda_line, C78_untrained, C91_script_reproducible, C91_network_recipe, C91_regression_recipe, C91_radial_recipe, C91_classifier_recipe, C91_last_classifier_decides, C91_last_network_decides, C91_network_recompile, C91_regression_recompile, C91_radial_recompile, C91_unseeded_classifier_overrides, C91_unseeded_network_overrides, C91_bagging_ignores_the_generator, C91_bagging_resets_the_generator, C91_default_baggers_are_equal, C91_bagger_repeats_its_members, C91_network_draws, C91_network_draws_adam, C91_classifier_draws, C91_entropy_is_used_once, C91_means_draws, C92_network_starts_afresh, C92_regression_starts_afresh, C92_radial_starts_afresh, C92_loaded_network_continues, C92_loaded_regression_continues, C92_loaded_radial_continues, C92_compile_keeps_what_was_loaded, C92_loaded_radial_is_trained, C92_bagging_fit, C92_failed_fit_loses_the_parameters, C92_load_keeps_further_layers, C51_prediction, C51_gradients, C51_epoch, C51_width_update_ignores_labels, C51_width_gradient_error, C51_run, C51_vector_labels_fail, C51_other_widths, C111_kmeans, C100_k_means, C100_support_vectors, C100_logistic_regression, C100_network, C100_radial_network, C90_logistic_regression, C90_kmeans, C55_kmeans, C55_support_vector_classifier, C55_logistic_regression, C55_network, C55_radial_basis_function_network, C56_damaged_file_refuted, C58_deep_enough, C88_first_fit, C88_no_coefficient, C88_refit, C88_refits, C88_refit_is_new_fit_refuted, C88_kernel_object, C88_unknown_kernel, C88_predict_states, C88_text_coefficient, C88_linear_ignores_the_coefficient, C89_columns, C89_isometry, C89_rbf_distances, C89_rbf_translation, C89_zero_column, C89_scale_unit_free, C27_symmetric, C27_positive_semidefinite, C59_sgd_entries, C59_adam_entries, C59_logistic_entries, C59_rbf_entries, C59_unknown_metric_fails, C59_unknown_metric_is_a_type_error, C59_bar_for_no_epochs, C59_verbose_that_is_not_true, C112_alike_sgd, C112_alike_adam, C112_silent_sgd, C112_silent_adam, C112_all_silent_sgd, C112_all_silent_adam, C99_kmeans, C99_kmeans_given, C99_kmeans_columns_refuted.
* **`ClassicalDedekindReals.sig_forall_dec`, `ClassicalDedekindReals.sig_not_dec`, `Classical_Prop.classic`, `FunctionalExtensionality.functional_extensionality_dep`** — 251 theorems: C48_softmax_order, C48_sigmoid, C52_binary_value, C52_binary_defined, C52_categorical_value, C104_each_row_alone, C104_rows_together, C104_batches, C104_shape, C104_support_vector_answers, C104_cluster_answers, C104_ensemble_answers, C104_flat_is_one_row, C104_flat_is_a_column, C104_flat_is_constant_rows, C104_flat_answered_for_each_feature, C104_flat_refused_by_ensembles, C104_one_sample_one_answer_refuted, C104_lists, C104_single_column_stretched, C104_bayes_each_row_alone, C104_bayes_single_samples, C105_score, C105_score_of_classes, C105_single_row_refused, C105_no_rows, C105_batches, C105_clusterings, C35_conditionals, C35_dependent_conditionals, C38_density_decreases, C39_labels, C39_refit_on_same_data, C39_label_uses_every_entry, C39_no_super_parent, C39_averaged_one_parent, C69_label_is_most_probable_class, C69_label_compares_products, C69_unseen_value_fails, C38_constant_in_class, C38_constant_in_class_super_parent, C36_wrong_labels_refuted, C39_super_parent_ignored_refuted, C106_naive_bayes_other_names, C106_super_parent_other_names, C106_averaged_common_names, C106_averaged_own_names_refuted, C106_other_units_refuted, C115_loss, C116_mixture, C116_mixture_failure, C116_mixture_labels, C116_mixture_fit, C110_gaussian_mixture, C110_tree, C110_naive_bayes, C110_spode, C110_aode, C110_smoothing_refuted, C62_losses, C62_crossentropy, C101_integers_in_single, C41_weights_stay_a_distribution, C41_round, C42_new_weights_make_error_half, C42_training_error, C42_two_level_training, C42_two_level_training_error, C43_second_fit_fails, C43_fit_fit, C43_members_kept, C43_no_rounds, C43_prediction_always_defined_refuted, C93_naive_bayes, C93_super_parent, C93_averaged, C93_decision_tree, C93_mixture, C93_adaboost, C94_flag, C94_untrained_stays_untrained, C94_adaboost_keeps, C94_bagging_keeps, C94_bagging_refuted, C94_super_parent_keeps, C94_tree_keeps, C94_support_vectors_keep, C94_naive_bayes_refuted, C81_scaled, C81_constant, C81_overflow, C81_inverse, C82_sigmoid, C82_saturates, C82_saturates_32, C82_saturates_64, C83_rows, C83_nan, C83_probabilities, C83_prediction_ignores_batch_refuted, C84_binary, C84_categorical, C84_certain_network, C84_likelihood_overflow, C84_likelihood_right_sample, C85_positive, C85_order_kept_refuted, C85_order_above_floor, C86_quotient, C86_more_is_more, C86_nan_counts_as_right, C87_box, C87_balance, C87_never_negative_refuted, C87_box_32, C87_box_64, C82_operations_are_ieee, C33_responsibilities, C33_training, C34_every_round, C34_training, C68_likelihood_one_feature, C68_one_feature_succeeds, C114_only_in_front_refuted, C108_naive_bayes_exchanged, C108_super_parent_exchanged, C108_averaged_exchanged, C108_tree_other_names, C108_ties_by_name_refuted, C108_single_class_refuted, C44_loss_is_negative_log_likelihood, C44_loss_of_labels, C44_gradient, C45_convex, C45_tangent, C45_stationary_iff_minimum, C45_minima_agree, C46_predictions, C70_step, C70_monotone, C70_convergence_rate, C70_every_rate_descends_refuted, C95_arrays_by_position, C95_frames_by_name, C95_frames_as_arrays, C95_no_names, C95_loaded_names_in_any_order, C95_loaded_names_on_arrays_refuted, C95_number_names_refuted, C95_equal_names_refuted, C96_super_parent_by_name, C96_averaged_by_name, C96_frames_by_name, C96_frames_without_names, C96_frames_without_names_refuted, C96_unknown_super_parent_keeps_column, C96_column_p_c_xi, C96_training_after_loading, C96_averaged_training_after_loading_refuted, C97_training_by_name, C97_training_as_array, C97_prediction_by_name_refuted, C95_new_object, C96_new_object, C95_number_of_names, C96_number_of_names, C97_number_of_names, C49_softmax_gradient, C49_sigmoid_gradient, C49_sigmoid_sample_factor, C49_step_lowers_sample_loss, C78_logistic_line, C21_post_pruning_keeps_accuracy, C21_post_pruning_only_when_better, C21_post_pruning_leaves_nothing_to_gain, C21_post_pruning_succeeds, C21_post_pruning_leaf_counts, C21_post_pruning_height_refuted, C21_pruning_needs_validation_data, C22_pre_pruning_only_collapses, C22_continuous_data_refuted, C22_pre_pruning_height_refuted, C51_exact_fit_is_kept_refuted, C100_not_compiled, C100_ensembles_not_compiled, C100_naive_bayes_not_compiled, C100_averaged_not_compiled, C100_unknown_init, C100_naive_bayes, C100_super_parent, C100_averaged, C100_mixture, C100_adaboost, C100_decision_tree, C90_adaboost, C90_adaboost_default, C90_gaussian_mixture, C90_tree, C90_pruned_tree, C90_pruned_height_refuted, C90_ties_refuted, C90_naive_bayes, C90_spode, C90_aode, C90_naive_bayes_refuted, C54_guard, C54_success_enables, C54_guard_mixture_refuted, C54_untrained_file_refuted, C55_naive_bayes, C55_super_parent, C55_averaged, C55_gaussian_mixture, C55_kernel_constants_refuted, C58_replaces_refuted, C27_rbf_range, C27_curvature, C27_sigmoid_refuted, C60_exact_column_refuted, C16_entropy_bounds, C16_entropy_zero_iff_pure, C16_entropy_is_mean_surprisal, C16_order_irrelevant, C17_optimal_division, C17_threshold_is_midpoint, C17_gain_and_entropy_agree, C65_split_never_raises_impurity, C65_reported_gain_nonnegative, C18_training_labels_reproduced, C18_fewest_training_errors, C19_leaf_count, C19_height_at_least_depth, C19_height_of_discrete_tree, C19_height_per_node, C19_height_is_depth_refuted, C20_growth_ends, C20_contradictory_rows_can_fail, C20_predicts_training_labels, C20_known_values_get_a_label, C20_unseen_value_raises, C77_trained, C77_post_pruned, C77_post_pruned_inside_refuted, C98_adaboost, C98_tree, C98_tree_rounded, C98_post_pruned_tree, C98_whole_numbers_refuted, C107_gradient_descent_units_refuted, C107_mixture_zero_points, C107_mixture_units_refuted.
* **`ClassicalDedekindReals.sig_forall_dec`, `ClassicalEpsilon.constructive_indefinite_description`, `Classical_Prop.classic`, `FunctionalExtensionality.functional_extensionality_dep`** — 14 theorems: C109_lda_columns_refuted, C110_linear_discriminant, C62_projection, C47_get_w_solves, C47_get_w_is_fisher_optimal, C47_fit_weights, C47_fit_one_feature, C47_fit_solves_refuted, C111_linear_discriminant, C111_linear_discriminant_few_samples, C111_few_samples_depend, C107_lda_one_feature_nearest_mean, C107_lda_one_feature_units, C107_lda_units_refuted.
* **`ClassicalDedekindReals.sig_forall_dec`, `ClassicalDedekindReals.sig_not_dec`, `ClassicalEpsilon.constructive_indefinite_description`, `Classical_Prop.classic`, `FunctionalExtensionality.functional_extensionality_dep`** — 17 theorems: C109_logistic_columns, C109_mixture_columns, C110_newton, C68_likelihood, C68_every_round, C68_default_start, C68_training_returns, C71_newton_step, C71_newton_fails_iff_collinear, C71_constant_feature_fails, C111_newton, C111_newton_few_samples, C111_newton_one_hot, C111_mixture_learns_nothing, C111_mixture_default_fails, C111_mixture_few_samples, C107_newton_units.

## Facts about the code found while modelling

Each is either the content of a theorem (often with suffix `_refuted`) or the reason for a hypothesis.

Data
* Numeric binary labels other than {0,1} with one-hot or max-margin raise KeyError; keyword pairs of mixed style ('Y' against 'n') give a reversed `class_indices`; the categorical relabelling merges {-1,0,1} and the texts {'!','0','1'}; Python-int labels leave `class_indices` empty.
* Normalising an integer feature array truncates. `MinMaxScaler` with the default axis and `StandardScaler` (divides by the variance) do not do what their names say.
* ConvexHull: a duplicated interior point is never popped; ties for the leftmost point can lose a vertex; fewer than two points raise IndexError.
* `init_centroids` with one cluster rejects every array; with one feature floats are never accepted and an integer column is read as indices. `init_mixture_coefficient` with one component rejects arrays, and negative weights summing to 1 are accepted; `init_covariances` rejects arrays when there is one component or one feature.
* MSE is (Σ difference)²/(2n): errors of opposite sign cancel.

Metrics
* Labels outside {0,1,-1} are always counted correct; predictions beyond the label array are counted correct; empty predictions raise ZeroDivisionError; a class-number vector against multi-class predictions is scored as the share predicted as class 0.

Trees
* Whether an attribute is continuous is re-decided on every node's rows; constant continuous attributes with mixed labels raise ValueError; rounding the dividing point to 32 bits can empty a side; the height of a continuous node is the sum of its children's heights plus one.
* Pre-pruning raises IndexingError at a continuous node with non-zero point (0.0 is falsy and groups by raw values); a validation value absent from the node's rows raises KeyError. Post-pruning: unseen discrete values raise KeyError at bottom nodes and are silently ignored above. `fit` after `load_weights` does not regrow the tree.
* Stump: one row or no feature gives TypeError at predict; sample weights are not used. Two-level: zero weights with more than two rows raise TypeError.

Support vector machine
* The error cache is refreshed before flags are updated; training can lower the dual; the sigmoid kernel is not positive semidefinite; `fit` overwrites gamma and kernel permanently; loading loses degree, beta, theta and an instance's own gamma.

Clusters
* K-means: an empty cluster raises ValueError unless all samples share one cluster; if all samples fall in one cluster other than the first, training stops at once with a centroid that is not the mean; stored clusters after exhausted epochs can differ from `predict`; a model trained for 0 epochs cannot be saved.
* Gaussian mixture: on convergence the old parameters are kept; an initial weight 0 gives NaN; a singular covariance raises LinAlgError; `is_trained` is set before the final predict, so a failed fit enables `predict`; explicit non-PSD initial covariances are accepted.

Bayes
* A constant discrete column raises IndexError; the smoothed prior with one class gives (1,0); naive Bayes pairs names in frequency order with counts in appearance order; variance 0 gives NaN and predicts 1; an unseen value raises KeyError; SPODE sums over all entries whatever the super-parent value; its list is never reset on refit; AODE's lists alias one list; with no eligible super parent it always predicts 1; labels other than 0/1 are ignored by the scoring; AODE marks itself trained after the first sub-fit.

Ensembles
* AdaBoost: a second fit (or fit after load) raises AttributeError; indistinguishable rows with balanced labels give only zero weights and NaN; error 1 gives weight -inf; a negative sum of weights flips every vote. Bagging without learners predicts +1 everywhere.

Linear models
* LDA fits with element-wise products (`get_w_v2`); a separable four-point data set gives w = 0. Softmax and Relu.diff change their arguments. Gradient descent with a large rate can raise the loss; Newton raises LinAlgError exactly when the columns and the constant are collinear.

Networks
* With one sigmoid output the backward pass is the exact gradient of (reported loss − half mean squared prediction). Class numbers with two or more softmax outputs are accepted silently. RBF: the beta update is the derivative of ½ mean(p²), independent of labels; one-dimensional labels raise ValueError from two samples on; centres have two features; the reported loss is from before the update. Loading merges the parameter dictionary.

Saving
* Saving truncates first, so a failing save loses the old weights; loading overwrites fields one by one; untrained compile, save, load passes the trained guard for seven models; stump and two-level have no guard and raise TypeError; optimizer settings are never saved; a custom `name=` breaks reloading; a tree file saved without pruner loaded into an instance with pruner raises KeyError after the criterion was overwritten; an interrupted network save loads silently as a shallower network.

Training loops
* A History listed twice records twice; entries are from before the update for GD, Newton and RBF but after it for log-likelihood; the bar persists on the optimizer; a bar with 0 epochs makes later fits raise ZeroDivisionError; an unknown metric name raises TypeError after the first update; double rounding makes the bars of epochs 7 and 8 of 25 identical; pruner instances are refused by `get_pruner`.

C++ backend
* `select_second_alpha` returns sample 0 unless some non-bound difference exceeds the first non-bound one's; the smoothed prior always adds 2; `GetW_V2` uses V instead of its transpose and does not invert Σ; one-feature data with two or more support rows breaks the kernels; metrics raise ValueError on shape mismatch and NaN on empty input; `init_centroids` does not squeeze; `type_of_target` compares texts by first byte and rounds numbers to 32 bits; the hull of one point is [p;p]; its bar is 26 characters wide and never full for fewer than 25 epochs.

Initializers
* The constructor seeds numpy's global generator: the seed of the instance built last decides for all instances; building one without seed discards an earlier seed. The Xavier vector form multiplies by sqrt(n), the opposite of its documentation. He with 0 attributes divides by zero. The C++ initializers reseed for every layer, so layers of the same shape start identical; the static distribution keeps a spare value, so repeated calls with an odd number of draws differ.

Loading
* `from_tensor_slices` with one-hot or max-margin labels always raises (TypeError: arrays are not hashable; IndexError for a single class); a training set without labels raises AttributeError even when it is declared unsupervised; whether labels are treated as many classes is decided by the number of columns, not of classes, so `class_indices` names only the two smallest labels. A test DataFrame loses its last column even when it is a feature. Float labels 0.5, 0.75, 1 are stored as two classes.

Drawing
* A post-pruned tree can record a height smaller than its depth; its lowest leaves are then drawn below the frame (C77). A tree with continuous splits records a height above its depth, which leaves the bottom of the frame empty.
* The k-means plot raises IndexError when a cluster has one sample. The Bayes plot raises ValueError for more than two columns and TypeError for text columns, although such models train and predict. A logistic regression with second weight 0 and a discriminant with first component 0 draw no line. Samples with unexpected labels are left out of plots without a message (C78).

Configuration
* `CLASSICML_ENGINE=cc` announces the engine cc and uses Python; `CLASSICML_PRECISION=64` means 32 bits. `backend.get_w_v1` and `get_w_v2` do not exist with the C++ engine. `average_timer(0)` raises ValueError.

Floating point
* Softmax subtracts the maximum of the whole batch: a row far below it becomes NaN and is predicted as class 0 (C83). Saturated sigmoids make the cross-entropy NaN for samples that are right (C84). The log likelihood overflows for scores above 88 in 32 bits (C84). The floor 1e-36 lies above the smallest floats, so a smaller density can be reported as the larger one (C85). NaN predictions count as right in the binary accuracy (C86). Multipliers become slightly negative by rounding, after which `alphas > 0` no longer selects them (C87). A column whose range overflows is scaled to 0 and NaN (C81).

Support vector classifier as an object
* `gamma='auto'` and `'scale'` are replaced by their number in the first `fit` and stay that number for all later data, as does the kernel; an unknown kernel name raises only after gamma was replaced (C88). With the linear kernel, translating separable data changes predictions (C89).

Order of the rows
* Naive Bayes with a discrete column answers differently after shuffling the training rows (C90, a consequence of C36). The height of a post-pruned tree depends on which branch came last in the data. If the most common label is tied and ties are broken by appearance, the answers of a tree depend on the order of the rows.

Shared generator and repeated training
* The seed of one model changes the result of another: constructing a second `SVC`, or compiling a second network, between the constructor (or compile) and `fit` of the first replaces the seed of the first (C91). The fit of a `BaggingClassifier` sets the generator for everything after it.
* `np.random.seed` has no effect on a model without a seed, since the constructor of the initializer (or classifier) seeds with fresh entropy (C91).
* The default seed of `BaggingClassifier.compile` is drawn once at import, so all baggers of a process that use it are the same ensemble on the same data; compiling and training again adds the same stumps a second time (C91).
* A failed `fit` leaves a network that counts as trained with untrained parameters; loading a shorter network over a longer one keeps the extra layers, which `predict` then uses (C92).

Failed training
* A `fit` that raises changes the answers of an already trained linear discriminant (the class means are replaced before the singular matrix is found), naive Bayes classifier (the priors are replaced before a single-valued column raises IndexError) and K-means (the centroids are replaced before an empty cluster raises ValueError); networks and logistic regression answer with fresh initial parameters (C94).
* A decision tree that was loaded ignores the training data of a later `fit`: it is only pruned again.

Column names
* A decision tree is trained by column name but predicts by position: a DataFrame with other column order gets wrong answers without a message (C97). The one-dependent estimators do the same when no attribute names are given (C96).
* A naive Bayes classifier without attribute names (the default) trains and loads, and every prediction raises TypeError, although only a warning about names is given (C95). Equal names make later columns overwrite earlier ones; attribute names that are numbers in another order than 0, 1, 2, ... select other columns (C95).
* An unknown super parent raises ValueError only if the estimator was never trained; otherwise the previous super parent is used without a message. A column named `p_c_xi` makes every prediction raise TypeError (C96).
* An averaged estimator that is loaded and trained again forgets the file, while the saved object trained again adds to what it has (C96).

Units of measurement
* The standard scaler divides by the variance, so its results keep the (inverse) unit of the data: metres and centimetres give results that differ by a factor of 100 (C99).
* Decision trees treat a column of whole numbers as categories. Measuring the same column in other units can make it whole, and rows between the training values then raise KeyError (C98).

Training without compile and after load_weights
* `LogisticRegression`, `BackPropagationNeuralNetwork` and `RadialBasisFunctionNetwork`: `compile(optimizer=GradientDescent(0.5))` followed by `load_weights` and `fit` trains with the default rate 0.01; calling `compile` after `load_weights` keeps both (C100).
* A decision tree that was loaded by an object that was never compiled predicts but cannot be trained (AttributeError) (C100).
* A naive Bayes or averaged estimator that was never compiled trains without smoothing, although smoothing is the default of `compile`, and cannot be saved (C100).
* Bagging stops with ValueError when its seeds leave 0..2^32-1, with the learners of the earlier rounds kept, so that the answers change although `fit` raised (C40, C94).

Continuous columns
* A continuous column that has a single number in the rows of one class (for instance a class with one row) makes the naive Bayes classifier and the super-parent estimator answer class 1 for every query, since the variance is 0 and the score NaN (C38).

Compiled engine: precision and refused calls
* At 64 bit settings with the compiled engine the naive Bayes classifier raises TypeError in `predict` as soon as there is a discrete column: the counts are 64 bit floats, which pybind11 refuses for integers; at 32 bit it works (C102).
* At 64 bit settings the violations and the clipping of the support vector classifier, the loss and the metric of every round, the stopping test of k-means and the starting weights of the radial basis network are computed in single precision (C102).
* `bootstrap_sampling` of 64 bit data with 32 bit labels, or with labels in a list, returns the data only, without an error (C101).
* Points given as lists or integers are compared in single precision: integers above 2^24 can coincide (C101).
* The two progress bars print different texts: the compiled one cuts the values instead of rounding them (0.99996 is shown as 0.9999 instead of 1.0000), leaves out the space before the time left and the leading zeros (`]ETA: 1:5` for 65 seconds); the Python one shows `60s` for 59.7 seconds and `01:00` for 60 (C103).
* `RadialBasisFunctionNetwork.predict` of one sample given as an array with one dimension returns as many equal answers as the sample has features; logistic regression takes such an array for a column of samples, and a support vector classifier with the rbf kernel for samples of equal features, without an error (C104).
* `score` of a single row is an IndexError for logistic regression and linear discriminant analysis, because `predict` squeezes its answer (C105).
* `DecisionTreeClassifier.predict` of a list of samples takes the samples for the features of one sample: it answers with one label or fails; a list with a text and a number turns the number into a text, which a continuous split refuses (C104).
* The predictions of naive Bayes depend on the unit in which a continuous column is measured, because the density uses the variance in place of the standard deviation (C106).
* The predictions of `AveragedOneDependentEstimator` change when the values of one column are renamed: the entries of every super parent are compared with the value of the sample in other columns (C106).
* The answers of logistic regression with gradient descent, and of linear discriminant analysis with two or more features, depend on the units (for gradient descent also on the zero points) of the features (C107).
* Naive Bayes with smoothing and only one class in the training data: the prior of the missing class is exactly 0 if that class is 1, but 1/(n+1) if it is 0, so a classifier that has seen only class 1 can answer 0 (C108).
* Linear discriminant analysis depends on the order of the features: the element-wise products in `get_w_v2` make four separable rows all get label 0 in one order and the right labels in the other (C109).
* Giving every training row k times is the same for `GradientDescent` as k times the learning rate, multiplies the mean squared error that the radial basis function network shows by k, and can change the answers of the decision stump and of naive Bayes with smoothing (C110).
* Constant, duplicated or one-hot encoded features, and too few samples, make `NewtonMethod`, linear discriminant analysis and Gaussian mixtures with default covariances end with LinAlgError; nothing regularises the matrices. This is in exact arithmetic: with rounding the matrix can be merely close to singular and the outcome is then arbitrary (C111).
* With the default axis both scalers turn a table with a single column into a square table without a single finite number (C01, C03).
* Neurons that start alike stay alike, and a network that starts with zeros learns nothing but biases behind its first layer (C112).
* A `Dataset` object that is loaded again keeps the old labels in `class_indices`; with one-hot the second call raises TypeError as soon as an old class is missing, after `x` and `y` were already replaced (C113).
* The labels are replaced in the array pandas hands out (a view of the frame, unless pandas copies). Loading such a frame again merges text classes when there are more than ten, since '10' sorts before '2' (C113).
* The accuracy of a network depends on the numbering of the classes when outputs tie: `np.argmax` takes the first (C115).
* With two centroids of which one is far from all rows, K-means depends on their order: with the far one second it is dropped and the other moves to the mean; with the far one first nothing moves and training stops as converged (C116).
* An optimizer of another family is not refused by `compile`; with `epochs=0` `fit` marks the model as trained, and every `predict` then raises (C117). The documentation of the radial basis function network says that only its own optimizer can be used, but nothing checks it.
