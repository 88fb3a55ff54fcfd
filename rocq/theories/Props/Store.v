(** C54-C58: the guard of [predict] and the weight files. *)
From Coq Require Import List String Reals ZArith Bool Arith Lia Lra.
From Verif.Model Require Import Base Ops Stump Tree Bayes Gmm KMeans Kernels Smo Activations Network Rbf Training Store Life.
From Verif.Spec Require Import Store.
From Verif.Proof Require Import BaseLemmas Activations Store StoreNet StoreCrash RoundTrip Life StoreMain.
Import ListNotations.
Local Open Scope string_scope.

(** ** C54 *)
(** For every class but the Gaussian mixture and the averaged one-dependence
    estimator, and every history of calls: [predict] of the object refuses if no
    [fit] and no [load_weights] of the history returned normally, and does not
    refuse if one did. *)
Theorem C54_guard : forall A (c : @cls A) d ks, In c classes -> marks_early c = false -> fits_possible c ks ->
  let i := fst (perform_all c (fresh c, d) ks) in
  (some_success (transcript c (fresh c, d) ks) -> all_answer i) /\
  (~ some_success (transcript c (fresh c, d) ks) -> all_refuse i).
Proof. exact (@guard_history). Qed.
Print Assumptions C54_guard.

(** For the other two classes one half holds. *)
Theorem C54_success_enables : forall A (c : @cls A) d ks, In c classes -> fits_possible c ks ->
  some_success (transcript c (fresh c, d) ks) -> all_answer (fst (perform_all c (fresh c, d) ks)).
Proof. exact (@success_enables). Qed.
Print Assumptions C54_success_enables.

(** A history that K-means can have: a failed fit and a successful one. *)
Example C54_witness_kmeans : forall A randint,
  fits_possible (A := A) KMeansModel
    [FitCall (kmeans_fit_effect randint 1 [[0]; [1]; [4]]%R 2 InitOther (1/4) 3);
     FitCall (kmeans_fit_effect randint 1 [[0]; [1]; [4]]%R 2 (InitArray {| shape := [2%nat]; data := Ints [0; 1]%Z |}) (1/4) 3)].
Proof. intros A randint e [E | [E | []]]; inversion E; apply kmeans_possible. Qed.
Example C54_witness_failed_fit : forall A randint,
  raised (kmeans_fit_effect (A := A) randint 1 [[0]; [1]; [4]]%R 2 InitOther (1/4) 3) = Some TypeError.
Proof. reflexivity. Qed.

(** The mixture model: a [fit] that raises leaves an object that predicts. *)
Theorem C54_guard_mixture_refuted : forall A, exists rnd d randint x n i_mu i_cov i_mix tol epochs,
  let e := mixture_fit_effect (A := A) rnd d randint x n i_mu i_cov i_mix tol epochs in
  fits_possible GaussianMixture [FitCall e] /\ raised e <> None /\
  forall disk, ~ some_success (transcript GaussianMixture (fresh GaussianMixture, disk) [FitCall e]) /\
               all_answer (fst (perform_all GaussianMixture (fresh GaussianMixture, disk) [FitCall e])).
Proof. exact (@mixture_failed_fit). Qed.
Print Assumptions C54_guard_mixture_refuted.

(** An object that was never trained can be saved by seven classes, and loading
    that file makes it pass the guard. *)
Theorem C54_untrained_file_refuted : forall A (c : @cls A),
  In c [SuperParentOneDependentEstimator; AveragedOneDependentEstimator; DecisionTreeClassifier; BaggingClassifier;
        AdaBoostClassifier; BackPropagationNeuralNetwork; RadialBasisFunctionNetwork] ->
  exists l, forall disk path author now,
    all_answer (fst (perform_all c (fresh c, disk) [CompileCall l; SaveCall path author now; LoadCall path])).
Proof. exact (@untrained_file). Qed.
Print Assumptions C54_untrained_file_refuted.

(** The other six classes do not save an object that has not been fitted. *)
Theorem C54_untrained_not_saved : forall A (c : @cls A) fld,
  In (c, fld) [(LogisticRegression, "beta"); (LinearDiscriminantAnalysis, "w"); (NaiveBayesClassifier, "p_0");
               (SupportVectorClassifier, "support"); (KMeansModel, "centroids"); (GaussianMixture, "mu")] ->
  field (fresh c) fld = VNone /\
  forall i author now k, field i fld = VNone -> exists e, snd (save c author now i k) = Some e.
Proof. exact (@untrained_not_saved). Qed.
Print Assumptions C54_untrained_not_saved.

(** The two base learners have no guard: an unfitted one is an AttributeError for
    every input with a row, and the two-level tree returns nothing for none. *)
Theorem C54_base_learners_refuted :
  (forall x, predict_stump None x = Err AttributeError) /\
  (forall r x, predict_two_level None (r :: x) = Err AttributeError) /\ predict_two_level None [] = Ok [].
Proof. repeat split. Qed.
Print Assumptions C54_base_learners_refuted.

(** ** C55 *)
Theorem C55_discriminant_analysis : forall A author now (i j0 : @obj A) k k', ready i ->
  save LinearDiscriminantAnalysis author now i k = (k', None) ->
  exists j, load LinearDiscriminantAnalysis k' j0 = (j, None) /\ forall r, predict_lda j r = predict_lda i r.
Proof. exact (@again_lda). Qed.
Print Assumptions C55_discriminant_analysis.

Theorem C55_naive_bayes : forall A author now (i j0 : @obj A) k k', ready i ->
  save NaiveBayesClassifier author now i k = (k', None) ->
  exists j, load NaiveBayesClassifier k' j0 = (j, None) /\
    forall O num_of rnd q, predict_naive_bayes O num_of rnd j q = predict_naive_bayes O num_of rnd i q.
Proof. exact (@again_nb). Qed.
Print Assumptions C55_naive_bayes.

Theorem C55_super_parent : forall A author now (i j0 : @obj A) k k', ready i ->
  save SuperParentOneDependentEstimator author now i k = (k', None) ->
  exists j, load SuperParentOneDependentEstimator k' j0 = (j, None) /\
    forall O num_of rnd q, predict_super_parent O num_of rnd j q = predict_super_parent O num_of rnd i q.
Proof. exact (@again_sp). Qed.
Print Assumptions C55_super_parent.

Theorem C55_averaged : forall A author now (i j0 : @obj A) k k', ready i ->
  save AveragedOneDependentEstimator author now i k = (k', None) ->
  exists j, load AveragedOneDependentEstimator k' j0 = (j, None) /\
    forall O num_of rnd q, predict_averaged O num_of rnd j q = predict_averaged O num_of rnd i q.
Proof. exact (@again_ao). Qed.
Print Assumptions C55_averaged.

(** The object that loads must not have a pruner unless the file has one. *)
Theorem C55_decision_tree : forall A author now (i j0 : @obj A) k k', ready i ->
  save DecisionTreeClassifier author now i k = (k', None) -> field j0 "pruner" = VNone ->
  exists j, load DecisionTreeClassifier k' j0 = (j, None) /\ forall x, predict_tree j x = predict_tree i x.
Proof. exact (@again_tree). Qed.
Print Assumptions C55_decision_tree.

Theorem C55_decision_tree_pruner_refuted : forall A author now (i j0 : @obj A) k k' p,
  save DecisionTreeClassifier author now i k = (k', None) -> field i "pruner" = VNone -> field j0 "pruner" = VPruner p ->
  exists j, load DecisionTreeClassifier k' j0 = (j, Some KeyError) /\ field j "criterion" = field i "criterion" /\
            field j "tree" = field j0 "tree".
Proof. exact (@tree_pruner). Qed.
Print Assumptions C55_decision_tree_pruner_refuted.

Theorem C55_kmeans : forall A author now (i j0 : @obj A) k k', ready i ->
  save KMeansModel author now i k = (k', None) ->
  exists j, load KMeansModel k' j0 = (j, None) /\ forall x, predict_kmeans j x = predict_kmeans i x.
Proof. exact (@again_kmeans). Qed.
Print Assumptions C55_kmeans.

Theorem C55_gaussian_mixture : forall A author now (i j0 : @obj A) k k', ready i ->
  save GaussianMixture author now i k = (k', None) ->
  exists j, load GaussianMixture k' j0 = (j, None) /\ forall rnd d x, predict_mixture rnd d j x = predict_mixture rnd d i x.
Proof. exact (@again_mixture). Qed.
Print Assumptions C55_gaussian_mixture.

Theorem C55_bagging : forall A author now (i j0 : @obj A) k k', ready i ->
  save BaggingClassifier author now i k = (k', None) ->
  exists j, load BaggingClassifier k' j0 = (j, None) /\ forall x, predict_bagging j x = predict_bagging i x.
Proof. exact (@again_bagging). Qed.
Print Assumptions C55_bagging.

Theorem C55_adaboost : forall A author now (i j0 : @obj A) k k', ready i ->
  save AdaBoostClassifier author now i k = (k', None) ->
  exists j, load AdaBoostClassifier k' j0 = (j, None) /\ forall r, predict_adaboost j r = predict_adaboost i r.
Proof. exact (@again_adaboost). Qed.
Print Assumptions C55_adaboost.

(** With a kernel that is determined by its name and the stored gamma. *)
Theorem C55_support_vector_classifier : forall A author now (i j0 : @obj A) k k' c, ready i ->
  save SupportVectorClassifier author now i k = (k', None) ->
  field i "kernel" = VKernel c -> usual_kernel (number (field i "gamma")) c ->
  exists j, load SupportVectorClassifier k' j0 = (j, None) /\ forall x, predict_svc j x = predict_svc i x.
Proof. exact (@again_svc). Qed.
Print Assumptions C55_support_vector_classifier.

(** A degree, the constants of a sigmoid kernel and the gamma of a kernel object
    are lost. *)
Theorem C55_kernel_constants_refuted : forall A,
  let changes c g b x :=
    let i := trained_svc A c g b in
    exists k' j, save SupportVectorClassifier VNone VNone i Absent = (k', None) /\
      load SupportVectorClassifier k' new_svc = (j, None) /\ predict_svc j x <> predict_svc i x in
  changes (comp (KPoly (Some 1%R) 2) "poly") 1%R 0%R [[-1]]%R /\
  changes (comp (KSigmoid (Some 1%R) 1 0) "sigmoid") 1%R 0%R [[1 / 2]]%R /\
  changes (comp (KRbf (Some 10%R)) "rbf") (1 / 10)%R (- 1 / 2)%R [[0]]%R.
Proof. exact (@kernel_constants). Qed.
Print Assumptions C55_kernel_constants_refuted.

(** A kernel with a name of its own is saved but cannot be loaded. *)
Theorem C55_renamed_kernel_refuted : forall A author now (i j0 : @obj A) k k' c,
  save SupportVectorClassifier author now i k = (k', None) -> field i "kernel" = VKernel c ->
  ~ In (cname c) ["linear"; "rbf"; "gaussian"; "poly"; "sigmoid"] ->
  exists j, load SupportVectorClassifier k' j0 = (j, Some AttributeError).
Proof. exact (@renamed_kernel). Qed.
Print Assumptions C55_renamed_kernel_refuted.

(** With an optimizer that has its usual name. *)
Theorem C55_logistic_regression : forall A author now (i j0 : @obj A) k k' o, ready i ->
  save LogisticRegression author now i k = (k', None) ->
  field i "optimizer" = VOptimizer o -> cname o = usual_optimizer_name (kind o) ->
  exists j, load LogisticRegression k' j0 = (j, None) /\ forall x, predict_logistic j x = predict_logistic i x.
Proof. exact (@again_logistic). Qed.
Print Assumptions C55_logistic_regression.

(** The learning rate of the optimizer is not restored: training goes on with the
    default one. *)
Theorem C55_learning_rate_refuted : forall A author now (i j0 : @obj A) k k' rate,
  save LogisticRegression author now i k = (k', None) ->
  field i "optimizer" = VOptimizer (comp (GradientDescent rate) "gradient_descent") ->
  exists j, load LogisticRegression k' j0 = (j, None) /\
    field j "optimizer" = VOptimizer (comp (GradientDescent (1 / 100)) "gradient_descent").
Proof. exact (@learning_rate). Qed.
Print Assumptions C55_learning_rate_refuted.

(** The networks: into an object without parameters. *)
Theorem C55_network : forall A author now (i j0 : @obj A) k k' o d, ready i ->
  save BackPropagationNeuralNetwork author now i k = (k', None) ->
  field i "optimizer" = VOptimizer o -> cname o = usual_optimizer_name (kind o) ->
  field i "parameters" = VDict d -> NoDup (map fst d) -> field j0 "parameters" = VDict [] ->
  exists j, load BackPropagationNeuralNetwork k' j0 = (j, None) /\ forall x, predict_network j x = predict_network i x.
Proof. exact (@again_network). Qed.
Print Assumptions C55_network.

Theorem C55_radial_basis_function_network : forall A author now (i j0 : @obj A) k k' o d, ready i ->
  save RadialBasisFunctionNetwork author now i k = (k', None) ->
  field i "optimizer" = VOptimizer o -> cname o = usual_optimizer_name (kind o) ->
  field i "parameters" = VDict d -> NoDup (map fst d) -> field j0 "parameters" = VDict [] ->
  exists j, load RadialBasisFunctionNetwork k' j0 = (j, None) /\ forall x, predict_rbf j x = predict_rbf i x.
Proof. exact (@again_rbf). Qed.
Print Assumptions C55_radial_basis_function_network.

(** Objects that can be saved. *)
Example C55_witness_kmeans : forall A author now,
  snd (save (A := A) KMeansModel author now (trained_kmeans A) Absent) = None /\ ready (trained_kmeans A) /\
  predict_kmeans (trained_kmeans A) [] = Answer (Ok []).
Proof. intros; repeat split; now left. Qed.
Example C55_witness_svc : forall A author now,
  snd (save (A := A) SupportVectorClassifier author now (trained_svc A (comp (KRbf (Some 1%R)) "rbf") 1 0) Absent) = None /\
  usual_kernel (number (field (trained_svc A (comp (KRbf (Some 1%R)) "rbf") 1 0) "gamma")) (comp (KRbf (Some 1%R)) "rbf").
Proof. intros; split; [ reflexivity | right; left; reflexivity ]. Qed.
Example C55_witness_network : forall A author now, let i := trained_network A [([[1]], [0])]%R in
  snd (save (A := A) BackPropagationNeuralNetwork author now i Absent) = None /\ ready i /\
  field i "parameters" = VDict (network_dict [([[1]], [0])]%R) /\ NoDup (map fst (network_dict (A := A) [([[1]], [0])]%R)).
Proof. intros; repeat split; [ now left | apply network_nodup ]. Qed.

(** ** C56 *)
(** A file is looked into only if it says the class, a library version of at least
    0.5 and a format version of at least 0.7; otherwise the call raises and the
    object is the same as before. *)
Theorem C56_rejected_untouched : forall A (c : @cls A) f i, ~ acceptable (model_name c) f ->
  exists e, load c (Hdf5 f) i = (i, Some e).
Proof. exact (@load_rejects). Qed.
Print Assumptions C56_rejected_untouched.

Theorem C56_outdated_or_foreign : forall A (c : @cls A) f i v w n, says f v w n ->
  earlier v [0; 5]%nat \/ release_before (release w) [0; 7]%nat \/ n <> model_name c ->
  load c (Hdf5 f) i = (i, Some ValueError).
Proof. exact (@load_wrong). Qed.
Print Assumptions C56_outdated_or_foreign.

(** The file of another class, whether its save was completed or not. *)
Theorem C56_other_class : forall A (c c' : @cls A) author now i k j, In c classes -> In c' classes ->
  model_name c <> model_name c' -> load c (fst (save c' author now i k)) j = (j, Some ValueError).
Proof. exact (@load_other). Qed.
Print Assumptions C56_other_class.

(** A path without an HDF5 file. *)
Theorem C56_no_file : forall A (c : @cls A) i, load c Absent i = (i, Some OSError) /\ load c Garbage i = (i, Some OSError).
Proof. intros; split; reflexivity. Qed.
Print Assumptions C56_no_file.

(** Whatever the file, a load that raises sets neither flag. *)
Theorem C56_failed_load_flags : forall A (c : @cls A) k i e, snd (load c k i) = Some e ->
  is_trained (fst (load c k i)) = is_trained i /\ is_loaded (fst (load c k i)) = is_loaded i.
Proof. exact (@failed_flags). Qed.
Print Assumptions C56_failed_load_flags.

(** The files of this version are accepted. *)
Theorem C56_own_files_acceptable : forall A (c : @cls A) author now i k,
  exists f, fst (save c author now i k) = Hdf5 f /\ acceptable (model_name c) f.
Proof. exact (@own_acceptable). Qed.
Print Assumptions C56_own_files_acceptable.

(** They carry version 0.9.1a3 of the library, a pre-release, and version 0.7 of the
    format, whether the save was completed or not. *)
Theorem C56_own_versions : forall A (c : @cls A) author now i k,
  exists f, fst (save c author now i k) = Hdf5 f /\
    says f {| release := [0; 9; 1]%nat; stage := (-1)%Z |} {| release := [0; 7]%nat; stage := 0%Z |} (model_name c).
Proof. exact (@own_says). Qed.
Print Assumptions C56_own_versions.

(** A file whose description is not of the form of [says]: which exception it is.  A
    text without a version number is [VText]. *)
Theorem C56_malformed : forall A (c : @cls A) f i,
  (description f = None -> load c (Hdf5 f) i = (i, Some KeyError)) /\
  forall d, description f = Some d ->
    (lookup d "cml_version" = None -> load c (Hdf5 f) i = (i, Some KeyError)) /\
    (forall t, lookup d "cml_version" = Some (VText t) -> load c (Hdf5 f) i = (i, Some ValueError)) /\
    (forall v, lookup d "cml_version" = Some v -> (forall t, v <> VText t) -> (forall w, v <> VVersion w) ->
       load c (Hdf5 f) i = (i, Some TypeError)) /\
    forall v, lookup d "cml_version" = Some (VVersion v) ->
      (lookup d "io_version" = None -> load c (Hdf5 f) i = (i, Some KeyError)) /\
      (forall t, lookup d "io_version" = Some (VText t) -> load c (Hdf5 f) i = (i, Some IndexError)) /\
      (forall u, lookup d "io_version" = Some u -> (forall t, u <> VText t) -> (forall w, u <> VVersion w) ->
         load c (Hdf5 f) i = (i, Some TypeError)) /\
      forall w, lookup d "io_version" = Some (VVersion w) -> ~ earlier v [0; 5]%nat -> ~ release_before (release w) [0; 7]%nat ->
        (lookup d "model_name" = None -> load c (Hdf5 f) i = (i, Some KeyError)) /\
        (lookup d "model_name" = Some (VText (model_name c)) -> parameters f = false -> load c (Hdf5 f) i = (i, Some KeyError)).
Proof. exact (@malformed). Qed.
Print Assumptions C56_malformed.
Example C56_malformed_witness : forall A, exists f : @file A, says f {| release := [1]%nat; stage := 0 |} {| release := [0; 8]%nat; stage := 0 |} "KMeans" /\
  parameters f = false.
Proof.
  intros A; exists {| description := Some [("cml_version", VVersion {| release := [1]%nat; stage := 0 |}); ("io_version", VVersion {| release := [0; 8]%nat; stage := 0 |});
    ("model_name", VText "KMeans")]; parameters := false; compile_ds := None; weights_ds := None |}.
  split; [ eexists; repeat split | reflexivity ].
Qed.

(** An acceptable file without some of the weights: the call raises, but the
    object has changed and predicts differently. *)
Theorem C56_damaged_file_refuted : forall A, exists (f : @file A) i j x,
  acceptable "KMeans" f /\ load KMeansModel (Hdf5 f) i = (j, Some KeyError) /\ ready i /\
  predict_kmeans j x <> predict_kmeans i x.
Proof. exact (@damaged_file). Qed.
Print Assumptions C56_damaged_file_refuted.

Example C56_witness_versions :
  earlier {| release := [0; 4; 9]%nat; stage := 0 |} [0; 5]%nat /\
  earlier {| release := [0; 5; 0]%nat; stage := (-1) |} [0; 5]%nat /\
  ~ earlier {| release := [0; 5]%nat; stage := 0 |} [0; 5]%nat /\
  ~ earlier {| release := [0; 10]%nat; stage := (-1) |} [0; 5]%nat /\
  ~ earlier cml_version [0; 5]%nat.
Proof. rewrite <- !older_spec; cbn; repeat split; discriminate. Qed.

(** ** C57 *)
(** From the first operation on nothing of the old contents is left; before it
    everything is. *)
Theorem C57_old_contents_gone : forall A (c : @cls A) author now i n k k', (0 < n)%nat ->
  save_interrupted c author now i n k = save_interrupted c author now i n k' /\
  save_interrupted c author now i 0 k = k.
Proof. intros; split; [ now apply interrupted_forgets | reflexivity ]. Qed.
Print Assumptions C57_old_contents_gone.

(** After the first operation the file is empty, and no class can load it. *)
Theorem C57_first_operation : forall A (c : @cls A) author now i k,
  exists f, save_interrupted c author now i 1 k = Hdf5 f /\ description f = None /\ parameters f = false /\
    (forall p, part_of f p = None) /\ forall c' j, load c' (Hdf5 f) j = (j, Some KeyError).
Proof.
  intros A c author now i k; exists empty_file; split; [ unfold save_interrupted, save_ops; destruct (until_error _); reflexivity |].
  do 2 (split; [ reflexivity |]); split; [ intros []; reflexivity | intros; reflexivity ].
Qed.
Print Assumptions C57_first_operation.

(** Every save, failing ones included, is the interrupted save that was stopped
    after its last operation, so a save that raises has destroyed the old
    contents, too. *)
Theorem C57_failed_save : forall A (c : @cls A) author now i k,
  exists n, (0 < n)%nat /\ forall k', fst (save c author now i k') = save_interrupted c author now i n k.
Proof. exact (@failed_save). Qed.
Print Assumptions C57_failed_save.

(** What is in the file is part of what the whole save writes. *)
Theorem C57_part_of_the_new : forall A (c : @cls A) author now i n k, In c classes -> (0 < n)%nat ->
  (forall d, field i "parameters" = VDict d -> NoDup (map fst d)) ->
  exists f g, save_interrupted c author now i n k = Hdf5 f /\ fst (save c author now i k) = Hdf5 g /\ part_of_file f g.
Proof. exact (@interrupted_is_part). Qed.
Print Assumptions C57_part_of_the_new.

(** For the eleven classes that are not networks: what an interrupted or failed
    save leaves behind cannot be loaded.  Only a completed save can. *)
Theorem C57_incomplete_not_loaded : forall A (c : @cls A) author now i n k j j',
  In c [LogisticRegression; LinearDiscriminantAnalysis; NaiveBayesClassifier; SuperParentOneDependentEstimator;
        AveragedOneDependentEstimator; DecisionTreeClassifier; SupportVectorClassifier; KMeansModel; GaussianMixture;
        BaggingClassifier; AdaBoostClassifier] -> (0 < n)%nat ->
  load c (save_interrupted c author now i n k) j = (j', None) ->
  save c author now i k = (save_interrupted c author now i n k, None).
Proof. exact (@incomplete_not_loaded). Qed.
Print Assumptions C57_incomplete_not_loaded.

(** A network: interrupted after [t] of its arrays the file loads without an
    error, as the network of its first [t / 2] layers. *)
Theorem C57_network_truncated_refuted : forall A author now (i : @obj A) k k' o ls t,
  save BackPropagationNeuralNetwork author now i k = (k', None) ->
  field i "optimizer" = VOptimizer o -> cname o = usual_optimizer_name (kind o) ->
  field i "parameters" = VDict (network_dict ls) -> (t <= 2 * List.length ls)%nat ->
  exists j d, load BackPropagationNeuralNetwork (save_interrupted BackPropagationNeuralNetwork author now i (14 + t) k) (fresh BackPropagationNeuralNetwork) = (j, None) /\
    field j "parameters" = VDict d /\ layers_of d = Ok (firstn (t / 2) ls).
Proof. exact (@network_truncated). Qed.
Print Assumptions C57_network_truncated_refuted.

(** ** C58 *)
(** After loading, every parameter has the value of the file if the file has it,
    and the old value otherwise. *)
Theorem C58_merge : forall A (c : @cls A) k j0 j d0,
  In c [BackPropagationNeuralNetwork; RadialBasisFunctionNetwork] ->
  field j0 "parameters" = VDict d0 -> load c k j0 = (j, None) ->
  exists f a d, k = Hdf5 f /\ weights_ds f = Some a /\ field j "parameters" = VDict d /\
    (NoDup (map fst a) -> forall q, lookup d q = match lookup a q with Some v => Some v | None => lookup d0 q end).
Proof. exact (@merge_load). Qed.
Print Assumptions C58_merge.

(** The layers of the loaded network: those of the file followed by the deeper
    ones the object had. *)
Theorem C58_layers : forall A author now (i j0 : @obj A) k k' o ls ls0,
  save BackPropagationNeuralNetwork author now i k = (k', None) ->
  field i "optimizer" = VOptimizer o -> cname o = usual_optimizer_name (kind o) ->
  field i "parameters" = VDict (network_dict ls) -> field j0 "parameters" = VDict (network_dict ls0) ->
  exists j d, load BackPropagationNeuralNetwork k' j0 = (j, None) /\ field j "parameters" = VDict d /\
    layers_of d = Ok (ls ++ skipn (List.length ls) ls0)%list.
Proof. exact (@merged_layers). Qed.
Print Assumptions C58_layers.

(** So the loaded network replaces the old one when it is at least as deep. *)
Theorem C58_deep_enough : forall A author now (i j0 : @obj A) k k' o ls ls0, ready i ->
  save BackPropagationNeuralNetwork author now i k = (k', None) ->
  field i "optimizer" = VOptimizer o -> cname o = usual_optimizer_name (kind o) ->
  field i "parameters" = VDict (network_dict ls) -> field j0 "parameters" = VDict (network_dict ls0) ->
  (List.length ls0 <= List.length ls)%nat ->
  exists j, load BackPropagationNeuralNetwork k' j0 = (j, None) /\ forall x, predict_network j x = predict_network i x.
Proof. exact (@deep_enough). Qed.
Print Assumptions C58_deep_enough.

(** Otherwise its predictions can be neither those of the saved network nor those
    it had before. *)
Theorem C58_replaces_refuted : forall A author now, exists (i j0 j : @obj A) k' x,
  save BackPropagationNeuralNetwork author now i Absent = (k', None) /\ ready i /\ ready j0 /\
  load BackPropagationNeuralNetwork k' j0 = (j, None) /\
  predict_network j x <> predict_network i x /\ predict_network j x <> predict_network j0 x.
Proof. exact (@neither_network). Qed.
Print Assumptions C58_replaces_refuted.

(** Networks of one and two layers meet the hypotheses of C57 and C58. *)
Example C58_witness : forall A author now, exists k',
  save BackPropagationNeuralNetwork author now (trained_network A [([[1]], [0])]%R) Absent = (k', None) /\
  ready (trained_network A [([[1]], [0])]%R) /\
  field (trained_network A [([[1]], [0])]%R) "parameters" = VDict (network_dict [([[1]], [0])]%R) /\
  field (trained_network A [([[0]], [0]); ([[2]], [0])]%R) "parameters" = VDict (network_dict [([[0]], [0]); ([[2]], [0])]%R).
Proof. intros. eexists. split; [reflexivity|]. split; [now left|]. split; reflexivity. Qed.
Example C57_witness : forall A author now, exists n k j', let i := trained_kmeans A in
  (0 < n)%nat /\ save_interrupted KMeansModel author now i n Absent = k /\
  load KMeansModel k (fresh KMeansModel) = (j', None).
Proof. intros. exists 100%nat. do 2 eexists. split; [lia|]. split; reflexivity. Qed.
