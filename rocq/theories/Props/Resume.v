(** C100: [fit] of an object that was never compiled, and of one that has loaded a
    file. *)
From Coq Require Import List String Reals ZArith Bool Arith Lia Lra.
From Verif.Model Require Import Base Matrix Ops Stump Tree Pruner Bayes Ensemble Logistic Lda Network Rbf KMeans Gmm Kernels Smo Training Store Life Svc Fit.
From Verif.Spec Require Import Tree Store Fit Resume.
From Verif.Proof Require Import BaseLemmas Pruner SmoExample Fit FitFail Resume.
From Verif.Props Require Import Ensemble Fit.
Import ListNotations.
Local Open Scope string_scope.

(** ** Never compiled *)
(** Seven classes raise this exception for all data, and still refuse to predict. *)
Theorem C100_not_compiled : forall A (c : @cls A) er e, fit_call (fresh c) c e ->
  In (c, er) [(LogisticRegression, TypeError); (BackPropagationNeuralNetwork, TypeError); (RadialBasisFunctionNetwork, TypeError);
              (DecisionTreeClassifier, AttributeError); (SupportVectorClassifier, AttributeError);
              (KMeansModel, TypeError); (GaussianMixture, TypeError)] ->
  raised e = Some er /\ all_refuse (after_fit e (fresh c)).
Proof.
  intros A c er e H Hin; destruct (not_compiled c er e H Hin) as [H1 H2]; split; [ exact H1 |].
  apply refuses; [ unfold after_fit; cbn [is_trained]; rewrite H2 |]; cbn [In] in Hin;
    repeat (destruct Hin as [Hin | Hin]; [ injection Hin as <- _; reflexivity |]); contradiction.
Qed.
Print Assumptions C100_not_compiled.
Example C100_not_compiled_witness : forall A, exists e, fit_call (fresh (@KMeansModel A)) KMeansModel e.
Proof. intros A; exists (km_fit_effect (fun _ b => repeat 0%nat b) 1 [[0]; [1]; [4]]%R 2 100 (fresh KMeansModel)); constructor. Qed.
Theorem C100_ensembles_not_compiled : forall A,
  (forall choice n w x y, raised (bagging_fit_effect choice n w x y (fresh (@BaggingClassifier A))) = if (n =? 0)%nat then None else Some ValueError) /\
  (forall w n D, raised (adaboost_fit_effect w n D (fresh (@AdaBoostClassifier A))) = if (n =? 0)%nat then None else Some TypeError).
Proof. intros A; exact ensembles_not_compiled. Qed.
Print Assumptions C100_ensembles_not_compiled.
(** Two classes are trained as if compiled without smoothing (and with the threshold 0),
    although the default of [compile] is smoothing, and cannot be saved then. *)
Theorem C100_naive_bayes_not_compiled : forall A O num cont vc cols y, let i := fresh (@NaiveBayesClassifier A) in
  let i1 := set_fields i (compile_naive_bayes false) in let e := nb_fit_effect O num cont vc cols y i1 in
  nb_fit_effect O num cont vc cols y i = e /\
  (forall O' num' rnd q, predict_naive_bayes O' num' rnd (after_fit e i) q = predict_naive_bayes O' num' rnd (after_fit e i1) q) /\
  forall author now k, snd (save NaiveBayesClassifier author now (after_fit e i) k) = Some TypeError.
Proof. intros A; exact nb_not_compiled. Qed.
Print Assumptions C100_naive_bayes_not_compiled.
Theorem C100_averaged_not_compiled : forall A O num cont cols y, let i := fresh (@AveragedOneDependentEstimator A) in
  let i1 := set_fields i (compile_averaged false 0) in let e := ao_fit_effect O num cont cols y i1 in
  ao_fit_effect O num cont cols y i = e /\
  (forall O' num' rnd q, predict_averaged O' num' rnd (after_fit e i) q = predict_averaged O' num' rnd (after_fit e i1) q) /\
  forall author now k, snd (save AveragedOneDependentEstimator author now (after_fit e i) k) = Some TypeError.
Proof. intros A; exact ao_not_compiled. Qed.
Print Assumptions C100_averaged_not_compiled.
Example C100_naive_bayes_witness : forall num, exists p0, In ("p_0", VNum p0)
  (changed (nb_fit_effect ZOrder num (fun _ => false) (unique ZOrder) [[1; 1; 2]; [3; 4; 4]]%Z [0; 0; 1]%Z (fresh NaiveBayesClassifier))).
Proof. intros num; eexists; left; reflexivity. Qed.

(** A text that [init] does not know stops the training before anything is assigned. *)
Theorem C100_unknown_init : forall A s, s <> "random" ->
  (forall randint d x n epochs (i : @obj A), field i "init" = VText s -> km_fit_effect randint d x n epochs i = stopped [] TypeError) /\
  (forall rnd randint d x n epochs (i : @obj A), field i "init" = VText s -> gm_fit_effect rnd randint d x n epochs i = stopped [] TypeError).
Proof. intros A s Hs; split; intros; [ eapply means_text | eapply mixture_text ]; eassumption. Qed.
Print Assumptions C100_unknown_init.
Example C100_unknown_init_witness : forall A, field (set_fields (fresh (@KMeansModel A)) (compile_kmeans (VText "k-means++") 1)) "init" = VText "k-means++".
Proof. reflexivity. Qed.

(** ** Loaded *)
(** [i] is any trained or loaded object that could be saved, [j] an object that has
    loaded the file: a further [fit] does to [j] what it does to [i], and then the two
    answer alike.  For the ensembles this is a training that goes on. *)
Theorem C100_discriminant_analysis : forall A author now (i j0 : @obj A) k k', ready i ->
  save LinearDiscriminantAnalysis author now i k = (k', None) ->
  exists j, load LinearDiscriminantAnalysis k' j0 = (j, None) /\ forall svd d x y r,
    let e := lda_fit_effect svd d x y in predict_lda (after_fit e j) r = predict_lda (after_fit e i) r.
Proof. intros A; exact resume_lda. Qed.
Print Assumptions C100_discriminant_analysis.
Theorem C100_naive_bayes : forall A author now (i j0 : @obj A) k k', ready i -> save NaiveBayesClassifier author now i k = (k', None) ->
  exists j, load NaiveBayesClassifier k' j0 = (j, None) /\ forall O num cont vc cols y,
    let e := nb_fit_effect O num cont vc cols y i in
    nb_fit_effect O num cont vc cols y j = e /\
    forall O' num' rnd q, predict_naive_bayes O' num' rnd (after_fit e j) q = predict_naive_bayes O' num' rnd (after_fit e i) q.
Proof. intros A; exact resume_nb. Qed.
Print Assumptions C100_naive_bayes.
Theorem C100_super_parent : forall A author now (i j0 : @obj A) k k', ready i ->
  save SuperParentOneDependentEstimator author now i k = (k', None) ->
  exists j, load SuperParentOneDependentEstimator k' j0 = (j, None) /\ forall O num cont index cols y,
    let e := sp_fit_effect O num cont index cols y i in
    sp_fit_effect O num cont index cols y j = e /\
    forall O' num' rnd q, predict_super_parent O' num' rnd (after_fit e j) q = predict_super_parent O' num' rnd (after_fit e i) q.
Proof. intros A; exact resume_sp. Qed.
Print Assumptions C100_super_parent.
(** The averaged estimator does not save the entries of earlier calls: training goes on
    without them. *)
Theorem C100_averaged : forall A author now (i : @obj A) k k', ready i -> save AveragedOneDependentEstimator author now i k = (k', None) ->
  exists j, load AveragedOneDependentEstimator k' (fresh AveragedOneDependentEstimator) = (j, None) /\ forall O num cont cols y,
    let e := ao_fit_effect O num cont cols y (set_field i "_list_of_p_c" (VEntries [])) in
    ao_fit_effect O num cont cols y j = e /\
    forall O' num' rnd q, predict_averaged O' num' rnd (after_fit e j) q = predict_averaged O' num' rnd (after_fit e i) q.
Proof. intros A; exact resume_ao. Qed.
Print Assumptions C100_averaged.
Theorem C100_k_means : forall A author now (i j0 : @obj A) k k', ready i -> save KMeansModel author now i k = (k', None) ->
  exists j, load KMeansModel k' j0 = (j, None) /\ forall randint d x n epochs,
    let e := km_fit_effect randint d x n epochs i in
    km_fit_effect randint d x n epochs j = e /\ forall q, predict_kmeans (after_fit e j) q = predict_kmeans (after_fit e i) q.
Proof. intros A; exact resume_km. Qed.
Print Assumptions C100_k_means.
Theorem C100_mixture : forall A author now (i j0 : @obj A) k k', ready i -> save GaussianMixture author now i k = (k', None) ->
  exists j, load GaussianMixture k' j0 = (j, None) /\ forall rnd randint d x n epochs,
    let e := gm_fit_effect rnd randint d x n epochs i in
    gm_fit_effect rnd randint d x n epochs j = e /\
    forall rnd' d' q, predict_mixture rnd' d' (after_fit e j) q = predict_mixture rnd' d' (after_fit e i) q.
Proof. intros A; exact resume_gm. Qed.
Print Assumptions C100_mixture.
Theorem C100_bagging : forall A author now (i j0 : @obj A) k k', ready i -> save BaggingClassifier author now i k = (k', None) ->
  exists j, load BaggingClassifier k' j0 = (j, None) /\ forall choice n w x y,
    let e := bagging_fit_effect choice n w x y i in
    bagging_fit_effect choice n w x y j = e /\ forall q, predict_bagging (after_fit e j) q = predict_bagging (after_fit e i) q.
Proof. intros A; exact resume_bag. Qed.
Print Assumptions C100_bagging.
Theorem C100_adaboost : forall A author now (i j0 : @obj A) k k', ready i -> save AdaBoostClassifier author now i k = (k', None) ->
  exists j, load AdaBoostClassifier k' j0 = (j, None) /\ forall w n D,
    let e := adaboost_fit_effect w n D i in
    adaboost_fit_effect w n D j = e /\ forall q, predict_adaboost (after_fit e j) q = predict_adaboost (after_fit e i) q.
Proof. intros A; exact resume_ada. Qed.
Print Assumptions C100_adaboost.
Theorem C100_support_vectors : forall A author now (i j0 : @obj A) k k' c, ready i ->
  save SupportVectorClassifier author now i k = (k', None) ->
  field i "kernel" = VKernel c -> usual_kernel (number (field i "gamma")) c ->
  exists j, load SupportVectorClassifier k' j0 = (j, None) /\ forall d x y perms fuel epochs,
    let e := svc_fit_effect d x y perms fuel epochs i in
    svc_fit_effect d x y perms fuel epochs j = e /\ forall q, predict_svc (after_fit e j) q = predict_svc (after_fit e i) q.
Proof. intros A; exact resume_svc. Qed.
Print Assumptions C100_support_vectors.

(** A tree that was loaded by an object that was never compiled cannot be trained.
    After [compile] a [fit] returns, but keeps the tree of the file whatever the data
    are, and at most prunes it. *)
Theorem C100_decision_tree : forall A author now (i : @obj A) k k', save DecisionTreeClassifier author now i k = (k', None) ->
  exists j, load DecisionTreeClassifier k' (fresh DecisionTreeClassifier) = (j, None) /\
    (forall top rnd w D val, tree_fit_effect top rnd w D val j = stopped [] AttributeError) /\
    (forall s pr a top rnd w D val, compile_tree s pr = Ok a ->
       let j1 := set_fields j a in
       match pr with
       | NoArg => tree_fit_effect top rnd w D val j1 = finished [("tree", field i "tree")]
       | _ => forall t V, field i "tree" = VTree t -> val = Some V -> forall p t', get_pruner pr = Ok (Some p) ->
           (match kind p with PrePruner => pre_prune top t D V | PostPruner => post_prune top t D V end) = Ok t' ->
           tree_fit_effect top rnd w D val j1 = finished [("tree", VTree t')]
       end).
Proof. intros A; exact resume_tree. Qed.
Print Assumptions C100_decision_tree.

(** With an optimizer: a [fit] goes on from the parameters of the file (and not from
    new ones, as a [fit] of the object that was saved would).  The settings of the
    optimizer are not in the file, and the settings that the loading object was compiled
    with are lost: the optimizer has the default settings.  [compile] after the loading
    keeps the parameters and gives the optimizer the settings asked for. *)
Theorem C100_logistic_regression : forall A author now (i j0 : @obj A) k k' o, save LogisticRegression author now i k = (k', None) ->
  field i "optimizer" = VOptimizer o -> cname o = usual_optimizer_name (kind o) ->
  exists j, load LogisticRegression k' j0 = (j, None) /\
    (forall init d x y epochs, logistic_fit_effect init d x y epochs j =
       logistic_fit_effect init d x y epochs (loaded_with i (default_settings (kind o)) (cname o))) /\
    (forall ar c l m a init d x y epochs, get_optimizer ar = Ok c -> compile_trainer ar l m = Ok a ->
       logistic_fit_effect init d x y epochs (set_fields j a) = logistic_fit_effect init d x y epochs (loaded_with i (kind c) (cname c))).
Proof. intros A; exact resume_logistic. Qed.
Print Assumptions C100_logistic_regression.
Theorem C100_network : forall A author now (i j0 : @obj A) k k' o d,
  save BackPropagationNeuralNetwork author now i k = (k', None) ->
  field i "optimizer" = VOptimizer o -> cname o = usual_optimizer_name (kind o) ->
  field i "parameters" = VDict d -> NoDup (map fst d) -> field j0 "parameters" = VDict [] ->
  exists j, load BackPropagationNeuralNetwork k' j0 = (j, None) /\
    (forall init draws x y, network_fit_effect init draws x y j =
       network_fit_effect init draws x y (loaded_with i (default_settings (kind o)) (cname o))) /\
    (forall ar c l m a init draws x y, get_optimizer ar = Ok c -> compile_trainer ar l m = Ok a ->
       network_fit_effect init draws x y (set_fields j a) = network_fit_effect init draws x y (loaded_with i (kind c) (cname c))).
Proof. intros A; exact resume_network. Qed.
Print Assumptions C100_network.
Theorem C100_radial_network : forall A author now (i j0 : @obj A) k k' o d,
  save RadialBasisFunctionNetwork author now i k = (k', None) ->
  field i "optimizer" = VOptimizer o -> cname o = usual_optimizer_name (kind o) ->
  field i "parameters" = VDict d -> NoDup (map fst d) -> field j0 "parameters" = VDict [] ->
  exists j, load RadialBasisFunctionNetwork k' j0 = (j, None) /\
    (forall init x y epochs, rbf_fit_effect init x y epochs j =
       rbf_fit_effect init x y epochs (loaded_with i (default_settings (kind o)) (cname o))) /\
    (forall ar c l m a init x y epochs, get_optimizer ar = Ok c -> compile_trainer ar l m = Ok a ->
       rbf_fit_effect init x y epochs (set_fields j a) = rbf_fit_effect init x y epochs (loaded_with i (kind c) (cname c))).
Proof. intros A; exact resume_rbf. Qed.
Print Assumptions C100_radial_network.

(** Objects that meet the hypotheses: trained ones, which can be saved. *)
Example C100_saved_witness : forall A author now k,
  (exists i k', ready i /\ save (@BaggingClassifier A) author now i k = (k', None)) /\
  (exists i k', ready i /\ save (@KMeansModel A) author now i k = (k', None)) /\
  (exists i k', ready i /\ save (@GaussianMixture A) author now i k = (k', None)) /\
  (exists i k', ready i /\ save (@AdaBoostClassifier A) author now i k = (k', None)) /\
  (exists i k', ready i /\ save (@DecisionTreeClassifier A) author now i k = (k', None)) /\
  (exists i k', ready i /\ save (@LinearDiscriminantAnalysis A) author now i k = (k', None)).
Proof.
  intros A author now k; repeat split.
  - destruct C40_witness as (b & H & _).
    pose proof (C93_bagging A _ _ _ _ _ (VText "stump") 7 [] b (fresh BaggingClassifier) ltac:(discriminate) eq_refl H) as S; cbv zeta in S.
    destruct (ships_saved _ _ _ S author now k) as [k' E]; do 2 eexists; split; [| exact E ].
    destruct S as [S _]; exact (answered_ready _ _ _ _ (S [])).
  - pose proof (C93_k_means A (fun _ _ => []) _ _ _ (VNats [0; 1]%nat) _ _ _ _ _ (fresh KMeansModel) eq_refl (C93_k_means_witness A (fun _ _ => []) 0)) as S; cbv zeta in S.
    destruct (ships_saved _ _ _ S author now k) as [k' E]; do 2 eexists; split; [| exact E ].
    destruct S as [S _]; exact (answered_ready _ _ _ _ (S [])).
  - destruct (C93_mixture_witness A 3) as (t & l & H).
    pose proof (C93_mixture A _ _ _ _ _ (VText "random") VNone VNone _ _ t l (fresh GaussianMixture) eq_refl H) as S; cbv zeta in S.
    destruct (ships_saved _ _ _ S author now k) as [k' E]; do 2 eexists; split; [| exact E ].
    destruct S as [S _]; exact (answered_ready _ _ _ _ (S (fun p => p) 1%nat [])).
  - destruct C42_witness as (b & H & _).
    pose proof (C93_adaboost A _ _ _ (VText "two-level") b (fresh AdaBoostClassifier) ltac:(discriminate) eq_refl eq_refl eq_refl eq_refl H) as S; cbv zeta in S.
    destruct (ships_saved _ _ _ S author now k) as [k' E]; do 2 eexists; split; [| exact E ].
    destruct S as [S _]; exact (answered_ready _ _ _ _ (S [])).
  - destruct (boxes_post (fun l => hd 0%Z l) (fun r => r)) as (t & H & _).
    destruct (C93_decision_tree A _ _ "gini" (ByName "post") Gini Post 2%nat boxes _ t (fresh DecisionTreeClassifier) eq_refl eq_refl eq_refl H) as (a & _ & S); cbv zeta in S.
    destruct (ships_saved _ _ _ S author now k) as [k' E]; do 2 eexists; split; [| exact E ].
    destruct S as [S _]; exact (answered_ready _ _ _ _ (S [])).
  - destruct C93_discriminant_analysis_witness as [m H].
    pose proof (C93_discriminant_analysis A _ _ _ _ m (fresh LinearDiscriminantAnalysis) H) as S.
    destruct (ships_saved _ _ _ S author now k) as [k' E]; do 2 eexists; split; [| exact E ].
    destruct S as [S _]; exact (answered_ready _ _ _ _ (S [])).
Qed.
Example C100_bayes_witness : forall author now k,
  (exists i k', ready i /\ save (@NaiveBayesClassifier Z) author now i k = (k', None)) /\
  (exists i k', ready i /\ save (@SuperParentOneDependentEstimator Z) author now i k = (k', None)) /\
  (exists i k', ready i /\ save (@AveragedOneDependentEstimator Z) author now i k = (k', None)).
Proof.
  intros author now k; repeat split.
  - destruct C93_naive_bayes_witness as (m & H & _).
    pose proof (C93_naive_bayes Z _ _ _ _ _ _ _ m (fresh NaiveBayesClassifier) H ltac:(apply Nat.le_0_l) ltac:(apply Nat.le_0_l)) as S; cbv zeta in S.
    destruct (ships_saved _ _ _ S author now k) as [k' E]; do 2 eexists; split; [| exact E ].
    destruct S as [S _]; exact (answered_ready _ _ _ _ (S (fun r => r) [])).
  - destruct C93_super_parent_witness as (l & H0 & H & _).
    pose proof (C93_super_parent Z _ _ _ "a" _ _ _ _ [] l (fresh SuperParentOneDependentEstimator) H0 H) as S; cbv zeta in S.
    destruct (ships_saved _ _ _ S author now k) as [k' E]; do 2 eexists; split; [| exact E ].
    destruct S as [S _]; exact (answered_ready _ _ _ _ (S (fun r => r) [])).
  - destruct C93_averaged_witness as (l & H0 & H & _).
    pose proof (C93_averaged Z _ _ _ _ _ _ _ [] l (fresh AveragedOneDependentEstimator) H0 H) as S; cbv zeta in S.
    destruct (ships_saved _ _ _ S author now k) as [k' E]; do 2 eexists; split; [| exact E ].
    destruct S as [S _]; exact (answered_ready _ _ _ _ (S (fun r => r) [])).
Qed.
(** A rate of 1/2: the file is written, and the object that loads it trains with
    1/100. *)
Example C100_logistic_witness : forall A author now k, exists a k',
  compile_trainer (A := A) (Instance (comp (GradientDescent (1/2)) "gradient_descent")) NoArg (ByName "accuracy") = Ok a /\
  let i := set_fields (fresh (@LogisticRegression A)) (("beta", VVec [1; 2]%R) :: a) in
  field i "optimizer" = VOptimizer (comp (GradientDescent (1/2)) "gradient_descent") /\
  save LogisticRegression author now i k = (k', None).
Proof. intros A author now k; do 2 eexists; repeat split. Qed.
Example C100_network_witness : forall A author now k, exists a k',
  compile_trainer (A := A) (Instance (comp (Sgd (1/2)) "stochastic_gradient_descent")) NoArg (ByName "accuracy") = Ok a /\
  let i := set_fields (fresh (@BackPropagationNeuralNetwork A)) (("network_structure", VNats [1; 1]%nat) :: ("parameters", VDict (entries 1 [([[3%R]], [4%R])])) :: a) in
  field i "optimizer" = VOptimizer (comp (Sgd (1/2)) "stochastic_gradient_descent") /\
  NoDup (map fst (entries (A := A) 1 [([[3%R]], [4%R])])) /\
  save BackPropagationNeuralNetwork author now i k = (k', None).
Proof.
  intros A author now k; do 2 eexists; repeat split.
  cbn; constructor; [ intros [E | []]; discriminate | constructor; [ intros [] | constructor ] ].
Qed.
