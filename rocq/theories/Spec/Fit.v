(** Vocabulary for whole histories: compile, fit, save, load in another process,
    predict (C93, C94). *)
From Coq Require Import List String Reals ZArith Bool.
From Verif.Model Require Import Base Tree Pruner Logistic Network Training Store Life Svc Fit.
Import ListNotations.
Local Open Scope string_scope.

(** The object [i] does what [P] says; and it can be saved, whoever the author and
    whatever the time and the old contents of the path, and a new object of the
    class that loads the file does what [P] says. *)
Definition here_and_there {A} (c : @cls A) (i : @obj A) (P : @obj A -> Prop) : Prop :=
  P i /\ forall author now k, exists k' j, save c author now i k = (k', None) /\ load c k' (fresh c) = (j, None) /\ P j.

(** The optimizers of logistic regression. *)
Definition is_regression_optimizer (f : optimizer_kind) (o : Logistic.optimizer) : Prop :=
  match f, o with
  | GradientDescent r, Logistic.GradientDescent r' => r = r'
  | NewtonMethod, Logistic.NewtonMethod => True
  | _, _ => False
  end.
(** Training the layers [ls] on the rows number [draws] ends with the layers [ls']. *)
Definition trains_network (f : optimizer_kind) (x y : list (list R)) (draws : list nat) (ls ls' : list layer) : Prop :=
  match f with
  | Sgd rate => sgd_run rate x y ls draws = Ok ls'
  | Adam rate b1 b2 eps => adam_run {| rate := rate; beta_1 := b1; beta_2 := b2; epsilon := eps |} x y ls draws = Ok ls'
  | _ => False
  end.

(** The criteria and the ways of pruning by their names in [compile]. *)
Definition criterion_named (s : string) : option criterion :=
  if s =? "gain" then Some Gain else if s =? "gini" then Some Gini else if s =? "entropy" then Some Entropy else None.
Definition pruning_named (p : arg pruner_kind) : option pruning :=
  match p with
  | NoArg => Some NoPruning
  | ByName s => if s =? "pre" then Some Pre else if s =? "post" then Some Post else None
  | _ => None
  end.

(** Two objects answer every call of [predict] alike. *)
Definition same_predictions {A} (i j : @obj A) : Prop :=
  (forall x, predict_logistic i x = predict_logistic j x) /\
  (forall r, predict_lda i r = predict_lda j r) /\
  (forall O num rnd q, predict_naive_bayes O num rnd i q = predict_naive_bayes O num rnd j q) /\
  (forall O num rnd q, predict_super_parent O num rnd i q = predict_super_parent O num rnd j q) /\
  (forall O num rnd q, predict_averaged O num rnd i q = predict_averaged O num rnd j q) /\
  (forall x, predict_tree i x = predict_tree j x) /\
  (forall x, predict_svc i x = predict_svc j x) /\
  (forall x, predict_kmeans i x = predict_kmeans j x) /\
  (forall rnd d x, predict_mixture rnd d i x = predict_mixture rnd d j x) /\
  (forall x, predict_bagging i x = predict_bagging j x) /\
  (forall r, predict_adaboost i r = predict_adaboost j r) /\
  (forall x, predict_network i x = predict_network j x) /\
  (forall x, predict_rbf i x = predict_rbf j x).

(** The calls of [fit] with the classes they belong to (C94). *)
Inductive fit_call {A} (i : @obj A) : @cls A -> @fit_effect A -> Prop :=
| fits_lda svd d x y : fit_call i LinearDiscriminantAnalysis (lda_fit_effect svd d x y)
| fits_logistic init d x y epochs : fit_call i LogisticRegression (logistic_fit_effect init d x y epochs i)
| fits_network init draws x y : fit_call i BackPropagationNeuralNetwork (network_fit_effect init draws x y i)
| fits_rbf init x y epochs : fit_call i RadialBasisFunctionNetwork (rbf_fit_effect init x y epochs i)
| fits_naive_bayes O num cont vc cols y : fit_call i NaiveBayesClassifier (nb_fit_effect O num cont vc cols y i)
| fits_super_parent O num cont index cols y : fit_call i SuperParentOneDependentEstimator (sp_fit_effect O num cont index cols y i)
| fits_averaged O num cont cols y : fit_call i AveragedOneDependentEstimator (ao_fit_effect O num cont cols y i)
| fits_tree top rnd w D val : fit_call i DecisionTreeClassifier (tree_fit_effect top rnd w D val i)
| fits_svc d x y perms fuel epochs : fit_call i SupportVectorClassifier (svc_fit_effect d x y perms fuel epochs i)
| fits_kmeans randint d x n epochs : fit_call i KMeansModel (km_fit_effect randint d x n epochs i)
| fits_mixture rnd randint d x n epochs : fit_call i GaussianMixture (gm_fit_effect rnd randint d x n epochs i)
| fits_bagging choice n w x y : fit_call i BaggingClassifier (bagging_fit_effect choice n w x y i)
| fits_adaboost w n D : fit_call i AdaBoostClassifier (adaboost_fit_effect w n D i).
