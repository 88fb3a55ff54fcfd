(** C93: training, saving, loading elsewhere and predicting.  C94: calls of [fit]
    that raise an exception. *)
From Coq Require Import List String Reals ZArith Bool Arith Lia Lra.
From Verif.Model Require Import Base Matrix Ops Stump Tree Pruner Bayes Ensemble Logistic Lda Network Rbf KMeans Gmm Kernels Smo Training Store Life Svc Fit.
From Verif.Spec Require Import Tree Store Fit.
From Verif.Proof Require Import BaseLemmas Pruner SmoExample Fit FitFail.
From Verif.Props Require Network.
From Verif.Props Require Import Rbf KMeans Gmm Ensemble Svm.
Import ListNotations.
Local Open Scope string_scope.

(** ** C93 *)
(** [m] is what the training computes (modelled class by class in the other
    files); the object answers with it, and so does an object of another process
    that has loaded the file.  The object [i] is any object of the class before
    [compile]. *)
Theorem C93_discriminant_analysis : forall A svd d x y m (i : @obj A), lda_fit svd d x y = Ok m ->
  here_and_there LinearDiscriminantAnalysis (after_fit (lda_fit_effect svd d x y) i)
    (fun j => forall r, predict_lda j r = Answer (Ok (lda_predict m r))).
Proof. intros A; exact lda_ships. Qed.
Print Assumptions C93_discriminant_analysis.
Example C93_discriminant_analysis_witness : exists m, lda_fit one_svd 1 [[0]; [2]; [10]; [12]]%R [0; 0; 1; 1]%Z = Ok m.
Proof.
  unfold lda_fit; cbn [List.length Nat.eqb negb with_label combine filter snd Z.eqb map fst Pos.eqb mean_row seq bind].
  unfold get_w_v2, one_svd, diag; cbn [seq map Nat.eqb nth].
  rewrite inverse_one; [ cbn [bind]; eexists; reflexivity |].
  unfold within_class_scatter, scatter_of, vadd, rmean, column, rsum; cbn; lra.
Qed.

(** The optimizer has the name of its kind and a metric is given; without them the file cannot be written or read (C57). *)
Theorem C93_logistic_regression : forall A o c l m mc init d x y epochs b lo (i : @obj A),
  get_optimizer o = Ok c -> cname c = usual_optimizer_name (kind c) -> is_regression_optimizer (kind c) lo ->
  get_metric m = Ok (Some mc) -> is_loaded i = false -> opt_run lo epochs d x y init = Ok b ->
  exists a, compile_trainer o l m = Ok a /\ let i1 := set_fields i a in
    here_and_there LogisticRegression (after_fit (logistic_fit_effect init d x y epochs i1) i1)
      (fun j => forall x', predict_logistic j x' = Answer (Ok (Logistic.forward x' b))).
Proof. intros A; exact logistic_ships. Qed.
Print Assumptions C93_logistic_regression.
Example C93_logistic_regression_witness : exists c mc lo b, get_optimizer (ByName "gradient_descent") = Ok c /\
  cname c = usual_optimizer_name (kind c) /\ is_regression_optimizer (kind c) lo /\
  get_metric (ByName "accuracy") = Ok (Some mc) /\ opt_run lo 3 1 [[0]; [2]]%R [0; 1]%Z [0; 0]%R = Ok b.
Proof. do 2 eexists; exists (Logistic.GradientDescent (1 / 100)); eexists; repeat split. Qed.

Theorem C93_network : forall A o c l m mc s init draws x y ls (i : @obj A),
  get_optimizer o = Ok c -> cname c = usual_optimizer_name (kind c) -> get_metric m = Ok (Some mc) ->
  is_loaded i = false -> field i "network_structure" = VNats s -> trains_network (kind c) x y draws init ls ->
  exists a, compile_trainer o l m = Ok a /\ let i1 := set_fields i a in
    here_and_there BackPropagationNeuralNetwork (after_fit (network_fit_effect init draws x y i1) i1)
      (fun j => forall x', predict_network j x' = Answer (r <- Network.forward ls x' ;; Ok (fst r))).
Proof. intros A; exact network_ships. Qed.
Print Assumptions C93_network.
Example C93_network_witness : exists c mc, get_optimizer (ByName "sgd") = Ok c /\ cname c = usual_optimizer_name (kind c) /\
  get_metric (ByName "accuracy") = Ok (Some mc) /\
  exists ls, trains_network (kind c) [[0; 1]; [2; 0]]%R [[0]; [1]]%R [1; 0; 1]%nat [([[1; 2]; [3; 4]], [0; 0]); ([[1; 2]], [0])]%R ls.
Proof.
  do 2 eexists; do 3 (split; [reflexivity|]); cbn [kind comp trains_network].
  destruct (Props.Network.C49_sgd_run_keeps_shape (1 / 100)%R 2 1 1 [[0; 1]; [2; 0]]%R [[0]; [1]]%R [1; 0; 1]%nat [([[1; 2]; [3; 4]], [0; 0]); ([[1; 2]], [0])]%R) as (ls & H & _);
    [repeat constructor|reflexivity|left; reflexivity|repeat constructor|cbn; repeat split; solve [discriminate|repeat constructor]|repeat constructor|exists ls; exact H].
Qed.

Theorem C93_radial_network : forall A o c l m mc h init rate x y epochs r (i : @obj A),
  get_optimizer o = Ok c -> cname c = usual_optimizer_name (kind c) -> kind c = RbfOptimizer rate -> get_metric m = Ok (Some mc) ->
  is_loaded i = false -> field i "hidden_units" = VInt h -> rbf_run rate x y epochs init = Ok r ->
  exists a, compile_trainer o l m = Ok a /\ let i1 := set_fields i a in
    here_and_there RadialBasisFunctionNetwork (after_fit (rbf_fit_effect init x y epochs i1) i1)
      (fun j => forall x', predict_rbf j x' = Answer (rbf_predict (fst r) x')).
Proof. intros A; exact rbf_ships. Qed.
Print Assumptions C93_radial_network.
Example C93_radial_network_witness : exists c mc rate, get_optimizer (ByName "rbf") = Ok c /\
  cname c = usual_optimizer_name (kind c) /\ kind c = RbfOptimizer rate /\ get_metric (ByName "accuracy") = Ok (Some mc) /\
  forall n, exists r, rbf_run rate [[0]; [2]]%R (Column [0; 1]%R) n {| rw := [1]; rb := 0; rc := [[1]]; rbeta := [1] |}%R = Ok r.
Proof.
  do 3 eexists; do 4 (split; [reflexivity|]); intros n.
  destruct (C51_run (1 / 100)%R 1 {| rw := [1]; rb := 0; rc := [[1]]; rbeta := [1] |}%R [[0]; [2]]%R [0; 1]%R n) as (p & ls & H & _);
    [repeat split; repeat constructor; discriminate|eexists; exact H].
Qed.

(** Any earlier [fit] was on at most as many columns. *)
Theorem C93_naive_bayes : forall A O num cont vc cols y sm m (i : @obj A),
  nb_fit O num cont vc cols y sm = Ok m ->
  (List.length (sides (field i "pi_0")) <= List.length cols)%nat -> (List.length (sides (field i "pi_1")) <= List.length cols)%nat ->
  let i1 := set_fields i (compile_naive_bayes sm) in
  here_and_there NaiveBayesClassifier (after_fit (nb_fit_effect O num cont vc cols y i1) i1)
    (fun j => forall rnd q, predict_naive_bayes O num rnd j q = Answer (nb_predict O num rnd m q)).
Proof. intros A; exact nb_ships. Qed.
Print Assumptions C93_naive_bayes.
Example C93_naive_bayes_witness : exists m, nb_fit ZOrder IZR (fun _ => false) (unique ZOrder) [[1; 1; 2]; [3; 4; 4]]%Z [0; 0; 1]%Z true = Ok m /\
  sides (field (fresh (@NaiveBayesClassifier Z)) "pi_0") = [].
Proof. eexists; split; reflexivity. Qed.

(** The entries [l0] of earlier calls are kept. *)
Theorem C93_super_parent : forall A O num cont name sm index cols y l0 l (i : @obj A),
  field i "_list_of_p_c" = VEntries l0 -> sp_fit O num cont l0 cols y sm index = Ok l ->
  let i1 := set_fields i (compile_super_parent name sm) in
  here_and_there SuperParentOneDependentEstimator (after_fit (sp_fit_effect O num cont index cols y i1) i1)
    (fun j => forall rnd q, predict_super_parent O num rnd j q = Answer (sp_predict O num rnd l q)).
Proof. intros A; exact sp_ships. Qed.
Print Assumptions C93_super_parent.
Example C93_super_parent_witness : exists l, field (fresh (@SuperParentOneDependentEstimator Z)) "_list_of_p_c" = VEntries [] /\
  sp_fit ZOrder IZR (fun _ => false) [] [[1; 1; 2]; [3; 4; 4]]%Z [0; 0; 1]%Z true 1 = Ok l /\ List.length l = 4%nat.
Proof. eexists; repeat split. Qed.

Theorem C93_averaged : forall A O num cont sm m cols y l0 r (i : @obj A),
  field i "_list_of_p_c" = VEntries l0 -> ao_fit O num cont l0 cols y sm m = Ok r ->
  let i1 := set_fields i (compile_averaged sm m) in
  here_and_there AveragedOneDependentEstimator (after_fit (ao_fit_effect O num cont cols y i1) i1)
    (fun j => forall rnd q, predict_averaged O num rnd j q = Answer (ao_predict O num rnd (snd r) q)).
Proof. intros A; exact ao_ships. Qed.
Print Assumptions C93_averaged.
Example C93_averaged_witness : exists r, field (fresh (@AveragedOneDependentEstimator Z)) "_list_of_p_c" = VEntries [] /\
  ao_fit ZOrder IZR (fun _ => false) [] [[1; 1; 2]; [3; 4; 4]]%Z [0; 0; 1]%Z true 0 = Ok r /\ List.length (snd r) = 2%nat.
Proof. eexists; repeat split. Qed.

Theorem C93_decision_tree : forall A top rnd s pr c how w D val t (i : @obj A),
  criterion_named s = Some c -> pruning_named pr = Some how -> is_loaded i = false ->
  fit_pruned top rnd c how w D val = Ok t ->
  exists a, compile_tree s pr = Ok a /\ let i1 := set_fields i a in
  here_and_there DecisionTreeClassifier (after_fit (tree_fit_effect top rnd w D val i1) i1)
    (fun j => forall x, predict_tree j x = Answer (mapM (Tree.predict t) x)).
Proof. intros A; exact tree_ships. Qed.
Print Assumptions C93_decision_tree.
Example C93_decision_tree_witness : forall top rnd, exists t, criterion_named "gini" = Some Gini /\ pruning_named (ByName "post") = Some Post /\
  fit_pruned top rnd Gini Post 2 boxes (Some [([Txt "b"; Txt "y"]%string, 1%Z)]) = Ok t /\ depth t = 2%nat.
Proof. intros top rnd; destruct (boxes_post top rnd) as (t & H & _ & D); exists t; repeat split; assumption. Qed.

(** With [gamma] None the file cannot be written. *)
Theorem C93_support_vectors : forall A C s g tol d x y perms fuel epochs o (i : @obj A),
  match g with Auto | Scale | Coefficient _ => True | _ => False end ->
  Svc.fit d x y perms fuel epochs (Svc.compile C (ByName s) g tol new_classifier) = (o, None) ->
  let i1 := set_fields i (compile_svc C (ByName s) g tol) in
  here_and_there SupportVectorClassifier (after_fit (svc_fit_effect d x y perms fuel epochs i1) i1)
    (fun j => forall q, predict_svc j q = Answer (mapM (Svc.predict o) q)).
Proof. intros A; exact svc_ships. Qed.
Print Assumptions C93_support_vectors.
Example C93_support_vectors_witness : exists o,
  Svc.fit 1 ex_x ex_y ex_perms 1 0 (Svc.compile 2 (ByName "linear") Auto (1 / 1000)%R new_classifier) = (o, None).
Proof. destruct C28_witness as (m & H & _); unfold Svc.fit; cbn -[svc_fit linear]; rewrite H; eexists; reflexivity. Qed.

(** At least one epoch; else there are no clusters to save. *)
Theorem C93_k_means : forall A randint d x n init tol epochs c l b (i : @obj A),
  storable init = true -> km_fit randint d x n (init_of init) tol epochs = Ok (c, Some l, b) ->
  let i1 := set_fields i (compile_kmeans init tol) in
  here_and_there KMeansModel (after_fit (km_fit_effect randint d x n epochs i1) i1)
    (fun j => forall q, predict_kmeans j q = Answer (km_predict c q)).
Proof. intros A; exact km_ships. Qed.
Print Assumptions C93_k_means.
Example C93_k_means_witness : forall A randint epochs,
  km_fit randint 1 [[0]; [1]; [4]]%R 2 (init_of (A := A) (VNats [0; 1]%nat)) (1/4)%R (3 + epochs) = Ok ([Some [1/2]; Some [4]]%R, Some [0; 0; 1]%nat, true).
Proof. intros A; exact C30_witness. Qed.

Theorem C93_mixture : forall A rnd randint d x n init cov mix tol epochs t l (i : @obj A),
  storable init = true -> gm_fit rnd d randint x n (init_of init) (cov_of cov) (cov_of mix) tol epochs = Ok (t, l) ->
  let i1 := set_fields i (compile_mixture init cov mix tol) in
  here_and_there GaussianMixture (after_fit (gm_fit_effect rnd randint d x n epochs i1) i1)
    (fun j => forall rnd' d' q, predict_mixture rnd' d' j q = Answer (gm_predict rnd' d' t q)).
Proof. intros A; exact gm_ships. Qed.
Print Assumptions C93_mixture.
Example C93_mixture_witness : forall A epochs, exists t l,
  gm_fit (fun p => p) 1 (fun _ b => repeat 0%nat b) [[0]; [1]; [5]]%R 2 (init_of (A := A) (VText "random")) (cov_of (A := A) VNone) (cov_of (A := A) VNone) (1/1000)%R epochs = Ok (t, l).
Proof. intros A epochs; destruct (C34_witness epochs) as (t & l & H & _); exists t, l; exact H. Qed.

Theorem C93_bagging : forall A choice n w x y learner seed l0 b (i : @obj A),
  learner <> VNone -> field i "estimators" = VStumps l0 ->
  bag_fit choice n w x y {| bag_seed := seed; bag_stumps := l0 |} = Ok b ->
  let i1 := set_fields i (compile_bagging learner seed) in
  here_and_there BaggingClassifier (after_fit (bagging_fit_effect choice n w x y i1) i1)
    (fun j => forall q, predict_bagging j q = Answer (bag_predict b q)).
Proof. intros A; exact bag_ships. Qed.
Print Assumptions C93_bagging.
Example C93_bagging_witness : exists b, field (fresh (@BaggingClassifier Z)) "estimators" = VStumps [] /\
  bag_fit (fun s n => seq 0 n) 2 1 [[1]; [2]]%R [1%Z; (-1)%Z] {| bag_seed := 7; bag_stumps := [] |} = Ok b.
Proof. destruct C40_witness as (b & H & _); exists b; split; [ reflexivity | exact H ]. Qed.

Theorem C93_adaboost : forall A n w D learner b (i : @obj A),
  learner <> VNone -> field i "estimators" = VTwoLevel [] -> field i "alpha_list" = VVec [] -> is_trained i = false -> is_loaded i = false ->
  ada_fit tltree (tl_learn w) tl_predict n D {| Ensemble.members := []; alpha_is_array := false |} = Ok b ->
  let i1 := set_fields i (compile_adaboost learner) in
  here_and_there AdaBoostClassifier (after_fit (adaboost_fit_effect w n D i1) i1)
    (fun j => forall q, predict_adaboost j q = Answer (ada_predict tltree tl_predict b q)).
Proof. intros A; exact ada_ships. Qed.
Print Assumptions C93_adaboost.
Example C93_adaboost_witness : exists b, field (fresh (@AdaBoostClassifier Z)) "estimators" = VTwoLevel [] /\
  field (fresh (@AdaBoostClassifier Z)) "alpha_list" = VVec [] /\ is_trained (fresh (@AdaBoostClassifier Z)) = false /\
  ada_fit tltree (tl_learn 1) tl_predict 3 [([1], 1%Z); ([2], (-1)%Z); ([3], (-1)%Z)]%R {| Ensemble.members := []; alpha_is_array := false |} = Ok b.
Proof. destruct C42_witness as (b & H & _); exists b; repeat split; exact H. Qed.

(** ** C94 *)
(** What C54 assumes about [fit] holds of every [fit] in the code: it marks the object
    when it returns, and when it raises it does not (but see C54 for the mixture). *)
Theorem C94_flag : forall A (i : @obj A) c e, fit_call i c e -> fit_possible c e.
Proof. intros A; exact fits_are_possible. Qed.
Print Assumptions C94_flag.
Theorem C94_untrained_stays_untrained : forall A (i : @obj A) c e, fit_call i c e -> marks_early c = false -> raised e <> None ->
  is_trained i = false -> is_loaded i = false -> all_refuse (after_fit e i).
Proof.
  intros A i c e H Hm Hr Ht Hl; apply refuses; [| exact Hl ].
  destruct (fits_are_possible i c e H) as [_ P]; unfold after_fit; cbn; now rewrite Ht, P.
Qed.
Print Assumptions C94_untrained_stays_untrained.

(** A [fit] that raises leaves a trained or loaded object as it was: the ensembles,
    the super-parent estimator, the support vector classifier and a tree that is not
    pruned. *)
Theorem C94_adaboost_keeps : forall A w n D (i : @obj A), raised (adaboost_fit_effect w n D i) <> None ->
  same_predictions i (after_fit (adaboost_fit_effect w n D i) i).
Proof. intros A; exact adaboost_keeps. Qed.
Print Assumptions C94_adaboost_keeps.
(** Bagging: unless the seeds of the rounds leave the range that numpy accepts. *)
Theorem C94_bagging_keeps : forall A choice n w x y (i : @obj A) l, (forall s n k, In k (choice s n) -> (k < n)%nat) ->
  field i "estimators" = VStumps l ->
  (forall s, field i "seed" = VInt s -> (0 <= s < 2 ^ 32)%Z -> (s + Z.of_nat n <= 2 ^ 32)%Z) -> raised (bagging_fit_effect choice n w x y i) <> None ->
  same_predictions i (after_fit (bagging_fit_effect choice n w x y i) i).
Proof. intros A; exact bagging_keeps. Qed.
Print Assumptions C94_bagging_keeps.
Theorem C94_bagging_refuted : forall A, exists choice x y x' y' q,
  let fit n x y := bagging_fit_effect choice n 1 x y in
  let i0 := set_fields (fresh (@BaggingClassifier A)) (compile_bagging (VText "stump") 7) in
  let i1 := after_fit (fit 1%nat x y i0) i0 in
  let i2 := set_fields i1 (compile_bagging (VText "stump") (2 ^ 32 - 2)) in
  raised (fit 1%nat x y i0) = None /\ raised (fit 3%nat x' y' i2) = Some ValueError /\ same_predictions i1 i2 /\
  predict_bagging (after_fit (fit 3%nat x' y' i2) i2) q <> predict_bagging i1 q.
Proof.
  intros A; exists (fun _ n => seq 0 n), [[1]; [2]]%R, [1; -1]%Z, [[1]; [2]]%R, [-1; 1]%Z, [[1%R]].
  destruct (@bagging_loses A) as (H1 & H2 & H3 & H4 & H5); cbv zeta in *.
  split; [ exact H1 |]; split; [ exact H2 |]; split; [ exact H5 |]; rewrite H3, H4; discriminate.
Qed.
Print Assumptions C94_bagging_refuted.
Theorem C94_super_parent_keeps : forall A O num cont index cols y (i : @obj A),
  (raised (sp_fit_effect O num cont index cols y i) <> None <-> (List.length cols <= index)%nat) /\
  (raised (sp_fit_effect O num cont index cols y i) <> None -> same_predictions i (after_fit (sp_fit_effect O num cont index cols y i) i)).
Proof. intros A; exact sp_keeps. Qed.
Print Assumptions C94_super_parent_keeps.
Theorem C94_averaged_never_fails : forall A O num cont cols y (i : @obj A), raised (ao_fit_effect O num cont cols y i) = None.
Proof. intros A; exact ao_never. Qed.
Print Assumptions C94_averaged_never_fails.
Theorem C94_tree_keeps : forall A top rnd w D val (i : @obj A), raised (tree_fit_effect top rnd w D val i) <> None ->
  field i "pruner" = VNone \/ val = None ->
  same_predictions i (after_fit (tree_fit_effect top rnd w D val i) i).
Proof. intros A; exact tree_keeps. Qed.
Print Assumptions C94_tree_keeps.
(** A trained object has a kernel object in its field. *)
Theorem C94_support_vectors_keep : forall A d x y perms fuel epochs (i : @obj A) k,
  field i "kernel" = VKernel k -> raised (svc_fit_effect d x y perms fuel epochs i) <> None ->
  same_predictions i (after_fit (svc_fit_effect d x y perms fuel epochs i) i).
Proof. intros A; exact svc_keeps. Qed.
Print Assumptions C94_support_vectors_keep.

(** It does not for the others: the answers change although [fit] raised. *)
Theorem C94_discriminant_analysis_refuted : forall A, exists svd x y x' y' q,
  let i1 := after_fit (lda_fit_effect svd 1 x y) (fresh (@LinearDiscriminantAnalysis A)) in
  let f2 := lda_fit_effect svd 1 x' y' in
  raised (lda_fit_effect (A := A) svd 1 x y) = None /\ raised f2 <> None /\ predict_lda (after_fit f2 i1) q <> predict_lda i1 q.
Proof.
  intros A; exists one_svd, [[0]; [2]; [10]; [12]]%R, [0; 0; 1; 1]%Z, [[20]; [0]]%R, [0; 1]%Z, [0%R].
  destruct (lda_loses A) as (H1 & H2 & H3 & H4); cbv zeta; rewrite H1, H2, H3, H4; repeat split; discriminate.
Qed.
Print Assumptions C94_discriminant_analysis_refuted.
Theorem C94_naive_bayes_refuted : forall num rnd, exists cols y cols' y' q,
  let fit cols y := nb_fit_effect ZOrder num (fun _ => false) (unique ZOrder) cols y in
  let i0 := set_fields (fresh (@NaiveBayesClassifier Z)) (compile_naive_bayes false) in
  let i1 := after_fit (fit cols y i0) i0 in
  raised (fit cols y i0) = None /\ List.length cols' = List.length cols /\ raised (fit cols' y' i1) <> None /\
  predict_naive_bayes ZOrder num rnd (after_fit (fit cols' y' i1) i1) q <> predict_naive_bayes ZOrder num rnd i1 q.
Proof.
  intros num rnd; exists [[1; 1; 2]%Z], [0; 0; 1]%Z, [[5; 5]%Z], [1; 1]%Z, [1%Z].
  destruct (nb_loses num rnd) as (H1 & H2 & H3 & H4); cbv beta zeta in *; rewrite H2, H3, H4; repeat split; discriminate.
Qed.
Print Assumptions C94_naive_bayes_refuted.
Theorem C94_k_means_refuted : forall A randint, exists init x x' q,
  let i0 := set_fields (fresh (@KMeansModel A)) (compile_kmeans init (1/4)%R) in
  let i1 := after_fit (km_fit_effect randint 1 x 3 100 i0) i0 in
  let f2 := km_fit_effect randint 1 x' 3 100 i1 in
  raised (km_fit_effect randint 1 x 3 100 i0) = None /\ raised f2 <> None /\ predict_kmeans (after_fit f2 i1) q <> predict_kmeans i1 q.
Proof.
  intros A randint; exists (VNats [0; 1; 2]%nat), [[0]; [1]; [4]]%R, [[0]; [0]; [4]]%R, [[1%R]].
  destruct (km_loses A randint 99) as (H1 & H2 & H3 & H4); cbv zeta in *; rewrite H1, H2, H3, H4; repeat split; discriminate.
Qed.
Print Assumptions C94_k_means_refuted.
(** Networks and logistic regression: the trained parameters are replaced by new
    initial ones before the training starts. *)
Theorem C94_network_forgets : forall A init draws k x y r e (i : @obj A) o,
  field i "optimizer" = VOptimizer o -> kind o = Sgd r -> is_loaded i = false -> is_trained i = true ->
  sample_gradient x y init k = Err e ->
  raised (network_fit_effect init (k :: draws) x y i) = Some e /\
  forall q, predict_network (after_fit (network_fit_effect init (k :: draws) x y i) i) q = Answer (p <- Network.forward init q ;; Ok (fst p)).
Proof. intros A; exact network_forgets. Qed.
Print Assumptions C94_network_forgets.
Theorem C94_logistic_forgets : forall A init d x y n e (i : @obj A) o lo,
  field i "optimizer" = VOptimizer o -> is_regression_optimizer (kind o) lo -> is_loaded i = false -> is_trained i = true ->
  opt_step lo d x y init = Err e ->
  raised (logistic_fit_effect init d x y (S n) i) = Some e /\
  forall q, predict_logistic (after_fit (logistic_fit_effect init d x y (S n) i) i) q = Answer (Ok (Logistic.forward q init)).
Proof. intros A; exact logistic_forgets. Qed.
Print Assumptions C94_logistic_forgets.

Example C94_untrained_witness : forall A, exists e, fit_call (fresh (@SupportVectorClassifier A)) SupportVectorClassifier e /\ raised e = Some AttributeError.
Proof. intros A; exists (svc_fit_effect 1 [] [] (fun _ => []) 0 0 (fresh SupportVectorClassifier)); split; [ constructor | reflexivity ]. Qed.
Example C94_adaboost_witness : forall A, let i := set_fields (fresh (@AdaBoostClassifier A)) (compile_adaboost (VText "two-level")) in
  exists D, let j := after_fit (adaboost_fit_effect 1 3 D i) i in raised (adaboost_fit_effect 1 3 D i) = None /\
    raised (adaboost_fit_effect 1 3 D j) = Some AttributeError.
Proof.
  intros A i; exists [([1], 1%Z); ([2], (-1)%Z); ([3], (-1)%Z)]%R; intros j; destruct C42_witness as (b & H & _).
  assert (E : raised (adaboost_fit_effect 1 3 [([1], 1%Z); ([2], (-1)%Z); ([3], (-1)%Z)]%R i) = None).
  { unfold ada_fit in H; cbn [alpha_is_array andb] in H; destruct (ada_loop _ _ _ _ _ _) as [ms |] eqn:El; [| discriminate ].
    apply ada_until_ok in El; unfold adaboost_fit_effect; change (field i "BaseLearner") with (@VText A "two-level").
    change (is_trained i || is_loaded i) with false; cbv iota; rewrite El; reflexivity. }
  split; [ exact E |].
  assert (Fb : field j "BaseLearner" = VText "two-level").
  { unfold j, adaboost_fit_effect; change (field i "BaseLearner") with (@VText A "two-level"); change (is_trained i || is_loaded i) with false.
    cbv iota; destruct (ada_until _ _ _ _) as [ms [e |]]; reflexivity. }
  assert (Tj : is_trained j = true).
  { destruct (fits_are_possible i AdaBoostClassifier _ (fits_adaboost i 1 3 [([1], 1%Z); ([2], (-1)%Z); ([3], (-1)%Z)]%R)) as [P _]; unfold j, after_fit; cbn [is_trained].
    rewrite P by exact E; apply orb_true_r. }
  unfold adaboost_fit_effect; rewrite Fb, Tj; cbv iota; cbn [orb].
  unfold ada_fit in H; cbn [alpha_is_array andb ada_loop] in H; destruct (ada_round _ _ _ _ _); [ reflexivity | discriminate ].
Qed.
Example C94_bagging_witness : forall A, let i := set_fields (fresh (@BaggingClassifier A)) (compile_bagging (VText "stump") 7) in
  raised (bagging_fit_effect (fun _ n => seq 0 n) 2 1 [[1]; [2]]%R [1%Z] i) = Some ValueError /\ field i "estimators" = VStumps [].
Proof. intros A; split; reflexivity. Qed.
Example C94_tree_witness : forall A top rnd w D, exists a, compile_tree (A := A) "gini" (ByName "pre") = Ok a /\
  raised (tree_fit_effect top rnd w D None (set_fields (fresh DecisionTreeClassifier) a)) = Some AttributeError.
Proof. intros; eexists; split; reflexivity. Qed.
Example C94_support_vectors_witness : forall A g, let i := set_fields (fresh (@SupportVectorClassifier A)) (compile_svc 1 (Instance (comp (KRbf None) "rbf")) (Coefficient g) 0) in
  field i "kernel" = VKernel (comp (KRbf None) "rbf") /\ raised (svc_fit_effect 1 [] [] (fun _ => []) 0 0 i) = Some TypeError.
Proof. intros A g; split; reflexivity. Qed.
Example C94_network_witness : exists e, sample_gradient [[1; 2; 3]]%R [[1]]%R [([[1; 2]; [3; 4]], [0; 0]); ([[1; 2]], [0])]%R 0 = Err e.
Proof. eexists; reflexivity. Qed.
Example C94_logistic_witness : exists e, opt_step Logistic.NewtonMethod 1 [[0]]%R [0]%Z [0; 0]%R = Err e.
Proof.
  exists LinAlgError; unfold opt_step, newton_step, inverse.
  replace (det 2 (Logistic.hessian_at 1 [[0]]%R [0; 0]%R)) with 0%R; [ rewrite (proj2 (Reqb_true _ _)); reflexivity |].
  unfold det, Logistic.hessian_at, sign, rsum; cbn; ring.
Qed.
