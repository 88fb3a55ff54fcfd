(** C44 to C46, C70 and C71: logistic regression and its optimizers. *)
From Coq Require Import List ZArith Reals Bool Arith Lia Lra.
From Verif.Model Require Import Base Activations Matrix Logistic.
From Verif.Spec Require Import Common Smo Gmm Matrix Logistic.
From Verif.Proof Require Import BaseLemmas Smo Activations Logistic LogisticMain.
Import ListNotations.
Local Open Scope R_scope.

(** ** C44 *)
(** The loss reported is the negative log-likelihood. *)
Theorem C44_loss_is_negative_log_likelihood : forall d x y beta, fits d x y beta ->
  Model.Activations.log_likelihood (map IZR y) beta (map with_one x) = neg_log_likelihood x y beta.
Proof. intros d x y b (L & F & Lb). now apply (log_likelihood_sum d). Qed.
Print Assumptions C44_loss_is_negative_log_likelihood.

(** For labels 0 and 1 it is minus the logarithm of the probability the model
    gives to the labels. *)
Theorem C44_loss_of_labels : forall d x y beta, fits d x y beta -> Forall (fun l => l = 0 \/ l = 1)%Z y ->
  neg_log_likelihood x y beta =
  total (map (fun p => - ln (if Z.eqb (snd p) 1 then nth (fst p) (forward x beta) 0 else 1 - nth (fst p) (forward x beta) 0))
             (combine (seq 0 (length x)) y)).
Proof. exact loss_of_labels. Qed.
Print Assumptions C44_loss_of_labels.

Theorem C44_gradient : forall d x y beta, fits d x y beta -> is_gradient x y beta (gradient_at d x y beta).
Proof. exact gradient_correct. Qed.
Print Assumptions C44_gradient.

Theorem C44_hessian : forall d x y beta j k, fits d x y beta -> (j < S d)%nat -> (k < S d)%nat ->
  derivable_pt_lim (fun t => nth j (gradient_at d x y (with_param k t beta)) 0) (nth k beta 0) (entry (hessian_at d x beta) j k).
Proof. exact hessian_correct. Qed.
Print Assumptions C44_hessian.

Example C44_ex : fits 2 [[1; 2]; [0; 1]; [3; -1]] [1%Z; 0%Z; 1%Z] [0; 0; 1].
Proof. split; [reflexivity|]. split; [repeat constructor|reflexivity]. Qed.

(** ** C45 *)
Theorem C45_hessian_psd : forall d x y beta, fits d x y beta ->
  symmetric_matrix (S d) (hessian_at d x beta) /\ psd_matrix (S d) (hessian_at d x beta).
Proof. exact hessian_psd_main. Qed.
Print Assumptions C45_hessian_psd.

Theorem C45_convex : forall d x y a b t, fits d x y a -> length b = length a -> 0 <= t <= 1 ->
  neg_log_likelihood x y (between t a b) <= (1 - t) * neg_log_likelihood x y a + t * neg_log_likelihood x y b.
Proof. exact convex_main. Qed.
Print Assumptions C45_convex.

(** The tangent lies below the loss. *)
Theorem C45_tangent : forall d x y b c g, fits d x y b -> length c = length b -> is_gradient x y b g ->
  neg_log_likelihood x y b + inner g (difference c b) <= neg_log_likelihood x y c.
Proof. exact tangent_below. Qed.
Print Assumptions C45_tangent.

(** Stationary points are exactly the global minima. *)
Theorem C45_stationary_iff_minimum : forall d x y b, fits d x y b -> (stationary_point x y b <-> minimises x y b).
Proof. exact minimises_iff. Qed.
Print Assumptions C45_stationary_iff_minimum.

(** All minima give the training rows the same probabilities. *)
Theorem C45_minima_agree : forall d x y a b, fits d x y a -> length b = length a -> minimises x y a -> minimises x y b ->
  forward x a = forward x b.
Proof. intros d x y a b F L Ma Mb. unfold forward. apply map_ext_in. intros r Hr. now apply (minima_agree d x y). Qed.
Print Assumptions C45_minima_agree.

(** A stationary point exists for this data set. *)
Example C45_ex : stationary_point [[1]; [1]] [0%Z; 1%Z] [0; 0].
Proof.
  apply (stationary_iff 1); [split; [reflexivity|split; [repeat constructor|reflexivity]]|].
  intros j Hj. rewrite gradient_nth by (auto; repeat constructor). unfold rsum, u, with_one. simpl.
  replace (1 * 0 + (1 * 0 + 0)) with 0 by lra. rewrite sigmoid_0. destruct j as [|[|j]]; simpl; lra || lia.
Qed.

(** ** C46 *)
Theorem C46_predictions : forall d b x p, length b = S d -> Forall (fun r => length r = d) x -> p = forward x b ->
  length p = length x /\ forall i, (i < length x)%nat ->
    0 < nth i p 0 < 1 /\ (1 / 2 <= nth i p 0 <-> 0 <= score b (nth i x [])) /\
    (forall k, (k < length x)%nat -> (nth i p 0 < nth k p 0 <-> score b (nth i x []) < score b (nth k x []))) /\
    nth i p 0 = / (1 + exp (- score b (nth i x []))).
Proof. exact predictions_main. Qed.
Print Assumptions C46_predictions.

(** [predict] after [fit] uses the parameters the optimizer reached. *)
Theorem C46_fit_then_predict : forall o init n d x y m m', lr_loaded m = false -> lr_fit o init n d x y m = Ok m' ->
  exists b, opt_run o n d x y init = Ok b /\ forall q, lr_predict q m' = Ok (forward q b).
Proof. intros o init n d x y m m' L E. destruct (fit_predict o init n d x y m m' L E) as (b & A & _ & B). eauto. Qed.
Print Assumptions C46_fit_then_predict.

(** A second [fit] does not depend on the first. *)
Theorem C46_refit_is_fresh : forall o o' init init' n n' d d' x x' y y' m m1 m2, lr_loaded m = false ->
  lr_fit o init n d x y m = Ok m1 -> lr_fit o' init' n' d' x' y' m1 = Ok m2 -> lr_fit o' init' n' d' x' y' m = Ok m2.
Proof.
  intros o o' init init' n n' d d' x x' y y' m m1 m2 L E1 E2.
  assert (L1 : lr_loaded m1 = false) by (unfold lr_fit in E1; rewrite L in E1; simpl in E1; destruct (opt_run _ _ _ _ _ _); simpl in E1; [injection E1 as <-; auto|discriminate]).
  unfold lr_fit in *. now rewrite L1, L in *.
Qed.
Print Assumptions C46_refit_is_fresh.

(** With loaded weights training starts from them, whatever the initializer. *)
Theorem C46_loaded_weights_continue : forall o init n d x y m b m', lr_loaded m = true -> lr_beta m = Some b ->
  lr_fit o init n d x y m = Ok m' -> exists b', opt_run o n d x y b = Ok b' /\ lr_beta m' = Some b' /\ lr_loaded m' = true.
Proof.
  intros o init n d x y m b m' L B E. unfold lr_fit in E. rewrite L, B in E. simpl in E. destruct (opt_run o n d x y b) as [b'|]; simpl in E; [|discriminate].
  injection E as <-. exists b'. simpl. auto.
Qed.
Print Assumptions C46_loaded_weights_continue.

Theorem C46_untrained : forall x m, lr_trained m = false -> lr_loaded m = false -> lr_predict x m = Err ValueError.
Proof. intros x m T L. unfold lr_predict. now rewrite T, L. Qed.
Print Assumptions C46_untrained.

Example C46_ex : exists m', lr_fit (GradientDescent 1) [0; 0] 3 1 [[1]; [2]] [0%Z; 1%Z] {| lr_beta := None; lr_loaded := false; lr_trained := false |} = Ok m'.
Proof. unfold lr_fit. cbn [lr_loaded bind opt_run opt_step]. eauto. Qed.

(** ** C70 *)
(** One step moves against the gradient and the loss falls by at least
    rate (1 - rate K / 2) times the squared gradient, K being a quarter of the sum
    of the squared row lengths. *)
Theorem C70_step : forall d x y b g rate, fits d x y b -> is_gradient x y b g ->
  (forall j, (j < S d)%nat -> nth j (gd_step rate d x y b) 0 = nth j b 0 - rate * nth j g 0) /\
  neg_log_likelihood x y (gd_step rate d x y b) <= neg_log_likelihood x y b - rate * (1 - rate * curvature_bound x / 2) * sq_length g.
Proof. exact gd_step_main. Qed.
Print Assumptions C70_step.

(** With a rate up to 2/K training never raises the loss. *)
Theorem C70_monotone : forall d x y b rate n b', fits d x y b -> 0 <= rate -> rate * curvature_bound x <= 2 ->
  opt_run (GradientDescent rate) n d x y b = Ok b' -> neg_log_likelihood x y b' <= neg_log_likelihood x y b.
Proof. exact gd_monotone. Qed.
Print Assumptions C70_monotone.

(** With a rate up to 1/K the loss after [n] epochs exceeds that of any
    parameters [c] by at most |b - c|^2 / (2 rate n). *)
Theorem C70_convergence_rate : forall d x y b c rate n b', fits d x y b -> length c = length b ->
  0 < rate -> rate * curvature_bound x <= 1 -> (0 < n)%nat ->
  opt_run (GradientDescent rate) n d x y b = Ok b' ->
  neg_log_likelihood x y b' <= neg_log_likelihood x y c + sq_length (difference b c) / (2 * rate * INR n).
Proof. exact gd_rate. Qed.
Print Assumptions C70_convergence_rate.

(** Gradient descent never fails. *)
Theorem C70_total : forall rate n d x y b, exists b', opt_run (GradientDescent rate) n d x y b = Ok b'.
Proof. intros rate n. induction n as [|n IH]; intros d x y b; cbn [opt_run opt_step bind]; eauto. Qed.
Print Assumptions C70_total.

(** A rate that is too large can raise the loss. *)
Theorem C70_every_rate_descends_refuted : exists x y b, fits 0 x y b /\
  neg_log_likelihood x y b < neg_log_likelihood x y (gd_step 100 0 x y b).
Proof. exact large_rate. Qed.
Print Assumptions C70_every_rate_descends_refuted.

Example C70_ex : curvature_bound [[1; 2]; [0; 1]] = 2 /\ 1 / 2 * curvature_bound [[1; 2]; [0; 1]] <= 1.
Proof.
  assert (curvature_bound [[1; 2]; [0; 1]] = 2) as ->; [|lra].
  unfold curvature_bound, inner, sum_below, total. simpl. lra.
Qed.

(** ** C71 *)
(** A Newton step solves the linear system of Hessian and gradient.  It leaves
    exactly the stationary points alone and moves downhill from all others. *)
Theorem C71_newton_step : forall d x y b b' g, fits d x y b -> is_gradient x y b g -> newton_step d x y b = Ok b' ->
  length b' = S d /\
  (forall i, (i < S d)%nat -> sum_below (S d) (fun k => entry (hessian_at d x b) i k * nth k (difference b' b) 0) = - nth i g 0) /\
  (stationary_point x y b /\ b' = b \/ ~ stationary_point x y b /\ b' <> b /\ inner g (difference b' b) < 0).
Proof. exact newton_main. Qed.
Print Assumptions C71_newton_step.

(** It fails with LinAlgError exactly when some parameters other than zero give
    every row the score 0, at every point alike. *)
Theorem C71_newton_fails_iff_collinear : forall d x y b, fits d x y b ->
  ((exists e, newton_step d x y b = Err e) <-> collinear d x) /\ (forall e, newton_step d x y b = Err e -> e = LinAlgError).
Proof. intros d x y b F. split; [now apply newton_fails_main|apply newton_error]. Qed.
Print Assumptions C71_newton_fails_iff_collinear.

(** So a constant feature, or no more rows than features, makes training fail. *)
Theorem C71_constant_feature_fails : forall d x y b c j n, fits d x y b -> (j < d)%nat -> (forall r, In r x -> nth j r 0 = c) ->
  opt_run NewtonMethod (S n) d x y b = Err LinAlgError.
Proof. exact newton_constant. Qed.
Print Assumptions C71_constant_feature_fails.

Example C71_ex : ~ collinear 1 [[0]; [1]].
Proof.
  intros (v & L & (j & Hj & N) & H). destruct v as [|a [|b [|]]]; try discriminate.
  pose proof (H [0] (or_introl eq_refl)) as H0. pose proof (H [1] (or_intror (or_introl eq_refl))) as H1.
  unfold score, sum_below, total in H0, H1. simpl in H0, H1. assert (a = 0) by lra. assert (b = 0) by lra. subst. destruct j as [|[|j]]; simpl in *; try lra. lia.
Qed.
