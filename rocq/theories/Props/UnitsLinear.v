(** C107: linear models and mixtures in other units. *)
From Coq Require Import List ZArith Reals Lra Lia Bool Arith.
From Verif.Model Require Import Base Ops KMeans Matrix Activations Logistic Lda Gmm.
From Verif.Spec Require Import Common Smo Matrix Gmm Logistic Lda Svc Units BayesUnits UnitsLinear.
From Verif.Proof Require Import BaseLemmas Activations Logistic LogisticMain Lda UnitsMore UnitsLinear UnitsShift UnitsGmmEx.
Import ListNotations.
Local Open Scope R_scope.

(** Logistic regression with Newton's method, from starting weights that give every
    row the same score: in any units of the features, after any number of epochs, the
    weights correspond and every row gets the same probability, or both trainings
    raise the same exception. *)
Theorem C107_newton_units : forall d a b x y init epochs m, units_for d a b -> fits d x y init -> lr_loaded m = false ->
  both (fun m1 m2 => exists beta, lr_beta m1 = Some beta /\ lr_beta m2 = Some (weights_units a b beta) /\
          forall q, Forall (fun r => length r = d) q -> lr_predict (map (row_units a b) q) m2 = lr_predict q m1)
    (lr_fit NewtonMethod init epochs d x y m)
    (lr_fit NewtonMethod (weights_units a b init) epochs d (map (row_units a b) x) y m).
Proof.
  intros d a b x y init epochs m U (Lxy & Fx & Lb) H. unfold lr_fit. rewrite H. cbn [bind]. rewrite (newton_run d a b x y U Lxy Fx epochs init Lb).
  destruct (opt_run NewtonMethod epochs d x y init) as [beta|] eqn:E; [|reflexivity]. cbn [bind both lr_beta]. exists beta. do 2 (split; [reflexivity|]).
  apply (newton_run_length d x y Lxy epochs init beta Lb) in E.
  intros q Fq. unfold lr_predict. cbn [lr_trained lr_loaded lr_beta negb andb]. unfold forward. rewrite map_map. f_equal. apply map_ext_in. intros r I.
  rewrite Forall_forall in Fq. eapply (forward_in d a b x); eauto.
Qed.
Print Assumptions C107_newton_units.

(** Weights that are all 0 correspond to themselves. *)
Theorem C107_newton_units_from_zero : forall d a b, units_for d a b -> weights_units a b (repeat 0 (S d)) = repeat 0 (S d).
Proof.
  intros d a b (La & _). apply nth_ext with (d := 0) (d' := 0); [rewrite weights_length, repeat_length; lia|]. rewrite weights_length. intros j Hj.
  assert (Z : forall k n, nth k (repeat 0 n) 0 = 0) by (intros k n; revert k; induction n as [|n IH]; intros [|k]; simpl; auto).
  rewrite Z. destruct (Nat.eq_dec j d) as [->|N].
  - rewrite (last_weights d) by auto. rewrite Z. rewrite Proof.Smo.sum_below_zero; [lra|]. intros k Hk. rewrite Z. unfold Rdiv. ring.
  - rewrite nth_weights by lia. rewrite Z. unfold Rdiv. ring.
Qed.
Print Assumptions C107_newton_units_from_zero.

(** The corresponding weights give every row the score it had. *)
Theorem C107_weights_units_scores : forall d a b beta r, units_for d a b -> length r = d ->
  score (weights_units a b beta) (row_units a b r) = score beta r.
Proof. exact score_units. Qed.
Print Assumptions C107_weights_units_scores.

(** Three rows for which Newton's method does a step, and units with a factor and a
    zero point. *)
Example C107_newton_witness : units_for 1 [2] [3] /\ fits 1 [[0]; [1]; [2]] [0; 1; 0]%Z [0; 0] /\
  exists c, opt_run NewtonMethod 1 1 [[0]; [1]; [2]] [0; 1; 0]%Z [0; 0] = Ok c.
Proof.
  assert (F : fits 1 [[0]; [1]; [2]] [0; 1; 0]%Z [0; 0]) by (repeat split; repeat constructor).
  split; [repeat split; repeat constructor; lra|]. split; [exact F|]. cbn [opt_run opt_step].
  destruct (newton_step 1 [[0]; [1]; [2]] [0; 1; 0]%Z [0; 0]) as [c|e] eqn:E; [exists c; reflexivity|]. exfalso.
  assert (C : collinear 1 [[0]; [1]; [2]]) by (apply (newton_fails_main 1 _ [0; 1; 0]%Z [0; 0] F); eauto).
  destruct C as (v & L & (j & Hj & N) & H). destruct v as [|p [|q [|]]]; try discriminate.
  pose proof (H [0] (or_introl eq_refl)) as H0. pose proof (H [1] (or_intror (or_introl eq_refl))) as H1.
  unfold score, sum_below, total in H0, H1. simpl in H0, H1. assert (p = 0) by lra. assert (q = 0) by lra. subst. destruct j as [|[|j]]; simpl in *; try lra. lia.
Qed.

(** Gradient descent: moving the zero point of the only feature by 1 turns a
    probability above one half into one below. *)
Theorem C107_gradient_descent_units_refuted : exists x y rate q m m',
  let m0 := {| lr_beta := None; lr_loaded := false; lr_trained := false |} in
  lr_fit (GradientDescent rate) [0; 0] 1 1 x y m0 = Ok m /\
  lr_fit (GradientDescent rate) (weights_units [1] [1] [0; 0]) 1 1 (map (row_units [1] [1]) x) y m0 = Ok m' /\
  exists p p', lr_predict [q] m = Ok [p] /\ lr_predict [row_units [1] [1] q] m' = Ok [p'] /\ p' < 1 / 2 < p.
Proof.
  exists [[0]], [1%Z], 1, [-4].
  assert (S0 : sigmoid 0 = 1 / 2) by (unfold sigmoid; rewrite Ropp_0, exp_0; lra).
  assert (W : weights_units [1] [1] [0; 0] = [0; 0]) by (unfold weights_units, sum_below, total; cbn; repeat f_equal; lra).
  assert (X : map (row_units [1] [1]) [[0]] = [[1]]) by (unfold row_units; cbn; repeat f_equal; lra).
  eexists. eexists. cbv zeta. rewrite W, X. split; [reflexivity|]. split; [reflexivity|].
  eexists. eexists. split; [reflexivity|]. split; [reflexivity|].
  unfold forward_row, gd_step, gradient_at, backward, forward, forward_row, with_one, row_units, vsub, vscale, rsum.
  cbn [app seq map combine fst snd dot length nth fold_right column].
  repeat match goal with |- context [sigmoid ?z] => lazymatch z with context [sigmoid _] => fail | _ => replace (sigmoid z) with (1 / 2) by (rewrite <- S0; f_equal; ring) end end.
  assert (Up : forall z, 0 < z -> 1 / 2 < sigmoid z).
  { intros z Hz. rewrite <- S0. unfold sigmoid. assert (exp (- z) < exp (- 0)) by (apply exp_increasing; lra). pose proof (exp_pos (- z)). apply Rmult_lt_compat_l; [lra|]. apply Rinv_lt_contravar; [apply Rmult_lt_0_compat; lra|lra]. }
  assert (Dn : forall z, z < 0 -> sigmoid z < 1 / 2).
  { intros z Hz. rewrite <- S0. unfold sigmoid. assert (exp (- 0) < exp (- z)) by (apply exp_increasing; lra). pose proof (exp_pos (- 0)). apply Rmult_lt_compat_l; [lra|]. apply Rinv_lt_contravar; [apply Rmult_lt_0_compat; lra|lra]. }
  split; [apply Dn; lra|apply Up; lra].
Qed.
Print Assumptions C107_gradient_descent_units_refuted.

(** Linear discriminant analysis: moving the zero points of the features keeps the
    direction and all labels and moves the means, whatever the decomposition, or both
    trainings raise the same exception. *)
Theorem C107_lda_zero_points : forall svd d t x y, length t = d -> width d x ->
  both (fun m m' => lda_w m' = lda_w m /\ lda_mu0 m' = shift t (lda_mu0 m) /\ lda_mu1 m' = shift t (lda_mu1 m) /\
          forall q, length q = d -> lda_predict m' (shift t q) = lda_predict m q)
    (lda_fit svd d x y) (lda_fit svd d (map (shift t) x) y).
Proof. intros svd d t x y L W. now apply lda_both. Qed.
Print Assumptions C107_lda_zero_points.

(** One feature: a row is labelled 1 exactly if it is strictly nearer to the mean of
    class 1, so the labels are the same in all units. *)
Theorem C107_lda_one_feature_nearest_mean : forall svd x y m q, decomposes svd 1 x y -> lda_fit svd 1 x y = Ok m ->
  (lda_predict m [q] = 1%Z <-> Rabs (q - class_mean 0 (class_rows 1 x y)) < Rabs (q - class_mean 0 (class_rows 0 x y))) /\
  (lda_predict m [q] = 0%Z <-> ~ Rabs (q - class_mean 0 (class_rows 1 x y)) < Rabs (q - class_mean 0 (class_rows 0 x y))).
Proof. exact lda_nearest. Qed.
Print Assumptions C107_lda_one_feature_nearest_mean.
Theorem C107_lda_one_feature_units : forall svd svd' a b x y m m' q, a <> 0 ->
  decomposes svd 1 x y -> decomposes svd' 1 (map (row_units [a] [b]) x) y ->
  lda_fit svd 1 x y = Ok m -> lda_fit svd' 1 (map (row_units [a] [b]) x) y = Ok m' ->
  lda_predict m' (row_units [a] [b] [q]) = lda_predict m [q].
Proof. exact lda_units_one. Qed.
Print Assumptions C107_lda_one_feature_units.

(** Two features: with a correct decomposition in both units, measuring the first
    feature with the factor 3 changes the labels of the training rows from all 0 to
    the right ones. *)
Theorem C107_lda_units_refuted : exists a b svd x y m m', units_for 2 a b /\
  decomposes svd 2 x y /\ decomposes svd 2 (map (row_units a b) x) y /\
  lda_fit svd 2 x y = Ok m /\ lda_fit svd 2 (map (row_units a b) x) y = Ok m' /\
  y = [0; 0; 1; 1]%Z /\ map (lda_predict m) x = [0; 0; 0; 0]%Z /\ map (lda_predict m') (map (row_units a b) x) = y.
Proof.
  destruct three_old_fit as [m E]. destruct three_fit as (m' & E' & P). destruct three_decomposes as [D D'].
  exists [3; 1], [0; 0], three_svd, wit_x, wit_y, m, m'. rewrite three_units.
  split; [repeat split; repeat constructor; lra|]. repeat (split; auto). now apply three_old.
Qed.
Print Assumptions C107_lda_units_refuted.

(** Gaussian mixtures that start at rows of the data: moving the zero points of the
    features moves the means and keeps the covariances, the coefficients, the clusters
    and all predictions, or both trainings raise the same exception. *)
Theorem C107_mixture_zero_points : forall rnd d t randint x n init icov imix tol epochs, length t = d -> width d x -> starts_at_rows init ->
  both (fun r r' => mu (fst r') = map (shift t) (mu (fst r)) /\ sigma (fst r') = sigma (fst r) /\ alpha (fst r') = alpha (fst r) /\ snd r' = snd r /\
          forall q, width d q -> gm_predict rnd d (fst r') (map (shift t) q) = gm_predict rnd d (fst r) q)
    (gm_fit rnd d randint x n init icov imix tol epochs) (gm_fit rnd d randint (map (shift t) x) n init icov imix tol epochs).
Proof.
  intros rnd d t randint x n init icov imix tol epochs L W B. pose proof (gm_fit_shift d t L rnd randint x n init icov imix tol epochs (starts_by_rows init B) W) as H.
  unfold both in *. destruct (gm_fit rnd d randint x n init icov imix tol epochs) as [[p cl]|]; destruct (gm_fit rnd d randint (map (shift t) x) n init icov imix tol epochs) as [[p' cl']|]; auto.
  cbn [fst snd] in *. destruct H as (-> & -> & Q). auto.
Qed.
Print Assumptions C107_mixture_zero_points.

(** In other units the means need not correspond: here training stops at once in the
    old units, because the tolerance is larger than what moved. *)
Theorem C107_mixture_units_refuted : exists randint x tol r r', width 1 x /\
  gm_fit (fun p => p) 1 randint x 1 InitRandom CovNone CovNone tol 1 = Ok r /\
  gm_fit (fun p => p) 1 randint (map (row_units [100] [0]) x) 1 InitRandom CovNone CovNone tol 1 = Ok r' /\
  mu (fst r) = [[0]] /\ mu (fst r') = [[50]] /\ map (row_units [100] [0]) (mu (fst r)) <> mu (fst r').
Proof.
  exists (fun _ b => repeat 0%nat b), [[0]; [1]], 10. eexists. eexists. split; [repeat constructor|]. split; [exact fit_small|].
  replace (map (row_units [100] [0]) [[0]; [1]]) with [[0]; [100]] by (unfold row_units; cbn; repeat f_equal; lra).
  split; [exact fit_large|]. cbn [fst mu one_part]. split; [reflexivity|]. split; [repeat f_equal; lra|].
  unfold row_units. cbn. intros E. injection E. lra.
Qed.
Print Assumptions C107_mixture_units_refuted.

(** A case that meets the hypotheses of the shifts. *)
Example C107_witness : width 2 [[0; 0]; [0; 2]; [4; 1]; [5; 1]] /\ length [7; -3] = 2%nat /\ starts_at_rows InitRandom /\
  shift [7; -3] [4; 1] = [4 + 7; 1 + -3] /\ exists svd m, lda_fit svd 2 [[0; 0]; [0; 2]; [4; 1]; [5; 1]] [0; 0; 1; 1]%Z = Ok m.
Proof.
  split; [repeat constructor|]. split; [reflexivity|]. split; [now left|]. split; [reflexivity|]. destruct wit_svd as (svd & m & _ & E). exists svd, m. exact E.
Qed.
